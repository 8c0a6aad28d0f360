(** Model of llvm-mapper/src/record/datalayout.rs: the data layout string. *)
From Verif Require Import Base Strings EnumModel SupportModel.
Local Open Scope N_scope.

(** datalayout.rs:20-48 [DataLayoutError]; [BadString] arises in [try_map] only and is added
    there. The messages of [BadSpecParse] (154-157; 163-165; 175-178; 181-183; 190-192; 201-204; 215-217;
    227-229; 244-246) are values instead of texts. *)
Inductive layout_fault : Set :=
| LfFnLetter (c : N) | LfNoFn | LfSeparator (c : N) | LfNoMangling | LfNoKind | LfKind (c : N) | LfNoSpace
| LfSpaceZero | LfNoWidth.
(** datalayout.rs:20-48 [DataLayoutError], with the values above for the texts. *)
Inductive layout_err : Set :=
| LeBadAlign (x : align_err) | LeBadAddressSpace (x : space_err) | LeUnknownSpec (c : N)
| LeEmptySpec | LeBadEncoding | LeBadInt (x : int_err) | LeBadSpecParse (x : layout_fault) | LeBadAlignSpec (x : spec_err).

(** datalayout.rs:53-78 [DataLayout]. *)
Record layout : Set := mkLayout {
  dl_endianness : endian;
  dl_stack : option align;
  dl_program_space : N;
  dl_global_space : N;
  dl_alloca_space : N;
  dl_types : list type_spec;
  dl_pointers : list ptr_spec;
  dl_aggregate : align;
  dl_fn_ptr : option fn_ptr_align;
  dl_mangling : option mangling;
  dl_native : list N;
  dl_non_integral : list N
}.

(** datalayout.rs:80-97. *)
Definition layout_default : layout :=
  mkLayout Big None 0 0 0 type_specs_default ptr_specs_default ALIGN8 None None [] [].

(** The assignments [datalayout.field = ..], here and below: datalayout.rs:118 and 119. *)
Definition set_endianness (v : endian) (d : layout) : layout :=
  let (_, b, c, x, y, f, g, h, i, j, k, l) := d in mkLayout v b c x y f g h i j k l.
(** datalayout.rs:121. *)
Definition set_stack (v : option align) (d : layout) : layout :=
  let (a, _, c, x, y, f, g, h, i, j, k, l) := d in mkLayout a v c x y f g h i j k l.
(** datalayout.rs:125. *)
Definition set_program (v : N) (d : layout) : layout :=
  let (a, b, _, x, y, f, g, h, i, j, k, l) := d in mkLayout a b v x y f g h i j k l.
(** datalayout.rs:128. *)
Definition set_global (v : N) (d : layout) : layout :=
  let (a, b, c, _, y, f, g, h, i, j, k, l) := d in mkLayout a b c v y f g h i j k l.
(** datalayout.rs:131. *)
Definition set_alloca (v : N) (d : layout) : layout :=
  let (a, b, c, x, _, f, g, h, i, j, k, l) := d in mkLayout a b c x v f g h i j k l.
(** datalayout.rs:141. *)
Definition set_types (v : list type_spec) (d : layout) : layout :=
  let (a, b, c, x, y, _, g, h, i, j, k, l) := d in mkLayout a b c x y v g h i j k l.
(** datalayout.rs:136. *)
Definition set_pointers (v : list ptr_spec) (d : layout) : layout :=
  let (a, b, c, x, y, f, _, h, i, j, k, l) := d in mkLayout a b c x y f v h i j k l.
(** datalayout.rs:160. *)
Definition set_fn_ptr (v : option fn_ptr_align) (d : layout) : layout :=
  let (a, b, c, x, y, f, g, h, _, j, k, l) := d in mkLayout a b c x y f g h v j k l.
(** datalayout.rs:208. *)
Definition set_mangling (v : option mangling) (d : layout) : layout :=
  let (a, b, c, x, y, f, g, h, i, _, k, l) := d in mkLayout a b c x y f g h i v k l.
(** datalayout.rs:238. *)
Definition set_native (v : list N) (d : layout) : layout :=
  let (a, b, c, x, y, f, g, h, i, j, _, l) := d in mkLayout a b c x y f g h i j v l.
(** datalayout.rs:219. *)
Definition set_non_integral (v : list N) (d : layout) : layout :=
  let (a, b, c, x, y, f, g, h, i, j, k, _) := d in mkLayout a b c x y f g h i j k v.

(** [Align::from_bit_align(s.parse::<u64>()?)?] (lines 122 and 145). *)
Definition parse_bit_align (s : str) : outcome layout_err align :=
  let? v := omap_err LeBadInt (parse_u64 s) in omap_err LeBadAlign (from_bit_align v).

(** [s.parse::<u32>()?.try_into()?] to an address space (lines 125, 128, 131). *)
Definition parse_space (s : str) : outcome layout_err N :=
  let? v := omap_err LeBadInt (parse_u32 s) in omap_err LeBadAddressSpace (address_space_of v).

(** datalayout.rs:221-234: one non-integral address space. *)
Definition parse_non_integral (s : str) : outcome layout_err N :=
  let? a := parse_space s in
  if a =? 0 then Err (LeBadSpecParse LfSpaceZero) else Ok a.

(** datalayout.rs:188-206: the mangling kind. *)
Definition mangling_of (c : N) : option mangling :=
  if c =? ch "e" then Some MElf
  else if c =? ch "m" then Some MMips
  else if c =? ch "o" then Some MMacho
  else if c =? ch "x" then Some MWindowsX86Coff
  else if c =? ch "w" then Some MWindowsCoff
  else if c =? ch "a" then Some MXCoff
  else None.

(** datalayout.rs:109-251: one turn of the loop over the specifications. [body[2..]] in
    line 219 is the tail of the tail. *)
Definition layout_spec (spec : str) (d : layout) : outcome layout_err layout :=
  match spec with
  | [] => Err LeEmptySpec
  | c :: _ =>
      let? body := tail_from_1 spec in
      if c =? ch "e" then Ok (set_endianness Little d)
      else if c =? ch "E" then Ok (set_endianness Big d)
      else if c =? ch "S" then
        let? a := parse_bit_align body in Ok (set_stack (Some a) d)
      else if c =? ch "P" then
        let? a := parse_space body in Ok (set_program a d)
      else if c =? ch "G" then
        let? a := parse_space body in Ok (set_global a d)
      else if c =? ch "A" then
        let? a := parse_space body in Ok (set_alloca a d)
      else if c =? ch "p" then
        let? s := omap_err LeBadAlignSpec (ptr_spec_from_str spec) in
        Ok (set_pointers (ptr_specs_update (dl_pointers d) s) d)
      else if (c =? ch "i") || (c =? ch "v") || (c =? ch "f") || (c =? ch "a") then
        let? s := omap_err LeBadAlignSpec (type_spec_from_str spec) in
        Ok (set_types (type_specs_update (dl_types d) s) d)
      else if c =? ch "F" then
        match body with
        | [] => Err (LeBadSpecParse LfNoFn)
        | id :: _ =>
            let? rest := tail_from_1 body in
            let? a := parse_bit_align rest in
            if id =? ch "i" then Ok (set_fn_ptr (Some (FpIndependent a)) d)
            else if id =? ch "n" then Ok (set_fn_ptr (Some (FpMultiple a)) d)
            else Err (LeBadSpecParse (LfFnLetter id))
        end
      else if c =? ch "m" then
        match body with
        | [] => Err (LeBadSpecParse LfNoMangling)
        | sep :: rest =>
            if sep =? ch ":" then
              match rest with
              | [] => Err (LeBadSpecParse LfNoKind)
              | k :: _ =>
                  match mangling_of k with
                  | Some m => Ok (set_mangling (Some m) d)
                  | None => Err (LeBadSpecParse (LfKind k))
                  end
              end
            else Err (LeBadSpecParse (LfSeparator sep))
        end
      else if c =? ch "n" then
        match body with
        | [] => Err (LeBadSpecParse LfNoWidth)
        | id :: rest =>
            if id =? ch "i" then
              match rest with
              | [] => Err (LeBadSpecParse LfNoSpace)
              | _ =>
                  let? rest1 := tail_from_1 body in
                  let? rest2 := tail_from_1 rest1 in
                  let? l := collect parse_non_integral (split_on (ch ":") rest2) in
                  Ok (set_non_integral l d)
              end
            else
              let? l := collect (fun s => omap_err LeBadInt (parse_u32 s)) (split_on (ch ":") body) in
              Ok (set_native l d)
        end
      else Err (LeUnknownSpec c)
  end.

(** datalayout.rs:107-254: the loop. *)
Fixpoint layout_loop (specs : list str) (d : layout) : outcome layout_err layout :=
  match specs with
  | [] => Ok d
  | s :: specs' => let? d' := layout_spec s d in layout_loop specs' d'
  end.

(** datalayout.rs:102-255 [FromStr for DataLayout]. *)
Definition layout_from_str (v : str) : outcome layout_err layout :=
  if is_ascii v then layout_loop (split_on (ch "-") v) layout_default else Err LeBadEncoding.
