(** Model of llvm-mapper/src/block/type_table.rs. *)
From Verif Require Import Base Strings EnumModel SupportModel UnrollModel AttributeModel.
Local Open Scope N_scope.

(** The messages of the [MapError::Invalid]s (type_table.rs:341-344; 352-355; 376-378; 464-468; 501-503), as
    values instead of texts. *)
Inductive tt_fault : Set := TfNoName | TfNamed | TfPointerSpace (x : space_err) | TfFull | TfOpaqueSpace (x : space_err).

(** type_table.rs:18-62 [TypeTableError]. The six type errors are one constructor; of [Map] there
    is one constructor per variant of [MapError] that occurs; [Unsupported] has one text (387-389). *)
Inductive tt_err : Set :=
| TtBadSize (expected got : N) | TtBadIndex (i : N) | TtUnknownCode (v : N) | TtBadTable | TtType (x : ty_err)
| TtInvalid (x : tt_fault) | TtUnsupported | TtString (x : string_err).

(** type_table.rs:84-106 [PartialType] with its payloads (178-219); a [TypeRef] (66-80) is its
    index ([u64 as usize] is exact). The thirteen variants without payload are [PtSimple] of the
    [Type] they stand for. *)
Inductive ptype : Set :=
| PtSimple (t : ty)
| PtInteger (bit_width : N)
| PtFunction (return_type : N) (param_types : list N) (is_vararg : bool)
| PtPointer (pointee : N) (address_space : N)
| PtOpaquePointer (address_space : N)
| PtStruct (name : option str) (field_types : list N) (is_packed : bool)
| PtArray (num_elements : N) (element_type : N)
| PtFixedVector (num_elements : N) (element_type : N)
| PtScalableVector (num_elements : N) (element_type : N).

(** type_table.rs:111-176 [PartialType::resolve] and 245-259 [PartialTypeTable::get], [resolve].
    The mutual recursion of the code has no bound; here every nested call costs one unit of fuel.
    The exhaustion of the machine stack is not modelled. *)
Fixpoint resolve (fuel : nat) (partials : list ptype) (p : ptype) : outcome tt_err ty :=
  match fuel with
  | O => OutOfFuel
  | S f =>
      let rref i :=
        let? p := ok_or (nth_error partials (N.to_nat i)) (TtBadIndex i) in
        resolve f partials p in
      match p with
      | PtSimple t => Ok t
      | PtInteger w => omap_err TtType (new_integer w)
      | PtFunction r ps va =>
          let? r := rref r in
          let? ps := collect rref ps in
          omap_err TtType (new_function r ps va)
      | PtPointer r a => let? t := rref r in omap_err TtType (new_pointer t a)
      | PtOpaquePointer a => Ok (TOpaquePointer a)
      | PtStruct name fs packed =>
          let? fs := collect rref fs in
          omap_err TtType (new_struct name fs packed)
      | PtArray n r => let? t := rref r in omap_err TtType (new_array n t)
      | PtFixedVector n r => let? t := rref r in omap_err TtType (new_vector n t)
      | PtScalableVector n r => let? t := rref r in omap_err TtType (new_scalable_vector n t)
      end
  end.

(** type_table.rs:281-288 [TypeTable] and [get]. *)
Definition type_table : Set := list ty.
(** type_table.rs:284-287 [get]. *)
Definition types_get (t : type_table) (i : N) : option ty := nth_error t (N.to_nat i).

(** type_table.rs:262-277 [reify] with [fuel] for each entry. *)
Definition reify_with (fuel : nat) (numentries : N) (partials : list ptype) : outcome tt_err type_table :=
  if N.of_nat (length partials) =? numentries
  then collect (resolve fuel partials) partials
  else Err (TtBadSize numentries (N.of_nat (length partials))).
(** type_table.rs:262-276 [PartialTypeTable::reify]. One more unit of fuel than there are entries; that more fuel makes no difference is lemma
    [reify_more_fuel] in TypeTableProofs.v. [OutOfFuel] stands for an infinite recursion. *)
Definition reify (numentries : N) (partials : list ptype) : outcome tt_err type_table :=
  reify_with (S (length partials)) numentries partials.

(** type_table.rs:239-241 [last_mut]: the entries before the last one, and the last one. *)
Definition split_last {A} (l : list A) : option (list A * A) :=
  match rev l with [] => None | a :: r => Some (rev r, a) end.

(** [type_field!] (type_table.rs:314-323). *)
Definition type_field (r : record) (n : nat) : outcome tt_err N := ok_or (nth_error (r_fields r) n) TtBadTable.

(** type_table.rs:312-508: one turn of the loop; the state is the table and [last_type_name]. *)
Definition type_step (e : env) (st : list ptype * str) (r : record) : outcome tt_err (list ptype * str) :=
  let '(partials, name) := st in
  let add p := Ok (partials ++ [p], name) in
  let? code := ok_or (type_code_of (r_code r)) (TtUnknownCode (r_code r)) in
  match code with
  | TcNumEntry => Ok (partials, name)
  | TcVoid => add (PtSimple TVoid)
  | TcHalf => add (PtSimple THalf)
  | TcBFloat => add (PtSimple TBFloat)
  | TcFloat => add (PtSimple TFloat)
  | TcDouble => add (PtSimple TDouble)
  | TcLabel => add (PtSimple TLabel)
  | TcOpaque =>
      match name with
      | [] => Err (TtInvalid TfNoName)
      | _ =>
          match split_last partials with
          | Some (front, PtStruct n fs packed) =>
              match n with
              | Some _ => Err (TtInvalid TfNamed)
              | None => Ok (front ++ [PtStruct (Some name) fs packed], [])
              end
          | _ => Ok (partials ++ [PtStruct (Some name) [] false], [])
          end
      end
  | TcInteger => let? w := type_field r 0 in add (PtInteger (as_u32 w))
  | TcPointer =>
      let? pointee := type_field r 0 in
      let? a := type_field r 1 in
      let? a := omap_err (fun x => TtInvalid (TfPointerSpace x)) (address_space_of a) in
      add (PtPointer pointee a)
  | TcFunctionOld => Err TtUnsupported
  | TcArray =>
      let? n := type_field r 0 in
      let? t := type_field r 1 in
      add (PtArray n t)
  | TcVector =>
      let? n := type_field r 0 in
      let? t := type_field r 1 in
      let scalable := match nth_error (r_fields r) 2 with None => false | Some f => 0 <? f end in
      if scalable then add (PtScalableVector n t) else add (PtFixedVector n t)
  | TcX86Fp80 => add (PtSimple TX86Fp80)
  | TcFp128 => add (PtSimple TFp128)
  | TcPpcFp128 => add (PtSimple TPpcFp128)
  | TcMetadata => add (PtSimple TMetadata)
  | TcX86Mmx => add (PtSimple TX86Mmx)
  | TcStructAnon =>
      let? p := type_field r 0 in
      add (PtStruct None (skipn 1 (r_fields r)) (0 <? p))
  | TcStructName =>
      let? s := omap_err TtString (try_string e r 0) in
      Ok (partials, name ++ s)
  | TcStructNamed =>
      let? p := type_field r 0 in
      let fs := skipn 1 (r_fields r) in
      match split_last partials with
      | Some (front, PtStruct n fs' packed) =>
          match n, fs' with
          | None, [] => Ok (front ++ [PtStruct (Some name) fs packed], [])
          | _, _ => Err (TtInvalid TfFull)
          end
      | _ => Ok (partials ++ [PtStruct (Some name) fs (0 <? p)], [])
      end
  | TcFunction =>
      let? va := type_field r 0 in
      let? ret := type_field r 1 in
      add (PtFunction ret (skipn 2 (r_fields r)) (0 <? va))
  | TcToken => add (PtSimple TToken)
  | TcX86Amx => add (PtSimple TX86Amx)
  | TcOpaquePointer =>
      let? a := type_field r 0 in
      let? a := omap_err (fun x => TtInvalid (TfOpaqueSpace x)) (address_space_of a) in
      add (PtOpaquePointer a)
  end.
(** type_table.rs:311-508: the loop. *)
Fixpoint type_loop (e : env) (l : list record) (st : list ptype * str) : outcome tt_err (list ptype * str) :=
  match l with
  | [] => Ok st
  | r :: l' => let? st := type_step e st r in type_loop e l' st
  end.

(** type_table.rs:290-512 [TryFrom<&Block> for TypeTable]; line 230 is [Vec::with_capacity]. *)
Definition type_table_of (e : env) (b : block) : outcome tt_err type_table :=
  let? r := ok_or (one (type_code_num TcNumEntry) (b_records b)) TtBadTable in
  let? n := ok_or (hd_error (r_fields r)) TtBadTable in
  if alloc_limit e <? n then Panic PAlloc
  else
    let? (partials, _) := type_loop e (b_records b) ([], []) in
    reify n partials.
