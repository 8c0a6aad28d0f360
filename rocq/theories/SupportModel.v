(** Model of llvm-support: align.rs, ty.rs, opcode.rs and the conversions of lib.rs.

    [Display] is in ExtraModel.v and MessageModel.v. *)
From Verif Require Import Base Strings EnumModel.
Local Open Scope N_scope.

(** ** align.rs *)

(** align.rs:15-25 [AlignError]. *)
Inductive align_err : Set := AShiftTooBig (s : N) | ANotPowerOfTwo (v : N) | ANotByteMultiple (v : N).

(** align.rs:31 [Align(u8)]; the order derived on line 30 is that of the field. *)
Record align : Set := mkAlign { a_shift : N }.
(** align.rs:30: the derived [<=]. *)
Definition align_le (a b : align) : bool := a_shift a <=? a_shift b.
(** align.rs:30: the derived [<]. *)
Definition align_lt (a b : align) : bool := a_shift a <? a_shift b.

(** align.rs:58-64. *)
Definition MAX_SHIFT : N := 63.
(** align.rs:60. *)
Definition ALIGN8 : align := mkAlign 0.
(** align.rs:61. *)
Definition ALIGN16 : align := mkAlign 1.
(** align.rs:62. *)
Definition ALIGN32 : align := mkAlign 2.
(** align.rs:63. *)
Definition ALIGN64 : align := mkAlign 3.
(** align.rs:64. *)
Definition ALIGN128 : align := mkAlign 4.

(** align.rs:68-70 [is_pow2]; [value - 1] is evaluated only for [value > 0]. *)
Definition is_pow2 (v : N) : bool := (0 <? v) && (N.land v (v - 1) =? 0).

(** [u64::leading_zeros]. *)
Definition leading_zeros (v : N) : N := 64 - N.size v.

(** align.rs:74-77 [log2]: only called with [value > 0] (line 91), so the subtraction does
    not underflow. *)
Definition align_log2 (v : N) : N := ((64 - 1) - leading_zeros v) mod 256.

(** align.rs:81-86 [from_shift]. *)
Definition from_shift (s : N) : outcome align_err align :=
  if MAX_SHIFT <? s then Err (AShiftTooBig s) else Ok (mkAlign s).

(** align.rs:90-95 [from_byte_align]. *)
Definition from_byte_align (v : N) : outcome align_err align :=
  if is_pow2 v then from_shift (align_log2 v) else Err (ANotPowerOfTwo v).

(** align.rs:99-104 [from_bit_align]. *)
Definition from_bit_align (v : N) : outcome align_err align :=
  if v mod 8 =? 0 then from_byte_align (v / 8) else Err (ANotByteMultiple v).

(** align.rs:112-114 [byte_align]: [1 << self.0] on u64. A shift of 64 or more panics with
    overflow checks and is masked without. *)
Definition byte_align {E} (e : env) (a : align) : outcome E N :=
  if a_shift a <? 64 then Ok (2 ^ a_shift a)
  else if overflow_checks e then Panic PShiftOverflow
  else Ok (2 ^ (a_shift a mod 64)).

(** align.rs:117-119 [bit_align]: [byte_align * 8] on u64, which can overflow. *)
Definition bit_align {E} (e : env) (a : align) : outcome E N :=
  let? b := byte_align e a in
  if b * 8 <? two64 then Ok (b * 8)
  else if overflow_checks e then Panic PMulOverflow
  else Ok ((b * 8) mod two64).

(** align.rs:139-150 [MaybeAlign] and its [TryFrom<u8>]. *)
Definition maybe_align_of (v : N) : outcome align_err (option align) :=
  if v =? 0 then Ok None else let? a := from_shift (v - 1) in Ok (Some a).

(** align.rs:124-135 [AlignedTypeWidthError] ([Zero] is never constructed). *)
Inductive width_err : Set := WTooBig (v : N).

(** align.rs:155-187 [AlignedTypeWidth]. *)
Definition MAX_WIDTH : N := 8388607.
(** align.rs:179-187 [TryFrom<u32>]. *)
Definition aligned_width_of (v : N) : outcome width_err N :=
  if (0 <? v) && (v <=? MAX_WIDTH) then Ok v else Err (WTooBig v).

(** align.rs:191-200 [AlignedType]. *)
Inductive aligned_type : Set :=
| AtAggregate | AtFloat (w : N) | AtInteger (w : N) | AtVector (w : N).

(** align.rs:208-241 [Ord for AlignedType], case by case. *)
Definition at_cmp (x y : aligned_type) : comparison :=
  match x, y with
  | AtAggregate, AtAggregate => Eq
  | AtAggregate, _ => Lt
  | AtFloat _, AtAggregate => Gt
  | AtFloat a, AtFloat b => a ?= b
  | AtFloat _, (AtInteger _ | AtVector _) => Lt
  | AtInteger _, (AtAggregate | AtFloat _) => Gt
  | AtInteger a, AtInteger b => a ?= b
  | AtInteger _, AtVector _ => Lt
  | AtVector _, (AtAggregate | AtFloat _ | AtInteger _) => Gt
  | AtVector a, AtVector b => a ?= b
  end.
(** The derived [Eq] of line 190. *)
Definition at_eqb (x y : aligned_type) : bool :=
  match x, y with
  | AtAggregate, AtAggregate => true
  | AtFloat a, AtFloat b | AtInteger a, AtInteger b | AtVector a, AtVector b => a =? b
  | _, _ => false
  end.

(** align.rs:518-551 [AddressSpaceError], [AddressSpace] and its two [TryFrom]s ([u32] and
    [u64]; [value as u32] loses nothing below the maximum). *)
Inductive space_err : Set := SpTooBig (v : N).
(** align.rs:550 [MAX]. *)
Definition MAX_SPACE : N := 8388607.
(** align.rs:528-546, the two [TryFrom]s. *)
Definition address_space_of (v : N) : outcome space_err N :=
  if v <=? MAX_SPACE then Ok v else Err (SpTooBig v).

(** The messages of [AlignSpecError::Parse] (align.rs:336-338; 354-357; 359; 370, 398, 402 and 632; 388-392;
    417-420; 609-611; 619-622), as values instead of texts. *)
Inductive spec_fault : Set :=
| ApEmptyType | ApBeforeAggregate (c : N) | ApEmptyAggregate | ApNumber (x : int_err) | ApFewParts (id n : N)
| ApUnknownType (c : N) | ApEmptyPointer | ApFewPointerParts (n : N).

(** align.rs:268-295 [AlignSpecError]. *)
Inductive spec_err : Set :=
| SeBadTypeWidth (x : width_err) | SeAlignPref (pref abi : align) | SeAbiAlignTooLarge (a : align)
| SeParse (x : spec_fault) | SeParseAlign (x : align_err) | SeBadInt (x : int_err) | SeBadAddressSpace (x : space_err).

(** align.rs:301-311 [TypeAlignSpec]. *)
Record type_spec : Set := mkTypeSpec { ts_type : aligned_type; ts_abi : align; ts_pref : align }.

(** align.rs:436 [MAX_ALIGN], 440-457 [TypeAlignSpec::new]. *)
Definition MAX_ALIGN : align := mkAlign 15.
(** align.rs:440-457 [new]. *)
Definition type_spec_new (t : aligned_type) (abi pref : align) : outcome spec_err type_spec :=
  if align_lt pref abi then Err (SeAlignPref pref abi)
  else if align_le abi MAX_ALIGN && align_le pref MAX_ALIGN then Ok (mkTypeSpec t abi pref)
  else Err (SeAbiAlignTooLarge abi).

(** [parse::<u64>().map_err(|e| Parse(e.to_string())).and_then(from_bit_align)] (368-371,
    400-403, 630-633) and the same with [BadInt] (373-380, 404-411, 634-641). *)
Definition parse_abi (s : str) : outcome spec_err align :=
  let? v := omap_err (fun x => SeParse (ApNumber x)) (parse_u64 s) in omap_err SeParseAlign (from_bit_align v).
(** align.rs:376-378, 407-409, 637-639. *)
Definition parse_pref (s : str) : outcome spec_err align :=
  let? v := omap_err SeBadInt (parse_u64 s) in omap_err SeParseAlign (from_bit_align v).
(** align.rs:373-380, 404-411, 634-641: [parts.get(i).map(..).unwrap_or(Ok(abi))?]. *)
Definition parse_pref_opt (s : option str) (abi : align) : outcome spec_err align :=
  match s with Some p => parse_pref p | None => Ok abi end.

(** align.rs:334-424 [TypeAlignSpec::from_str]. The [parts.is_empty()] test of line 362 is
    never true ([split] yields at least one piece), its message is not among the [spec_fault]s. *)
Definition type_spec_from_str (v : str) : outcome spec_err type_spec :=
  match v with
  | [] => Err (SeParse ApEmptyType)
  | id :: _ =>
      let? body := tail_from_1 v in
      let parts := split_on (ch ":") body in
      if id =? ch "a" then
        match body with
        | [] => Err (SeParse ApEmptyAggregate)
        | c :: rest =>
            if c =? ch ":" then
              match split_on (ch ":") rest with
              | [] => Err (SeParse ApEmptyAggregate)
              | p0 :: ps =>
                  let? abi := parse_abi p0 in
                  let? pref := parse_pref_opt (nth_error ps 0) abi in
                  type_spec_new AtAggregate abi pref
              end
            else Err (SeParse (ApBeforeAggregate c))
        end
      else
        match parts with
        | p0 :: p1 :: ps =>
            let? w := omap_err (fun x => SeParse (ApNumber x)) (parse_u32 p0) in
            let? bitsize := omap_err SeBadTypeWidth (aligned_width_of w) in
            let? abi := parse_abi p1 in
            let? pref := parse_pref_opt (nth_error ps 0) abi in
            if id =? ch "i" then type_spec_new (AtInteger bitsize) abi pref
            else if id =? ch "v" then type_spec_new (AtVector bitsize) abi pref
            else if id =? ch "f" then type_spec_new (AtFloat bitsize) abi pref
            else Err (SeParse (ApUnknownType id))
        | _ => Err (SeParse (ApFewParts id (N.of_nat (length parts))))
        end
  end.

(** align.rs:492, 720: [iter().rposition(p)]: index of the last element satisfying [p]. *)
Fixpoint rposition {A} (p : A -> bool) (l : list A) : option nat :=
  match l with
  | [] => None
  | a :: l' => match rposition p l' with
               | Some i => Some (S i)
               | None => if p a then Some O else None
               end
  end.

(** align.rs:507, 511, 735, 739: [Vec::insert]. *)
Definition insert_at {A} (i : nat) (a : A) (l : list A) : list A := firstn i l ++ a :: skipn i l.
(** align.rs:501-504, 729-732: [get_mut(i).unwrap()] and the assignments to it. *)
Fixpoint modify_at {A} (i : nat) (f : A -> A) (l : list A) : list A :=
  match l, i with
  | [], _ => []
  | a :: l', O => f a :: l'
  | a :: l', S i' => a :: modify_at i' f l'
  end.

(** align.rs:313-329: [TypeAlignSpec]s compare by type only. *)
Definition ts_le (x y : type_spec) : bool :=
  match at_cmp (ts_type x) (ts_type y) with Gt => false | _ => true end.
(** align.rs:313-317 [PartialEq for TypeAlignSpec]. *)
Definition ts_eqb (x y : type_spec) : bool := at_eqb (ts_type x) (ts_type y).

(** align.rs:489-513 [TypeAlignSpecs::update]. *)
Definition type_specs_update (l : list type_spec) (s : type_spec) : list type_spec :=
  match rposition (fun other => ts_le other s) l with
  | Some i =>
      match nth_error l i with
      | Some other =>
          if ts_eqb other s
          then modify_at i (fun o => mkTypeSpec (ts_type o) (ts_abi s) (ts_pref s)) l
          else insert_at (S i) s l
      | None => l
      end
  | None => insert_at 0 s l
  end.

(** align.rs:464-484 [Default for TypeAlignSpecs]. The [new] calls are written as the
    records they return. *)
Definition type_specs_default : list type_spec :=
  [ mkTypeSpec AtAggregate ALIGN64 ALIGN64;
    mkTypeSpec (AtFloat 16) ALIGN16 ALIGN16;
    mkTypeSpec (AtFloat 32) ALIGN32 ALIGN32;
    mkTypeSpec (AtFloat 64) ALIGN64 ALIGN64;
    mkTypeSpec (AtFloat 128) ALIGN128 ALIGN128;
    mkTypeSpec (AtInteger 1) ALIGN8 ALIGN8;
    mkTypeSpec (AtInteger 8) ALIGN8 ALIGN8;
    mkTypeSpec (AtInteger 16) ALIGN16 ALIGN16;
    mkTypeSpec (AtInteger 32) ALIGN32 ALIGN32;
    mkTypeSpec (AtInteger 64) ALIGN64 ALIGN64 ].

(** align.rs:557-571 [PointerAlignSpec]. *)
Record ptr_spec : Set := mkPtrSpec {
  ps_space : N; ps_abi : align; ps_pref : align; ps_size : N; ps_index : N
}.

(** align.rs:573-583: ordered by address space; the equality derived on line 556 compares
    every field. *)
Definition ps_le (x y : ptr_spec) : bool := ps_space x <=? ps_space y.
(** align.rs:556: the derived equality. *)
Definition ps_eqb (x y : ptr_spec) : bool :=
  (ps_space x =? ps_space y) && (a_shift (ps_abi x) =? a_shift (ps_abi y))
  && (a_shift (ps_pref x) =? a_shift (ps_pref y))
  && (ps_size x =? ps_size y) && (ps_index x =? ps_index y).

(** align.rs:587-597. *)
Definition ptr_spec_default : ptr_spec := mkPtrSpec 0 ALIGN64 ALIGN64 64 64.

(** align.rs:602-654 [PointerAlignSpec::from_str]. *)
Definition ptr_spec_from_str (v : str) : outcome spec_err ptr_spec :=
  match v with
  | [] => Err (SeParse ApEmptyPointer)
  | _ =>
      let? body := tail_from_1 v in
      let parts := split_on (ch ":") body in
      match parts with
      | p0 :: p1 :: p2 :: ps =>
          let? space :=
            match p0 with
            | [] => Ok 0
            | _ => let? n := omap_err SeBadInt (parse_u32 p0) in
                   omap_err SeBadAddressSpace (address_space_of n)
            end in
          let? size := omap_err SeBadInt (parse_u64 p1) in
          let? abi := parse_abi p2 in
          let? pref := parse_pref_opt (nth_error ps 0) abi in
          let? index :=
            match nth_error ps 1 with
            | Some p => omap_err SeBadInt (parse_u64 p)
            | None => Ok size
            end in
          Ok (mkPtrSpec space abi pref size index)
      | _ => Err (SeParse (ApFewPointerParts (N.of_nat (length parts))))
      end
  end.

(** align.rs:659-683 [PointerAlignSpec::new]. *)
Definition ptr_spec_new (space : N) (abi pref : align) (size index : N) : outcome spec_err ptr_spec :=
  if align_lt pref abi then Err (SeAlignPref pref abi)
  else Ok (mkPtrSpec space abi pref size index).

(** align.rs:688-702 [FunctionPointerAlign]. *)
Inductive fn_ptr_align : Set := FpIndependent (abi : align) | FpMultiple (abi : align).

(** align.rs:708-712. *)
Definition ptr_specs_default : list ptr_spec := [ptr_spec_default].

(** align.rs:717-741 [PointerAlignSpecs::update]. *)
Definition ptr_specs_update (l : list ptr_spec) (s : ptr_spec) : list ptr_spec :=
  match rposition (fun other => ps_le other s) l with
  | Some i =>
      match nth_error l i with
      | Some other =>
          if ps_eqb other s
          then modify_at i (fun o => mkPtrSpec (ps_space o) (ps_abi s) (ps_pref s) (ps_size o) (ps_index o)) l
          else insert_at (S i) s l
      | None => l
      end
  | None => insert_at 0 s l
  end.

(** ** ty.rs *)

(** ty.rs:64-86 [Type], with the payload structs 302-309 [StructType], 347-350
    [IntegerType], 396-399 [PointerType], 431-434 [ArrayType], 469-472 [VectorType] and
    507-511 [FunctionType] inlined. *)
Inductive ty : Set :=
| THalf | TBFloat | TFloat | TDouble | TMetadata | TX86Fp80 | TFp128 | TPpcFp128 | TVoid | TLabel
| TX86Mmx | TX86Amx | TToken
| TInteger (bit_width : N)
| TFunction (return_type : ty) (param_types : list ty) (is_vararg : bool)
| TPointer (pointee : ty) (address_space : N)
| TOpaquePointer (address_space : N)
| TStruct (name : option str) (fields : list ty) (is_packed : bool)
| TArray (num_elements : N) (element_type : ty)
| TFixedVector (num_elements : N) (element_type : ty)
| TScalableVector (num_elements : N) (element_type : ty).

(** ty.rs:102-113 [is_floating]. *)
Definition is_floating (t : ty) : bool :=
  match t with
  | THalf | TBFloat | TFloat | TDouble | TX86Fp80 | TFp128 | TPpcFp128 => true
  | _ => false
  end.
(** ty.rs:116-118 [is_integer]. *)
Definition is_integer (t : ty) : bool := match t with TInteger _ => true | _ => false end.
(** ty.rs:122-127 [is_pointee]. *)
Definition is_pointee (t : ty) : bool :=
  negb (match t with TVoid | TLabel | TMetadata | TToken | TX86Amx => true | _ => false end).
(** ty.rs:131-142 [is_array_element]. *)
Definition is_array_element (t : ty) : bool :=
  negb (match t with
        | TVoid | TLabel | TMetadata | TFunction _ _ _ | TToken | TX86Amx | TScalableVector _ _ => true
        | _ => false
        end).
(** ty.rs:146-151 [is_struct_element]. *)
Definition is_struct_element (t : ty) : bool :=
  negb (match t with TVoid | TLabel | TMetadata | TFunction _ _ _ | TToken => true | _ => false end).
(** ty.rs:168-170 [is_vector_element]. *)
Definition is_vector_element (t : ty) : bool :=
  is_floating t || match t with TInteger _ | TPointer _ _ => true | _ => false end.
(** ty.rs:173-175 [is_first_class], 186-188 [is_argument]. *)
Definition is_argument (t : ty) : bool :=
  negb (match t with TFunction _ _ _ | TVoid => true | _ => false end).
(** ty.rs:192-194 [is_return]. *)
Definition is_return (t : ty) : bool :=
  negb (match t with TFunction _ _ _ | TLabel | TMetadata => true | _ => false end).
(** ty.rs:199-213 [scalar_type]. *)
Definition scalar_type (t : ty) : ty :=
  match t with
  | TScalableVector _ x => x
  | TFixedVector _ x => x
  | _ => t
  end.
(** ty.rs:217-219, 223-225. *)
Definition is_floating_or_floating_vector (t : ty) : bool := is_floating (scalar_type t).
(** ty.rs:223-225. *)
Definition is_integer_or_integer_vector (t : ty) : bool := is_integer (scalar_type t).

(** ty.rs:293-297 [StructTypeError], 332-340 [IntegerTypeError], 385-389
    [PointerTypeError], 422-426 [ArrayTypeError], 457-461 [VectorTypeError], 495-502
    [FunctionTypeError], as one type. *)
Inductive ty_err : Set :=
| TeStructElement (t : ty) | TeIntWidth | TePointee (t : ty) | TeArrayElement (t : ty)
| TeVectorElement (t : ty) | TeReturn (t : ty) | TeParameter (t : ty).

(** ty.rs:228-236 and 313-327. *)
Definition new_struct (name : option str) (fields : list ty) (packed : bool) : outcome ty_err ty :=
  match find (fun t => negb (is_struct_element t)) fields with
  | Some bad => Err (TeStructElement bad)
  | None => Ok (TStruct name fields packed)
  end.
(** ty.rs:239-243, 354-356 and 371-381. *)
Definition MIN_INT_BITS : N := 1.
(** ty.rs:356. *)
Definition MAX_INT_BITS : N := 16777215.
(** ty.rs:239-243 and 371-381. *)
Definition new_integer (w : N) : outcome ty_err ty :=
  if (MIN_INT_BITS <=? w) && (w <=? MAX_INT_BITS) then Ok (TInteger w) else Err TeIntWidth.
(** ty.rs:366-368 [byte_width]; [bit_width + 7] cannot overflow u32. *)
Definition int_byte_width (w : N) : N := (w + 7) / 8.
(** ty.rs:246-253 and 403-412. *)
Definition new_pointer (p : ty) (space : N) : outcome ty_err ty :=
  if is_pointee p then Ok (TPointer p space) else Err (TePointee p).
(** ty.rs:256-260 and 438-447. *)
Definition new_array (n : N) (t : ty) : outcome ty_err ty :=
  if is_array_element t then Ok (TArray n t) else Err (TeArrayElement t).
(** ty.rs:263-270 and 476-485. *)
Definition new_scalable_vector (n : N) (t : ty) : outcome ty_err ty :=
  if is_vector_element t then Ok (TScalableVector n t) else Err (TeVectorElement t).
(** ty.rs:273-277 and 476-485. *)
Definition new_vector (n : N) (t : ty) : outcome ty_err ty :=
  if is_vector_element t then Ok (TFixedVector n t) else Err (TeVectorElement t).
(** ty.rs:280-288 and 515-531. *)
Definition new_function (r : ty) (params : list ty) (vararg : bool) : outcome ty_err ty :=
  if negb (is_return r) then Err (TeReturn r)
  else match find (fun t => negb (is_argument t)) params with
       | Some bad => Err (TeParameter bad)
       | None => Ok (TFunction r params vararg)
       end.

(** ** opcode.rs *)

(** opcode.rs:63-90 [UnaryOp] and its conversions; the error is the unknown opcode. *)
Inductive unary_op : Set := UFNeg.
(** opcode.rs:76-90: the two conversions. *)
Definition unary_op_of (v : N) : outcome N unary_op :=
  match unary_opcode_of v with Some UoFNeg => Ok UFNeg | None => Err v end.

(** opcode.rs:94-131 [BinaryOp]. *)
Inductive binary_op : Set :=
| BAdd | BFAdd | BSub | BFSub | BMul | BFMul | BUDiv | BSDiv | BFDiv | BURem | BSRem | BFRem
| BShl | BLShr | BAShr | BAnd | BOr | BXor.

(** opcode.rs:135-147 [BinaryOpError]. *)
Inductive binary_op_err : Set := BeInvalidType (t : ty) | BeIncompatibleType (t : ty) | BeOpcode (v : N).

(** opcode.rs:152-188 [TryFrom<(u64, &Type)> for BinaryOp]. *)
Definition binary_op_of (v : N) (t : ty) : outcome binary_op_err binary_op :=
  match binary_opcode_of v with
  | None => Err (BeOpcode v)
  | Some opc =>
      let is_fp := is_floating_or_floating_vector t in
      if negb is_fp || negb (is_integer_or_integer_vector t) then Err (BeInvalidType t)
      else
        match opc, is_fp with
        | BoAdd, false => Ok BAdd
        | BoAdd, true => Ok BFAdd
        | BoSub, false => Ok BSub
        | BoSub, true => Ok BFSub
        | BoMul, false => Ok BMul
        | BoMul, true => Ok BFMul
        | BoUDiv, false => Ok BUDiv
        | BoUDiv, true => Err (BeIncompatibleType t)
        | BoSDiv, false => Ok BSDiv
        | BoSDiv, true => Ok BFDiv
        | BoURem, false => Ok BURem
        | BoURem, true => Err (BeIncompatibleType t)
        | BoSRem, false => Ok BSRem
        | BoSRem, true => Ok BFRem
        | BoShl, true => Ok BShl
        | BoLShr, true => Ok BLShr
        | BoAShr, true => Ok BAShr
        | BoAnd, true => Ok BAnd
        | BoOr, true => Ok BOr
        | BoXor, true => Ok BXor
        | _, false => Err (BeIncompatibleType t)
        end
  end.

(** ** lib.rs *)

(** lib.rs:52-57 [Endian], 70-83 [Mangling]. *)
Inductive endian : Set := Little | Big.
(** lib.rs:70-83 [Mangling]. *)
Inductive mangling : Set := MElf | MMips | MMacho | MWindowsX86Coff | MWindowsCoff | MXCoff.

(** lib.rs:92-104 [Linkage]. *)
Inductive linkage : Set :=
| LkExternal | LkAvailableExternally | LkLinkOnceAny | LkLinkOnceOdr | LkWeakAny | LkWeakOdr
| LkAppending | LkInternal | LkPrivate | LkExternalWeak | LkCommon.
(** lib.rs:106-124. *)
Definition linkage_of (v : N) : linkage :=
  match v with
  | 0 | 5 | 6 | 15 => LkExternal
  | 1 | 16 => LkWeakAny
  | 2 => LkAppending
  | 3 => LkInternal
  | 4 | 18 => LkLinkOnceAny
  | 7 => LkExternalWeak
  | 8 => LkCommon
  | 9 | 13 | 14 => LkPrivate
  | 10 | 17 => LkWeakOdr
  | 11 | 19 => LkLinkOnceOdr
  | 12 => LkAvailableExternally
  | _ => LkExternal
  end.

(** lib.rs:127-147 [StrtabRef]; [as usize] is the identity on 64-bit machines. *)
Record strtab_ref : Set := mkRef { sr_offset : N; sr_size : N }.

(** lib.rs:204-216 [From<u64> for ThreadLocalMode]. *)
Definition tls_mode_of (v : N) : tls_mode :=
  match v with
  | 0 => TlsNotThreadLocal
  | 1 => TlsGeneralDynamicTls
  | 2 => TlsLocalDynamicTls
  | 3 => TlsInitialExecTls
  | 4 => TlsLocalExecTls
  | _ => TlsGeneralDynamicTls
  end.
(** lib.rs:232-242 [From<u64> for UnnamedAddr]. *)
Definition unnamed_addr_of (v : N) : unnamed_addr :=
  match v with
  | 0 => UaNone
  | 1 => UaGlobal
  | 2 => UaLocal
  | _ => UaNone
  end.
(** lib.rs:259-268 [From<u64> for RuntimePreemption]. *)
Definition preemption_of (v : N) : preemption :=
  match v with
  | 0 => RpDsoPreemptable
  | 1 => RpDsoLocal
  | _ => RpDsoPreemptable
  end.
