(** Specification: what LLVM's reader makes of the record of a function (llvm/lib/Bitcode/Reader/BitcodeReader.cpp of
    LLVM 13 and 14: [readNameFromStrtab], [parseFunctionRecord], [getAttributes], [parseAlignmentValue],
    [getDecodedLinkage], [getDecodedVisibility], [getDecodedDLLStorageClass], [upgradeDLLImportExportLinkage]), as far as
    [Function] of llvm-mapper has a counterpart. The record is one of version 2 with fields below 2^32: LLVM cuts some fields
    to 32 bits. *)
From Verif Require Import Base Strings EnumModel SupportModel SupportSpec UnrollModel AttributeModel TablesSpec TypeTableSpec RecordModel RecordSpec.
Local Open Scope N_scope.

(** Calling conventions are numbers up to 1023. No attributes and an unknown list of attributes are the empty list.
    An alignment is the exponent of two. *)
Record llvm_fn : Type := mkLlvmFn {
  lf_name : list N;
  lf_ty : ty;
  lf_cc : N;
  lf_declaration : bool;
  lf_linkage : linkage;
  lf_attributes : list attr_group;
  lf_alignment : option N;
  lf_section : option str;
  lf_visibility : visibility;
  lf_gc : option str;
  lf_unnamed_addr : unnamed_addr;
  lf_storage : dll_storage_class
}.

(** A reference to a table, zero is none; [None] on the outside is an error. *)
Definition entry_from_one {A} (l : list A) (i : N) : option (option A) :=
  if i =? 0 then Some None
  else match nth_error l (N.to_nat (i - 1)) with Some x => Some (Some x) | None => None end.

Definition llvm_linkage (v : N) : linkage :=
  match v with
  | 1 | 16 => LkWeakAny | 2 => LkAppending | 3 => LkInternal | 4 | 18 => LkLinkOnceAny | 7 => LkExternalWeak | 8 => LkCommon
  | 9 | 13 | 14 => LkPrivate | 10 | 17 => LkWeakOdr | 11 | 19 => LkLinkOnceOdr | 12 => LkAvailableExternally | _ => LkExternal
  end.
Definition local_linkage (l : linkage) : bool := match l with LkInternal | LkPrivate => true | _ => false end.
(** Unknown numbers mean the default. *)
Definition llvm_visibility (v : N) : visibility := match v with 1 => VisHidden | 2 => VisProtected | _ => VisDefault end.
Definition llvm_storage (v : N) : dll_storage_class := match v with 1 => DllImport | 2 => DllExport | _ => DllDefault end.
Definition llvm_unnamed (v : N) : unnamed_addr := match v with 1 => UaGlobal | 2 => UaLocal | _ => UaNone end.
(** A function type or a pointer to one. *)
Definition llvm_function_type (t : ty) : option ty :=
  match t with
  | TFunction _ _ _ => Some t
  | TPointer (TFunction r ps va) _ => Some (TFunction r ps va)
  | _ => None
  end.

Notation "'try!' x ':=' m 'in' k" := (match m with Some x => k | None => None end)
  (at level 200, x pattern, m at level 100, k at level 200, right associativity).

(** [most] is the largest exponent of an alignment: 29 in LLVM 13, 32 in LLVM 14. Fields from the eleventh on may be missing.
    Linkages 5 and 6 are the old forms of dllimport and dllexport. The record of a local function has no visibility. *)
Definition llvm_function (most : N) (c : mctx) (r : record) : option llvm_fn :=
  match r_fields r with
  | offset :: size :: ti :: cc :: proto :: link :: attrs :: align_ :: sec :: vis :: more =>
      if N.of_nat (length (cx_strtab c)) <? offset + size then None
      else try! t := nth_error (cx_types c) (N.to_nat ti) in
      try! ft := llvm_function_type t in
      if 1023 <? cc then None
      else if most + 1 <? align_ then None
      else try! section := entry_from_one (cx_sections c) sec in
      try! gc := entry_from_one (cx_gcs c) (nth 0 more 0) in
      try! _ := entry_from_one (cx_comdats c) (nth 4 more 0) in
      Some (mkLlvmFn
        (firstn (N.to_nat size) (skipn (N.to_nat offset) (cx_strtab c)))
        ft cc (negb (proto =? 0)) (llvm_linkage link)
        (match entry_from_one (cx_attributes c) attrs with Some (Some l) => l | _ => [] end)
        (if align_ =? 0 then None else Some (align_ - 1))
        section
        (if local_linkage (llvm_linkage link) then VisDefault else llvm_visibility vis)
        gc (llvm_unnamed (nth 1 more 0))
        (if (3 <? length more)%nat then llvm_storage (nth 3 more 0)
         else match link with 5 => DllImport | 6 => DllExport | _ => DllDefault end))
  | _ => None
  end.

(** The calling conventions of LLVM 14 (llvm/include/llvm/IR/CallingConv.h) are 0, 8 to 20, 64 to 101 but 73 and 74. *)
Definition llvm_convention (v : N) : Prop := v = 0 \/ 8 <= v <= 20 \/ (64 <= v <= 101 /\ v <> 73 /\ v <> 74).

(** The fields in which llvm-mapper's function and LLVM's never differ; visibility and storage class are missing. *)
Record agree (f : fn_rec) (lf : llvm_fn) : Prop := mkAgree {
  ag_name : utf8_encode (fn_name f) = lf_name lf;
  ag_ty : fn_ty f = lf_ty lf;
  ag_cc : calling_convention_num (fn_cc f) = lf_cc lf;
  ag_declaration : fn_declaration f = lf_declaration lf;
  ag_linkage : fn_linkage f = lf_linkage lf;
  ag_attributes : match fn_attributes f with Some l => l | None => [] end = lf_attributes lf;
  ag_alignment : option_map a_shift (fn_alignment f) = lf_alignment lf;
  ag_section : fn_section f = lf_section lf;
  ag_gc : fn_gc f = lf_gc lf;
  ag_unnamed : fn_unnamed_addr f = lf_unnamed_addr lf
}.

(** What llvm-mapper demands beyond LLVM: a non-empty name in UTF-8, a function type rather than a pointer to one, a calling
    convention of its table, a known list of attributes, a known visibility and a known storage class. *)
Record strict (c : mctx) (r : record) : Prop := mkStrict {
  sr_name : exists s, named (cx_strtab c) r s;
  sr_type : exists i t, field r 2 i /\ at_index (cx_types c) i t /\ function_type t;
  sr_cc : exists x v, field r 3 v /\ In (x, v) calling_convention_table;
  sr_attributes : exists v, field r 6 v /\ v <= N.of_nat (length (cx_attributes c));
  sr_visibility : exists v, field r 9 v /\ v <= 2;
  sr_storage : forall v, field r 13 v -> v <= 2
}.
