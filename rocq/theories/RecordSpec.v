(** Vocabulary for the properties of function, alias and COMDAT records. *)
From Verif Require Import Base Strings EnumModel SupportModel SupportSpec UnrollModel AttributeModel TablesSpec
  TypeTableSpec RecordModel.
Local Open Scope N_scope.

(** Field [i] of a record is [v]. *)
Definition field (r : record) (i : nat) (v : N) : Prop := nth_error (r_fields r) i = Some v.
(** Field [i] is missing. *)
Definition no_field (r : record) (i : nat) : Prop := (length (r_fields r) <= i)%nat.

(** The first two fields refer to [s] in the string table. *)
Definition named (t : list N) (r : record) (s : str) : Prop :=
  exists offset size, field r 0 offset /\ field r 1 size /\ size <> 0 /\ stored t offset size s.
(** The reference of the first two fields begins inside the table, but its end is not a 64-bit
    number. *)
Definition bad_reference (t : list N) (r : record) : Prop :=
  exists offset size, field r 0 offset /\ field r 1 size /\ offset < N.of_nat (length t) /\ 2 ^ 64 <= offset + size.

(** Decoding by a table with a default. *)
Definition decodes {T : Set} (table : list (T * list N)) (default : T) (v : N) (x : T) : Prop :=
  (exists l, In (x, l) table /\ In v l) \/ ((forall y l, In (y, l) table -> ~ In v l) /\ x = default).

(** An optional reference: zero is none, [k + 1] is entry [k]. *)
Definition one_based {A} (l : list A) (i : N) (o : option A) : Prop :=
  (i = 0 /\ o = None) \/ (exists k x, i = k + 1 /\ nth_error l (N.to_nat k) = Some x /\ o = Some x).
(** An optional alignment: zero is none, [k + 1] is [2^k] bytes. *)
Definition aligned_to (v : N) (o : option align) : Prop :=
  (v = 0 /\ o = None) \/ (exists k, v = k + 1 /\ k <= 63 /\ o = Some (mkAlign k)).

(** LLVM's MODULE_CODE_FUNCTION record, version 2: [strtab offset, strtab size, type, calling
    convention, is declaration, linkage, attributes, alignment, section, visibility, gc,
    unnamed_addr, prologue data, dll storage class, comdat, ...]. The alignment is the low byte of
    its field. *)
Record function_described (c : mctx) (r : record) (f : fn_rec) : Prop := mkFunctionDescribed {
  fd_name : named (cx_strtab c) r (fn_name f);
  fd_type : exists i, field r 2 i /\ at_index (cx_types c) i (fn_ty f) /\ function_type (fn_ty f);
  fd_cc : exists v, field r 3 v /\ In (fn_cc f, v) calling_convention_table;
  fd_declaration : exists v, field r 4 v /\ (fn_declaration f = true <-> v <> 0);
  fd_linkage : exists v, field r 5 v /\ decodes linkage_table LkExternal v (fn_linkage f);
  fd_attributes : exists v, field r 6 v /\ one_based (cx_attributes c) v (fn_attributes f);
  fd_alignment : exists v, field r 7 v /\ aligned_to (v mod 256) (fn_alignment f);
  fd_section : exists v, field r 8 v /\ one_based (cx_sections c) v (fn_section f);
  fd_visibility : exists v, field r 9 v /\ In (fn_visibility f, v) visibility_table;
  fd_gc : (exists v, field r 10 v /\ one_based (cx_gcs c) v (fn_gc f)) \/ (no_field r 10 /\ fn_gc f = None);
  fd_unnamed : (exists v, field r 11 v /\ decodes unnamed_addr_table UaNone v (fn_unnamed_addr f)) \/
               (no_field r 11 /\ fn_unnamed_addr f = UaNone);
  fd_storage : (exists v, field r 13 v /\ In (fn_storage f, v) dll_storage_class_table) \/
               (no_field r 13 /\ fn_storage f = DllDefault)
}.

(** The record of an alias as llvm-mapper reads it: [strtab offset, strtab size, type, aliasee,
    linkage, visibility, dll storage class, tls mode, unnamed_addr, preemption]. *)
Record alias_described (c : mctx) (r : record) (a : alias_rec) : Prop := mkAliasDescribed {
  ad_name : named (cx_strtab c) r (al_name a);
  ad_type : exists i, field r 2 i /\ at_index (cx_types c) i (al_ty a);
  ad_value : field r 3 (al_value a);
  ad_linkage : exists v, field r 4 v /\ decodes linkage_table LkExternal v (al_linkage a);
  ad_visibility : (exists v, field r 5 v /\ In (al_visibility a, v) visibility_table) \/
                  (no_field r 5 /\ al_visibility a = VisDefault);
  ad_storage : (exists v, field r 6 v /\ In (al_storage a, v) dll_storage_class_table) \/
               (no_field r 6 /\ al_storage a = DllDefault);
  ad_tls : (exists v, field r 7 v /\ decodes tls_table TlsGeneralDynamicTls v (al_tls a)) \/
           (no_field r 7 /\ al_tls a = TlsNotThreadLocal);
  ad_unnamed : (exists v, field r 8 v /\ decodes unnamed_addr_table UaNone v (al_unnamed_addr a)) \/
               (no_field r 8 /\ al_unnamed_addr a = UaNone);
  ad_preemption : (exists v, field r 9 v /\ decodes preemption_table RpDsoPreemptable v (al_preemption a)) \/
                  (no_field r 9 /\ al_preemption a = RpDsoPreemptable)
}.

(** LLVM's MODULE_CODE_ALIAS record, version 2: [strtab offset, strtab size, type, address space,
    aliasee, linkage, ...] (LLVMBitCodes.h, code 14; without the address space it is code 9,
    ALIAS_OLD). *)
Definition llvm_alias (r : record) (space aliasee link : N) : Prop :=
  r_code r = 14 /\ field r 3 space /\ field r 4 aliasee /\ field r 5 link.

(** llvm-mapper's numbering of the selection kinds, and LLVM's (LLVMBitCodes.h,
    [ComdatSelectionKindCodes]). *)
Definition selection_table : list (selection_kind * N) :=
  [ (SkAny, 0); (SkExactMatch, 1); (SkLargest, 2); (SkNoDeduplicate, 3); (SkSameSize, 4) ].
Definition llvm_selection_table : list (selection_kind * N) :=
  [ (SkAny, 1); (SkExactMatch, 2); (SkLargest, 3); (SkNoDeduplicate, 4); (SkSameSize, 5) ].
(** A COMDAT record: [strtab offset, strtab size, selection kind] and nothing else. *)
Definition comdat_described (table : list (selection_kind * N)) (t : list N) (r : record) (c : comdat) : Prop :=
  length (r_fields r) = 3%nat /\ named t r (cd_name c) /\ exists v, field r 2 v /\ In (cd_kind c, v) table.
