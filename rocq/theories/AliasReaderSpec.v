(** Specification: what LLVM's reader makes of the records of aliases and COMDATs (llvm/lib/Bitcode/Reader/BitcodeReader.cpp of
    LLVM 13 and 14: [readNameFromStrtab], [parseGlobalIndirectSymbolRecord] for MODULE_CODE_ALIAS, [parseComdatRecord],
    [getDecodedThreadLocalMode], [getDecodedDSOLocal], [inferDSOLocal], [getDecodedComdatSelectionKind]), as far as [Alias] and
    [Comdat] of llvm-mapper have a counterpart, with the address space of an alias. The records are of version 2 with fields
    below 2^32. *)
From Verif Require Import Base Strings EnumModel SupportModel SupportSpec UnrollModel AttributeModel TablesSpec TypeTableSpec RecordModel RecordSpec
  ReaderSpec.
Local Open Scope N_scope.

Record llvm_alias_rec : Type := mkLlvmAlias {
  la_name : list N;
  la_ty : ty;
  la_space : N;
  la_value : N;
  la_linkage : linkage;
  la_visibility : visibility;
  la_storage : dll_storage_class;
  la_tls : tls_mode;
  la_unnamed_addr : unnamed_addr;
  la_preemption : preemption
}.

Definition llvm_tls (v : N) : tls_mode :=
  match v with
  | 0 => TlsNotThreadLocal | 2 => TlsLocalDynamicTls | 3 => TlsInitialExecTls | 4 => TlsLocalExecTls | _ => TlsGeneralDynamicTls
  end.
Definition llvm_preemption (v : N) : preemption := match v with 1 => RpDsoLocal | _ => RpDsoPreemptable end.
(** What is local, or hidden or protected and not extern_weak, cannot be preempted, whatever the record says. *)
Definition implicit_dso_local (l : linkage) (v : visibility) : bool :=
  local_linkage l ||
  match v, l with VisDefault, _ => false | _, LkExternalWeak => false | _, _ => true end.

(** [strtab offset, strtab size, type, address space, aliasee, linkage] and optionally [visibility, storage class, tls mode,
    unnamed_addr, preemption]; more is a partition, which [Alias] does not have. *)
Definition llvm_alias_record (c : mctx) (r : record) : option llvm_alias_rec :=
  match r_fields r with
  | offset :: size :: ti :: space :: value :: link :: more =>
      if N.of_nat (length (cx_strtab c)) <? offset + size then None
      else try! t := nth_error (cx_types c) (N.to_nat ti) in
      let vis := if local_linkage (llvm_linkage link) then VisDefault else llvm_visibility (nth 0 more 0) in
      Some (mkLlvmAlias
        (firstn (N.to_nat size) (skipn (N.to_nat offset) (cx_strtab c)))
        t space value (llvm_linkage link) vis
        (if (1 <? length more)%nat then llvm_storage (nth 1 more 0)
         else match link with 5 => DllImport | 6 => DllExport | _ => DllDefault end)
        (llvm_tls (nth 2 more 0)) (llvm_unnamed (nth 3 more 0))
        (if implicit_dso_local (llvm_linkage link) vis then RpDsoLocal else llvm_preemption (nth 4 more 0)))
  | _ => None
  end.

(** The record without its address space: the layout llvm-mapper expects. *)
Definition without_space (r : record) : record :=
  mkRecord (r_abbrev r) (r_code r) (firstn 3 (r_fields r) ++ skipn 4 (r_fields r)).

(** The fields in which the alias of a record without its address space never differs from LLVM's alias; visibility, storage
    class and preemption are missing. *)
Record alias_agree (a : alias_rec) (la : llvm_alias_rec) : Prop := mkAliasAgree {
  aa_name : utf8_encode (al_name a) = la_name la;
  aa_ty : al_ty a = la_ty la;
  aa_value : al_value a = la_value la;
  aa_linkage : al_linkage a = la_linkage la;
  aa_tls : al_tls a = la_tls la;
  aa_unnamed : al_unnamed_addr a = la_unnamed_addr la
}.

(** A COMDAT in LLVM: a name and a kind; unknown kinds are [any]. *)
Definition llvm_selection (v : N) : selection_kind :=
  match v with 2 => SkExactMatch | 3 => SkLargest | 4 => SkNoDeduplicate | 5 => SkSameSize | _ => SkAny end.
(** Fields from the fourth on are not looked at. *)
Definition llvm_comdat (t : list N) (r : record) : option (list N * selection_kind) :=
  match r_fields r with
  | offset :: size :: kind :: _ =>
      if N.of_nat (length t) <? offset + size then None
      else Some (firstn (N.to_nat size) (skipn (N.to_nat offset) t), llvm_selection kind)
  | _ => None
  end.
