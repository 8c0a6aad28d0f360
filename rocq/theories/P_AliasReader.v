(** Property theorem C87: alias and COMDAT records in llvm-mapper (llvm-mapper/src/record/alias.rs, comdat.rs) and in LLVM's
    reader. [llvm_alias_record], [without_space], [alias_agree] and [llvm_comdat] are in AliasReaderSpec.v, [named] and [field] in
    RecordSpec.v. *)
From Verif Require Import Base Strings EnumModel SupportModel SupportSpec LayoutModel UnrollModel ReaderSpec AttributeModel AttributeSpec TablesSpec
  TypeTableSpec RecordModel RecordSpec SupportMain RecordProofs ModuleModel AliasReaderSpec AliasReaderProofs.
From Coq Require Import Lia.
Local Open Scope N_scope.

(** *** C87: alias and COMDAT records mean what LLVM's reader takes them for *)

(** An alias read by both has the same name and type. The address space is taken for the aliasee, the aliasee for the linkage, the
    linkage for the visibility. *)
Theorem C87_same_alias_partial : forall e c r a la, fields64 r -> N.of_nat (length (cx_strtab c)) < 2 ^ 64 ->
  alias_of e c r = Ok a -> llvm_alias_record c r = Some la ->
  utf8_encode (al_name a) = la_name la /\ al_ty a = la_ty la /\ al_value a = la_space la /\ al_linkage a = llvm_linkage (la_value la) /\
  (exists link, field r 5 link /\ al_visibility a = llvm_visibility link /\ la_linkage la = llvm_linkage link).
Proof. exact alias_both. Qed.
Print Assumptions C87_same_alias_partial.

(** Of the alias records LLVM reads, llvm-mapper reads those with a name in UTF-8 that is not empty, one of the linkages 0 to 2 and
    a visibility of 0 to 2 or none. *)
Theorem C87_aliases_accepted_partial : forall e c r la, fields64 r -> N.of_nat (length (cx_strtab c)) < 2 ^ 64 -> 2 <= cx_version c ->
  llvm_alias_record c r = Some la ->
  ((exists a, alias_of e c r = Ok a) <->
   (exists s, named (cx_strtab c) r s) /\ (exists v, field r 5 v /\ v <= 2) /\ (forall v, field r 6 v -> v <= 2)).
Proof. exact alias_accepted. Qed.
Print Assumptions C87_aliases_accepted_partial.

(** No internal or private alias is read. *)
Theorem C87_local_aliases_are_refused : forall e c r la, fields64 r -> N.of_nat (length (cx_strtab c)) < 2 ^ 64 ->
  llvm_alias_record c r = Some la -> la_linkage la = LkInternal \/ la_linkage la = LkPrivate -> forall a, alias_of e c r <> Ok a.
Proof. exact local_refused. Qed.
Print Assumptions C87_local_aliases_are_refused.

(** So no module with one is mapped. *)
Theorem C87_modules_have_no_local_aliases : forall e host t b m c fns aliases r la, Forall fields64 (b_records b) ->
  N.of_nat (length t) < 2 ^ 64 -> module_map e host t b = Ok (m, c, fns, aliases) ->
  In r (b_records b) -> r_code r = 14 -> llvm_alias_record c r = Some la -> la_linkage la <> LkInternal /\ la_linkage la <> LkPrivate.
Proof. exact module_without_local. Qed.
Print Assumptions C87_modules_have_no_local_aliases.

(** Of the alias records llvm-mapper reads, LLVM reads those with six fields or more. *)
Theorem C87_aliases_accepted_by_llvm_partial : forall e c r a, fields64 r -> N.of_nat (length (cx_strtab c)) < 2 ^ 64 ->
  alias_of e c r = Ok a -> ((exists la, llvm_alias_record c r = Some la) <-> (6 <= length (r_fields r))%nat).
Proof. exact alias_read_by_llvm. Qed.
Print Assumptions C87_aliases_accepted_by_llvm_partial.

(** The address space is what goes wrong. If llvm-mapper reads the record without it, LLVM reads the record with it, with the same
    name, type, aliasee, linkage, tls mode and unnamed_addr. The visibility is LLVM's but for internal and private aliases. The
    storage class is LLVM's but for records without one whose linkage is the old dllimport or dllexport. The preemption is LLVM's
    but for aliases that LLVM takes for dso_local because of their linkage or visibility. *)
Theorem C87_without_address_space_partial : forall e c r a, fields64 r -> N.of_nat (length (cx_strtab c)) < 2 ^ 64 ->
  alias_of e c (without_space r) = Ok a ->
  exists la, llvm_alias_record c r = Some la /\ alias_agree a la /\
    (al_visibility a = la_visibility la <-> (al_linkage a = LkInternal \/ al_linkage a = LkPrivate -> al_visibility a = VisDefault)) /\
    (al_storage a = la_storage la <-> ~ ((length (r_fields r) <= 7)%nat /\ (field r 5 5 \/ field r 5 6))) /\
    (al_preemption a = la_preemption la <->
       (al_linkage a = LkInternal \/ al_linkage a = LkPrivate \/ (la_visibility la <> VisDefault /\ al_linkage a <> LkExternalWeak) ->
        al_preemption a = RpDsoLocal)).
Proof. exact repaired_both. Qed.
Print Assumptions C87_without_address_space_partial.

(** Without the address space, llvm-mapper reads the records that LLVM reads, if the name is UTF-8 and not empty and the visibility
    and storage class are known. *)
Theorem C87_without_address_space_accepted_partial : forall e c r la, fields64 r -> N.of_nat (length (cx_strtab c)) < 2 ^ 64 ->
  2 <= cx_version c -> llvm_alias_record c r = Some la ->
  ((exists a, alias_of e c (without_space r) = Ok a) <->
   (exists s, named (cx_strtab c) r s) /\ (forall v, field r 6 v -> v <= 2) /\ (forall v, field r 7 v -> v <= 2)).
Proof. exact repaired_accepted. Qed.
Print Assumptions C87_without_address_space_accepted_partial.

(** LLVM reads every COMDAT that llvm-mapper reads, with the same name. The kinds agree if the number is 0 and only then; LLVM
    writes 1 to 5. *)
Theorem C87_same_comdat_partial : forall e version t r c, fields64 r -> N.of_nat (length t) < 2 ^ 64 -> comdat_of e version t r = Ok c ->
  exists k, llvm_comdat t r = Some (utf8_encode (cd_name c), k) /\ (cd_kind c = k <-> field r 2 0).
Proof. exact comdat_both. Qed.
Print Assumptions C87_same_comdat_partial.

(** Of the COMDATs LLVM reads, llvm-mapper reads those of three fields with a name in UTF-8 that is not empty and a kind of at
    most 4. *)
Theorem C87_comdats_accepted_partial : forall e version t r x, fields64 r -> N.of_nat (length t) < 2 ^ 64 -> 2 <= version ->
  llvm_comdat t r = Some x ->
  ((exists c, comdat_of e version t r = Ok c) <->
   length (r_fields r) = 3%nat /\ (exists s, named t r s) /\ exists v, field r 2 v /\ v <= 4).
Proof. exact comdat_accepted. Qed.
Print Assumptions C87_comdats_accepted_partial.

(** The string table "main.é" with a stray byte behind it; i32 and i8. *)
Definition ar_ctx : mctx :=
  mkCtx 2 layout_default [] [] (lit "main." ++ [195; 169; 255]) [] [] [TInteger 32; TInteger 8] [].
(** The alias "é" of type i8 in address space 3 to value 7, appending, protected, dllimport, thread_local(initialexec),
    local_unnamed_addr, dso_local. *)
Definition ar_record : record := mkRecord None 14 [5; 2; 1; 3; 7; 2; 2; 1; 3; 2; 1].
Definition ar_llvm : llvm_alias_rec :=
  mkLlvmAlias [195; 169] (TInteger 8) 3 7 LkAppending VisProtected DllImport TlsInitialExecTls UaLocal RpDsoLocal.
Example C87_example :
  fields64 ar_record /\ llvm_alias_record ar_ctx ar_record = Some ar_llvm /\
  alias_of debug_env ar_ctx ar_record =
    Ok (mkAlias [233] (TInteger 8) 3 LkExternalWeak VisProtected DllExport TlsGeneralDynamicTls UaNone RpDsoPreemptable) /\
  alias_of debug_env ar_ctx (without_space ar_record) =
    Ok (mkAlias [233] (TInteger 8) 7 LkAppending VisProtected DllImport TlsInitialExecTls UaLocal RpDsoLocal) /\
  (* an internal alias *)
  llvm_alias_record ar_ctx (mkRecord None 14 [0; 4; 0; 0; 1; 3; 0]) =
    Some (mkLlvmAlias (lit "main") (TInteger 32) 0 1 LkInternal VisDefault DllDefault TlsNotThreadLocal UaNone RpDsoLocal) /\
  alias_of debug_env ar_ctx (mkRecord None 14 [0; 4; 0; 0; 1; 3; 0]) = Err (AlVisibility 3) /\
  (* a COMDAT *)
  comdat_of debug_env 2 (cx_strtab ar_ctx) (mkRecord None 12 [5; 2; 3]) = Ok (mkComdat SkNoDeduplicate [233]) /\
  llvm_comdat (cx_strtab ar_ctx) (mkRecord None 12 [5; 2; 3]) = Some ([195; 169], SkLargest) /\
  comdat_of debug_env 2 (cx_strtab ar_ctx) (mkRecord None 12 [5; 2; 0]) = Ok (mkComdat SkAny [233]) /\
  llvm_comdat (cx_strtab ar_ctx) (mkRecord None 12 [5; 2; 0]) = Some ([195; 169], SkAny).
Proof. split; [repeat constructor|]. vm_compute. repeat split. Qed.

(** A module with a weak alias of i32 to value 1, and the same module with an internal one. *)
Definition ar_module (link : N) : block := mkBlock (BIr IbModule)
  [mkRecord None 1 [2]; mkRecord None 14 [0; 4; 0; 0; 1; link; 0]]
  [(BIr IbType, [mkBlock (BIr IbType) [mkRecord None 1 [1]; mkRecord None 7 [32]] []]); (BIr IbValueSymtab, [mkBlock (BIr IbValueSymtab) [] []])].
Example C87_module_example :
  Forall fields64 (b_records (ar_module 1)) /\
  (exists m c a la, module_map debug_env (lit "host") (cx_strtab ar_ctx) (ar_module 1) = Ok (m, c, [], [a]) /\
     llvm_alias_record c (mkRecord None 14 [0; 4; 0; 0; 1; 1; 0]) = Some la /\ la_linkage la = LkWeakAny) /\
  module_map debug_env (lit "host") (cx_strtab ar_ctx) (ar_module 3) = Err (MdAlias (AlVisibility 3)).
Proof.
  split; [repeat constructor|]. split; [|vm_compute; reflexivity]. do 4 eexists.
  split; [vm_compute; reflexivity|]. split; [vm_compute; reflexivity|reflexivity].
Qed.

(** An alias of another aliasee, linkage and visibility than in LLVM. *)
Theorem C87_aliases_refuted : exists c r a la, fields64 r /\ alias_of debug_env c r = Ok a /\ llvm_alias_record c r = Some la /\
  al_value a <> la_value la /\ al_linkage a <> la_linkage la /\ al_visibility a <> la_visibility la.
Proof.
  exists ar_ctx, (mkRecord None 14 [0; 4; 0; 0; 7; 1; 0]). eexists. eexists.
  split; [repeat constructor|]. split; [vm_compute; reflexivity|]. split; [vm_compute; reflexivity|]. repeat split; discriminate.
Qed.
Print Assumptions C87_aliases_refuted.

(** An alias record of five fields is read, LLVM refuses it. *)
Theorem C87_aliases_accepted_by_llvm_refuted : exists c r a, fields64 r /\ alias_of debug_env c r = Ok a /\ llvm_alias_record c r = None.
Proof.
  exists ar_ctx, (mkRecord None 14 [0; 4; 0; 7; 0]). eexists.
  split; [repeat constructor|]. split; [vm_compute; reflexivity|]. vm_compute. reflexivity.
Qed.
Print Assumptions C87_aliases_accepted_by_llvm_refuted.

(** Without the address space: a hidden internal alias, an old dllexport, a hidden alias that is not marked dso_local. *)
Theorem C87_without_address_space_refuted : exists c,
  (exists r a la, fields64 r /\ alias_of debug_env c (without_space r) = Ok a /\ llvm_alias_record c r = Some la /\
     al_visibility a = VisHidden /\ la_visibility la = VisDefault) /\
  (exists r a la, fields64 r /\ alias_of debug_env c (without_space r) = Ok a /\ llvm_alias_record c r = Some la /\
     al_storage a = DllDefault /\ la_storage la = DllExport) /\
  (exists r a la, fields64 r /\ alias_of debug_env c (without_space r) = Ok a /\ llvm_alias_record c r = Some la /\
     al_preemption a = RpDsoPreemptable /\ la_preemption la = RpDsoLocal).
Proof.
  exists ar_ctx. split; [|split].
  - exists (mkRecord None 14 [0; 4; 0; 0; 7; 3; 1]). eexists. eexists.
    split; [repeat constructor|]. split; [vm_compute; reflexivity|]. split; [vm_compute; reflexivity|]. split; reflexivity.
  - exists (mkRecord None 14 [0; 4; 0; 0; 7; 6; 0]). eexists. eexists.
    split; [repeat constructor|]. split; [vm_compute; reflexivity|]. split; [vm_compute; reflexivity|]. split; reflexivity.
  - exists (mkRecord None 14 [0; 4; 0; 0; 7; 0; 1; 0; 0; 0; 0]). eexists. eexists.
    split; [repeat constructor|]. split; [vm_compute; reflexivity|]. split; [vm_compute; reflexivity|]. split; reflexivity.
Qed.
Print Assumptions C87_without_address_space_refuted.

(** COMDATs LLVM reads and llvm-mapper refuses: samesize, a fourth field, a name that is not UTF-8, no name. *)
Theorem C87_comdats_refuted : exists t, Forall (fun l => fields64 (mkRecord None 12 l) /\
    (exists x, llvm_comdat t (mkRecord None 12 l) = Some x) /\ forall c, comdat_of debug_env 2 t (mkRecord None 12 l) <> Ok c)
  [[0; 4; 5]; [0; 4; 1; 0]; [5; 3; 1]; [0; 0; 1]].
Proof.
  exists (cx_strtab ar_ctx).
  repeat (constructor; [split; [repeat constructor|split; [eexists; vm_compute; reflexivity|intros c H; vm_compute in H; discriminate H]]|]).
  constructor.
Qed.
Print Assumptions C87_comdats_refuted.
