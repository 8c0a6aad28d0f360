(** Property theorems C38, C47, C48, C55: records, modules (llvm-mapper/src/record, block/module.rs and
    block/function/mod.rs). [function_described], [alias_described] and [comdat_described] are in
    RecordSpec.v, [module_described] in ModuleSpec.v. *)
From Verif Require Import Base Strings EnumModel SupportModel SupportSpec LayoutModel CursorModel StreamModel UnrollModel UnrollSpec
  AttributeModel AttributeSpec TablesModel TablesSpec TypeTableModel TypeTableSpec RecordModel RecordSpec SupportMain RecordProofs
  ModuleModel ModuleSpec ModuleProofs ModuleBodies.
From Coq Require Import Lia.
Local Open Scope N_scope.

(** The string table "main.aux.grp"; one section, one collector, i32 and i32 (i32), one attribute
    list. *)
Definition ex_strtab : strtab := [109; 97; 105; 110; 46; 97; 117; 120; 46; 103; 114; 112].
Definition ex_fn_type : ty := TFunction (TInteger 32) [TInteger 32] false.
Definition ex_ctx : mctx :=
  mkCtx 2 layout_default [[46; 116]; [46; 117]] [[103; 99]] ex_strtab [] [[mkGroup DiReturn [AtEnum AiNoAlias]]]
    [TInteger 32; ex_fn_type] [mkComdat SkAny [103; 114; 112]].

(** *** C38: function, alias and comdat records *)

(** [function_described] takes the low byte of the alignment, see below. *)
Theorem C38_functions_partial : forall e c r f, fields64 r -> N.of_nat (length (cx_strtab c)) < 2 ^ 64 ->
  (fn_of e c r = Ok f <-> 2 <= cx_version c /\ function_described c r f).
Proof. exact function_exact. Qed.
Print Assumptions C38_functions_partial.

(** [alias_described] is not LLVM's layout, see below. *)
Theorem C38_aliases_partial : forall e c r a, fields64 r -> N.of_nat (length (cx_strtab c)) < 2 ^ 64 ->
  (alias_of e c r = Ok a <-> 2 <= cx_version c /\ alias_described c r a).
Proof. exact alias_exact. Qed.
Print Assumptions C38_aliases_partial.

(** With llvm-mapper's numbers for the selection kinds, see C55. *)
Theorem C38_comdats_partial : forall e version t r c, fields64 r -> N.of_nat (length t) < 2 ^ 64 ->
  (comdat_of e version t r = Ok c <-> 2 <= version /\ comdat_described selection_table t r c).
Proof. exact comdat_exact. Qed.
Print Assumptions C38_comdats_partial.

Theorem C38_short_records_are_rejected : forall e c t r,
  ((length (r_fields r) < 10)%nat ->
     fn_of e c r = Err (if 2 <=? cx_version c then FeTooShort (N.of_nat (length (r_fields r))) else FeV1)) /\
  ((length (r_fields r) < 5)%nat ->
     alias_of e c r = Err (if 2 <=? cx_version c then AlTooShort (N.of_nat (length (r_fields r))) else AlV1)) /\
  (length (r_fields r) <> 3%nat -> forall version,
     comdat_of e version t r = Err (if 2 <=? version then CdTooShort (N.of_nat (length (r_fields r))) else CdV1)).
Proof. intros e c t r. exact (conj (function_short e c r) (conj (alias_short e c r) (fun H v => comdat_lengths e v t r H))). Qed.
Print Assumptions C38_short_records_are_rejected.

Theorem C38_old_versions_are_rejected : forall e c t r,
  (cx_version c < 2 -> fn_of e c r = Err FeV1 /\ alias_of e c r = Err AlV1) /\
  (forall version, version < 2 -> comdat_of e version t r = Err CdV1).
Proof.
  intros e c t r. exact (conj (fun H => conj (function_old e c r H) (alias_old e c r H)) (fun v => comdat_old e v t r)).
Qed.
Print Assumptions C38_old_versions_are_rejected.

(** The only panics are those of the string table (C31), and there is no divergence. *)
Theorem C38_panics_exactly : forall e c version t r p, fields64 r ->
  let bad := if overflow_checks e then PAddOverflow else PSliceRange in
  (fn_of e c r = Panic p <->
     p = bad /\ 2 <= cx_version c /\ (10 <= length (r_fields r))%nat /\ bad_reference (cx_strtab c) r) /\
  (alias_of e c r = Panic p <->
     p = bad /\ 2 <= cx_version c /\ (5 <= length (r_fields r))%nat /\ bad_reference (cx_strtab c) r) /\
  (comdat_of e version t r = Panic p <->
     p = bad /\ 2 <= version /\ length (r_fields r) = 3%nat /\ bad_reference t r).
Proof.
  intros e c version t r p F. exact (conj (function_panic e c r p F) (conj (alias_panic e c r p F) (comdat_panic e version t r p F))).
Qed.
Print Assumptions C38_panics_exactly.

Theorem C38_terminates : forall e c version t r, fields64 r ->
  fn_of e c r <> OutOfFuel /\ alias_of e c r <> OutOfFuel /\ comdat_of e version t r <> OutOfFuel.
Proof.
  intros e c version t r F. exact (conj (function_fuel e c r F) (conj (alias_fuel e c r F) (comdat_fuel e version t r F))).
Qed.
Print Assumptions C38_terminates.

(** What becomes of an alias record of LLVM: the address space is taken for the aliasee, the
    aliasee for the linkage, the linkage for the visibility. *)
Theorem C38_llvm_aliases_are_misread : forall e c r a space aliasee link,
  fields64 r -> N.of_nat (length (cx_strtab c)) < 2 ^ 64 -> llvm_alias r space aliasee link -> alias_of e c r = Ok a ->
  al_value a = space /\ decodes linkage_table LkExternal aliasee (al_linkage a) /\ In (al_visibility a, link) visibility_table.
Proof. exact alias_misread. Qed.
Print Assumptions C38_llvm_aliases_are_misread.

(** Fields from the 14th on are not looked at; the reference to the COMDAT is one of them. *)
Theorem C38_comdat_references_are_ignored : forall e c r1 r2,
  firstn 14 (r_fields r1) = firstn 14 (r_fields r2) -> fn_of e c r1 = fn_of e c r2.
Proof. exact function_tail. Qed.
Print Assumptions C38_comdat_references_are_ignored.

(** A function: name "main", type 1, ccc, a definition, internal, attributes 1, align 16, section
    2, hidden, collector 1, unnamed_addr, -, dllexport, comdat 1. *)
Definition ex_fn_record : record := mkRecord None 8 [0; 4; 1; 0; 0; 3; 1; 5; 2; 1; 1; 1; 0; 2; 1].
Definition ex_fn : fn_rec :=
  mkFn [109; 97; 105; 110] ex_fn_type CcC false LkInternal (Some [mkGroup DiReturn [AtEnum AiNoAlias]])
    (Some (mkAlign 4)) (Some [46; 117]) VisHidden (Some [103; 99]) UaGlobal DllExport.
Example C38_example :
  fields64 ex_fn_record /\ fn_of debug_env ex_ctx ex_fn_record = Ok ex_fn /\
  comdat_of debug_env 2 ex_strtab (mkRecord None 12 [9; 3; 2]) = Ok (mkComdat SkLargest [103; 114; 112]) /\
  (* alias "aux" to value 7 in address space 3, appending (2), hidden; read as an alias to value 3 *)
  alias_of debug_env ex_ctx (mkRecord None 14 [5; 3; 0; 3; 7; 2; 1]) =
    Ok (mkAlias [97; 117; 120] (TInteger 32) 3 LkExternalWeak VisProtected DllImport TlsNotThreadLocal UaNone RpDsoPreemptable) /\
  (* the name reaches from byte 1 to byte 2^64 *)
  bad_reference ex_strtab (mkRecord None 12 [1; 2 ^ 64 - 1; 0]) /\
  comdat_of debug_env 2 ex_strtab (mkRecord None 12 [1; 2 ^ 64 - 1; 0]) = Panic PAddOverflow.
Proof.
  split; [repeat constructor|]. split; [vm_compute; reflexivity|]. split; [vm_compute; reflexivity|].
  split; [vm_compute; reflexivity|]. split; [|vm_compute; reflexivity].
  exists 1, (2 ^ 64 - 1). vm_compute. repeat split; try reflexivity. discriminate.
Qed.
(** Two functions that differ in their COMDAT only. *)
Theorem C38_comdat_reference_refuted : exists e c r1 r2 f, fields64 r1 /\ fields64 r2 /\
  field r1 14 1 /\ field r2 14 0 /\ cx_comdats c <> [] /\ fn_of e c r1 = Ok f /\ fn_of e c r2 = Ok f.
Proof.
  exists debug_env, ex_ctx, ex_fn_record, (mkRecord None 8 [0; 4; 1; 0; 0; 3; 1; 5; 2; 1; 1; 1; 0; 2; 0]), ex_fn.
  split; [repeat constructor|]. split; [repeat constructor|]. split; [reflexivity|]. split; [reflexivity|].
  split; [discriminate|]. split; vm_compute; reflexivity.
Qed.
Print Assumptions C38_comdat_reference_refuted.
Theorem C38_alias_layout_refuted : exists e c r a space aliasee link, fields64 r /\
  llvm_alias r space aliasee link /\ alias_of e c r = Ok a /\ al_value a <> aliasee /\ ~ decodes linkage_table LkExternal link (al_linkage a).
Proof.
  exists debug_env, ex_ctx, (mkRecord None 14 [5; 3; 0; 3; 7; 2; 1]). eexists. exists 3, 7, 2.
  split; [repeat constructor|]. split; [repeat split; reflexivity|]. split; [vm_compute; reflexivity|].
  split; [discriminate|]. cbn [al_linkage]. intros H. apply (decodes_iff _ _ _ linkage_realises) in H. discriminate H.
Qed.
Print Assumptions C38_alias_layout_refuted.
(** An alignment field of 6 + 256 is taken for 32 bytes. *)
Theorem C38_alignment_refuted : exists c r f, fields64 r /\ field r 7 (6 + 256) /\
  fn_of debug_env c r = Ok f /\ fn_alignment f = Some (mkAlign 5).
Proof.
  exists ex_ctx, (mkRecord None 8 [0; 4; 1; 0; 0; 3; 1; 262; 2; 1]).
  eexists. split; [repeat constructor|]. split; [reflexivity|]. split; [vm_compute; reflexivity|reflexivity].
Qed.
Print Assumptions C38_alignment_refuted.

(** *** C55: the selection kinds of COMDATs *)

(** A COMDAT never has the kind that LLVM's number stands for. *)
Theorem C55_selection_kinds_are_never_those_of_llvm : forall e version t r c, fields64 r -> N.of_nat (length t) < 2 ^ 64 ->
  comdat_of e version t r = Ok c -> ~ comdat_described llvm_selection_table t r c.
Proof. exact comdat_misread. Qed.
Print Assumptions C55_selection_kinds_are_never_those_of_llvm.

Theorem C55_selection_kinds_refuted : exists e t r c c', fields64 r /\
  comdat_described llvm_selection_table t r c /\ comdat_of e 2 t r = Ok c' /\ c' <> c.
Proof.
  exists debug_env, ex_strtab, (mkRecord None 12 [9; 3; 1]), (mkComdat SkAny [103; 114; 112]), (mkComdat SkExactMatch [103; 114; 112]).
  split; [repeat constructor|]. split; [|split; [vm_compute; reflexivity|discriminate]]. split; [reflexivity|]. split.
  - exists 9, 3. split; [reflexivity|]. split; [reflexivity|]. split; [discriminate|].
    exists [109; 97; 105; 110; 46; 97; 117; 120; 46], []. vm_compute. auto.
  - exists 1. split; [reflexivity|]. now left.
Qed.
Print Assumptions C55_selection_kinds_refuted.

(** The number of [samesize] is rejected. *)
Example C55_example :
  comdat_of debug_env 2 ex_strtab (mkRecord None 12 [9; 3; 1]) = Ok (mkComdat SkExactMatch [103; 114; 112]) /\
  comdat_of debug_env 2 ex_strtab (mkRecord None 12 [9; 3; 5]) = Err (CdKind 5).
Proof. vm_compute. auto. Qed.

(** *** C47: modules *)

Theorem C47_modules_exactly : forall e host t b m c fns aliases,
  NoDup (map fst (b_blocks b)) -> Forall fields64 (b_records b) -> N.of_nat (length t) < 2 ^ 64 ->
  (module_map e host t b = Ok (m, c, fns, aliases) <-> module_described e host t b m c fns aliases).
Proof. exact module_exact. Qed.
Print Assumptions C47_modules_exactly.

Theorem C47_mapped_modules : forall e host t b m,
  NoDup (map fst (b_blocks b)) -> Forall fields64 (b_records b) -> N.of_nat (length t) < 2 ^ 64 ->
  (module_of e host t b = Ok m <-> exists c fns aliases, module_described e host t b m c fns aliases).
Proof. exact module_of_exact. Qed.
Print Assumptions C47_mapped_modules.

(** The version of the module's only VERSION record decides how operands and names are encoded. *)
Theorem C47_versions : forall e host t b m c fns aliases,
  NoDup (map fst (b_blocks b)) -> Forall fields64 (b_records b) -> N.of_nat (length t) < 2 ^ 64 ->
  module_map e host t b = Ok (m, c, fns, aliases) ->
  exists r v l, sole 1 b r /\ r_fields r = v :: l /\
    (use_relative_ids c = false <-> v = 0) /\ (use_strtab c = false <-> v = 0 \/ v = 1).
Proof.
  intros e host t b m c fns aliases ND F L H. apply module_exact in H; [|assumption..].
  destruct H as [[(r & l & S1 & S2)] _ _ _ _ _ _]. exists r, (cx_version c), l. split; [exact S1|]. split; [exact S2|].
  unfold use_relative_ids, use_strtab. lia.
Qed.
Print Assumptions C47_versions.

(** Sub-blocks of the module. *)
Definition ex_type_block : block := mkBlock (BIr IbType)
  [mkRecord None 1 [2]; mkRecord None 7 [32]; mkRecord None 21 [0; 0; 0]] [].
Definition ex_group_block : block := mkBlock (BIr IbParamAttrGroup) [mkRecord None 3 [1; 0; 0; 9]] [].
Definition ex_attr_block : block := mkBlock (BIr IbParamAttr) [mkRecord None 2 [1]] [].
Definition ex_vst_block : block := mkBlock (BIr IbValueSymtab) [] [].
(** Asm "a\nb", a triple, a layout, two sections, a collector, a dependent library, a COMDAT, a
    function, an alias. *)
Definition ex_module_block (blocks : list (block_id * list block)) : block := mkBlock (BIr IbModule)
  [mkRecord None 1 [2]; mkRecord None 2 [120; 45; 121]; mkRecord None 3 [101; 45; 83; 49; 50; 56];
   mkRecord None 4 [97; 10; 98]; mkRecord None 5 [46; 116]; mkRecord None 11 [103; 99]; mkRecord None 5 [46; 117];
   mkRecord None 6 [108; 109]; mkRecord None 12 [9; 3; 0]; ex_fn_record; mkRecord None 14 [5; 3; 0; 0; 0]] blocks.
Definition ex_blocks : list (block_id * list block) :=
  [(BIr IbType, [ex_type_block]); (BIr IbParamAttrGroup, [ex_group_block]); (BIr IbParamAttr, [ex_attr_block]);
   (BIr IbValueSymtab, [ex_vst_block])].
Definition ex_module : module := mkModule [120; 45; 121] [[97]; [98]] [[108; 109]].
Example C47_example :
  NoDup (map fst (b_blocks (ex_module_block ex_blocks))) /\ Forall fields64 (b_records (ex_module_block ex_blocks)) /\
  (exists c, module_map debug_env [104] ex_strtab (ex_module_block ex_blocks) = Ok (ex_module, c, [ex_fn],
     [mkAlias [97; 117; 120] (TInteger 32) 0 LkExternal VisDefault DllDefault TlsNotThreadLocal UaNone RpDsoPreemptable]) /\
     cx_sections c = [[46; 116]; [46; 117]] /\ cx_types c = [TInteger 32; ex_fn_type] /\
     cx_comdats c = [mkComdat SkAny [103; 114; 112]]) /\
  (* two type blocks *)
  module_of debug_env [104] ex_strtab
    (ex_module_block [(BIr IbType, [ex_type_block; ex_type_block]); (BIr IbValueSymtab, [ex_vst_block])]) =
      Err (MdInconsistent (CeTooManyBlocks (BIr IbType))).
Proof.
  split; [repeat constructor; cbn; intuition discriminate|]. split; [repeat constructor|].
  split; [eexists; split; [vm_compute; reflexivity|]; split; [reflexivity|]; split; reflexivity|vm_compute; reflexivity].
Qed.

(** *** C48: function bodies *)

(** No module with a function block is mapped; the bodies are not at fault, none is. *)
Theorem C48_modules_with_bodies_are_never_mapped : forall e host t b,
  by_id (BIr IbFunction) b <> [] -> forall m, module_of e host t b <> Ok m.
Proof. intros e host t b H m M. exact (H (module_bodies e host t b m M)). Qed.
Print Assumptions C48_modules_with_bodies_are_never_mapped.

Theorem C48_no_body_is_mapped : forall e types b f, fn_block_of e types b <> Ok f.
Proof. exact body_never. Qed.
Print Assumptions C48_no_body_is_mapped.

(** What becomes of a body, exactly: which error or panic, and for which record. *)
Theorem C48_body_records_exactly : forall types r out, fb_step types r = out <-> body_record types r out.
Proof. exact body_record_exact. Qed.
Print Assumptions C48_body_records_exactly.

Theorem C48_bodies_exactly : forall e types b out, fn_block_of e types b = out <-> body e types b out.
Proof. exact body_exact. Qed.
Print Assumptions C48_bodies_exactly.

(** The body [br] of one block, "ret void"; and an empty one. The module maps without it. *)
Definition ex_body (records : list record) : block := mkBlock (BIr IbFunction) (mkRecord None 1 [1] :: records) [].
Example C48_example :
  module_of debug_env [104] ex_strtab (ex_module_block ex_blocks) = Ok ex_module /\
  module_of debug_env [104] ex_strtab (ex_module_block ((BIr IbFunction, [ex_body [mkRecord None 10 []]]) :: ex_blocks)) =
    Panic PUnimplemented /\
  module_of debug_env [104] ex_strtab (ex_module_block ((BIr IbFunction, [ex_body []]) :: ex_blocks)) = Panic PUnimplemented.
Proof. vm_compute. auto. Qed.
(** A load, an fneg of type 0, then: an add of type 0; an add of three fields; "ret"; code 14. *)
Definition ex_two := [mkRecord None 20 [0; 1; 3; 0]; mkRecord None 56 [1; 0; 0]].
Example C48_bodies_example :
  body debug_env [TFloat] (ex_body (ex_two ++ [mkRecord None 2 [1; 0; 2; 0]])) (Err (FbBadBinOp (BeInvalidType TFloat))) /\
  body debug_env [TFloat] (ex_body (ex_two ++ [mkRecord None 2 [1; 0; 2]])) (Err (FbBadInst (InFields FcInstBinop 4 3))) /\
  body debug_env [TFloat] (ex_body (ex_two ++ [mkRecord None 10 []; mkRecord None 14 []])) (Panic PUnimplemented) /\
  body debug_env [TFloat] (ex_body (ex_two ++ [mkRecord None 14 []])) (Err (FbUnknownCode 14)) /\
  body debug_env [TFloat] (ex_body ex_two) (Panic PUnimplemented) /\
  body debug_env [TFloat] (ex_body [mkRecord None 1 [1]]) (Err (FbMap (CeTooManyRecords 1))) /\
  fb_step [TFloat] (mkRecord None 44 [0; 1; 2; 3; 4; 0]) = Err (FbBadInst (InFields FcInstStore 4 6)) /\
  fb_step [TFloat] (mkRecord None 56 [1; 7; 0]) = Err (FbBadInst (InType FcInstUnop 7)).
Proof. repeat split; try (apply C48_bodies_exactly); vm_compute; reflexivity. Qed.
Theorem C48_modules_with_bodies_refuted : exists e host t b bodies m,
  module_of e host t (ex_module_block b) = Ok m /\ bodies <> [] /\
  module_of e host t (ex_module_block ((BIr IbFunction, bodies) :: b)) = Panic PUnimplemented.
Proof.
  exists debug_env, [104], ex_strtab, ex_blocks, [ex_body [mkRecord None 10 []]], ex_module.
  split; [vm_compute; reflexivity|]. split; [discriminate|vm_compute; reflexivity].
Qed.
Print Assumptions C48_modules_with_bodies_refuted.
