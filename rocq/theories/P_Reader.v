(** Property theorem C84: function records in llvm-mapper (llvm-mapper/src/record/function.rs) and in LLVM's reader.
    [llvm_function], [agree] and [strict] are in ReaderSpec.v, [function_described] is in RecordSpec.v. *)
From Verif Require Import Base Strings EnumModel SupportModel SupportSpec LayoutModel UnrollModel AttributeModel AttributeSpec TablesSpec
  TypeTableSpec RecordModel RecordSpec SupportMain RecordProofs ReaderSpec ReaderProofs.
From Coq Require Import Lia.
Local Open Scope N_scope.

(** *** C84: function records mean what LLVM's reader takes them for *)

(** A function read by both has the same name, type, calling convention, linkage, attributes, alignment, section, collector and
    unnamed_addr, and is a declaration in both or in none. Missing: visibility and storage class, see the next two, and
    the records that one of them refuses. *)
Theorem C84_same_function_partial : forall e most c r f lf, most <= 63 -> fields64 r -> N.of_nat (length (cx_strtab c)) < 2 ^ 64 ->
  fn_of e c r = Ok f -> llvm_function most c r = Some lf -> agree f lf.
Proof.
  intros e most c r f lf M F B H L. apply (function_exact e c r f F B) in H as [_ D]. exact (proj1 (both_agree _ _ _ _ _ M D L)).
Qed.
Print Assumptions C84_same_function_partial.

(** The visibility is LLVM's but for internal and private functions: those have the default visibility in LLVM. *)
Theorem C84_visibility_partial : forall e most c r f lf, most <= 63 -> fields64 r -> N.of_nat (length (cx_strtab c)) < 2 ^ 64 ->
  fn_of e c r = Ok f -> llvm_function most c r = Some lf ->
  (fn_visibility f = lf_visibility lf <-> (fn_linkage f = LkInternal \/ fn_linkage f = LkPrivate -> fn_visibility f = VisDefault)).
Proof.
  intros e most c r f lf M F B H L. apply (function_exact e c r f F B) in H as [_ D].
  destruct (both_agree _ _ _ _ _ M D L) as (_ & V & _). rewrite V. unfold local_linkage.
  destruct (fn_linkage f); split; auto; intros _ [K|K]; discriminate K.
Qed.
Print Assumptions C84_visibility_partial.

(** The storage class is LLVM's but for records without one whose linkage is the old dllimport or dllexport. *)
Theorem C84_storage_partial : forall e most c r f lf, most <= 63 -> fields64 r -> N.of_nat (length (cx_strtab c)) < 2 ^ 64 ->
  fn_of e c r = Ok f -> llvm_function most c r = Some lf ->
  (fn_storage f = lf_storage lf <-> ~ ((length (r_fields r) <= 13)%nat /\ (field r 5 5 \/ field r 5 6))).
Proof.
  intros e most c r f lf M F B H L. apply (function_exact e c r f F B) in H as [_ D].
  destruct (both_agree _ _ _ _ _ M D L) as (_ & _ & S1 & S2). exact (storage_split _ _ _ S1 S2).
Qed.
Print Assumptions C84_storage_partial.

(** Of the records LLVM reads, llvm-mapper reads the [strict] ones. *)
Theorem C84_accepted_partial : forall e most c r lf, most <= 63 -> fields64 r -> N.of_nat (length (cx_strtab c)) < 2 ^ 64 ->
  2 <= cx_version c -> llvm_function most c r = Some lf -> ((exists f, fn_of e c r = Ok f) <-> strict c r).
Proof. exact accepted_exactly. Qed.
Print Assumptions C84_accepted_partial.

(** Of the records llvm-mapper reads, LLVM reads those with an alignment of at most [2^most] bytes and a known COMDAT or none. *)
Theorem C84_accepted_by_llvm_partial : forall e most c r f, most <= 63 -> Forall (fun v => v < 2 ^ 32) (r_fields r) ->
  N.of_nat (length (cx_strtab c)) < 2 ^ 64 -> fn_of e c r = Ok f ->
  ((exists lf, llvm_function most c r = Some lf) <->
   (exists v, field r 7 v /\ v <= most + 1) /\ (forall v, field r 14 v -> v <= N.of_nat (length (cx_comdats c)))).
Proof. exact read_by_llvm. Qed.
Print Assumptions C84_accepted_by_llvm_partial.

(** llvm-mapper's calling conventions are conventions of LLVM 14. Missing are tailcc, cfguard_checkcc and swifttailcc (18 to
    20), and AArch64's vector conventions, Emscripten's, amdgpu_gfx and M68k's (97 to 101). *)
Theorem C84_conventions_partial : forall v,
  (llvm_convention v /\ ~ In v [18; 19; 20; 97; 98; 99; 100; 101]) <-> exists x, In (x, v) calling_convention_table.
Proof. exact conventions_known. Qed.
Print Assumptions C84_conventions_partial.

(** The string table "main.é" with a stray byte behind it; i32, i32 (i32) and a pointer to it. *)
Definition rd_type : ty := TFunction (TInteger 32) [TInteger 32] false.
Definition rd_ctx : mctx :=
  mkCtx 2 layout_default [lit ".text.hot"; lit ".init"] [lit "shadow-stack"] (lit "main." ++ [195; 169; 255]) []
    [[mkGroup DiReturn [AtEnum AiNoAlias]]] [TInteger 32; rd_type; TPointer rd_type 0] [mkComdat SkAny (lit "grp")].
(** A function: name "é", fastcc, a definition, weak_odr, attributes 1, align 16, section 2, protected, collector 1,
    local_unnamed_addr, -, dllexport, comdat 1. *)
Definition rd_record : record := mkRecord None 8 [5; 2; 1; 8; 0; 17; 1; 5; 2; 2; 1; 2; 0; 2; 1].
Definition rd_fn : fn_rec :=
  mkFn [233] rd_type CcFast false LkWeakOdr (Some [mkGroup DiReturn [AtEnum AiNoAlias]])
    (Some (mkAlign 4)) (Some (lit ".init")) VisProtected (Some (lit "shadow-stack")) UaLocal DllExport.
Definition rd_llvm : llvm_fn :=
  mkLlvmFn [195; 169] rd_type 8 false LkWeakOdr [mkGroup DiReturn [AtEnum AiNoAlias]]
    (Some 4) (Some (lit ".init")) VisProtected (Some (lit "shadow-stack")) UaLocal DllExport.
Example C84_example :
  fields64 rd_record /\ fn_of debug_env rd_ctx rd_record = Ok rd_fn /\ llvm_function 29 rd_ctx rd_record = Some rd_llvm /\
  agree rd_fn rd_llvm /\ strict rd_ctx rd_record.
Proof.
  assert (F : fields64 rd_record) by repeat constructor. assert (H : fn_of debug_env rd_ctx rd_record = Ok rd_fn) by (vm_compute; reflexivity).
  assert (L : llvm_function 29 rd_ctx rd_record = Some rd_llvm) by (vm_compute; reflexivity).
  split; [exact F|]. split; [exact H|]. split; [exact L|]. split; [constructor; reflexivity|].
  apply (C84_accepted_partial debug_env 29 rd_ctx rd_record rd_llvm); [discriminate|exact F|vm_compute; reflexivity|discriminate|exact L|].
  now exists rd_fn.
Qed.

(** Records LLVM reads and llvm-mapper refuses: a tail-calling convention, a pointer to a function type, a name that is not
    UTF-8, no name, an unknown list of attributes, an unknown visibility, an unknown storage class. *)
Definition refused (c : mctx) (l : list N) (x : fn_err) : Prop :=
  fields64 (mkRecord None 8 l) /\ (exists lf, llvm_function 29 c (mkRecord None 8 l) = Some lf) /\
  fn_of debug_env c (mkRecord None 8 l) = Err x.
Theorem C84_accepted_refuted : exists c,
  (exists x, refused c [0; 4; 1; 18; 0; 0; 0; 0; 0; 0] x) /\
  (exists x, refused c [0; 4; 2; 0; 0; 0; 0; 0; 0; 0] x) /\
  (exists x, refused c [5; 3; 1; 0; 0; 0; 0; 0; 0; 0] x) /\
  (exists x, refused c [0; 0; 1; 0; 0; 0; 0; 0; 0; 0] x) /\
  (exists x, refused c [0; 4; 1; 0; 0; 0; 2; 0; 0; 0] x) /\
  (exists x, refused c [0; 4; 1; 0; 0; 0; 0; 0; 0; 3] x) /\
  (exists x, refused c [0; 4; 1; 0; 0; 0; 0; 0; 0; 0; 0; 0; 0; 3] x).
Proof.
  exists rd_ctx. unfold refused.
  repeat match goal with |- _ /\ _ => split | |- fields64 _ => repeat constructor
    | |- exists x, _ /\ _ /\ _ => eexists | |- exists lf, llvm_function _ _ _ = Some _ => eexists end; vm_compute; reflexivity.
Qed.
Print Assumptions C84_accepted_refuted.

(** An internal function with a hidden visibility. *)
Theorem C84_visibility_refuted : exists c r f lf, fields64 r /\ fn_of debug_env c r = Ok f /\ llvm_function 29 c r = Some lf /\
  fn_visibility f = VisHidden /\ lf_visibility lf = VisDefault.
Proof.
  exists rd_ctx, (mkRecord None 8 [0; 4; 1; 0; 0; 3; 0; 0; 0; 1]). eexists. eexists.
  split; [repeat constructor|]. split; [vm_compute; reflexivity|]. split; [vm_compute; reflexivity|]. split; reflexivity.
Qed.
Print Assumptions C84_visibility_refuted.

(** An old dllimport. *)
Theorem C84_storage_refuted : exists c r f lf, fields64 r /\ fn_of debug_env c r = Ok f /\ llvm_function 29 c r = Some lf /\
  fn_storage f = DllDefault /\ lf_storage lf = DllImport.
Proof.
  exists rd_ctx, (mkRecord None 8 [0; 4; 1; 0; 1; 5; 0; 0; 0; 0]). eexists. eexists.
  split; [repeat constructor|]. split; [vm_compute; reflexivity|]. split; [vm_compute; reflexivity|]. split; reflexivity.
Qed.
Print Assumptions C84_storage_refuted.

(** Records llvm-mapper reads and LLVM refuses: an alignment of [2^34] bytes, COMDAT 2 of 1. *)
Theorem C84_accepted_by_llvm_refuted : exists c r1 r2 f1 f2, fields64 r1 /\ fields64 r2 /\
  fn_of debug_env c r1 = Ok f1 /\ fn_of debug_env c r2 = Ok f2 /\
  (forall most, most <= 32 -> llvm_function most c r1 = None) /\ (forall most, llvm_function most c r2 = None).
Proof.
  exists rd_ctx, (mkRecord None 8 [0; 4; 1; 0; 0; 0; 0; 35; 0; 0]), (mkRecord None 8 [0; 4; 1; 0; 0; 0; 0; 0; 0; 0; 0; 0; 0; 0; 2]). eexists. eexists.
  split; [repeat constructor|]. split; [repeat constructor|]. split; [vm_compute; reflexivity|]. split; [vm_compute; reflexivity|]. split.
  - intros most M. unfold llvm_function. cbn -[N.ltb N.add]. replace (most + 1 <? 35) with true by (symmetry; apply N.ltb_lt; lia). reflexivity.
  - intros most. unfold llvm_function. cbn -[N.ltb N.add]. destruct (most + 1 <? 0); reflexivity.
Qed.
Print Assumptions C84_accepted_by_llvm_refuted.
