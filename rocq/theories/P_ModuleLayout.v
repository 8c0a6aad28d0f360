(** C91: the data layout of a module (llvm-mapper/src/block/module.rs, record/datalayout.rs) and the one LLVM has for it. [llvm_module_strings]
    is in ModuleReaderSpec.v, [llvm_layout] and the components of LLVM's layout in LayoutReaderSpec.v. *)
From Verif Require Import Base Strings EnumModel SupportModel SupportSpec LayoutModel LayoutSpec LayoutMain LayoutReaderSpec
  LayoutReaderProofs UnrollModel AttributeModel AttributeSpec TablesModel TablesSpec RecordModel ModuleModel ModuleSpec ModuleReaderSpec ModuleReaderProofs.
From Coq Require Import Lia.
Local Open Scope N_scope.

Lemma ascii_bytes s : is_ascii s = true -> utf8_encode s = s.
Proof.
  induction s as [|c s IH]; [reflexivity|]. unfold is_ascii. cbn [forallb]. intros [Hc Hs]%Bool.andb_true_iff.
  unfold utf8_encode. cbn [flat_map]. unfold utf8_char. rewrite Hc. cbn [app]. f_equal. apply IH, Hs.
Qed.
Lemma layout_ascii s d : layout_from_str s = Ok d -> is_ascii s = true.
Proof. unfold layout_from_str. destruct (is_ascii s); [reflexivity|discriminate]. Qed.

(** The layout of a mapped module is the one of LLVM's string, or both are the defaults. *)
Lemma module_layout e host t b m c fns aliases ls : NoDup (map fst (b_blocks b)) -> Forall fields64 (b_records b) -> N.of_nat (length t) < 2 ^ 64 ->
  module_map e host t b = Ok (m, c, fns, aliases) -> llvm_module_strings b = Some ls ->
  (absent 3 b /\ cx_layout c = layout_default /\ ls_layout ls = []) \/ layout_from_str (ls_layout ls) = Ok (cx_layout c).
Proof.
  intros ND FF HT H HL. destruct (strings_both _ _ _ _ _ _ _ _ ND FF HT H) as [_ X]. destruct (X _ HL) as (_ & _ & _ & _ & [Y|(s & E & Y)] & _); [left; exact Y|right].
  rewrite E, (ascii_bytes _ (layout_ascii _ _ Y)). exact Y.
Qed.
Lemma no_settings ys : llvm_layout [] ys -> ys = [].
Proof.
  intros [[_ E]|H]; [exact E|]. change (specs []) with [@nil N] in H. inversion H as [|? ? ? ? X]; subst.
  destruct X as (tok & rest & P & _ & S). apply split_pieces in P. injection P as <- <-. inversion S.
Qed.

(** *** C91: a mapped module has LLVM's data layout *)

(** The full statement, "the layout of a mapped module is the one LLVM has for it", is false: see below. What holds if LLVM reads the module's
    string, with or without a DATALAYOUT record: the components are LLVM's, the byte order, native integers and non-integral address spaces
    under the conditions of C90. *)
Theorem C91_same_layout_partial : forall e host t b m c fns aliases ls ys,
  NoDup (map fst (b_blocks b)) -> Forall fields64 (b_records b) -> N.of_nat (length t) < 2 ^ 64 ->
  module_map e host t b = Ok (m, c, fns, aliases) -> llvm_module_strings b = Some ls -> llvm_layout (ls_layout ls) ys ->
  let d := cx_layout c in
  ((exists e, In (LsEndian e) ys) -> dl_endianness d = llvm_endianness ys) /\
  option_map bytes_of (dl_stack d) = llvm_stack ys /\
  dl_program_space d = llvm_program_space ys /\
  dl_global_space d = llvm_globals_space ys /\
  dl_alloca_space d = llvm_alloca_space ys /\
  option_map letter_of (dl_mangling d) = llvm_mangling ys /\
  option_map fn_align (dl_fn_ptr d) = llvm_fn_align ys /\
  ((natives ys <= 1)%nat -> dl_native d = llvm_native ys) /\
  ((non_integrals ys <= 1)%nat -> dl_non_integral d = llvm_non_integral ys).
Proof.
  intros e host t b m c fns aliases ls ys ND FF HT H HL HY d.
  destruct (module_layout _ _ _ _ _ _ _ _ _ ND FF HT H HL) as [(_ & E & E1)|E]; [|exact (components _ _ _ E HY)].
  rewrite E1 in HY. apply no_settings in HY as ->. unfold d. rewrite E. repeat split; try reflexivity. intros [? []].
Qed.
Print Assumptions C91_same_layout_partial.

(** The types the string gives alignments to have LLVM's. *)
Theorem C91_same_type_alignments_partial : forall e host t b m c fns aliases ls ys k width abi pref,
  NoDup (map fst (b_blocks b)) -> Forall fields64 (b_records b) -> N.of_nat (length t) < 2 ^ 64 ->
  module_map e host t b = Ok (m, c, fns, aliases) -> llvm_module_strings b = Some ls -> llvm_layout (ls_layout ls) ys ->
  llvm_type_align k width ys = Some (abi, pref) ->
  exists s, spec_for (llvm_key k width) (dl_types (cx_layout c)) = Some s /\ bytes_of (ts_abi s) = abi /\ bytes_of (ts_pref s) = pref.
Proof.
  intros e host t b m c fns aliases ls ys k w a p ND FF HT H HL HY K.
  destruct (module_layout _ _ _ _ _ _ _ _ _ ND FF HT H HL) as [(_ & E & E1)|E]; [|exact (layout_types _ _ _ _ _ _ _ E HY K)].
  rewrite E1 in HY. apply no_settings in HY as ->. discriminate.
Qed.
Print Assumptions C91_same_type_alignments_partial.

(** The last pointer entry of every address space is LLVM's. *)
Theorem C91_same_pointers_partial : forall e host t b m c fns aliases ls ys sp,
  NoDup (map fst (b_blocks b)) -> Forall fields64 (b_records b) -> N.of_nat (length t) < 2 ^ 64 ->
  module_map e host t b = Ok (m, c, fns, aliases) -> llvm_module_strings b = Some ls -> llvm_layout (ls_layout ls) ys ->
  match llvm_pointer sp ys with
  | Some q => exists earlier p, specs_of sp (dl_pointers (cx_layout c)) = earlier ++ [p] /\ same_pointer p q
  | None => specs_of sp (dl_pointers (cx_layout c)) = []
  end.
Proof.
  intros e host t b m c fns aliases ls ys sp ND FF HT H HL HY.
  destruct (module_layout _ _ _ _ _ _ _ _ _ ND FF HT H HL) as [(_ & E & E1)|E]; [|exact (layout_pointers _ _ _ _ E HY)].
  rewrite E1 in HY. apply no_settings in HY as ->. rewrite E. unfold llvm_pointer. cbn [latest].
  change (dl_pointers layout_default) with [ptr_spec_default]. unfold specs_of. cbn [filter]. change (ps_space ptr_spec_default) with 0.
  destruct (N.eqb_spec sp 0) as [->|X].
  - exists [], ptr_spec_default. split; [reflexivity|]. vm_compute. auto.
  - rewrite (proj2 (N.eqb_neq 0 sp)) by congruence. reflexivity.
Qed.
Print Assumptions C91_same_pointers_partial.

(** LLVM reads the layout of a mapped module if there is no DATALAYOUT record; otherwise exactly if it can read its specifications and has room
    for them (C90). *)
Theorem C91_read_by_llvm_partial : forall e host t b m c fns aliases ls,
  NoDup (map fst (b_blocks b)) -> Forall fields64 (b_records b) -> N.of_nat (length t) < 2 ^ 64 ->
  module_map e host t b = Ok (m, c, fns, aliases) -> llvm_module_strings b = Some ls ->
  (absent 3 b /\ llvm_layout (ls_layout ls) []) \/
  (exists xs, holds (cx_layout c) xs /\ Forall2 means (specs (ls_layout ls)) xs /\
     ((exists ys, llvm_layout (ls_layout ls) ys) <-> Forall2 (fun s x => readable s x /\ llvm_room s x) (specs (ls_layout ls)) xs)).
Proof.
  intros e host t b m c fns aliases ls ND FF HT H HL.
  destruct (module_layout _ _ _ _ _ _ _ _ _ ND FF HT H HL) as [(A & _ & E)|E]; [left; split; [exact A|rewrite E; left; auto]|right].
  apply layout_main in E as (_ & xs & HM & HH). exists xs. split; [exact HH|]. split; [exact HM|].
  apply layout_room_back; [|exact HM]. intros X. rewrite X in HM. cbn in HM. inversion HM as [|? ? ? ? Y]; subst. inversion Y.
Qed.
Print Assumptions C91_read_by_llvm_partial.

(** A module with these records and i32. *)
Definition ml_module (l : list record) : block := mkBlock (BIr IbModule) l
  [(BIr IbType, [mkBlock (BIr IbType) [mkRecord None 1 [1]; mkRecord None 7 [32]] []]); (BIr IbValueSymtab, [mkBlock (BIr IbValueSymtab) [] []])].
Definition ml_records : list record := [mkRecord None 1 [2]; mkRecord None 3 (lit "e-m:e-i64:64:128-S128-A5")].
Definition ml_settings : list llvm_setting := [LsEndian Little; LsMangling (ch "e"); LsType LkInteger 64 8 16; LsStack 16; LsAlloca 5].
Lemma ml_reads : llvm_layout (lit "e-m:e-i64:64:128-S128-A5") ml_settings.
Proof.
  right. change (specs (lit "e-m:e-i64:64:128-S128-A5")) with (map lit ["e"; "m:e"; "i64:64:128"; "S128"; "A5"]%string).
  cbn [map]. repeat (apply Forall2_cons); [..|apply Forall2_nil]; in_pieces.
  - apply LpLittle.
  - apply LpMangling. vm_compute. auto.
  - apply (LpType LkInteger (lit "64")); try an_int; try discriminate; try reflexivity;
      [right; an_int|right; exists 3; reflexivity| |right; exists 4; reflexivity].
    apply LtrPref; [an_int|discriminate].
  - apply LpStack; [an_int|right; exists 4; reflexivity].
  - apply LpAlloca. split; [an_int|reflexivity].
Qed.
(** A module with a layout, and one without. *)
Example C91_example :
  NoDup (map fst (b_blocks (ml_module ml_records))) /\ Forall fields64 (b_records (ml_module ml_records)) /\
  (exists ls, llvm_module_strings (ml_module ml_records) = Some ls /\ llvm_layout (ls_layout ls) ml_settings) /\
  (exists m c fns aliases, module_map debug_env (lit "host") [] (ml_module ml_records) = Ok (m, c, fns, aliases) /\
    dl_endianness (cx_layout c) = Little /\ dl_stack (cx_layout c) = Some (mkAlign 4) /\ dl_alloca_space (cx_layout c) = 5 /\
    spec_for (AtInteger 64) (dl_types (cx_layout c)) = Some (mkTypeSpec (AtInteger 64) (mkAlign 3) (mkAlign 4)) /\
    specs_of 0 (dl_pointers (cx_layout c)) = [ptr_spec_default]) /\
  (exists ls m c fns aliases, llvm_module_strings (ml_module [mkRecord None 1 [2]]) = Some ls /\ llvm_layout (ls_layout ls) [] /\
    module_map debug_env (lit "host") [] (ml_module [mkRecord None 1 [2]]) = Ok (m, c, fns, aliases) /\ dl_stack (cx_layout c) = None).
Proof.
  split; [repeat constructor; cbn; intuition discriminate|]. split; [repeat constructor|].
  split; [eexists; split; [vm_compute; reflexivity|exact ml_reads]|].
  split; [do 4 eexists; split; [vm_compute; reflexivity|]; vm_compute; auto|].
  do 5 eexists. split; [vm_compute; reflexivity|]. split; [left; auto|]. split; [vm_compute; reflexivity|reflexivity].
Qed.

(** A module without a DATALAYOUT record is little-endian to LLVM, with 64-bit integers aligned to 4 bytes; to llvm-mapper it is big-endian,
    with 64-bit integers aligned to 8 bytes. *)
Theorem C91_same_layout_refuted : exists b ls m c fns aliases,
  llvm_module_strings b = Some ls /\ llvm_layout (ls_layout ls) [] /\ module_map debug_env (lit "host") [] b = Ok (m, c, fns, aliases) /\
  llvm_endianness [] = Little /\ dl_endianness (cx_layout c) = Big /\
  exists t, spec_for (AtInteger 64) (dl_types (cx_layout c)) = Some t /\ bytes_of (ts_abi t) = 8.
Proof.
  exists (ml_module [mkRecord None 1 [2]]). do 5 eexists. split; [vm_compute; reflexivity|]. split; [left; auto|]. split; [vm_compute; reflexivity|].
  split; [reflexivity|]. split; [reflexivity|]. eexists. split; reflexivity.
Qed.
Print Assumptions C91_same_layout_refuted.

(** A module is mapped whose layout LLVM refuses; and one is refused only because of a layout LLVM accepts. *)
Theorem C91_layout_accepted_refuted : exists b w,
  (exists ls m c fns aliases, llvm_module_strings b = Some ls /\ module_map debug_env (lit "host") [] b = Ok (m, c, fns, aliases) /\
     forall ys, ~ llvm_layout (ls_layout ls) ys) /\
  (exists ls ys, llvm_module_strings (ml_module [mkRecord None 1 [2]; mkRecord None 3 w]) = Some ls /\ llvm_layout (ls_layout ls) ys) /\
  (forall x, module_map debug_env (lit "host") [] (ml_module [mkRecord None 1 [2]; mkRecord None 3 w]) <> Ok x) /\
  exists x, module_map debug_env (lit "host") [] (ml_module [mkRecord None 1 [2]]) = Ok x.
Proof.
  exists (ml_module [mkRecord None 1 [2]; mkRecord None 3 (lit "S+8")]), (lit "e-a:0:32").
  split.
  { do 5 eexists. split; [vm_compute; reflexivity|]. split; [vm_compute; reflexivity|]. intros ys [[X _]|X]; [discriminate|]. inversion X as [|? y ? ? H _]; subst.
    assert (N : means (lit "S+8") (SStack (mkAlign 0))).
    { apply MeStack. split; [|discriminate]. right. exists (lit "8"). split; [reflexivity|]. a_numeral. }
    pose proof (accepted_readable _ _ _ N H [lit "S+8"]) as R.
    destruct R as [_ R]; [apply split_pieces; reflexivity|].
    apply (R ltac:(discriminate) (lit "S+8")); vm_compute; auto. }
  split; [|split; [intros x; vm_compute; discriminate|eexists; vm_compute; reflexivity]].
  eexists. exists [LsEndian Little; LsType LkAggregate 0 0 4]. split; [vm_compute; reflexivity|].
  right. change (Forall2 llvm_means (map lit ["e"; "a:0:32"]%string) [LsEndian Little; LsType LkAggregate 0 0 4]).
  cbn [map]. repeat (apply Forall2_cons); [..|apply Forall2_nil]; in_pieces.
  - apply LpLittle.
  - apply (LpType LkAggregate []); try an_int; try discriminate; try reflexivity;
      [left; auto| |left; reflexivity| |right; exists 2; reflexivity].
    + intros X. exfalso. apply X. reflexivity.
    + apply LtrPref; [an_int|discriminate].
Qed.
Print Assumptions C91_layout_accepted_refuted.
