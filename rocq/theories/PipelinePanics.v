(** Panics and divergence of whole inputs. *)
From Verif Require Import Base Strings StringsProofs EnumModel SupportModel SupportSpec SupportMain LayoutModel LayoutSpec LayoutMain
  CursorModel CursorSpec CursorHist CursorProofs CursorMain StreamModel StreamSpec StreamHist StreamMain StreamPres StreamEnd StreamBounds StreamSize
  UnrollModel UnrollSpec UnrollProofs UnrollMain UnrollApi AttributeModel AttributeSpec AttributeProofs AttributeMain
  TablesModel TablesSpec TablesProofs TypeTableModel TypeTableSpec TypeTableProofs TypeTableMain RecordModel RecordSpec RecordProofs
  ModuleModel ModuleSpec ModuleProofs PipelineSpec PipelineProofs.
From Coq Require Import Lia ZifyBool ZifyNat ZifyN.
Ltac Zify.zify_post_hook ::= Z.div_mod_to_equations.
Local Open Scope N_scope.
#[local] Arguments N.add : simpl never.
#[local] Arguments N.sub : simpl never.
#[local] Arguments N.modulo : simpl never.

Lemma text_panic e r p : try_string e r 0 = Panic p <-> p = PSubOverflow /\ overflow_checks e = true /\ r_fields r = [].
Proof.
  destruct (r_fields r) as [|x [|y l]] eqn:R.
  - destruct (strings_empty e r 0 R eq_refl) as [-> _]. cbn [N.eqb]. destruct (overflow_checks e).
    + split; [intros [= <-]; auto|intros (-> & _); reflexivity].
    + split; [discriminate|]. intros (_ & [=] & _).
  - destruct (strings_out e r 0) as [-> _]; [rewrite R; discriminate|rewrite R; cbn; lia|]. split; [discriminate|]. intros (_ & _ & [=]).
  - destruct (try_string_in e r 0 []) as (_ & _ & _ & H & _); [rewrite R; cbn; lia|]. split; [intros X; now apply H in X|]. intros (_ & _ & [=]).
Qed.
Lemma text_fuel e r : try_string e r 0 <> OutOfFuel.
Proof.
  destruct (r_fields r) as [|x [|y l]] eqn:R.
  - destruct (strings_empty e r 0 R eq_refl) as [-> _]. cbn [N.eqb]. destruct (overflow_checks e); discriminate.
  - destruct (strings_out e r 0) as [-> _]; [rewrite R; discriminate|rewrite R; cbn; lia|discriminate].
  - destruct (try_string_in e r 0 []) as (_ & _ & _ & _ & H); [rewrite R; cbn; lia|exact H].
Qed.
Lemma blob_panic e r p : try_blob e r 0 = Panic p <-> p = PSubOverflow /\ overflow_checks e = true /\ r_fields r = [].
Proof.
  destruct (r_fields r) as [|x [|y l]] eqn:R.
  - destruct (strings_empty e r 0 R eq_refl) as [_ ->]. cbn [N.eqb]. destruct (overflow_checks e).
    + split; [intros [= <-]; auto|intros (-> & _); reflexivity].
    + split; [discriminate|]. intros (_ & [=] & _).
  - destruct (strings_out e r 0) as [_ ->]; [rewrite R; discriminate|rewrite R; cbn; lia|]. split; [discriminate|]. intros (_ & _ & [=]).
  - destruct (try_blob_in e r 0) as (_ & _ & H & _); [rewrite R; cbn; lia|]. split; [intros X; now apply H in X|]. intros (_ & _ & [=]).
Qed.
Lemma blob_fuel e r : try_blob e r 0 <> OutOfFuel.
Proof.
  destruct (r_fields r) as [|x [|y l]] eqn:R.
  - destruct (strings_empty e r 0 R eq_refl) as [_ ->]. cbn [N.eqb]. destruct (overflow_checks e); discriminate.
  - destruct (strings_out e r 0) as [_ ->]; [rewrite R; discriminate|rewrite R; cbn; lia|discriminate].
  - destruct (try_blob_in e r 0) as (_ & _ & _ & H); [rewrite R; cbn; lia|exact H].
Qed.

(** *** Function blocks *)

Lemma exactly_one_panic {A} x y (l : list A) p : exactly_one_of x y l <> Panic p.
Proof. destruct l as [|a [|b l]]; discriminate. Qed.
Lemma exactly_one_fuel {A} x y (l : list A) : exactly_one_of x y l <> OutOfFuel.
Proof. destruct l as [|a [|b l]]; discriminate. Qed.
Lemma one_or_none_panic {A} y (l : list A) p : one_or_none_of y l <> Panic p.
Proof. destruct l as [|a [|b l]]; discriminate. Qed.
Lemma one_or_none_fuel {A} y (l : list A) : one_or_none_of y l <> OutOfFuel.
Proof. destruct l as [|a [|b l]]; discriminate. Qed.
Lemma binary_op_total v t : (exists x, binary_op_of v t = Ok x) \/ (exists x, binary_op_of v t = Err x).
Proof.
  unfold binary_op_of. destruct (binary_opcode_of v) as [o|]; [|eauto]. cbv zeta. destruct (_ || _)%bool; [eauto|].
  destruct o, (is_floating_or_floating_vector t); eauto.
Qed.
Lemma unary_op_total v : (exists x, unary_op_of v = Ok x) \/ (exists x, unary_op_of v = Err x).
Proof. unfold unary_op_of. destruct (unary_opcode_of v) as [[]|]; eauto. Qed.
Lemma unpack_panic c n r p : unpack c n r <> Panic p.
Proof. unfold unpack. destruct (_ =? _)%nat; discriminate. Qed.
Lemma unpack_fuel c n r : unpack c n r <> OutOfFuel.
Proof. unfold unpack. destruct (_ =? _)%nat; discriminate. Qed.
Lemma fb_step_panic t r p : fb_step t r = Panic p -> p = PUnimplemented.
Proof.
  unfold fb_step. intros H. apply obind_panic in H as [H|(c & _ & H)]; [now apply ok_or_panic in H|].
  destruct c; try discriminate H; try (injection H as <-; reflexivity);
    apply obind_panic in H as [H|(fs & _ & H)]; try (now apply unpack_panic in H); try discriminate H;
    (apply obind_panic in H as [H|(ty & _ & H)]; [now apply ok_or_panic in H|]);
    (apply obind_panic in H as [H|(x & _ & H)]; [|discriminate H]); apply omap_err_panic in H.
  - destruct (binary_op_total (fld r 3) ty) as [[x X]|[x X]]; congruence.
  - destruct (unary_op_total (fld r 2)) as [[x X]|[x X]]; congruence.
Qed.
Lemma fb_step_fuel t r : fb_step t r <> OutOfFuel.
Proof.
  unfold fb_step. intros H. apply obind_fuel in H as [H|(c & _ & H)]; [now apply ok_or_fuel in H|].
  destruct c; try discriminate H;
    apply obind_fuel in H as [H|(fs & _ & H)]; try (now apply unpack_fuel in H); try discriminate H;
    (apply obind_fuel in H as [H|(ty & _ & H)]; [now apply ok_or_fuel in H|]);
    (apply obind_fuel in H as [H|(x & _ & H)]; [|discriminate H]); apply omap_err_fuel in H.
  - destruct (binary_op_total (fld r 3) ty) as [[x X]|[x X]]; congruence.
  - destruct (unary_op_total (fld r 2)) as [[x X]|[x X]]; congruence.
Qed.
Lemma body_panic e t b p : fn_block_of e t b = Panic p ->
  p = PUnimplemented \/ (p = PAlloc /\ exists r n l, sole 1 b r /\ r_fields r = n :: l /\ alloc_limit e < n).
Proof.
  unfold fn_block_of. cbn [function_code_num]. intros H.
  apply obind_panic in H as [H|(r & R & H)]; [apply omap_err_panic in H; now apply exactly_one_panic in H|]. apply omap_err_iff, sole_iff in R.
  apply obind_panic in H as [H|(n & N1 & H)]; [now apply ok_or_panic in H|]. apply ok_or_ok in N1.
  destruct (r_fields r) as [|n' l] eqn:F; [discriminate N1|]. injection N1 as ->.
  destruct (alloc_limit e <? n) eqn:Q.
  - injection H as <-. right. split; [reflexivity|]. exists r, n, l. split; [exact R|]. split; [exact F|lia].
  - left. apply obind_panic in H as [H|(u & _ & H)]; [|now injection H].
    apply collect_panic in H as (l1 & x & l2 & _ & _ & H). now apply fb_step_panic in H.
Qed.
Lemma body_fuel e t b : fn_block_of e t b <> OutOfFuel.
Proof.
  unfold fn_block_of. intros H.
  apply obind_fuel in H as [H|(r & R & H)]; [apply omap_err_fuel in H; now apply exactly_one_fuel in H|].
  apply obind_fuel in H as [H|(n & N1 & H)]; [now apply ok_or_fuel in H|].
  destruct (alloc_limit e <? n); [discriminate|]. apply obind_fuel in H as [H|(u & _ & H)]; [|discriminate].
  revert H. apply collect_fuel. intros x _. apply fb_step_fuel.
Qed.

(** *** Modules *)

Lemma strings_of_panic e code b p : strings_of e code b = Panic p ->
  p = PSubOverflow /\ overflow_checks e = true /\ exists r, In r (b_records b) /\ r_code r = module_code_num code /\ r_fields r = [].
Proof.
  unfold strings_of. intros H. apply omap_err_panic, collect_panic in H as (l1 & r & l2 & L & _ & H).
  apply text_panic in H as (-> & O & F). split; [reflexivity|]. split; [exact O|]. exists r.
  assert (X : In r (by_code (module_code_num code) (b_records b))) by (rewrite L; apply in_elt).
  apply filter_In in X as [X Y]. apply N.eqb_eq in Y. auto.
Qed.
Lemma strings_of_fuel e code b : strings_of e code b <> OutOfFuel.
Proof. unfold strings_of. intros H. apply omap_err_fuel in H. revert H. apply collect_fuel. intros r _. apply text_fuel. Qed.
Lemma maybe_record_in code b r : maybe_record code b = Ok (Some r) -> In r (b_records b) /\ r_code r = module_code_num code.
Proof.
  unfold maybe_record. intros H. apply omap_err_iff, maybe_iff in H as [[_ H]|(r' & (l1 & l2 & E & C & _) & [= <-])]; [discriminate|].
  split; [rewrite E; apply in_elt|exact C].
Qed.
Lemma maybe_record_panic code b p : maybe_record code b <> Panic p.
Proof. unfold maybe_record. intros H. apply omap_err_panic in H. now apply one_or_none_panic in H. Qed.
Lemma maybe_record_fuel code b : maybe_record code b <> OutOfFuel.
Proof. unfold maybe_record. intros H. apply omap_err_fuel in H. now apply one_or_none_fuel in H. Qed.
Lemma by_code_in code b r l1 l2 : by_code code (b_records b) = l1 ++ r :: l2 -> In r (b_records b) /\ r_code r = code.
Proof.
  intros L. assert (X : In r (by_code code (b_records b))) by (rewrite L; apply in_elt).
  apply filter_In in X as [X Y]. apply N.eqb_eq in Y. auto.
Qed.

(** Records of numbers, also in the sub-blocks. *)
Definition sane (b : block) : Prop :=
  NoDup (map fst (b_blocks b)) /\ Forall fields64 (b_records b) /\
  forall id x, In x (blocks_under id b) -> Forall fields64 (b_records x).

Lemma layout_total' v : layout_from_str v <> OutOfFuel /\ forall p, layout_from_str v <> Panic p.
Proof. destruct (layout_total v) as [[d ->]|[x ->]]; split; discriminate. Qed.

Lemma context_panic e t b p : sane b -> module_ctx e t b = Panic p -> module_panic e t b p.
Proof.
  intros (ND & F64 & SF) H. unfold module_ctx in H.
  apply obind_panic in H as [H|(r1 & _ & H)]; [apply omap_err_panic in H; now apply exactly_one_panic in H|].
  apply obind_panic in H as [H|(version & V & H)]; [now apply ok_or_panic in H|].
  apply obind_panic in H as [H|(o & O & H)]; [now apply maybe_record_panic in H|].
  apply obind_panic in H as [H|(lay & _ & H)].
  { destruct o as [r|]; [|discriminate H]. apply maybe_record_in in O as [I1 C].
    apply obind_panic in H as [H|(s & _ & H)].
    - apply omap_err_panic, text_panic in H as (-> & OC & F). apply (MpText _ _ _ r OC I1); [rewrite C; cbn; tauto|exact F].
    - apply omap_err_panic in H. now apply layout_total' in H. }
  apply obind_panic in H as [H|(sections & _ & H)].
  { apply strings_of_panic in H as (-> & OC & r & I1 & C & F). apply (MpText _ _ _ r OC I1); [rewrite C; cbn; tauto|exact F]. }
  apply obind_panic in H as [H|(gcs & _ & H)].
  { apply strings_of_panic in H as (-> & OC & r & I1 & C & F). apply (MpText _ _ _ r OC I1); [rewrite C; cbn; tauto|exact F]. }
  apply obind_panic in H as [H|(tb & TB & H)]; [apply omap_err_panic in H; now apply exactly_one_panic in H|].
  apply sub_block_iff in TB; [|exact ND].
  apply obind_panic in H as [H|(types & _ & H)].
  { apply omap_err_panic, type_table_panics in H as [(-> & r & n & l & R & F & A)|(-> & OC & r & I1 & C & F)].
    - exact (MpEntries _ _ _ tb r n l TB R F A).
    - exact (MpStructName _ _ _ tb r OC TB I1 C F). }
  apply obind_panic in H as [H|(vb & _ & H)]; [apply omap_err_panic in H; now apply exactly_one_panic in H|].
  apply obind_panic in H as [H|(gb & GB & H)]; [apply omap_err_panic in H; now apply one_or_none_panic in H|].
  apply maybe_block_iff in GB; [|exact ND].
  apply obind_panic in H as [H|(groups & _ & H)].
  { destruct GB as [[_ ->]|(g & GB & ->)]; [discriminate H|]. apply omap_err_panic in H.
    apply groups_panic in H; [|apply (SF (BIr IbParamAttrGroup)); rewrite GB; now left].
    destruct H as (-> & l1 & r & l2 & L & K & _). apply (MpCutKey _ _ _ g r GB); [rewrite L; apply in_elt|exact K]. }
  apply obind_panic in H as [H|(ab & AB & H)]; [apply omap_err_panic in H; now apply one_or_none_panic in H|].
  apply maybe_block_iff in AB; [|exact ND].
  apply obind_panic in H as [H|(attrs & _ & H)].
  { destruct AB as [[_ ->]|(a & AB & ->)]; [discriminate H|]. apply omap_err_panic in H.
    apply attributes_panic in H as (-> & l1 & r & l2 & L & K & _). apply (MpOldLists _ _ _ a r AB); [rewrite L; apply in_elt|exact K]. }
  apply obind_panic in H as [H|(comdats & _ & H)]; [|discriminate H].
  apply omap_err_panic, collect_panic in H as (l1 & r & l2 & L & _ & H). apply by_code_in in L as [I1 C].
  apply comdat_panic in H as (-> & _ & _ & B); [|rewrite Forall_forall in F64; now apply F64].
  apply (MpReference _ _ _ r I1); [rewrite C; cbn; tauto|exact B].
Qed.
Lemma context_strtab e t b c : module_ctx e t b = Ok c -> cx_strtab c = t.
Proof.
  intros H. unfold module_ctx in H. repeat (apply obind_iff in H as (? & _ & H)). now injection H as <-.
Qed.
Lemma context_fuel e t b : sane b -> module_ctx e t b = OutOfFuel ->
  exists tb, blocks_under (BIr IbType) b = [tb] /\ type_table_of e tb = OutOfFuel.
Proof.
  intros (ND & F64 & SF) H. unfold module_ctx in H.
  apply obind_fuel in H as [H|(r1 & _ & H)]; [apply omap_err_fuel in H; now apply exactly_one_fuel in H|].
  apply obind_fuel in H as [H|(version & V & H)]; [now apply ok_or_fuel in H|].
  apply obind_fuel in H as [H|(o & O & H)]; [now apply maybe_record_fuel in H|].
  apply obind_fuel in H as [H|(lay & _ & H)].
  { destruct o as [r|]; [|discriminate H]. apply obind_fuel in H as [H|(s & _ & H)].
    - apply omap_err_fuel in H. now apply text_fuel in H.
    - apply omap_err_fuel in H. now apply layout_total' in H. }
  apply obind_fuel in H as [H|(sections & _ & H)]; [now apply strings_of_fuel in H|].
  apply obind_fuel in H as [H|(gcs & _ & H)]; [now apply strings_of_fuel in H|].
  apply obind_fuel in H as [H|(tb & TB & H)]; [apply omap_err_fuel in H; now apply exactly_one_fuel in H|].
  apply sub_block_iff in TB; [|exact ND].
  apply obind_fuel in H as [H|(types & _ & H)]; [apply omap_err_fuel in H; eauto|].
  apply obind_fuel in H as [H|(vb & _ & H)]; [apply omap_err_fuel in H; now apply exactly_one_fuel in H|].
  apply obind_fuel in H as [H|(gb & GB & H)]; [apply omap_err_fuel in H; now apply one_or_none_fuel in H|].
  apply maybe_block_iff in GB; [|exact ND].
  apply obind_fuel in H as [H|(groups & _ & H)].
  { destruct GB as [[_ ->]|(g & GB & ->)]; [discriminate H|]. apply omap_err_fuel in H.
    apply groups_fuel in H; [contradiction|]. apply (SF (BIr IbParamAttrGroup)). rewrite GB. now left. }
  apply obind_fuel in H as [H|(ab & AB & H)]; [apply omap_err_fuel in H; now apply one_or_none_fuel in H|].
  apply obind_fuel in H as [H|(attrs & _ & H)].
  { destruct ab as [a|]; [|discriminate H]. apply omap_err_fuel in H. now apply attributes_fuel in H. }
  apply obind_fuel in H as [H|(comdats & _ & H)]; [|discriminate H].
  apply omap_err_fuel in H. exfalso. revert H. apply collect_fuel. intros r R. apply filter_In in R as [R _].
  apply comdat_fuel. rewrite Forall_forall in F64. now apply F64.
Qed.

Lemma module_panics e host t b p : sane b -> module_of e host t b = Panic p -> module_panic e t b p.
Proof.
  intros SB H. pose proof SB as (ND & F64 & _). unfold module_of in H.
  apply obind_panic in H as [H|((((m & c) & fns) & als) & _ & H)]; [|discriminate H]. unfold module_map in H.
  apply obind_panic in H as [H|(c & CX & H)]; [exact (context_panic e t b p SB H)|]. apply context_strtab in CX. subst t.
  apply obind_panic in H as [H|(o & O & H)]; [now apply maybe_record_panic in H|].
  apply obind_panic in H as [H|(triple & _ & H)].
  { destruct o as [r|]; [|discriminate H]. apply maybe_record_in in O as [I1 C].
    apply omap_err_panic, text_panic in H as (-> & OC & F). apply (MpText _ _ _ r OC I1); [rewrite C; cbn; tauto|exact F]. }
  apply obind_panic in H as [H|(o' & O' & H)]; [now apply maybe_record_panic in H|].
  apply obind_panic in H as [H|(asm & _ & H)].
  { destruct o' as [r|]; [|discriminate H]. apply maybe_record_in in O' as [I1 C].
    apply obind_panic in H as [H|(s & _ & H)]; [|discriminate H].
    apply omap_err_panic, text_panic in H as (-> & OC & F). apply (MpText _ _ _ r OC I1); [rewrite C; cbn; tauto|exact F]. }
  apply obind_panic in H as [H|(deplibs & _ & H)].
  { apply strings_of_panic in H as (-> & OC & r & I1 & C & F). apply (MpText _ _ _ r OC I1); [rewrite C; cbn; tauto|exact F]. }
  rewrite Forall_forall in F64.
  apply obind_panic in H as [H|(fns & _ & H)].
  { apply omap_err_panic, collect_panic in H as (l1 & r & l2 & L & _ & H). apply by_code_in in L as [I1 C].
    apply function_panic in H as (-> & _ & _ & B); [|now apply F64]. apply (MpReference _ _ _ r I1); [rewrite C; cbn; tauto|exact B]. }
  apply obind_panic in H as [H|(u & _ & H)].
  { apply omap_err_panic, collect_panic in H as (l1 & fb & l2 & L & _ & H). rewrite map_get_under in L by exact ND.
    assert (I1 : In fb (blocks_under (BIr IbFunction) b)) by (rewrite L; apply in_elt).
    apply body_panic in H as [->|(-> & r & n & l & R & F & A)]; [exact (MpBody _ _ _ fb I1)|exact (MpBlocks _ _ _ fb r n l I1 R F A)]. }
  apply obind_panic in H as [H|(als & _ & H)]; [|discriminate H].
  apply omap_err_panic, collect_panic in H as (l1 & r & l2 & L & _ & H). apply by_code_in in L as [I1 C].
  apply alias_panic in H as (-> & _ & _ & B); [|now apply F64]. apply (MpReference _ _ _ r I1); [rewrite C; cbn; tauto|exact B].
Qed.
Lemma module_fuel e host t b : sane b -> module_of e host t b = OutOfFuel ->
  exists tb, blocks_under (BIr IbType) b = [tb] /\ type_table_of e tb = OutOfFuel.
Proof.
  intros SB H. pose proof SB as (ND & F64 & _). unfold module_of in H.
  apply obind_fuel in H as [H|((((m & c) & fns) & als) & _ & H)]; [|discriminate H]. unfold module_map in H.
  apply obind_fuel in H as [H|(c & CX & H)]; [exact (context_fuel e t b SB H)|].
  apply obind_fuel in H as [H|(o & O & H)]; [now apply maybe_record_fuel in H|].
  apply obind_fuel in H as [H|(triple & _ & H)].
  { destruct o as [r|]; [|discriminate H]. apply omap_err_fuel in H. now apply text_fuel in H. }
  apply obind_fuel in H as [H|(o' & O' & H)]; [now apply maybe_record_fuel in H|].
  apply obind_fuel in H as [H|(asm & _ & H)].
  { destruct o' as [r|]; [|discriminate H]. apply obind_fuel in H as [H|(s & _ & H)]; [|discriminate H].
    apply omap_err_fuel in H. now apply text_fuel in H. }
  apply obind_fuel in H as [H|(deplibs & _ & H)]; [now apply strings_of_fuel in H|].
  rewrite Forall_forall in F64.
  apply obind_fuel in H as [H|(fns & _ & H)].
  { apply omap_err_fuel in H. exfalso. revert H. apply collect_fuel. intros r R. apply filter_In in R as [R _]. now apply function_fuel, F64. }
  apply obind_fuel in H as [H|(u & _ & H)].
  { apply omap_err_fuel in H. exfalso. revert H. apply collect_fuel. intros fb _. apply body_fuel. }
  apply obind_fuel in H as [H|(als & _ & H)]; [|discriminate H].
  apply omap_err_fuel in H. exfalso. revert H. apply collect_fuel. intros r R. apply filter_In in R as [R _]. now apply alias_fuel, F64.
Qed.

(** *** Bitcode modules *)

Lemma reify_panic e host p x : (forall b, pt_module p = Some b -> sane b) -> reify_module e host p = Panic x -> bitcode_panic e p x.
Proof.
  intros SB H. unfold reify_module in H.
  apply obind_panic in H as [H|(sb & S1 & H)]; [now apply ok_or_panic in H|]. apply ok_or_ok in S1.
  apply obind_panic in H as [H|(t & T & H)].
  { apply omap_err_panic in H. unfold strtab_of in H. apply obind_panic in H as [H|(r & R & H)]; [now apply ok_or_panic in H|].
    apply ok_or_ok, one_first in R. apply omap_err_panic, blob_panic in H as (-> & OC & F). exact (BpText e p sb r OC (or_intror (or_introl S1)) R F). }
  apply omap_err_iff, strtab_exact in T.
  apply obind_panic in H as [H|(i & _ & H)].
  { apply omap_err_panic in H. unfold identification_of in H. apply obind_panic in H as [H|(r & R & H)]; [now apply ok_or_panic in H|].
    apply ok_or_ok, one_first in R. apply obind_panic in H as [H|(s & _ & H)].
    - apply omap_err_panic, text_panic in H as (-> & OC & F). exact (BpText e p _ r OC (or_introl eq_refl) R F).
    - apply obind_panic in H as [H|(r' & _ & H)]; [now apply ok_or_panic in H|].
      apply obind_panic in H as [H|(ep & _ & H)]; [now apply ok_or_panic in H|discriminate H]. }
  apply obind_panic in H as [H|(mb & B & H)]; [now apply ok_or_panic in H|]. apply ok_or_ok in B.
  apply obind_panic in H as [H|(m & _ & H)].
  { apply omap_err_panic, module_panics in H; [|exact (SB mb B)]. exact (BpModule e p sb t mb x S1 T B H). }
  apply obind_panic in H as [H|(s & _ & H)]; [|discriminate H].
  destruct (pt_symtab p) as [yb|] eqn:Y; [|discriminate H]. apply obind_panic in H as [H|(y & _ & H)]; [|discriminate H].
  apply omap_err_panic in H. unfold symtab_of in H. apply obind_panic in H as [H|(r & R & H)]; [now apply ok_or_panic in H|].
  apply ok_or_ok, one_first in R. apply omap_err_panic, blob_panic in H as (-> & OC & F).
  exact (BpText e p yb r OC (or_intror (or_intror Y)) R F).
Qed.
Lemma reify_fuel e host p : (forall b, pt_module p = Some b -> sane b) -> reify_module e host p = OutOfFuel -> recursive_types p.
Proof.
  intros SB H. unfold reify_module in H.
  apply obind_fuel in H as [H|(sb & S1 & H)]; [now apply ok_or_fuel in H|].
  apply obind_fuel in H as [H|(t & T & H)].
  { apply omap_err_fuel in H. unfold strtab_of in H. apply obind_fuel in H as [H|(r & R & H)]; [now apply ok_or_fuel in H|].
    apply omap_err_fuel in H. now apply blob_fuel in H. }
  apply obind_fuel in H as [H|(i & _ & H)].
  { apply omap_err_fuel in H. unfold identification_of in H. apply obind_fuel in H as [H|(r & R & H)]; [now apply ok_or_fuel in H|].
    apply obind_fuel in H as [H|(s & _ & H)].
    - apply omap_err_fuel in H. now apply text_fuel in H.
    - apply obind_fuel in H as [H|(r' & _ & H)]; [now apply ok_or_fuel in H|].
      apply obind_fuel in H as [H|(ep & _ & H)]; [now apply ok_or_fuel in H|discriminate H]. }
  apply obind_fuel in H as [H|(mb & B & H)]; [now apply ok_or_fuel in H|]. apply ok_or_ok in B.
  apply obind_fuel in H as [H|(m & _ & H)].
  { apply omap_err_fuel, module_fuel in H as (tb & TB & H); [|exact (SB mb B)]. exists mb, tb. split; [exact B|]. split; [exact TB|].
    intros [A C]. exact (acyclic_terminates e tb A C H). }
  apply obind_fuel in H as [H|(s & _ & H)]; [|discriminate H].
  destruct (pt_symtab p) as [yb|] eqn:Y; [|discriminate H]. apply obind_fuel in H as [H|(y & _ & H)]; [|discriminate H].
  apply omap_err_fuel in H. unfold symtab_of in H. apply obind_fuel in H as [H|(r & R & H)]; [now apply ok_or_fuel in H|].
  apply omap_err_fuel in H. now apply blob_fuel in H.
Qed.

(** *** Whole inputs *)

Lemma child_fits k v body t : Forall (entry_fits k) (flat_map flat body) -> In t (children v body) -> Forall (entry_fits k) (flat t).
Proof.
  intros F H. apply filter_In in H as [H _]. apply Forall_forall. intros x X. rewrite Forall_forall in F. apply F. apply in_flat_map. eauto.
Qed.
Lemma unrolled_sane k t b : Forall (entry_fits k) (flat t) -> unrolled t b -> sane b.
Proof.
  intros F H. split; [exact (unrolled_nodup t b H)|]. split.
  { eapply Forall_impl; [|exact (unrolled_fits k t b F H)]. now intros r [X _]. }
  intros id x X. inversion H as [bid len body b' I1 R1 C1 K1 N1 E1 E2]; subst.
  cbn [flat] in F. inversion F as [|? ? _ F']; subst. apply Forall_app in F' as [F' _].
  destruct (id_known id) as [[v M]|M].
  - specialize (C1 v id M).
    assert (Y : exists y, In y (children v body) /\ unrolled y x).
    { clear - X C1. induction C1 as [|y z l m U C IH]; [contradiction|]. destruct X as [->|X]; [exists y; split; [now left|exact U]|].
      destruct (IH X) as (y' & Y1 & Y2). exists y'. split; [now right|exact Y2]. }
    destruct Y as (y & Y & U). eapply Forall_impl; [|exact (unrolled_fits k y x (child_fits k v body y F' Y) U)]. now intros r [Z _].
  - rewrite under_none in X; [contradiction|]. intros l Y. apply K1 in Y as [v Y]. now apply (M v).
Qed.
Lemma Forall2_pick {A B} (P : A -> B -> Prop) l m l1 b l2 : Forall2 P l m -> m = l1 ++ b :: l2 -> exists a, In a l /\ P a b.
Proof.
  intros F. revert l1. induction F as [|a c l m X F IH]; intros l1 H; [now destruct l1|].
  destruct l1 as [|x l1]; injection H as -> H; [exists a; split; [now left|exact X]|].
  destruct (IH _ H) as (a' & A1 & A2). exists a'. split; [now right|exact A2].
Qed.
Lemma module_sane e s forest tm p b : parser_reachable e s -> stream_is e s forest -> In tm (modules_of forest) -> carries tm p ->
  pt_module p = Some b -> sane b.
Proof.
  intros R HS I1 C B. pose proof (modules_fit _ _ (stream_fits e s forest R HS)) as M. rewrite Forall_forall in M.
  destruct (M tm I1) as [M1 _]. destruct C as (_ & C & _). rewrite B in C. destruct (tm_module tm) as [t|]; [|contradiction].
  exact (unrolled_sane _ t b M1 C).
Qed.
Lemma stream_panics e host s x : parser_reachable e s -> bitcode_of_stream e host s = Panic x ->
  (exists n l, run e cursor_ops n s = map (fun x => Some (Ok x)) l ++ [Some (Panic x)]) \/
  (exists forest tm p, stream_is e s forest /\ In tm (modules_of forest) /\ carries tm p /\ bitcode_panic e p x).
Proof.
  intros R H. unfold bitcode_of_stream in H. apply obind_panic in H as [H|(parts & U & H)].
  - left. apply omap_err_panic in H. exact (proj2 (unroll_failures e s) x H).
  - right. apply omap_err_iff in U. destruct (unroll_ok e s parts R U) as (forest & HS & _ & F).
    apply collect_panic in H as (l1 & p & l2 & L & _ & H). destruct (Forall2_pick _ _ _ _ _ _ F L) as (tm & I1 & C).
    exists forest, tm, p. split; [exact HS|]. split; [exact I1|]. split; [exact C|].
    apply (reify_panic e host); [|exact H]. intros b B. exact (module_sane e s forest tm p b R HS I1 C B).
Qed.
Lemma collect_stuck {E A B} (f : A -> outcome E B) l : collect f l = OutOfFuel -> exists l1 a l2, l = l1 ++ a :: l2 /\ f a = OutOfFuel.
Proof.
  induction l as [|a l IH]; cbn [collect]; [discriminate|]. intros H. apply obind_fuel in H as [H|(b & _ & H)].
  - exists [], a, l. auto.
  - apply obind_fuel in H as [H|(bs & _ & H)]; [|discriminate H]. destruct (IH H) as (l1 & a' & l2 & -> & K). exists (a :: l1), a', l2. auto.
Qed.
Lemma stream_diverges e host s : parser_reachable e s -> bitcode_of_stream e host s = OutOfFuel ->
  exists forest tm p, stream_is e s forest /\ In tm (modules_of forest) /\ carries tm p /\ recursive_types p.
Proof.
  intros R H. unfold bitcode_of_stream in H. apply obind_fuel in H as [H|(parts & U & H)].
  - apply omap_err_fuel in H. now apply unroll_terminates in H.
  - apply omap_err_iff in U. destruct (unroll_ok e s parts R U) as (forest & HS & _ & F).
    apply collect_stuck in H as (l1 & p & l2 & L & H). destruct (Forall2_pick _ _ _ _ _ _ F L) as (tm & I1 & C).
    exists forest, tm, p. split; [exact HS|]. split; [exact I1|]. split; [exact C|].
    apply (reify_fuel e host); [|exact H]. intros b B. exact (module_sane e s forest tm p b R HS I1 C B).
Qed.

(** Opening a buffer succeeds or fails. *)
Definition settled {E A} (m : outcome E A) : Prop := (exists x, m = Ok x) \/ (exists x, m = Err x).
Lemma read_exact_settled t c : inv63 c -> settled (fst (read_exact cursor_ops t c)) /\ inv63 (snd (read_exact cursor_ops t c)).
Proof.
  intros I1. unfold settled, read_exact, read_as, bind. pose proof (pg_read _ _ _ cursor_progressive (ity_bits t) c I1) as K.
  destruct (op_read cursor_ops (ity_bits t) c) as [[v|x|p|] c']; try contradiction; cbn [fst snd].
  - destruct (num_cast t v); cbn; split; eauto; tauto.
  - split; [eauto|tauto].
Qed.
Lemma from_cursor_settled c : inv63 c -> settled (from_cursor c).
Proof.
  intros I1. unfold settled, from_cursor. destruct (negb _); [eauto|]. destruct (read_exact_settled u32t c I1) as [[[v H]|[v H]] _];
    destruct (read_exact cursor_ops u32t c) as [r c']; cbn in H; subst r; eauto.
Qed.
Lemma read_bind_settled {A} t (k : N -> M cursor cerr A) c : inv63 c -> (forall v c', inv63 c' -> settled (fst (k v c'))) ->
  settled (fst (bind (read_exact cursor_ops t) k c)).
Proof.
  intros I1 K. destruct (read_exact_settled t c I1) as [[[v H]|[v H]] J]; unfold bind;
    destruct (read_exact cursor_ops t c) as [r c']; cbn in H, J; subst r; [now apply K|right; eexists; reflexivity].
Qed.
Lemma new_inv buf : inv63 (cur_new buf).
Proof. exact (reachable_inv debug_env _ (new_reachable debug_env buf)). Qed.
Lemma from_settled e buf : settled (from e buf).
Proof.
  unfold from. destruct (read_exact_settled u32t (cur_new buf) (new_inv buf)) as [[[v ->]|[v ->]] _]; [|right; eexists; reflexivity].
  cbn [omap_err obind]. destruct (v =? BITCODE_WRAPPER_MAGIC).
  - assert (W : settled (from_wrapped e buf)).
    { unfold from_wrapped. assert (RW : settled (fst (read_wrapper (cur_new buf)))).
      { unfold read_wrapper. do 5 (apply read_bind_settled; [first [apply new_inv|assumption]|]; intros ? ? ?). left. eexists. reflexivity. }
      destruct RW as [[w ->]|[x ->]]; [|right; eexists; reflexivity]. cbn [omap_err obind].
      destruct (cur_new_with_len buf (wr_size w + 20)) as [c|x|p|] eqn:EC;
        try (unfold cur_new_with_len in EC; destruct (_ <? _) in EC; discriminate EC); [|right; eexists; reflexivity].
      cbn [omap_err obind]. assert (HR : reachable e c). { exists c, []. split; [right; eauto|reflexivity]. }
      pose proof (reachable_step e c (OSeek (SeekStart (wr_offset w))) HR) as K. cbn [apply_op] in K.
      unfold seek in *. cbn [seek_offset] in *. destruct (byte_len c <? wr_offset w); [right; eexists; reflexivity|].
      destruct (from_cursor_settled _ (reachable_inv e _ K)) as [[b H]|[b H]]; cbn [snd] in *; rewrite H; [left|right]; eexists; reflexivity. }
    destruct W as [[wb ->]|[x ->]]; [left|right]; eexists; reflexivity.
  - destruct (from_cursor_settled _ (new_inv buf)) as [[b H]|[b H]]; unfold from_raw; rewrite H; [left|right]; eexists; reflexivity.
Qed.

Lemma bitcode_panics e host buf x : bitcode_of e host buf = Panic x ->
  exists w b, from e buf = Ok (w, b) /\
  ((exists n l, run e cursor_ops n (bs_parser b) = map (fun x => Some (Ok x)) l ++ [Some (Panic x)]) \/
   (exists forest tm p, stream_is e (bs_parser b) forest /\ In tm (modules_of forest) /\ carries tm p /\ bitcode_panic e p x)).
Proof.
  intros H. unfold bitcode_of in H. destruct (from_settled e buf) as [[[w b] F]|[y F]]; rewrite F in H; [|discriminate H].
  cbn [omap_err obind] in H. exists w, b. split; [exact F|]. exact (stream_panics e host _ x (from_reachable e buf w b F) H).
Qed.
Lemma bitcode_diverges e host buf : bitcode_of e host buf = OutOfFuel ->
  exists w b forest tm p, from e buf = Ok (w, b) /\ stream_is e (bs_parser b) forest /\ In tm (modules_of forest) /\
    carries tm p /\ recursive_types p.
Proof.
  intros H. unfold bitcode_of in H. destruct (from_settled e buf) as [[[w b] F]|[y F]]; rewrite F in H; [|discriminate H].
  cbn [omap_err obind] in H. destruct (stream_diverges e host _ (from_reachable e buf w b F) H) as (forest & tm & p & K).
  exists w, b, forest, tm, p. tauto.
Qed.
