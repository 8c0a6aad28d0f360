(** Facts about modules. *)
From Verif Require Import Base Strings StringsProofs EnumModel SupportModel SupportSpec SupportMain LayoutModel LayoutSpec LayoutMain
  CursorModel StreamModel UnrollModel UnrollSpec UnrollApi AttributeModel AttributeSpec AttributeProofs AttributeMain
  TablesModel TablesSpec TablesProofs TypeTableModel TypeTableSpec TypeTableProofs TypeTableMain RecordModel RecordSpec RecordProofs ModuleModel ModuleSpec.
From Coq Require Import Lia ZifyBool ZifyNat ZifyN.
Ltac Zify.zify_post_hook ::= Z.div_mod_to_equations.
Local Open Scope N_scope.
#[local] Arguments N.add : simpl never.
#[local] Arguments N.sub : simpl never.
#[local] Arguments N.modulo : simpl never.

Lemma Forall2_iff {A B} (P Q : A -> B -> Prop) l m : (forall a b, In a l -> (P a b <-> Q a b)) -> (Forall2 P l m <-> Forall2 Q l m).
Proof.
  intros H. split; intros F; induction F as [|a b l m X F IH]; constructor.
  - apply H; [now left|exact X].
  - apply IH. intros x y I. apply H. now right.
  - apply H; [now left|exact X].
  - apply IH. intros x y I. apply H. now right.
Qed.

Lemma text_iff e r s : try_string e r 0 = Ok s <-> text_of e r s.
Proof.
  unfold text_of. destruct (r_fields r) as [|x [|y l]] eqn:R.
  - destruct (strings_empty e r 0 R eq_refl) as [-> _]. cbn [N.eqb]. destruct (overflow_checks e).
    + split; [discriminate|]. intros [(L & _)|([=] & _)]. cbn in L. lia.
    + split; [intros [= <-]; right; auto|]. intros [(L & _)|(_ & _ & ->)]; [cbn in L; lia|reflexivity].
  - destruct (strings_out e r 0) as [-> _]; [rewrite R; discriminate|rewrite R; cbn; lia|].
    split; [discriminate|]. intros [(L & _)|(_ & [=] & _)]. cbn in L. lia.
  - destruct (try_string_in e r 0 s) as [H _]; [rewrite R; cbn; lia|]. rewrite H. change (N.to_nat 0) with 0%nat. cbn [skipn]. rewrite R.
    split.
    + intros (_ & S & U). left. cbn. split; [lia|auto].
    + intros [(_ & U & S)|(_ & [=] & _)]. split; [|auto]. rewrite U. now apply encode_bytes.
Qed.

Lemma sole_iff code b r : exactly_one code (b_records b) = Ok r <-> sole code b r.
Proof. apply record_accessors. Qed.
Lemma maybe_iff code b o : one_or_none code (b_records b) = Ok o <->
  (absent code b /\ o = None) \/ (exists r, sole code b r /\ o = Some r).
Proof.
  destruct (record_accessors code (b_records b)) as (_ & _ & H1 & H2 & _). destruct o as [r|].
  - rewrite H1. split; [intros H; right; exists r; auto|]. intros [[_ [=]]|(r' & H & [= ->])]. exact H.
  - rewrite H2. split; [intros H; left; auto|]. intros [[H _]|(r' & _ & [=])]. exact H.
Qed.
Lemma selected_unique {A} (f : A -> bool) (P : A -> Prop) : (forall a, f a = true <-> P a) ->
  forall l m, selected P l m -> m = filter f l.
Proof.
  intros FP. induction l as [|a l IH]; intros m (js & F & So0 & J).
  - destruct js as [|j js]; [now inversion F|]. destruct (proj1 (J j) (or_introl eq_refl)) as (x & X & _).
    destruct j; discriminate.
  - cbn [filter].
    assert (Tail : forall js', (forall j, In j js' -> (0 < j)%nat) -> Sorted.StronglySorted lt js' ->
      forall m', Forall2 (fun j x => nth_error (a :: l) j = Some x) js' m' ->
      (forall j, In (S j) js' <-> exists x, nth_error l j = Some x /\ P x) -> m' = filter f l).
    { intros js' Pos So m' F' J'. apply IH. exists (map pred js'). split; [|split].
      - clear - Pos F'. induction F' as [|j x js' m' X F' IHF]; [constructor|]. cbn. constructor.
        + specialize (Pos j (or_introl eq_refl)). destruct j; [lia|exact X].
        + apply IHF. intros k K. apply Pos. now right.
      - clear - Pos So. induction So as [|j js' So IHS Fa]; [constructor|]. cbn. constructor.
        + apply IHS. intros k K. apply Pos. now right.
        + apply Forall_forall. intros k K. apply in_map_iff in K as (k' & <- & K). rewrite Forall_forall in Fa.
          specialize (Fa k' K). specialize (Pos j (or_introl eq_refl)). lia.
      - intros j. rewrite in_map_iff. rewrite <- J'. split.
        + intros (k & <- & K). specialize (Pos k K). now destruct k.
        + intros K. exists (S j). auto. }
    destruct (f a) eqn:Fa.
    + apply FP in Fa. assert (I : In 0%nat js) by (apply J; exists a; auto).
      destruct js as [|j0 js]; [destruct I|]. inversion F as [|? x ? m' X F']; subst. inversion So0 as [|? ? So Fo]; subst.
      assert (j0 = 0%nat).
      { destruct I as [->|I]; [reflexivity|]. rewrite Forall_forall in Fo. specialize (Fo _ I). lia. }
      subst j0. injection X as <-. f_equal. rewrite Forall_forall in Fo.
      apply (Tail js); [intros j K; exact (Fo j K)|exact So|exact F'|].
      intros j. specialize (J (S j)). cbn [In] in J. rewrite <- (J : _ <-> _). split; [auto|]. intros [K|K]; [discriminate|exact K].
    + assert (I : ~ In 0%nat js).
      { intros I. apply J in I as (x & [= <-] & X). apply FP in X. congruence. }
      apply (Tail js); [|exact So0|exact F|].
      * intros j K. destruct j; [contradiction|lia].
      * intros j. exact (J (S j)).
Qed.
Lemma all_with_iff code b rs : all_with code b rs <-> rs = by_code code (b_records b).
Proof.
  unfold all_with. split.
  - apply (selected_unique (fun r => r_code r =? code)). intros r. now rewrite N.eqb_eq.
  - intros ->. apply by_code_selected.
Qed.
Lemma all_with_forall2 {B : Set} code b (R : record -> B -> Prop) (l : list B) :
  (exists rs, all_with code b rs /\ Forall2 R rs l) <-> Forall2 R (by_code code (b_records b)) l.
Proof.
  split; [intros (rs & S & F); apply all_with_iff in S as ->; exact F|]. intros F. exists (by_code code (b_records b)).
  split; [now apply all_with_iff|exact F].
Qed.
Lemma texts_iff e code b l : omap_err MdString (collect (fun r => try_string e r 0) (by_code code (b_records b))) = Ok l <-> texts e code b l.
Proof.
  rewrite omap_err_iff, collect_iff. unfold texts. rewrite all_with_forall2. apply Forall2_iff. intros r s _. apply text_iff.
Qed.

Lemma sub_block_iff id b c : NoDup (map fst (b_blocks b)) ->
  (omap_err MdInconsistent (exactly_one_block (BIr id) b) = Ok c <-> blocks_under (BIr id) b = [c]).
Proof.
  intros ND. rewrite omap_err_iff. unfold exactly_one_block. rewrite map_get_under by exact ND.
  destruct (blocks_under (BIr id) b) as [|x [|y l]]; cbn; split; congruence.
Qed.
Lemma maybe_block_iff id b o : NoDup (map fst (b_blocks b)) ->
  (omap_err MdInconsistent (one_or_none_block (BIr id) b) = Ok o <->
   (blocks_under (BIr id) b = [] /\ o = None) \/ (exists c, blocks_under (BIr id) b = [c] /\ o = Some c)).
Proof.
  intros ND. rewrite omap_err_iff. unfold one_or_none_block. rewrite map_get_under by exact ND.
  destruct (blocks_under (BIr id) b) as [|x [|y l]]; cbn; split.
  - intros [= <-]. auto.
  - intros [[_ ->]|(c & [=] & _)]. reflexivity.
  - intros [= <-]. right. eauto.
  - intros [[[=] _]|(c & [= ->] & ->)]. reflexivity.
  - discriminate.
  - intros [[[=] _]|(c & [=] & _)].
Qed.

Lemma in_by_code code l r : In r (by_code code l) -> In r l /\ r_code r = code.
Proof. unfold by_code. intros I. apply filter_In in I as [I C]. split; [exact I|now apply N.eqb_eq]. Qed.

Lemma context_exact e t b c : NoDup (map fst (b_blocks b)) -> Forall fields64 (b_records b) -> N.of_nat (length t) < two64 ->
  (module_ctx e t b = Ok c <-> context_described e t b c).
Proof.
  intros ND F64 LT. unfold module_ctx, maybe_record, strings_of, sub_block, maybe_block. cbn [module_code_num].
  assert (CD : forall version cs, collect (comdat_of e version t) (by_code 12 (b_records b)) = Ok cs <->
    exists rs, all_with 12 b rs /\ Forall2 (fun r x => 2 <= version /\ comdat_described selection_table t r x) rs cs).
  { intros version cs. rewrite collect_iff, all_with_forall2. apply Forall2_iff. intros r x I. apply in_by_code in I as [I _].
    rewrite Forall_forall in F64. apply comdat_exact; [now apply F64|exact LT]. }
  split.
  - intros H. apply obind_iff in H as (r1 & H1 & H). apply omap_err_iff in H1. apply sole_iff in H1.
    apply obind_iff in H as (version & H2 & H). apply ok_or_ok in H2.
    apply obind_iff in H as (o3 & H3 & H). apply omap_err_iff in H3. apply maybe_iff in H3.
    apply obind_iff in H as (lay & H4 & H).
    apply obind_iff in H as (sections & H5 & H). apply texts_iff in H5.
    apply obind_iff in H as (gcs & H6 & H). apply texts_iff in H6.
    apply obind_iff in H as (tb & H7 & H). apply sub_block_iff in H7; [|exact ND].
    apply obind_iff in H as (types & H8 & H). apply omap_err_iff in H8.
    apply obind_iff in H as (vb & H9 & H). apply sub_block_iff in H9; [|exact ND]. cbv zeta in H.
    apply obind_iff in H as (ogb & H10 & H). apply maybe_block_iff in H10; [|exact ND].
    apply obind_iff in H as (groups & H11 & H).
    apply obind_iff in H as (oab & H12 & H). apply maybe_block_iff in H12; [|exact ND].
    apply obind_iff in H as (attrs & H13 & H).
    apply obind_iff in H as (comdats & H14 & H). apply omap_err_iff in H14. apply CD in H14. injection H as <-.
    constructor; cbn.
    + exists r1. destruct (r_fields r1) as [|x l]; [discriminate|]. injection H2 as ->. eauto.
    + destruct H3 as [[A ->]|(r & S & ->)]; [injection H4 as <-; auto|]. right.
      apply obind_iff in H4 as (s & T & H4). apply omap_err_iff in T, H4. apply text_iff in T. eauto.
    + exact H5.
    + exact H6.
    + reflexivity.
    + eauto.
    + eauto.
    + destruct H10 as [[A ->]|(gb & S & ->)]; [injection H11 as <-; auto|]. right. apply omap_err_iff in H11. eauto.
    + destruct H12 as [[A ->]|(ab & S & ->)]; [injection H13 as <-; auto|]. right. apply omap_err_iff in H13. eauto.
    + exact H14.
  - intros [(r1 & l & H1 & H2) H3 H4 H5 H6 (tb & H7 & H8) (vb & H9) H10 H11 H12].
    apply sole_iff in H1. rewrite H1. cbn [omap_err obind]. rewrite H2. cbn [hd_error ok_or obind].
    assert (L : exists o, one_or_none 3 (b_records b) = Ok o /\
      match o with None => Ok layout_default
      | Some r => let? s := omap_err MdLayoutString (try_string e r 0) in omap_err MdLayout (layout_from_str s) end = Ok (cx_layout c)).
    { destruct H3 as [[A ->]|(r & s & S & T & Y)].
      - exists None. split; [apply maybe_iff; auto|reflexivity].
      - exists (Some r). split; [apply maybe_iff; right; eauto|]. apply text_iff in T. rewrite T. cbn [omap_err obind]. now rewrite Y. }
    destruct L as (o & L1 & L2). rewrite L1. cbn [omap_err obind]. rewrite L2. cbn [obind].
    apply texts_iff in H4, H5. rewrite H4. cbn [obind]. rewrite H5. cbn [obind].
    rewrite (proj2 (sub_block_iff IbType b tb ND) H7). cbn [obind]. rewrite H8. cbn [omap_err obind].
    rewrite (proj2 (sub_block_iff IbValueSymtab b vb ND) H9). cbn [obind]. cbv zeta.
    assert (G : exists o, omap_err MdInconsistent (one_or_none_block (BIr IbParamAttrGroup) b) = Ok o /\
      match o with None => Ok [] | Some gb => omap_err MdAttributes (attr_groups_of gb) end = Ok (cx_groups c)).
    { destruct H10 as [[A ->]|(gb & S & T)].
      - exists None. split; [apply maybe_block_iff; auto|reflexivity].
      - exists (Some gb). split; [apply maybe_block_iff; [exact ND|right; eauto]|]. now rewrite T. }
    destruct G as (og & G1 & G2). rewrite G1. cbn [obind]. rewrite G2. cbn [obind].
    assert (A : exists o, omap_err MdInconsistent (one_or_none_block (BIr IbParamAttr) b) = Ok o /\
      match o with None => Ok [] | Some ab => omap_err MdAttributes (attributes_of (cx_groups c) ab) end = Ok (cx_attributes c)).
    { destruct H11 as [[A ->]|(ab & S & T)].
      - exists None. split; [apply maybe_block_iff; auto|reflexivity].
      - exists (Some ab). split; [apply maybe_block_iff; [exact ND|right; eauto]|]. now rewrite T. }
    destruct A as (oa & A1 & A2). rewrite A1. cbn [obind]. rewrite A2. cbn [obind].
    apply CD in H12. rewrite H12. cbn [omap_err obind]. rewrite <- H6. now destruct c.
Qed.

(** *** Function bodies *)

Lemma body_never e t b x : fn_block_of e t b <> Ok x.
Proof.
  unfold fn_block_of. intros H. apply obind_iff in H as (r & _ & H). apply obind_iff in H as (n & _ & H).
  destruct (alloc_limit e <? n); [discriminate|]. apply obind_iff in H as (l & _ & H). discriminate.
Qed.
Lemma bodies_ok e t l x : collect (fn_block_of e t) l = Ok x -> l = [].
Proof.
  intros H. apply collect_iff in H. destruct H as [|b y l m H]; [reflexivity|]. now apply body_never in H.
Qed.

Lemma module_exact e host t b m c fns als :
  NoDup (map fst (b_blocks b)) -> Forall fields64 (b_records b) -> N.of_nat (length t) < two64 ->
  (module_map e host t b = Ok (m, c, fns, als) <-> module_described e host t b m c fns als).
Proof.
  intros ND F64 LT. unfold module_map, maybe_record, strings_of. cbn [module_code_num].
  assert (FN : forall c l, cx_strtab c = t -> (collect (fn_of e c) (by_code 8 (b_records b)) = Ok l <->
    exists rs, all_with 8 b rs /\ Forall2 (fun r f => 2 <= cx_version c /\ function_described c r f) rs l)).
  { intros c' l E. rewrite collect_iff, all_with_forall2. apply Forall2_iff. intros r x I. apply in_by_code in I as [I _].
    rewrite Forall_forall in F64. apply function_exact; [now apply F64|now rewrite E]. }
  assert (AN : forall c l, cx_strtab c = t -> (collect (alias_of e c) (by_code 14 (b_records b)) = Ok l <->
    exists rs, all_with 14 b rs /\ Forall2 (fun r f => 2 <= cx_version c /\ alias_described c r f) rs l)).
  { intros c' l E. rewrite collect_iff, all_with_forall2. apply Forall2_iff. intros r x I. apply in_by_code in I as [I _].
    rewrite Forall_forall in F64. apply alias_exact; [now apply F64|now rewrite E]. }
  split.
  - intros H. apply obind_iff in H as (c0 & H1 & H). apply context_exact in H1; [|assumption..].
    pose proof (cd_strtab _ _ _ _ H1) as CS.
    apply obind_iff in H as (o2 & H2 & H). apply omap_err_iff in H2. apply maybe_iff in H2.
    apply obind_iff in H as (triple & H3 & H).
    apply obind_iff in H as (o4 & H4 & H). apply omap_err_iff in H4. apply maybe_iff in H4.
    apply obind_iff in H as (asm & H5 & H).
    apply obind_iff in H as (deplibs & H6 & H). apply texts_iff in H6.
    apply obind_iff in H as (fns0 & H7 & H). apply omap_err_iff in H7. apply FN in H7; [|exact CS].
    apply obind_iff in H as (bodies & H8 & H). apply omap_err_iff in H8. apply bodies_ok in H8. rewrite map_get_under in H8 by exact ND.
    apply obind_iff in H as (als0 & H9 & H). apply omap_err_iff in H9. apply AN in H9; [|exact CS].
    injection H as <- <- <- <-. constructor; cbn.
    + exact H1.
    + destruct H2 as [[A ->]|(r & S & ->)]; [injection H3 as <-; auto|]. right. apply omap_err_iff in H3. apply text_iff in H3. eauto.
    + destruct H4 as [[A ->]|(r & S & ->)]; [injection H5 as <-; auto|]. right. apply obind_iff in H5 as (s & T & [= <-]).
      apply omap_err_iff in T. apply text_iff in T. exists r, s. split; [exact S|]. split; [exact T|]. now apply split_pieces.
    + exact H6.
    + exact H7.
    + exact H8.
    + exact H9.
  - intros [H1 H2 H3 H4 H5 H6 H7]. pose proof (cd_strtab _ _ _ _ H1) as CS.
    apply context_exact in H1; [|assumption..]. rewrite H1. cbn [obind].
    assert (T : exists o, one_or_none 2 (b_records b) = Ok o /\
      match o with None => Ok host | Some r => omap_err MdString (try_string e r 0) end = Ok (md_triple m)).
    { destruct H2 as [[A ->]|(r & S & T)].
      - exists None. split; [apply maybe_iff; auto|reflexivity].
      - exists (Some r). split; [apply maybe_iff; right; eauto|]. apply text_iff in T. now rewrite T. }
    destruct T as (o2 & T1 & T2). rewrite T1. cbn [omap_err obind]. rewrite T2. cbn [obind].
    assert (A : exists o, one_or_none 4 (b_records b) = Ok o /\
      match o with None => Ok [] | Some r => let? s := omap_err MdString (try_string e r 0) in Ok (split_on newline s) end = Ok (md_asm m)).
    { destruct H3 as [[A ->]|(r & s & S & T & P)].
      - exists None. split; [apply maybe_iff; auto|reflexivity].
      - exists (Some r). split; [apply maybe_iff; right; eauto|]. apply text_iff in T. rewrite T. cbn [omap_err obind].
        apply split_pieces in P. unfold newline. now rewrite P. }
    destruct A as (o4 & A1 & A2). rewrite A1. cbn [omap_err obind]. rewrite A2. cbn [obind].
    apply texts_iff in H4. rewrite H4. cbn [obind]. apply FN in H5; [|exact CS]. rewrite H5. cbn [omap_err obind].
    rewrite map_get_under by exact ND. rewrite H6. cbn [collect omap_err obind].
    apply AN in H7; [|exact CS]. rewrite H7. cbn [omap_err obind]. now destruct m.
Qed.

Lemma module_of_iff e host t b m : module_of e host t b = Ok m <->
  exists c fns als, module_map e host t b = Ok (m, c, fns, als).
Proof.
  unfold module_of. split.
  - intros H. apply obind_iff in H as ([[[m' c] fns] als] & M & [= <-]). eauto.
  - intros (c & fns & als & H). rewrite H. reflexivity.
Qed.
Lemma module_of_exact e host t b m :
  NoDup (map fst (b_blocks b)) -> Forall fields64 (b_records b) -> N.of_nat (length t) < two64 ->
  (module_of e host t b = Ok m <-> exists c fns als, module_described e host t b m c fns als).
Proof.
  intros ND F LT. rewrite module_of_iff. split; intros (c & fns & als & H); exists c, fns, als; now apply module_exact in H || (apply module_exact; assumption).
Qed.
Lemma module_bodies e host t b m : module_of e host t b = Ok m -> by_id (BIr IbFunction) b = [].
Proof.
  intros H. apply module_of_iff in H as (c & fns & als & H). unfold module_map in H.
  apply obind_iff in H as (c0 & _ & H). apply obind_iff in H as (? & _ & H). apply obind_iff in H as (? & _ & H).
  apply obind_iff in H as (? & _ & H). apply obind_iff in H as (? & _ & H). apply obind_iff in H as (? & _ & H).
  apply obind_iff in H as (? & _ & H). apply obind_iff in H as (? & X & _). apply omap_err_iff in X. now apply bodies_ok in X.
Qed.
