(** Function bodies, exactly. *)
From Verif Require Import Base Strings EnumModel SupportModel SupportSpec SupportMain CursorModel StreamModel UnrollModel UnrollSpec UnrollApi
  TypeTableModel RecordModel ModuleModel ModuleSpec ModuleProofs AttributeMain LayoutMain PipelinePanics.
From Coq Require Import Lia ZifyBool ZifyNat ZifyN.
Local Open Scope N_scope.

Lemma function_code_known v c : function_code_of v = Some c -> In v (map snd function_code_table) /\ v = function_code_num c.
Proof.
  intros H. apply function_code_realises in H. split; [apply in_map_iff; now exists (c, v)|]. now apply function_code_realises in H.
Qed.

(** The relation has one result for each record. *)
Ltac four l := destruct l as [|?x0 [|?x1 [|?x2 [|?x3 [|?x4 ?xs]]]]].

Lemma body_record_exact types r out : fb_step types r = out <-> body_record types r out.
Proof.
  assert (S1 : body_record types r (fb_step types r)).
  { unfold fb_step, inst_type, types_get. destruct (function_code_of (r_code r)) as [c|] eqn:E.
    - cbn [ok_or obind]. destruct (function_code_known _ _ E) as [K1 K2].
      destruct c; cbn [function_code_num] in K2; try (apply BrTodo; [exact K1|]; rewrite K2; cbn; lia); try (now apply BrDeclare).
      all: unfold unpack, fld; destruct (length (r_fields r) =? _)%nat eqn:L; cbn [obind].
      all: try (apply BrFourBad; [rewrite K2; cbn [In]; tauto|lia]).
      all: try (apply BrFour; [rewrite K2; cbn; lia|lia]).
      all: try (apply BrUnopBad; [exact K2|lia]).
      all: destruct (r_fields r) as [|x0 [|x1 [|x2 [|x3 [|x4 xs]]]]] eqn:F; try discriminate L; cbn [nth].
      all: destruct (nth_error types (N.to_nat x1)) as [t|] eqn:T; cbn [ok_or obind].
      + rewrite binary_op_exact. cbn [omap_err obind]. destruct (x3 <? 13) eqn:X.
        * eapply BrBinop; try eassumption. lia.
        * eapply BrBinopOpcode; try eassumption. lia.
      + eapply BrBinopType; try eassumption. now apply nth_error_None.
      + rewrite unary_op_exact. destruct (x2 =? 0) eqn:X; cbn [omap_err obind].
        * apply N.eqb_eq in X. subst x2. eapply BrUnop; eassumption.
        * eapply BrUnopOpcode; try eassumption. lia.
      + eapply BrUnopType; try eassumption. now apply nth_error_None.
    - cbn [ok_or obind]. apply BrUnknown. intros H. apply in_map_iff in H as ([c v] & H1 & H2). cbn in H1. subst v.
      apply (proj1 function_code_realises) in H2. congruence. }
  split; [now intros <-|]. intros H.
  assert (D : forall o1 o2, body_record types r o1 -> body_record types r o2 -> o1 = o2); [|exact (D _ _ S1 H)].
  clear. intros o1 o2 H1 H2.
  assert (Q : forall n, In n [1;2;3;19;20;44;56] -> In n (map snd function_code_table)) by
    (intros n Hn; cbn in Hn; repeat (destruct Hn as [<-|Hn]; [vm_compute; tauto|]); destruct Hn).
  assert (P4 : forall c, In (c, r_code r) [(FcInstBinop, 2); (FcInstCast, 3); (FcInstAlloca, 19); (FcInstLoad, 20); (FcInstStore, 44)] ->
    In (r_code r) [2; 3; 19; 20; 44] /\ function_code_num c = r_code r).
  { intros c Hc. cbn [In] in Hc. repeat (destruct Hc as [[= <- Hc]|Hc]; [rewrite <- Hc; cbn [In function_code_num]; auto 9|]). destruct Hc. }
  assert (U4 : forall c c', In (c, r_code r) [(FcInstBinop, 2); (FcInstCast, 3); (FcInstAlloca, 19); (FcInstLoad, 20); (FcInstStore, 44)] ->
    In (c', r_code r) [(FcInstBinop, 2); (FcInstCast, 3); (FcInstAlloca, 19); (FcInstLoad, 20); (FcInstStore, 44)] -> c = c').
  { intros c c' Hc Hc'. cbn [In] in Hc, Hc'.
    repeat (destruct Hc as [[= <- Hc]|Hc]; [rewrite <- Hc in Hc'; intuition congruence|]). destruct Hc. }
  destruct H1 as [| | ? X1| | | | | | | | |]; destruct H2 as [| | ? X2| | | | | | | | |]; try reflexivity; try congruence.
  all: try (rewrite (U4 _ _ X1 X2); reflexivity).
  all: try (destruct (P4 _ X1) as [X1' _]; clear X1); try (destruct (P4 _ X2) as [X2' _]; clear X2); clear P4 U4.
  all: try (exfalso; cbn [In] in *; lia).
  all: try (exfalso; match goal with A : r_fields _ = _, B : length (r_fields _) <> _ |- _ => rewrite A in B; apply B; reflexivity end).
  all: try (exfalso; match goal with A : ~ In _ (map _ _) |- _ => apply A, Q; cbn [In] in *; lia end).
  all: match goal with A : r_fields _ = _, B : r_fields _ = _ |- _ => rewrite A in B; injection B; intros; subst end.
  all: try congruence; try (exfalso; lia).
  all: exfalso; match goal with A : nth_error _ (N.to_nat ?i) = Some _, B : (length _ <= N.to_nat ?i)%nat |- _ =>
    apply nth_error_None in B; congruence end.
Qed.

Lemma two_codes code l : (2 <= length (by_code code l))%nat <->
  exists l1 r l2 r' l3, l = l1 ++ r :: l2 ++ r' :: l3 /\ r_code r = code /\ r_code r' = code.
Proof.
  unfold by_code. split.
  - intros H. destruct (filter _ l) as [|r [|r' m]] eqn:E; cbn in H; try lia.
    assert (F : forall x m' k, filter (fun r => r_code r =? code) k = x :: m' ->
      exists k1 k2, k = k1 ++ x :: k2 /\ r_code x = code /\ filter (fun r => r_code r =? code) k2 = m').
    { intros x m'. induction k as [|y k IH]; [discriminate|]. cbn [filter]. destruct (r_code y =? code) eqn:Y.
      - intros [= -> <-]. exists [], k. split; [reflexivity|]. split; [lia|reflexivity].
      - intros K. destruct (IH K) as (k1 & k2 & -> & K2). exists (y :: k1), k2. auto. }
    destruct (F _ _ _ E) as (l1 & l' & -> & R & E'). destruct (F _ _ _ E') as (l2 & l3 & -> & R' & _). eauto 9.
  - intros (l1 & r & l2 & r' & l3 & -> & R & R'). rewrite !filter_app. cbn [filter]. rewrite (proj2 (N.eqb_eq _ _) R).
    rewrite filter_app. cbn [filter]. rewrite (proj2 (N.eqb_eq _ _) R'). rewrite app_length. cbn [length]. rewrite app_length. cbn [length]. lia.
Qed.

Lemma collect_stop {E A B} (f : A -> outcome E B) l (out : outcome E (list B)) : collect f l = out -> (forall m, out <> Ok m) ->
  exists l1 x l2, l = l1 ++ x :: l2 /\ Forall (fun a => exists b, f a = Ok b) l1 /\
    match f x with Ok _ => False | Err y => out = Err y | Panic p => out = Panic p | OutOfFuel => out = OutOfFuel end.
Proof.
  revert out. induction l as [|a l IH]; intros out H HO; cbn [collect] in H; [exfalso; exact (HO _ (eq_sym H))|].
  destruct (f a) as [b|y|p|] eqn:Fa; cbn [obind] in H.
  2-4: exists [], a, l; rewrite Fa; auto.
  destruct (collect f l) as [m|y|p|] eqn:C; cbn [obind] in H; [exfalso; exact (HO _ (eq_sym H))|..];
    (destruct (IH _ eq_refl ltac:(discriminate)) as (l1 & x & l2 & -> & F & K); exists (a :: l1), x, l2;
     split; [reflexivity|]; split; [constructor; eauto|]; destruct (f x); congruence).
Qed.

Lemma collect_stops {E A B} (f : A -> outcome E B) l1 x l2 : Forall (fun a => exists b, f a = Ok b) l1 -> (forall b, f x <> Ok b) ->
  collect f (l1 ++ x :: l2) = obind (f x) (fun _ => Ok []).
Proof.
  intros F HX. induction F as [|a l1 (b & Fa) F IH]; cbn [app collect].
  - destruct (f x) as [b|y|p|]; try reflexivity. now destruct (HX b).
  - rewrite Fa, IH. cbn [obind]. destruct (f x) as [c|y|p|]; try reflexivity. now destruct (HX c).
Qed.

Lemma body_exact e types b out : fn_block_of e types b = out <-> body e types b out.
Proof.
  destruct (record_accessors 1 (b_records b)) as (A1 & A2 & _ & _ & A3 & _).
  unfold fn_block_of. cbn [function_code_num]. split.
  - intros H. destruct (exactly_one 1 (b_records b)) as [r|x|p|] eqn:X; cbn [omap_err obind] in H.
    + apply sole_iff in X. destruct (r_fields r) as [|n l] eqn:F; cbn [hd_error ok_or obind] in H.
      * subst out. eapply BoEmpty; eassumption.
      * destruct (alloc_limit e <? n) eqn:L; [subst out; eapply BoAlloc; try eassumption; lia|].
        destruct (collect (fb_step types) (b_records b)) as [m|y|p|] eqn:C; cbn [obind] in H; subst out.
        -- eapply BoEnd; try eassumption; [lia|]. apply collect_iff in C. clear - C.
           induction C as [|x [] l m Hx C IH]; constructor; [now apply body_record_exact|exact IH].
        -- destruct (collect_stop _ _ _ C ltac:(discriminate)) as (l1 & z & l2 & E & FA & K).
           eapply (BoStop e types b r n l l1 z l2); try eassumption; [lia| |apply body_record_exact|discriminate].
           ++ eapply Forall_impl; [|exact FA]. intros a ([] & Fa). now apply body_record_exact.
           ++ destruct (fb_step types z) as [[]|q|q|]; try contradiction; try discriminate K; congruence.
        -- destruct (collect_stop _ _ _ C ltac:(discriminate)) as (l1 & z & l2 & E & FA & K).
           eapply (BoStop e types b r n l l1 z l2); try eassumption; [lia| |apply body_record_exact|discriminate].
           ++ eapply Forall_impl; [|exact FA]. intros a ([] & Fa). now apply body_record_exact.
           ++ destruct (fb_step types z) as [[]|q|q|]; try contradiction; try discriminate K; congruence.
        -- exfalso. revert C. apply collect_fuel. intros x _. apply fb_step_fuel.
    + assert (X' := X). unfold exactly_one, exactly_one_of in X'. 
      destruct (by_code 1 (b_records b)) as [|r1 [|r2 m]] eqn:B; try discriminate X'; injection X' as <-; subst out.
      * apply BoMissing, A2. reflexivity.
      * assert (Y : (2 <= length (by_code 1 (b_records b)))%nat) by (rewrite B; cbn; lia). apply two_codes in Y as (l1 & r & l2 & r' & l3 & E & R & R'). eapply BoTooMany; eassumption.
    + now apply exactly_one_panic in X.
    + now apply exactly_one_fuel in X.
  - intros H. destruct H as [H|l1 r l2 r' l3 E R R'|r HS F|r n l HS F HN|r n l l1 x l2 out HS F HN E FA BX HO|r n l HS F HN FA].
    + rewrite (proj2 A2 H). reflexivity.
    + rewrite (proj2 A3); [reflexivity|]. apply two_codes. eauto 9.
    + apply sole_iff in HS. rewrite HS. cbn [omap_err obind]. rewrite F. reflexivity.
    + apply sole_iff in HS. rewrite HS. cbn [omap_err obind]. rewrite F. cbn [hd_error ok_or obind]. replace (_ <? _) with true by lia. reflexivity.
    + apply sole_iff in HS. rewrite HS. cbn [omap_err obind]. rewrite F. cbn [hd_error ok_or obind]. replace (_ <? _) with false by lia.
      apply body_record_exact in BX. rewrite E, collect_stops.
      * rewrite BX. destruct out as [[]|y|p|]; try reflexivity. congruence.
      * eapply Forall_impl; [|exact FA]. intros a Ha. apply body_record_exact in Ha. eauto.
      * intros [] K. congruence.
    + apply sole_iff in HS. rewrite HS. cbn [omap_err obind]. rewrite F. cbn [hd_error ok_or obind]. replace (_ <? _) with false by lia.
      assert (C : exists m, collect (fb_step types) (b_records b) = Ok m).
      { clear - FA. induction FA as [|x l Hx FA (m & IH)]; [exists []; reflexivity|]. apply body_record_exact in Hx.
        exists (tt :: m). cbn [collect]. now rewrite Hx, IH. }
      destruct C as (m & ->). reflexivity.
Qed.
