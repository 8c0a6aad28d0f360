(** The parser stops exactly on the inputs of [GrammarStopSpec]. *)
From Verif Require Import Base CursorModel CursorSpec CursorHist CursorProofs CursorSim CursorVbr CursorMain CursorExact
  StreamModel StreamSpec StreamHist StreamProofs StreamPres StreamEffect StreamRound StreamMain StreamEnd StreamAbb StreamBox
  GrammarSpec CursorGap GrammarProofs GrammarStopSpec.
From Coq Require Import Lia ZifyBool ZifyNat ZifyN.
Ltac Zify.zify_post_hook ::= Z.div_mod_to_equations.
Local Open Scope N_scope.
#[local] Arguments N.add : simpl never.
#[local] Arguments N.mul : simpl never.
#[local] Arguments N.div : simpl never.
#[local] Arguments N.modulo : simpl never.
#[local] Arguments N.sub : simpl never.
#[local] Arguments N.pow : simpl never.

Definition stops {A} (r : outcome serr A) (x : stop) : Prop :=
  match r, x with
  | Err y, Stop z => y = z
  | Panic p, Crash q => p = q
  | _, _ => False
  end.

Lemma stops_bind {St A B} (m : M St serr A) (k : A -> M St serr B) s x :
  stops (fst (bind m k s)) x <-> stops (fst (m s)) x \/ exists a s1, m s = (Ok a, s1) /\ stops (fst (k a s1)) x.
Proof.
  unfold bind. destruct (m s) as [[a|y|p|] s1]; cbn [fst stops].
  - split; [intros H; right; eauto|]. intros [[]|(b & s2 & E & H)]. injection E as <- <-. exact H.
  - split; [auto|]. intros [H|(b & s2 & E & H)]; [exact H|discriminate E].
  - split; [auto|]. intros [H|(b & s2 & E & H)]; [exact H|discriminate E].
  - split; [intros []|]. intros [[]|(b & s2 & E & H)]; discriminate E.
Qed.

Section Stops.
Variable e : env.
Variable lay : layout.
Notation o := (gap_ops lay).
Notation decn := (GrammarProofs.decn lay).
Notation dec := (GrammarProofs.dec lay).
Notation pdec := (GrammarProofs.pdec lay).

(** [m] stops exactly as [F] tells, for inputs shorter than [n]. *)
Definition failn {A} (n : nat) (m : M L serr A) (F : N -> L -> stop -> Prop) : Prop :=
  forall pos l x, (length l < n)%nat -> pos + blen l = tot lay -> (stops (fst (m l)) x <-> F pos l x).
Definition fails {A} (m : M L serr A) F : Prop := forall n, failn n m F.

Definition orF {A} (T : N -> A -> L -> Prop) (F : N -> L -> stop -> Prop) (G : A -> N -> L -> stop -> Prop) : N -> L -> stop -> Prop :=
  fun pos l x => F pos l x \/ exists a t l', l = t ++ l' /\ T pos a t /\ G a (pos + blen t) l' x.

Lemma failn_ext {A} n (m : M L serr A) F F' :
  (forall pos l x, (length l < n)%nat -> pos + blen l = tot lay -> F pos l x <-> F' pos l x) -> failn n m F -> failn n m F'.
Proof. intros HF H pos l x HL HP. rewrite (H pos l x HL HP). now apply HF. Qed.
Lemma fails_ext {A} (m : M L serr A) F F' :
  (forall pos l x, pos + blen l = tot lay -> F pos l x <-> F' pos l x) -> fails m F -> fails m F'.
Proof. intros HF H n. apply failn_ext with F; [auto|apply H]. Qed.

Lemma failn_bind {A B} n (m : M L serr A) (k : A -> M L serr B) T F G :
  decn n m T -> failn n m F -> (forall a, failn n (k a) (G a)) -> failn n (bind m k) (orF T F G).
Proof.
  intros HD HF HK pos l x HL HP. rewrite stops_bind. unfold orF. rewrite (HF pos l x HL HP).
  apply or_iff_compat_l. split.
  - intros (a & l1 & E & H). apply (HD pos l a l1 HL HP) in E. destruct E as (t & -> & HT). exists a, t, l1.
    split; [reflexivity|]. split; [exact HT|]. apply HK; [rewrite app_length in HL; lia| |exact H].
    rewrite blen_app in HP. rewrite <- N.add_assoc. exact HP.
  - intros (a & t & l' & -> & HT & H). exists a, l'. split; [apply (HD pos _ a l' HL HP); eauto|].
    apply (HK a (pos + blen t)); [rewrite app_length in HL; lia| |exact H].
    rewrite blen_app in HP. rewrite <- N.add_assoc. exact HP.
Qed.
Lemma failn_bind1 {A B} n (m : M L serr A) (k : A -> M L serr B) T F G :
  decn (S n) m T -> failn (S n) m F -> (forall pos a t, T pos a t -> t <> []) -> (forall a, failn n (k a) (G a)) ->
  failn (S n) (bind m k) (orF T F G).
Proof.
  intros HD HF HN HK pos l x HL HP. rewrite stops_bind. unfold orF. rewrite (HF pos l x HL HP).
  apply or_iff_compat_l. split.
  - intros (a & l1 & E & H). apply (HD pos l a l1 HL HP) in E. destruct E as (t & -> & HT). exists a, t, l1.
    split; [reflexivity|]. split; [exact HT|]. apply HK; [| |exact H].
    + pose proof (HN _ _ _ HT). destruct t; [congruence|]. cbn [app length] in HL. rewrite app_length in HL. lia.
    + rewrite blen_app in HP. rewrite <- N.add_assoc. exact HP.
  - intros (a & t & l' & -> & HT & H). exists a, l'. split; [apply (HD pos _ a l' HL HP); eauto|].
    apply (HK a (pos + blen t)); [| |exact H].
    + pose proof (HN _ _ _ HT). destruct t; [congruence|]. cbn [app length] in HL. rewrite app_length in HL. lia.
    + rewrite blen_app in HP. rewrite <- N.add_assoc. exact HP.
Qed.
Lemma fails_bind {A B} (m : M L serr A) (k : A -> M L serr B) T F G :
  dec m T -> fails m F -> (forall a, fails (k a) (G a)) -> fails (bind m k) (orF T F G).
Proof. intros HD HF HK n. apply failn_bind; [apply HD|apply HF|intros a; apply HK]. Qed.
Lemma fails_ret {A} (a : A) : fails (ret a) (fun _ _ _ => False).
Proof. intros n pos l x _ _. reflexivity. Qed.
Lemma fails_fail {A} y : fails (fail (A := A) y) (fun _ _ x => x = Stop y).
Proof. intros n pos l x _ _. cbn. destruct x; cbn; split; intros H; first [destruct H; reflexivity|discriminate H|injection H as ->; reflexivity|destruct H]. Qed.
Lemma fails_crash {A} y : fails (crash (A := A) y) (fun _ _ x => x = Crash y).
Proof. intros n pos l x _ _. cbn. destruct x; cbn; split; intros H; first [destruct H; reflexivity|discriminate H|injection H as ->; reflexivity|destruct H]. Qed.

(** A value computed from what was read cannot stop. *)
Lemma fails_map {A B} (m : M L serr A) (f : A -> B) F : fails m F -> fails (bind m (fun a => ret (f a))) F.
Proof.
  intros HF n pos l x HL HP. rewrite stops_bind, (HF n pos l x HL HP). split; [|auto].
  intros [H|(a & s1 & _ & H)]; [exact H|destruct H].
Qed.

  Lemma list_read_stops w l x : stops (fst (lift_err SCursor (list_read w) l)) x <-> fixed_stops w l x.
  Proof.
    unfold lift_err, list_read.
    destruct ((w =? 0) || (64 <=? w)) eqn:EW.
    { cbn [fst stops]. split.
      - destruct x; [|intros []]. intros <-. apply FxSize. lia.
      - intros H. destruct H; [reflexivity|lia|exfalso; unfold blen in *; lia]. }
    destruct (w <=? N.of_nat (length l)) eqn:EL.
    { cbn [fst stops]. split; [intros []|]. intros H. destruct H; [lia|subst l; cbn in EL; lia|unfold blen in *; lia]. }
    destruct l as [|b l]; cbn [fst stops].
    - split.
      + destruct x; [|intros []]. intros <-. apply FxEof; [lia|reflexivity].
      + intros H. destruct H; [lia|reflexivity|congruence].
    - split.
      + destruct x; [|intros []]. intros <-. apply FxShort; [lia|discriminate|unfold blen; lia].
      + intros H. destruct H; [lia|discriminate|reflexivity].
  Qed.

  Lemma fails_read w : fails (c_read o w) (fun _ l x => fixed_stops w l x).
  Proof. intros n pos l x _ _. apply list_read_stops. Qed.

  Lemma vbr_over w ps g rest : forall fuel result shift, 2 <= w <= 32 -> Forall (group_len w) ps -> blen g = w ->
    overflow_checks e = true -> 64 <= shift + N.of_nat (length ps) * (w - 1) ->
    (length (flat_map (fun p => p ++ [true]) ps ++ g ++ rest) < fuel)%nat ->
    fst (vbr_loop e list_ops fuel w result shift (flat_map (fun p => p ++ [true]) ps ++ g ++ rest)) = Panic PShiftOverflow.
  Proof.
    induction ps as [|p ps IH]; intros fuel result shift Hw Hps Hg HO HB HL; (destruct fuel as [|f]; [lia|]).
    - cbn [flat_map app length] in *. destruct (rev g) as [|k r] eqn:ER.
      { apply (f_equal (@length bool)) in ER. rewrite rev_length in ER. cbn in ER. unfold blen in Hg. lia. }
      apply (f_equal (@rev bool)) in ER. rewrite rev_involutive in ER. cbn [rev] in ER. rewrite ER, <- app_assoc. cbn [app].
      rewrite vbr_loop_step; [|exact Hw|]. 2:{ unfold group_len. rewrite ER in Hg. unfold blen in Hg. rewrite app_length in Hg. cbn in Hg. lia. }
      replace ((64 <=? shift) && overflow_checks e) with true by (rewrite HO; lia). reflexivity.
    - inversion Hps as [|? ? Hp Hps']; subst. cbn [flat_map] in *. rewrite <- !app_assoc in *. cbn [app] in *.
      rewrite vbr_loop_step by assumption. destruct ((64 <=? shift) && overflow_checks e) eqn:B; [reflexivity|].
      cbv zeta. apply IH; auto.
      + cbn [length] in HB. lia.
      + rewrite !app_length in *. cbn [length] in HL. rewrite !app_length in HL. lia.
  Qed.

  Lemma fails_vbr w : fails (c_vbr e o w) (fun _ l x => vbr_stops e w l x).
  Proof.
    intros n pos l x _ _. unfold c_vbr, lift_err, read_vbr. change (vbr_loop e o) with (vbr_loop e list_ops).
    destruct ((2 <=? w) && (w <=? 32)) eqn:EW.
    2:{ cbn [fst stops]. split.
        - destruct x; [|intros []]. intros <-. apply VbWidth. lia.
        - intros H. destruct H as [|ps t rest x (HW & _)|ps t g rest (HW & _)]; [reflexivity|lia|lia]. }
    assert (Hw : 2 <= w <= 32) by lia. change (op_fuel o l) with (S (length l)). split.
    - intros H. destruct (vbr_decompose w l ltac:(lia)) as [(ps & last & rest & -> & H1 & H2)|(ps & tl & -> & H1 & H2)].
      + destruct (vbr_loop_text e w ps last rest (S (length (vbr_text ps last ++ rest))) 0 0 Hw H1 H2 ltac:(lia)) as (l2 & E).
        rewrite E in H. destruct (overflow_checks e && (64 <=? 0 + N.of_nat (length ps) * (w - 1))) eqn:EB; [|destruct x; destruct H].
        apply andb_true_iff in EB. destruct EB as [EO EB]. cbn [fst stops] in H. destruct x as [|p]; [destruct H|]. subst p.
        apply VbOver with ps (flat_map (fun p => p ++ [true]) ps) (last ++ [false]) rest; [split; auto| | |exact EO|lia].
        * unfold vbr_text. now rewrite <- !app_assoc.
        * unfold group_len in H2. unfold blen. rewrite app_length. cbn [length]. lia.
      + destruct (vbr_loop_trunc e w ps tl (S (length (flat_map (fun p => p ++ [true]) ps ++ tl))) 0 0 Hw H1 H2 ltac:(lia)) as (l2 & E).
        rewrite E in H. match type of H with context [if ?b then _ else _] => destruct b eqn:EB end.
        * cbn [fst stops] in H. destruct x as [|p]; [destruct H|]. subst p.
          rewrite !andb_true_iff in EB. destruct EB as (((EO & _) & EB) & EL).
          destruct ps as [|q ps] using rev_ind; [discriminate EL|clear IHps]. rewrite app_length in *. cbn [length] in *.
          apply Forall_app in H1. destruct H1 as [H1 H3]. inversion H3 as [|? ? H4 _]; subst.
          apply VbOver with ps (flat_map (fun p => p ++ [true]) ps) (q ++ [true]) tl; [split; auto| | |exact EO|].
          -- rewrite flat_map_app. cbn [flat_map]. now rewrite app_nil_r, <- !app_assoc.
          -- unfold group_len in H4. unfold blen. rewrite app_length. cbn [length]. lia.
          -- replace (N.of_nat (length ps + 1) - 1) with (N.of_nat (length ps)) in EB by lia. lia.
        * cbn [fst stops] in H. destruct x as [y|]; [|destruct H]. subst y.
          apply VbCut with ps (flat_map (fun p => p ++ [true]) ps) tl; [split; auto|reflexivity| |].
          -- destruct tl; [apply FxEof; [lia|reflexivity]|apply FxShort; [lia|discriminate|exact H2]].
          -- intros EO. rewrite EO in EB. cbn [andb] in EB. rewrite !andb_false_iff in EB.
             destruct ps as [|q ps]; cbn [length] in *; [lia|].
             replace (N.of_nat (S (length ps)) * (w - 1)) with (N.of_nat (length ps) * (w - 1) + (w - 1)) in * by lia.
             replace ((N.of_nat (S (length ps)) - 1) * (w - 1)) with (N.of_nat (length ps) * (w - 1)) in EB by lia.
             set (q0 := N.of_nat (length ps) * (w - 1)) in *. lia.
    - intros H. destruct H as [H|ps t rest x (_ & H1 & ->) -> HF HB|ps t g rest (_ & H1 & ->) -> HG HO HB].
      + lia.
      + assert (H2 : N.of_nat (length rest) < w).
        { destruct HF as [HF|HF ->|HF _ HF2]; [lia|cbn; lia|exact HF2]. }
        destruct (vbr_loop_trunc e w ps rest (S (length (flat_map (fun p => p ++ [true]) ps ++ rest))) 0 0 Hw H1 H2 ltac:(lia)) as (l2 & ->).
        match goal with |- context [if ?b then _ else _] => replace b with false end.
        * cbn [fst stops]. destruct HF as [HF|HF ->|HF HR HF2]; [lia|reflexivity|destruct rest; [congruence|reflexivity]].
        * symmetry. destruct (overflow_checks e); [|reflexivity]. specialize (HB eq_refl). cbn [andb]. rewrite !andb_false_iff.
          destruct ps as [|q ps]; cbn [length] in *; [right; lia|]. left. right.
          replace (N.of_nat (S (length ps)) * (w - 1)) with (N.of_nat (length ps) * (w - 1) + (w - 1)) in * by lia.
          replace ((N.of_nat (S (length ps)) - 1) * (w - 1)) with (N.of_nat (length ps) * (w - 1)) by lia.
          set (q0 := N.of_nat (length ps) * (w - 1)) in *. lia.
      + pose proof (vbr_over w ps g rest (S (length (flat_map (fun p => p ++ [true]) ps ++ g ++ rest))) 0 0 Hw H1 HG HO ltac:(lia) ltac:(lia)) as E.
        destruct (vbr_loop _ _ _ _ _ _ _) as [r l2]. cbn [fst] in E. subst r. reflexivity.
  Qed.

  Lemma fails_read_as t w : ity_signed t = false -> w <= ity_bits t \/ 64 <= w -> fails (c_read_as o t w) (fun _ l x => fixed_stops w l x).
  Proof.
    intros HT HB n pos l x HL HP. rewrite <- list_read_stops. unfold c_read_as, lift_err, read_as, bind. cbn [op_read gap_ops].
    destruct (list_read w l) as [[a|y|p|] l1] eqn:ER; cbn [fst stops]; try reflexivity.
    assert (F : a < 2 ^ ity_bits t).
    { destruct (proj1 (dec_read lay w n pos l a l1 HL HP)) as (u & _ & X1 & X2 & _).
      { unfold c_read. apply lift_ok. exact ER. }
      eapply N.lt_le_trans; [exact X2|]. apply N.pow_le_mono_r; lia. }
    unfold num_cast. rewrite HT. replace (a <? 2 ^ ity_bits t) with true by lia. cbn [fst stops]. reflexivity.
  Qed.

  Lemma fails_align : fails (c_align o) (fun _ _ _ => False).
  Proof. intros n pos l x _ _. reflexivity. Qed.
  Lemma fails_capacity k : fails (with_capacity e k) (fun _ _ x => alloc_limit e < k /\ x = Crash PAlloc).
  Proof.
    intros n pos l x _ _. unfold with_capacity. destruct (k <=? alloc_limit e) eqn:EK; cbn [fst ret crash stops].
    - split; [intros []|lia].
    - split; [destruct x; [intros []|intros <-; split; [lia|reflexivity]]|intros [_ ->]; reflexivity].
  Qed.

  Lemma fails_times (m : M L serr (list N)) (P : N -> L -> Prop) F k :
    dec m (fun _ r t => exists v, r = [v] /\ P v t) -> fails m (fun _ l x => F l x) ->
    fails (times k m) (fun _ l x => items_stop k P F l x).
  Proof.
    intros HD HF n pos l x HL HP. rewrite times_nat. unfold items_stop.
    transitivity (exists vals ts rest, (length vals < N.to_nat k)%nat /\ Forall2 P vals ts /\ l = concat ts ++ rest /\ F rest x).
    2:{ split; intros (vals & ts & rest & H); exists vals, ts, rest; (split; [lia|apply H]). }
    revert pos l HL HP. generalize (N.to_nat k) as c. induction c as [|c IH]; intros pos l HL HP; cbn [times_n].
    - split; [intros []|]. intros (vals & ts & rest & H & _). lia.
    - rewrite stops_bind, (HF n pos l x HL HP). split.
      + intros [H|(a & l1 & E & H)].
        * exists [], [], l. split; [cbn; lia|]. split; [constructor|]. auto.
        * apply (HD n pos l a l1 HL HP) in E. destruct E as (t1 & -> & v & -> & HPv).
          apply stops_bind in H. destruct H as [H|(b & l2 & _ & [])].
          apply (IH (pos + blen t1)) in H; [|rewrite app_length in HL; lia|rewrite blen_app in HP; rewrite <- N.add_assoc; exact HP].
          destruct H as (vals & ts & rest & H1 & H2 & -> & H3). exists (v :: vals), (t1 :: ts), rest.
          split; [cbn; lia|]. split; [now constructor|]. split; [cbn; now rewrite app_assoc|exact H3].
      + intros (vals & ts & rest & H1 & H2 & -> & H3). destruct H2 as [|v t1 vals ts HPv H2]; [left; exact H3|right].
        cbn [concat] in *. rewrite <- app_assoc in *. exists [v], (concat ts ++ rest).
        split; [apply (HD n pos _ _ _ HL HP); eauto|]. apply stops_bind. left.
        apply (IH (pos + blen t1)); [rewrite app_length in HL; lia|rewrite blen_app in HP; rewrite <- N.add_assoc; exact HP|].
        exists vals, ts, rest. split; [cbn in H1; lia|auto].
  Qed.

  Lemma fails_scalar op : is_scalar op = true -> fails (op_parse e o op) (fun _ l x => scalar_stops e op l x).
  Proof.
    intros HS. destruct op as [v|w|w|el| |]; try discriminate HS; cbn [op_parse].
    - eapply fails_ext; [|apply fails_map, fails_vbr]. intros pos l x _. split; [now constructor|]. intros H. now inversion H.
    - eapply fails_ext; [|apply fails_map, fails_read_as; [reflexivity|change (ity_bits u64t) with 64; lia]].
      intros pos l x _. split; [now constructor|]. intros H. now inversion H.
    - assert (D : dec (c_read_as o u8t 6) (fun _ v x => fixed_text 6 v x)).
      { apply dec_read_as; [reflexivity|change (ity_bits u8t) with 8; lia]. }
      eapply fails_ext; [|apply fails_bind with (G := fun a _ _ x => 64 <= a /\ x = Crash PChar6Range);
        [exact D|apply fails_read_as; [reflexivity|change (ity_bits u8t) with 8; lia]|]].
      + intros pos l x _. unfold orF. split.
        * intros [H|(a & t & l' & _ & (_ & H & _) & H2 & _)]; [now constructor|]. change (2 ^ 6) with 64 in H. lia.
        * intros H. left. now inversion H.
      + intros a. unfold decode_char6. destruct (nth_error char6_alphabet (N.to_nat a)) eqn:EN.
        * eapply fails_ext; [|apply fails_map, fails_ret]. intros pos l x _. split; [intros []|]. intros [H _].
          assert (K : nth_error char6_alphabet (N.to_nat a) <> None) by congruence. apply nth_error_Some in K.
          change (length char6_alphabet) with 64%nat in K. lia.
        * eapply fails_ext; [|apply fails_map, fails_crash]. intros pos l x _. apply nth_error_None in EN.
          change (length char6_alphabet) with 64%nat in EN. split; [intros ->; split; [lia|reflexivity]|tauto].
  Qed.

  Lemma fails_byte : fails (bind (c_read_as o u8t 8) (fun b => ret [b])) (fun _ l x => fixed_stops 8 l x).
  Proof. apply fails_map, fails_read_as; [reflexivity|change (ity_bits u8t) with 8; lia]. Qed.

  (** The last operand of a record. *)
  Lemma fails_last op F : fails (op_parse e o op) F -> fails (abbrev_parse e o [op]) F.
  Proof.
    intros HF n pos l x HL HP. cbn [abbrev_parse]. rewrite stops_bind, (HF n pos l x HL HP). split; [|auto].
    intros [H|(a & l1 & _ & H)]; [exact H|destruct H].
  Qed.

  Lemma fails_record a : ops_shaped a = true -> fails (abbrev_parse e o a) (fun pos l x => values_stop e (gap lay) pos a l x).
  Proof.
    induction a as [|op a IH]; intros HS.
    { eapply fails_ext; [|apply fails_ret]. intros pos l x _. split; [intros []|]. intros H. inversion H. }
    assert (SC : is_scalar op = true -> ops_shaped a = true -> fails (abbrev_parse e o (op :: a)) (fun pos l x => values_stop e (gap lay) pos (op :: a) l x)).
    { intros H1 H2. cbn [abbrev_parse].
      eapply fails_ext; [|apply fails_bind; [apply dec_scalar, H1|apply fails_scalar, H1|intros y; apply fails_map, IH, H2]].
      intros pos l x _. unfold orF. split.
      - intros [H|(r & t & l' & -> & (v & -> & HT) & H)]; [now apply VsScalar|eapply VsNext; eassumption].
      - intros H. inversion H; subst; try discriminate H1.
        + left. assumption.
        + right. do 3 eexists. split; [reflexivity|]. split; [eexists; split; [reflexivity|eassumption]|assumption]. }
    destruct op as [v|w|w|el| |].
    - cbn [abbrev_parse op_parse].
      eapply fails_ext; [|apply fails_bind; [apply (dec_ret lay [v])|apply fails_ret|intros y; apply fails_map, IH; destruct a; exact HS]].
      intros pos l x _. unfold orF. split.
      + intros [[]|(r & t & l' & -> & (-> & ->) & H)]. change (blen []) with 0 in H. rewrite N.add_0_r in H. now apply VsLiteral.
      + intros H. right. exists [v], [], l. change (blen []) with 0. rewrite N.add_0_r. split; [reflexivity|]. split; [auto|].
        inversion H; subst; [assumption| |].
        * match goal with K : scalar_stops _ _ _ _ |- _ => inversion K end.
        * match goal with K : scalar_text _ _ _ _ |- _ => inversion K end.
    - apply SC; [reflexivity|]. destruct a; exact HS.
    - apply SC; [reflexivity|]. destruct a; exact HS.
    - destruct a as [|]; [|discriminate HS]. cbn [ops_shaped] in HS. apply fails_last. cbn [op_parse].
      eapply fails_ext; [|apply fails_bind; [apply dec_vbr|apply fails_vbr|intros k; apply fails_bind; [apply dec_capacity|apply fails_capacity|intros ?;
        apply fails_times; [apply dec_scalar, HS|apply fails_scalar, HS]]]].
      intros pos l x _. unfold orF. split.
      + intros [H|(k & t & l' & -> & HK & [[H ->]|(u & t2 & l2 & -> & [HC ->] & H)])].
        * now apply VsArrayCount.
        * eapply VsArrayMemory; eassumption.
        * cbn [app]. eapply VsArrayItem; eassumption.
      + intros H. inversion H; subst.
        * match goal with K : scalar_stops _ _ _ _ |- _ => inversion K end.
        * match goal with K : scalar_text _ _ _ _ |- _ => inversion K end.
        * left. assumption.
        * right. do 3 eexists. split; [reflexivity|]. split; [eassumption|]. left. auto.
        * right. do 3 eexists. split; [reflexivity|]. split; [eassumption|]. right. exists tt, [], l0. auto.
    - apply SC; [reflexivity|]. destruct a; exact HS.
    - destruct a as [|]; [|discriminate HS]. apply fails_last. cbn [op_parse].
      eapply fails_ext; [|apply fails_bind; [apply dec_vbr|apply fails_vbr|intros k; apply fails_bind; [apply dec_align|apply fails_align|intros ?;
        apply fails_bind; [apply dec_capacity|apply fails_capacity|intros ?; apply fails_bind; [apply dec_times, dec_byte|
          apply fails_times; [apply dec_byte|apply fails_byte]|intros bs; apply fails_map, fails_align]]]]].
      intros pos l x HP. unfold orF. split.
      + intros [H|(k & t & l' & -> & HK & [[]|(u & p & l2 & -> & HPd & [[H ->]|(u2 & t3 & l3 & -> & [HC ->] & [H|(bs & t4 & l4 & _ & _ & [])])])])].
        * now apply VsBlobCount.
        * eapply VsBlobMemory; eassumption.
        * cbn [app]. eapply VsBlobItem; eassumption.
      + intros H. inversion H; subst.
        * match goal with K : scalar_stops _ _ _ _ |- _ => inversion K end.
        * match goal with K : scalar_text _ _ _ _ |- _ => inversion K end.
        * left. assumption.
        * right. do 3 eexists. split; [reflexivity|]. split; [eassumption|]. right.
          pose proof (inside lay (pos + blen t)) as IN. set (c := N.to_nat (gap lay (pos + blen t))).
          assert (CL : (c <= length l0)%nat) by (rewrite blen_app in HP; unfold blen in *; subst c; lia).
          exists tt, (firstn c l0), (skipn c l0). split; [now rewrite firstn_skipn|]. split; [|left; auto].
          unfold padding. unfold blen at 1. rewrite firstn_length. subst c. lia.
        * right. do 3 eexists. split; [reflexivity|]. split; [eassumption|]. right. do 3 eexists. split; [reflexivity|]. split; [eassumption|].
          right. exists tt, [], l0. split; [reflexivity|]. split; [auto|]. left. assumption.
    Unshelve. all: exact tt.
  Qed.

  (** ** Definitions *)

  Lemma fails_enc : fails (read_enc o) (fun _ l x => encoding_stops l x).
  Proof.
    unfold read_enc.
    eapply fails_ext; [|apply fails_bind with (G := fun v _ _ x => abbrev_enc_of v = None /\ x = Stop (SBadAbbrevOpEnc v));
      [apply dec_read|apply fails_read|]].
    - intros pos l x _. unfold orF. split.
      + intros [H|(v & t & l' & -> & (_ & HV & ->) & HE & ->)]; [now constructor|]. apply EsNone with l'; [|reflexivity].
        change (2 ^ 3) with 8 in HV. unfold abbrev_enc_of in HE.
        destruct v as [|[[[]|[]|]|[[]|[]|]|]]; try discriminate HE; cbn [In]; auto; lia.
      + intros H. destruct H as [x H|k rest HK ->]; [left; exact H|right]. exists k, (fixed_bits 3 k), rest. split; [reflexivity|].
        destruct HK as [<-|[<-|[<-|[]]]]; (split; [split; [lia|]; split; reflexivity|]); split; reflexivity.
    - intros v. destruct (abbrev_enc_of v).
      + eapply fails_ext; [|apply fails_ret]. intros pos l x _. split; [intros []|]. intros [H _]. discriminate H.
      + eapply fails_ext; [|apply fails_fail]. intros pos l x _. split; [auto|tauto].
  Qed.

  (** The element type of an array. *)
  Inductive element_stops : L -> stop -> Prop :=
  | ElFlag x : fixed_stops 1 [] x -> element_stops [] x
  | ElEncoding b l x : encoding_stops l x -> element_stops ([b] ++ l) x
  | ElKind b k x l : (k = 3 /\ x = EncArray) \/ (k = 5 /\ x = EncBlob) -> element_stops ([b] ++ fixed_bits 3 k ++ l) (Stop (SAbbrevParse (AfArrayElement x)))
  | ElWidth b k l x : k = 1 \/ k = 2 -> vbr_stops e 5 l x -> element_stops ([b] ++ fixed_bits 3 k ++ l) x.

  Lemma bit_stops l x : fixed_stops 1 l x <-> l = [] /\ fixed_stops 1 [] x.
  Proof.
    split.
    - intros H. destruct H as [H|H ->|H HN HL]; [lia|split; [reflexivity|now apply FxEof]|].
      destruct l; [congruence|]. unfold blen in HL. cbn in HL. lia.
    - intros [-> H]. exact H.
  Qed.

  Lemma fails_array_elem : fails (array_elem e o) (fun _ l x => element_stops l x).
  Proof.
    unfold array_elem.
    eapply fails_ext; [|apply fails_bind; [apply dec_read|apply fails_read|intros f; apply fails_bind with
      (G := fun a _ l x => match a with EncFixed | EncVbr => vbr_stops e 5 l x | EncChar6 => False | EncArray | EncBlob => x = Stop (SAbbrevParse (AfArrayElement a)) end);
      [apply dec_enc|apply fails_enc|]]].
    - intros pos l x _. unfold orF. split.
      + intros [H|(f & t & l' & -> & HB & [H|(a & t2 & l2 & -> & (v & E & ->) & H)])].
        * apply bit_stops in H. destruct H as [-> H]. now constructor.
        * apply bit_text in HB. destruct HB as [[-> ->]|[-> ->]]; now constructor.
        * apply enc_cases in E. subst v. assert (exists b, t = [b]) as [b ->].
          { apply bit_text in HB. destruct HB as [[-> ->]|[-> ->]]; eauto. }
          destruct a; try contradiction; subst; first [now apply ElKind; auto|now apply ElWidth; auto].
      + intros H. assert (HB : forall b : bool, fixed_text 1 (if b then 1 else 0) [b]) by (intros []; apply bit_text; auto).
        destruct H as [x H|b l x H|b k a l HK|b k l x HK H].
        * left. exact H.
        * right. exists (if b then 1 else 0), [b], l. split; [reflexivity|]. split; [apply HB|]. left. exact H.
        * right. exists (if b then 1 else 0), [b], (fixed_bits 3 k ++ l). split; [reflexivity|]. split; [apply HB|]. right.
          destruct HK as [[-> ->]|[-> ->]]; [exists EncArray, (fixed_bits 3 3), l|exists EncBlob, (fixed_bits 3 5), l]; (split; [reflexivity|]);
            (split; [|reflexivity]); eexists; (split; [|reflexivity]); reflexivity.
        * right. exists (if b then 1 else 0), [b], (fixed_bits 3 k ++ l). split; [reflexivity|]. split; [apply HB|]. right.
          destruct HK as [->| ->]; [exists EncFixed, (fixed_bits 3 1), l|exists EncVbr, (fixed_bits 3 2), l]; (split; [reflexivity|]);
            (split; [|exact H]); eexists; (split; [|reflexivity]); reflexivity.
    - intros []; first [apply fails_fail|apply fails_ret|apply fails_map, fails_vbr].
  Qed.

  Lemma fails_ops fuel num idx acc : idx <= num -> 1 <= num ->
    failn fuel (abbrev_loop e o fuel num idx acc) (fun _ l x => operands_stop e num idx l x).
  Proof.
    revert idx acc. induction fuel as [|f IH]; intros idx acc HI HN; [intros pos l x HL; lia|]. cbn [abbrev_loop].
    destruct (num <=? idx) eqn:EI.
    { eapply failn_ext; [|apply (fails_ret acc)]. intros pos l x _ _. split; [intros []|]. intros H.
      inversion H; subst; lia. }
    set (after := fun (x0 : abbrev_enc) (l : L) x => match x0 with
      | EncFixed | EncVbr => vbr_stops e 5 l x \/ exists w t l', l = t ++ l' /\ vbr_means e 5 w t /\ operands_stop e num (idx + 1) l' x
      | EncArray => (num = 1 /\ overflow_checks e = true /\ x = Crash PAbbrevCount) \/
          (idx + 2 <> num /\ (num <> 1 \/ overflow_checks e = false) /\ x = Stop (SAbbrevParse AfArrayPlace)) \/
          (idx + 2 = num /\ element_stops l x)
      | EncChar6 => operands_stop e num (idx + 1) l x
      | EncBlob => idx + 1 <> num /\ x = Stop (SAbbrevParse AfBlobPlace)
      end).
    set (branch := fun (k : N) (_ : N) (l : L) x => if k =? 1
      then vbr_stops e 8 l x \/ exists v t l', l = t ++ l' /\ vbr_means e 8 v t /\ operands_stop e num (idx + 1) l' x
      else encoding_stops l x \/ exists a v l', abbrev_enc_of v = Some a /\ l = fixed_bits 3 v ++ l' /\ after a l' x).
    assert (OV : forall l' x, idx + 1 = num -> ~ operands_stop e num (idx + 1) l' x).
    { intros l' x E H. inversion H; subst; lia. }
    eapply failn_ext; [|apply failn_bind1 with (G := branch); [apply dec_read|apply fails_read| |intros k]]; unfold branch; clear branch.
    - intros pos l x HL HP. unfold orF. split.
      + intros [H|(k & t & l' & -> & HB & H)].
        * apply bit_stops in H. destruct H as [-> H]. apply OsFlag; [lia|exact H].
        * apply bit_text in HB. destruct HB as [[-> ->]|[-> ->]].
          -- change (0 =? 1) with false in H. cbv iota in H. destruct H as [H|(a & v & l2 & E & -> & H)]; [apply OsEncoding; [lia|exact H]|].
             apply enc_cases in E. subst v. destruct a; unfold after in H.
             ++ destruct H as [H|(w & t & l3 & -> & HW & H)]; [apply OsWidth; auto; lia|].
                rewrite (app_assoc (fixed_bits 3 1)). apply OsNext with (OpFixed w); [lia|now constructor|exact H].
             ++ destruct H as [H|(w & t & l3 & -> & HW & H)]; [apply OsWidth; auto; lia|].
                rewrite (app_assoc (fixed_bits 3 2)). apply OsNext with (OpVbr w); [lia|now constructor|exact H].
             ++ destruct H as [(H1 & H2 & ->)|[(H1 & H2 & ->)|(H1 & H)]].
                ** replace idx with 0 by lia. now apply OsArrayAlone.
                ** apply OsArrayPlace; auto; lia.
                ** destruct H as [y HE|b l3 y HE|b k y l3 HK|b k l3 y HK HE].
                   --- rewrite app_nil_r. now apply OsElementFlag.
                   --- now apply OsElementEncoding.
                   --- now apply OsElementKind.
                   --- now apply OsElementWidth.
             ++ apply OsNext with OpChar6; [lia|constructor|exact H].
             ++ destruct H as [H ->]. apply OsBlobPlace; [lia|exact H].
          -- change (1 =? 1) with true in H. cbv iota in H. destruct H as [H|(v & t & l3 & -> & HV & H)].
             ++ apply OsLiteral; [lia|exact H].
             ++ apply OsLiteralNext with v; [lia|exact HV|exact H].
      + intros H. apply (fun h => conj h I) in EI. apply (fun h => conj h I) in HN. apply (fun h => conj h I) in HI.
        assert (T1 : forall v t, fixed_text 1 v t <-> v = 0 /\ t = [false] \/ v = 1 /\ t = [true]) by apply bit_text.
        inversion H; subst; destruct EI as [EI _]; destruct HN as [HN _]; destruct HI as [HI _].
        * left. assumption.
        * right. exists 1, [true], l0. split; [reflexivity|]. split; [apply T1; auto|]. change (1 =? 1) with true. cbv iota. left. assumption.
        * right. exists 1, [true], (t ++ l0). split; [reflexivity|]. split; [apply T1; auto|]. change (1 =? 1) with true. cbv iota. right. eauto 6.
        * right. exists 0, [false], l0. split; [reflexivity|]. split; [apply T1; auto|]. change (0 =? 1) with false. cbv iota. left. assumption.
        * right. exists 0, [false], (fixed_bits 3 k ++ l0). split; [reflexivity|]. split; [apply T1; auto|]. change (0 =? 1) with false. cbv iota. right.
          match goal with K : _ \/ _ |- _ => destruct K as [->| ->] end;
            [exists EncFixed, 1, l0|exists EncVbr, 2, l0]; (split; [reflexivity|]); (split; [reflexivity|]); left; assumption.
        * right. exists 0, [false], (t ++ l0). split; [reflexivity|]. split; [apply T1; auto|]. change (0 =? 1) with false. cbv iota. right.
          match goal with K : encoding_text _ _ _ |- _ => destruct K as [w u K|w u K|] end.
          -- exists EncFixed, 1, (u ++ l0). split; [reflexivity|]. split; [now rewrite <- app_assoc|]. right. eauto 6.
          -- exists EncVbr, 2, (u ++ l0). split; [reflexivity|]. split; [now rewrite <- app_assoc|]. right. eauto 6.
          -- exists EncChar6, 4, l0. split; [reflexivity|]. split; [reflexivity|]. assumption.
        * right. exists 0, [false], (fixed_bits 3 3 ++ l0). split; [reflexivity|]. split; [apply T1; auto|]. change (0 =? 1) with false. cbv iota. right.
          exists EncArray, 3, l0. split; [reflexivity|]. split; [reflexivity|]. left. auto.
        * right. exists 0, [false], (fixed_bits 3 3 ++ l0). split; [reflexivity|]. split; [apply T1; auto|]. change (0 =? 1) with false. cbv iota. right.
          exists EncArray, 3, l0. split; [reflexivity|]. split; [reflexivity|]. right. left. auto.
        * right. exists 0, [false], (fixed_bits 3 3 ++ []). split; [now rewrite app_nil_r|]. split; [apply T1; auto|]. change (0 =? 1) with false. cbv iota. right.
          exists EncArray, 3, []. split; [reflexivity|]. split; [reflexivity|]. right. right. split; [reflexivity|now constructor].
        * right. exists 0, [false], (fixed_bits 3 3 ++ [b] ++ l0). split; [reflexivity|]. split; [apply T1; auto|]. change (0 =? 1) with false. cbv iota. right.
          exists EncArray, 3, ([b] ++ l0). split; [reflexivity|]. split; [reflexivity|]. right. right. split; [reflexivity|now constructor].
        * right. exists 0, [false], (fixed_bits 3 3 ++ [b] ++ fixed_bits 3 k ++ l0). split; [reflexivity|]. split; [apply T1; auto|]. change (0 =? 1) with false. cbv iota. right.
          exists EncArray, 3, ([b] ++ fixed_bits 3 k ++ l0). split; [reflexivity|]. split; [reflexivity|]. right. right. split; [reflexivity|now constructor].
        * right. exists 0, [false], (fixed_bits 3 3 ++ [b] ++ fixed_bits 3 k ++ l0). split; [reflexivity|]. split; [apply T1; auto|]. change (0 =? 1) with false. cbv iota. right.
          exists EncArray, 3, ([b] ++ fixed_bits 3 k ++ l0). split; [reflexivity|]. split; [reflexivity|]. right. right. split; [reflexivity|now apply ElWidth].
        * right. exists 0, [false], (fixed_bits 3 5 ++ l0). split; [reflexivity|]. split; [apply T1; auto|]. change (0 =? 1) with false. cbv iota. right.
          exists EncBlob, 5, l0. split; [reflexivity|]. split; [reflexivity|]. split; [assumption|reflexivity].
    - intros pos k t (_ & _ & ->) E. discriminate E.
    - destruct (k =? 1).
      + eapply failn_ext; [|apply failn_bind; [apply dec_vbr|apply fails_vbr|intros v; apply IH; lia]].
        intros pos l x _ _. reflexivity.
      + eapply failn_ext; [|apply failn_bind with (G := fun a _ l x => after a l x); [apply dec_enc|apply fails_enc|intros a]].
        * intros pos l x _ _. unfold orF. split.
          -- intros [H|(a & t & l' & -> & (v & E & ->) & H)]; [auto|]. right. eauto 6.
          -- intros [H|(a & v & l' & E & -> & H)]; [auto|]. right. eauto 8.
        * unfold after. destruct a.
          -- eapply failn_ext; [|apply failn_bind; [apply dec_vbr|apply fails_vbr|intros v; apply IH; lia]]. intros pos l x _ _. reflexivity.
          -- eapply failn_ext; [|apply failn_bind; [apply dec_vbr|apply fails_vbr|intros v; apply IH; lia]]. intros pos l x _ _. reflexivity.
          -- destruct (num <? 2) eqn:E2.
             ++ destruct (overflow_checks e) eqn:EO; cbn [andb].
                ** eapply failn_ext; [|apply fails_crash]. intros pos l x _ _. split.
                   --- intros ->. left. split; [lia|auto].
                   --- intros [(_ & _ & H)|[(_ & [H|H] & _)|(H & _)]]; [exact H|lia|discriminate H|lia].
                ** cbv zeta. replace (negb (idx =? num + two64 - 2)) with true by (unfold two64 in *; lia).
                   eapply failn_ext; [|apply fails_fail]. intros pos l x _ _. split.
                   --- intros ->. right. left. split; [lia|auto].
                   --- intros [(_ & H & _)|[(_ & _ & H)|(H & _)]]; [discriminate H|exact H|lia].
             ++ cbn [andb]. cbv zeta. destruct (negb (idx =? num - 2)) eqn:E3.
                ** eapply failn_ext; [|apply fails_fail]. intros pos l x _ _. split.
                   --- intros ->. right. left. split; [lia|]. split; [left; lia|reflexivity].
                   --- intros [(H & _)|[(_ & _ & H)|(H & _)]]; [lia|exact H|lia].
                ** eapply failn_ext; [|apply fails_map, fails_array_elem]. intros pos l x _ _. split.
                   --- intros H. right. right. split; [lia|exact H].
                   --- intros [(H & _)|[(H & _)|(_ & H)]]; [lia|lia|exact H].
          -- apply IH. lia. lia.
          -- destruct (negb (idx =? num - 1)) eqn:E3.
             ++ eapply failn_ext; [|apply fails_fail]. intros pos l x _ _. split; [intros ->; split; [lia|reflexivity]|tauto].
             ++ eapply failn_ext; [|apply IH; lia]. intros pos l x _ _. split; [intros H; exfalso; eapply OV; [|exact H]; lia|lia].
  Qed.

  Lemma fails_define : fails (abbrev_new e o) (fun _ l x => definition_stops e l x).
  Proof.
    unfold abbrev_new.
    eapply fails_ext; [|apply fails_bind with (G := fun num _ l x => (num = 0 /\ x = Stop (SAbbrevParse AfNoOperand)) \/ (1 <= num /\ operands_stop e num 0 l x));
      [apply dec_vbr|apply fails_vbr|intros num]].
    - intros pos l x _. unfold orF. split.
      + intros [H|(num & t & l' & -> & HN & [(-> & ->)|(H1 & H)])].
        * now apply DsCount.
        * now apply DsZero.
        * eapply DsOperand; eassumption.
      + intros H. destruct H; [left; assumption|right|right]; do 3 eexists; (split; [reflexivity|]); (split; [eassumption|]); auto.
    - destruct (num <? 1) eqn:E1.
      + eapply fails_ext; [|apply fails_fail]. intros pos l x _. split; [intros ->; left; split; [lia|reflexivity]|].
        intros [[_ H]|[H _]]; [exact H|lia].
      + intros n pos l x HL HP. rewrite (fails_ops (S (op_fuel o l)) num 0 [] ltac:(lia) ltac:(lia) pos l x ltac:(cbn; lia) HP).
        split; [intros H; right; split; [lia|exact H]|]. intros [[H _]|[_ H]]; [lia|exact H].
  Qed.

  (** ** The parser *)

  Notation PS := (sparser L).
  Definition pfail {A} (m : M PS serr A) (F : N -> list scope -> info_map -> L -> stop -> Prop) : Prop :=
    forall pos l scs info x, pos + blen l = tot lay -> (stops (fst (m (mkParser l scs info))) x <-> F pos scs info l x).

  Lemma pfail_ext {A} (m : M PS serr A) F F' :
    (forall pos scs info l x, pos + blen l = tot lay -> F pos scs info l x <-> F' pos scs info l x) -> pfail m F -> pfail m F'.
  Proof. intros HF H pos l scs info x HP. rewrite (H pos l scs info x HP). now apply HF. Qed.

  Lemma pfail_bind {A B} (m : M PS serr A) (k : A -> M PS serr B) T F G :
    pdec m T -> pfail m F -> (forall a, pfail (k a) (G a)) ->
    pfail (bind m k) (fun pos scs info l x => F pos scs info l x \/
      exists a t l' scs1 info1, l = t ++ l' /\ T pos scs info a t scs1 info1 /\ G a (pos + blen t) scs1 info1 l' x).
  Proof.
    intros HD HF HK pos l scs info x HP. rewrite stops_bind, (HF pos l scs info x HP). apply or_iff_compat_l. split.
    - intros (a & [l1 s1 i1] & E & H). apply (HD pos l scs info a l1 s1 i1 HP) in E. destruct E as (t & -> & HT).
      exists a, t, l1, s1, i1. split; [reflexivity|]. split; [exact HT|]. apply HK; [|exact H].
      rewrite blen_app in HP. rewrite <- N.add_assoc. exact HP.
    - intros (a & t & l' & s1 & i1 & -> & HT & H). exists a, (mkParser l' s1 i1). split; [apply (HD pos _ _ _ _ _ _ _ HP); eauto|].
      apply (HK a (pos + blen t)); [|exact H]. rewrite blen_app in HP. rewrite <- N.add_assoc. exact HP.
  Qed.

  Lemma pfail_cur {A} (m : M L serr A) F : fails m F -> pfail (on_cur m) (fun pos _ _ l x => F pos l x).
  Proof.
    intros HF pos l scs info x HP. unfold on_cur. cbn [p_cur p_scopes p_info].
    rewrite <- (HF (S (length l)) pos l x ltac:(lia) HP). destruct (m l); reflexivity.
  Qed.
  Lemma pfail_fail {A} y : pfail (fail (A := A) y) (fun _ _ _ _ x => x = Stop y).
  Proof. intros pos l scs info x _. exact (fails_fail (A := A) y 1%nat (tot lay) [] x ltac:(cbn; lia) ltac:(cbn; lia)). Qed.
  Lemma pfail_capacity k : pfail (with_capacity e k) (fun _ _ _ _ x => alloc_limit e < k /\ x = Crash PAlloc).
  Proof.
    intros pos l scs info x _. rewrite <- (fails_capacity k 1%nat (tot lay) [] x ltac:(cbn; lia) ltac:(cbn; lia)).
    unfold with_capacity. destruct (k <=? alloc_limit e); reflexivity.
  Qed.

  Inductive enter_stops (pos : N) : L -> stop -> Prop :=
  | EnId l x : vbr_stops e 8 l x -> enter_stops pos l x
  | EnWidth bid tb l x : vbr_means e 8 bid tb -> vbr_stops e 4 l x -> enter_stops pos (tb ++ l) x
  | EnZero bid tb tw l : vbr_means e 8 bid tb -> vbr_means e 4 0 tw -> enter_stops pos (tb ++ tw ++ l) (Stop (SBadScope (SfWidth 0)))
  | EnLength bid tb w tw p l x : vbr_means e 8 bid tb -> vbr_means e 4 w tw -> 1 <= w ->
      padding (gap lay) (pos + blen (tb ++ tw)) p -> fixed_stops 32 l x -> enter_stops pos (tb ++ tw ++ p ++ l) x.

  Lemma take_padding pos (l : L) : pos + blen l = tot lay -> exists p l', l = p ++ l' /\ padding (gap lay) pos p.
  Proof.
    intros HP. pose proof (inside lay pos) as IN. set (c := N.to_nat (gap lay pos)).
    assert (CL : (c <= length l)%nat) by (unfold blen in *; subst c; lia).
    exists (firstn c l), (skipn c l). split; [now rewrite firstn_skipn|].
    unfold padding. unfold blen at 1. rewrite firstn_length. subst c. lia.
  Qed.

  Lemma pfail_enter : pfail (enter_block e o) (fun pos _ _ l x => enter_stops pos l x).
  Proof.
    unfold enter_block.
    set (tail := fun bid w words => bind (push_scope (ScBlock w bid None [])) (fun _ : unit =>
      bind (fun s : PS => match info_get (p_info s) bid with Some l => extend_scope l s | None => ret tt s end) (fun _ : unit =>
      bind get_scope (fun sc => if sc_is_blockinfo sc then ret None else ret (Some (ESubBlock bid (words * 4))))))).
    assert (FT : forall bid w words, pfail (tail bid w words) (fun _ _ _ _ _ => False)).
    { intros bid w words pos l scs info x _. unfold tail, bind, push_scope. cbn [p_info p_scopes p_cur].
      destruct (info_get info bid) as [r|]; unfold extend_scope, bind, get_scope, set_scope, ret;
        cbn [p_info p_scopes p_cur sc_extend sc_is_blockinfo]; destruct (bid =? 0); reflexivity. }
    assert (FW : forall bid w, pfail (if w <? 1 then fail (SBadScope (SfWidth w)) else bind (on_cur (c_read o 32)) (fun words => tail bid w words))
      (fun _ _ _ l x => (w = 0 /\ x = Stop (SBadScope (SfWidth 0))) \/ (1 <= w /\ fixed_stops 32 l x))).
    { intros bid w. destruct (w <? 1) eqn:EW.
      - replace w with 0 by lia. eapply pfail_ext; [|apply pfail_fail]. intros pos scs info l x _. split; [intros ->; left; split; [lia|reflexivity]|].
        intros [[_ H]|[H _]]; [exact H|lia].
      - eapply pfail_ext; [|apply pfail_bind; [apply pdec_cur, dec_read|apply pfail_cur, fails_read|intros words; apply FT]].
        intros pos scs info l x _. split.
        + intros [H|(a & t & l' & s1 & i1 & _ & _ & [])]. right. split; [lia|exact H].
        + intros [[H _]|[_ H]]; [lia|left; exact H]. }
    eapply pfail_ext; [|apply pfail_bind; [apply pdec_cur, dec_vbr|apply pfail_cur, fails_vbr|intros bid;
      apply pfail_bind; [apply pdec_cur, dec_vbr|apply pfail_cur, fails_vbr|intros w;
      apply pfail_bind; [apply pdec_cur, dec_align|apply pfail_cur, fails_align|intros u; apply FW]]]].
    intros pos scs info l x HP. split.
    - intros [H|(bid & tb & l1 & s1 & i1 & -> & (HB & -> & ->) & [H|(w & tw & l2 & s2 & i2 & -> & (HW & -> & ->) &
        [[]|(u & p & l3 & s3 & i3 & -> & (HPd & -> & ->) & [(-> & ->)|(H1 & H)])])])].
      + now apply EnId.
      + eapply EnWidth; eassumption.
      + eapply EnZero; eassumption.
      + eapply EnLength; try eassumption. rewrite blen_app, N.add_assoc. exact HPd.
    - intros H. destruct H as [l x H|bid tb l x HB H|bid tb tw l HB HW|bid tb w tw p l x HB HW H1 HPd H].
      + left. exact H.
      + right. exists bid, tb, l, scs, info. split; [reflexivity|]. split; [auto|]. left. exact H.
      + right. exists bid, tb, (tw ++ l), scs, info. split; [reflexivity|]. split; [auto|]. right.
        exists 0, tw, l, scs, info. split; [reflexivity|]. split; [auto|]. right.
        destruct (take_padding (pos + blen tb + blen tw) l) as (p & l' & -> & HPd).
        { rewrite !blen_app in HP. rewrite <- !N.add_assoc. exact HP. }
        exists tt, p, l', scs, info. split; [reflexivity|]. split; [auto|]. left. auto.
      + right. exists bid, tb, (tw ++ p ++ l), scs, info. split; [reflexivity|]. split; [auto|]. right.
        exists w, tw, (p ++ l), scs, info. split; [reflexivity|]. split; [auto|]. right.
        exists tt, p, l, scs, info. split; [reflexivity|]. split; [rewrite blen_app, N.add_assoc in HPd; auto|]. right. auto.
  Qed.

  Lemma define_stops pos l sc rest info x : pos + blen l = tot lay ->
    (stops (fst (define_abbrev e o (mkParser l (sc :: rest) info))) x <->
     definition_stops e l x \/ exists a t l', l = t ++ l' /\ definition_text e a t /\
       ((sc = ScInitial /\ x = Stop (SBadScope SfNoAbbrevs)) \/ (exists w ab, sc = ScBlock w 0 None ab /\ x = Stop (SStreamParse PfNoSetBid)))).
  Proof.
    intros HP. unfold define_abbrev. rewrite stops_bind.
    rewrite (pfail_cur _ _ fails_define pos l (sc :: rest) info x HP). apply or_iff_compat_l.
    assert (LEAF : forall a l', stops (fst (bind get_scope (fun sc0 : scope => if sc_is_blockinfo sc0 then
        match sc_blockinfo_bid sc0 with
        | None => fail (SStreamParse PfNoSetBid)
        | Some bid => fun s : PS => (Ok tt, mkParser (p_cur s) (p_scopes s) (info_push (p_info s) bid a))
        end else extend_scope [a]) (mkParser l' (sc :: rest) info))) x <->
        ((sc = ScInitial /\ x = Stop (SBadScope SfNoAbbrevs)) \/ (exists w ab, sc = ScBlock w 0 None ab /\ x = Stop (SStreamParse PfNoSetBid)))).
    { intros a l'. unfold bind, get_scope. cbn [p_scopes]. destruct sc as [|w b i ab]; cbn [sc_is_blockinfo].
      - unfold extend_scope, bind, get_scope. cbn [p_scopes sc_extend fail fst stops]. destruct x; split; intros H.
        + subst. auto.
        + destruct H as [[_ H]|(w & ab & H & _)]; [now injection H as ->|discriminate H].
        + destruct H.
        + destruct H as [[_ H]|(w & ab & H & _)]; discriminate H.
      - destruct (b =? 0) eqn:EB; cbn [sc_blockinfo_bid].
        + destruct i as [k|]; cbn [fail fst stops].
          * split; [intros []|]. intros [[H _]|(w' & ab' & H & _)]; discriminate H.
          * destruct x; split; intros H.
            -- subst. right. exists w, ab. split; [f_equal; lia|reflexivity].
            -- destruct H as [[H _]|(w' & ab' & _ & H)]; [discriminate H|now injection H as ->].
            -- destruct H.
            -- destruct H as [[H _]|(w' & ab' & _ & H)]; discriminate H.
        + unfold extend_scope, bind, get_scope, set_scope. cbn [p_scopes sc_extend p_cur p_info fst stops].
          split; [intros []|]. intros [[H _]|(w' & ab' & H & _)]; [discriminate H|]. injection H as _ -> _ _. discriminate EB. }
    split.
    - intros (a & [l1 s1 i1] & E & H). apply (pdec_cur lay _ _ (dec_define e lay) pos) in E; [|exact HP]. destruct E as (t & -> & HD & -> & ->).
      apply LEAF in H. eauto 8.
    - intros (a & t & l' & -> & HD & H). exists a, (mkParser l' (sc :: rest) info). split.
      + apply (pdec_cur lay _ _ (dec_define e lay) pos); [exact HP|]. eauto.
      + apply LEAF. exact H.
  Qed.

  Lemma bi_none v : blockinfo_code_of v = None <-> ~ In v [1; 2; 3].
  Proof.
    split.
    - intros H [<-|[<-|[<-|[]]]]; discriminate H.
    - intros H. destruct (blockinfo_code_of v) as [x|] eqn:E; [|reflexivity]. apply bi_code in E. exfalso. apply H.
      destruct x; subst v; cbn; auto.
  Qed.

  Lemma unabbrev_stops_iff pos l w b i ab rest info x : pos + blen l = tot lay ->
    (stops (fst (parse_unabbrev e o (mkParser l (ScBlock w b i ab :: rest) info))) x <->
     unabbrev_stops e l x \/ exists code fields t l', l = t ++ l' /\ unabbrev_text e code fields t /\ b = 0 /\
       ((~ In code [1; 2; 3] /\ x = Stop (SBadBlockInfoCode code)) \/ (code = 1 /\ fields = [] /\ x = Crash PSetBidNoField))).
  Proof.
    intros HP. unfold parse_unabbrev. unfold bind at 1, get_scope at 1. cbn [p_scopes].
    set (tail := fun code fields => bind get_scope (fun sc => if sc_is_blockinfo sc then
          match blockinfo_code_of code with
          | None => fail (SBadBlockInfoCode code)
          | Some BiSetBid =>
              match fields with
              | [] => crash PSetBidNoField
              | bid :: _ =>
                  match sc_set_bid sc bid with
                  | None => fail (SBadScope SfSetBid)
                  | Some sc' => bind (set_scope sc') (fun _ => ret None)
                  end
              end
          | Some _ => ret None
          end
        else ret (Some (ERecord None code fields)) : M PS serr (option entry))).
    set (leaf := fun code (fields : list N) (scs : list scope) x => exists w b i ab rest, scs = ScBlock w b i ab :: rest /\ b = 0 /\
       ((~ In code [1; 2; 3] /\ x = Stop (SBadBlockInfoCode code)) \/ (code = 1 /\ fields = [] /\ x = Crash PSetBidNoField))).
    assert (FT : forall code fields, pfail (tail code fields) (fun _ scs _ _ x => leaf code fields scs x \/ (scs = [] /\ x = Crash PNoScope))).
    { intros code fields pos' l' scs info' x' _. unfold tail, leaf, bind, get_scope. cbn [p_scopes].
      destruct scs as [|[|w' b' i' ab'] rest'].
      - cbn [fst stops]. destruct x'; split; intros H.
        + destruct H.
        + destruct H as [(? & ? & ? & ? & ? & H & _)|[_ H]]; discriminate H.
        + subst. auto.
        + destruct H as [(? & ? & ? & ? & ? & H & _)|[_ H]]; [discriminate H|now injection H as ->].
      - cbn [sc_is_blockinfo ret fst stops]. split; [intros []|]. intros [(? & ? & ? & ? & ? & H & _)|[H _]]; discriminate H.
      - cbn [sc_is_blockinfo]. assert (NN : forall P, (P \/ (ScBlock w' b' i' ab' :: rest' = [] /\ x' = Crash PNoScope)) <-> P).
        { intros P. split; [intros [H|[H _]]; [exact H|discriminate H]|auto]. }
        rewrite NN. clear NN.
        transitivity (b' = 0 /\ ((~ In code [1; 2; 3] /\ x' = Stop (SBadBlockInfoCode code)) \/ (code = 1 /\ fields = [] /\ x' = Crash PSetBidNoField))).
        2:{ split; [intros H; eauto 10|]. intros (? & ? & ? & ? & ? & E & H). injection E as <- <- <- <- <-. exact H. }
        destruct (b' =? 0) eqn:EB.
        2:{ cbn [ret fst stops]. split; [intros []|lia]. }
        destruct (blockinfo_code_of code) as [bc|] eqn:EC.
        + assert (HI : In code [1; 2; 3]).
          { apply bi_code in EC. destruct bc; subst code; cbn; auto. }
          apply bi_code in EC. destruct bc; subst code.
          * destruct fields as [|k fs].
            -- cbn [crash fst stops]. destruct x'; split; intros H.
               ++ destruct H.
               ++ destruct H as (_ & [[H _]|(_ & _ & H)]); [tauto|discriminate H].
               ++ subst. split; [lia|]. auto.
               ++ destruct H as (_ & [[H _]|(_ & _ & H)]); [tauto|now injection H as ->].
            -- cbn [sc_set_bid]. unfold bind, set_scope, ret. cbn [p_scopes fst stops]. split; [intros []|].
               intros (_ & [[H _]|(_ & H & _)]); [tauto|discriminate H].
          * cbn [ret fst stops]. split; [intros []|]. intros (_ & [[H _]|(H & _)]); [tauto|discriminate H].
          * cbn [ret fst stops]. split; [intros []|]. intros (_ & [[H _]|(H & _)]); [tauto|discriminate H].
        + apply bi_none in EC. cbn [fail fst stops]. destruct x'; split; intros H.
          * subst. split; [lia|]. auto.
          * destruct H as (_ & [[_ H]|(_ & _ & H)]); [now injection H as ->|discriminate H].
          * destruct H.
          * destruct H as (_ & [[_ H]|(H & _)]); [discriminate H|]. exfalso. apply EC. subst. cbn. auto. }
    etransitivity; [apply (pfail_bind (on_cur (c_vbr e o 6)) (fun code => bind (on_cur (c_vbr e o 6)) (fun num =>
        bind (with_capacity e num) (fun _ => bind (on_cur (times num (bind (c_vbr e o 6) (fun x => ret [x])))) (fun fields => tail code fields)))))
      with (pos := pos); [apply pdec_cur, dec_vbr|apply pfail_cur, fails_vbr|intros code; apply pfail_bind; [apply pdec_cur, dec_vbr|
        apply pfail_cur, fails_vbr|intros num; apply pfail_bind; [apply pdec_capacity|apply pfail_capacity|intros u; apply pfail_bind;
        [apply pdec_cur, dec_times, dec_field|apply pfail_cur, fails_times; [apply dec_field|apply fails_map, fails_vbr]|intros fields; apply FT]]]|exact HP]|].
    split.
    - intros [H|(code & t & l1 & s1 & i1 & -> & (HC & -> & ->) & [H|(num & u & l2 & s2 & i2 & -> & (HN & -> & ->) &
        [(HA & ->)|(v & t3 & l3 & s3 & i3 & -> & (-> & HA & -> & ->) & [H|(fields & t4 & l4 & s4 & i4 & -> & ((HL & ts & HF & ->) & -> & ->) & H)])])])].
      + left. now apply UsCode.
      + left. eapply UsCount; eassumption.
      + left. eapply UsMemory; eassumption.
      + left. cbn [app]. eapply UsField; eassumption.
      + right. destruct H as [(w' & b' & i' & ab' & rest' & E & H)|[E _]]; [|discriminate E]. injection E as <- <- <- <- <-.
        exists code, fields, (t ++ u ++ concat ts), l4. cbn [app]. rewrite <- !app_assoc. split; [reflexivity|]. split; [|exact H].
        exists t, u, ts. subst num. auto.
    - intros [H|(code & fields & t & l' & -> & (t0 & t1 & ts & HC & HN & HA & HF & ->) & H)].
      + destruct H as [l x H|code t l x HC H|code t num u l HC HN HA|code t num u l x HC HN HA H].
        * left. exact H.
        * right. do 5 eexists. split; [reflexivity|]. split; [split; [eassumption|split; reflexivity]|]. left. exact H.
        * right. do 5 eexists. split; [reflexivity|]. split; [split; [eassumption|split; reflexivity]|]. right.
          do 5 eexists. split; [reflexivity|]. split; [split; [eassumption|split; reflexivity]|]. left. auto.
        * right. do 5 eexists. split; [reflexivity|]. split; [split; [eassumption|split; reflexivity]|]. right.
          do 5 eexists. split; [reflexivity|]. split; [split; [eassumption|split; reflexivity]|]. right.
          exists tt, [], l. do 2 eexists. split; [reflexivity|]. split; [split; [reflexivity|split; [exact HA|split; reflexivity]]|]. left. exact H.
      + right. rewrite <- !app_assoc. do 5 eexists. split; [reflexivity|]. split; [split; [eassumption|split; reflexivity]|]. right.
        do 5 eexists. split; [reflexivity|]. split; [split; [eassumption|split; reflexivity]|]. right.
        exists tt, [], (concat ts ++ l'). do 2 eexists. split; [reflexivity|]. split; [split; [reflexivity|split; [exact HA|split; reflexivity]]|]. right.
        exists fields, (concat ts), l'. do 2 eexists. split; [reflexivity|]. split; [split; [split; [reflexivity|eauto]|split; reflexivity]|].
        left. unfold leaf. do 5 eexists. split; [reflexivity|]. exact H.
  Qed.

  Lemma with_abbrev_stops id pos l w b i ab rest info x : scope_shaped (ScBlock w b i ab) -> pos + blen l = tot lay -> 4 <= id ->
    (stops (fst (parse_with_abbrev e o id (mkParser l (ScBlock w b i ab :: rest) info))) x <->
     (nth_error ab (N.to_nat (id - 4)) = None /\ x = Stop (SBadAbbrev id)) \/
     exists a, nth_error ab (N.to_nat (id - 4)) = Some a /\
       (values_stop e (gap lay) pos a l x \/ exists t l', l = t ++ l' /\ values_text e (gap lay) pos a [] t /\ x = Crash PRemoveEmpty)).
  Proof.
    intros HS HP HI. unfold parse_with_abbrev. unfold bind at 1, get_scope at 1. cbn [p_scopes].
    unfold bind at 1, get_abbrev. replace (id <? 4) with false by lia.
    destruct (nth_error ab (N.to_nat (id - 4))) as [a|] eqn:EA.
    2:{ cbn [fail fst stops]. destruct x; split; intros H.
        - subst. auto.
        - destruct H as [[_ H]|(a & H & _)]; [now injection H as ->|discriminate H].
        - destruct H.
        - destruct H as [[_ H]|(a & H & _)]; discriminate H. }
    assert (HA : ops_shaped a = true).
    { cbn [scope_shaped] in HS. rewrite Forall_forall in HS.
      specialize (HS a (nth_error_In _ _ EA)). unfold shaped in HS. apply andb_true_iff in HS. apply HS. }
    unfold ret at 1. cbn [fst snd]. rewrite stops_bind, (pfail_cur _ _ (fails_record a HA) pos _ _ _ _ HP). split.
    - intros [H|(vals & [l1 s1 i1] & E & H)]; (right; exists a; split; [reflexivity|]); [left; exact H|].
      apply (pdec_cur lay _ _ (dec_record e lay a HA) pos) in E; [|exact HP]. destruct E as (t & -> & HV & -> & ->).
      destruct vals as [|code fs].
      + right. exists t, l1. cbn [crash fst stops] in H. destruct x; [destruct H|]. subst. auto.
      + exfalso. unfold bind, get_scope in H. cbn [p_scopes] in H. destruct (sc_is_blockinfo _); exact H.
    - intros [[H _]|(a' & EA' & H)]; [discriminate H|]. injection EA' as <-. destruct H as [H|(t & l' & -> & HV & ->)]; [left; exact H|right].
      exists [], (mkParser l' (ScBlock w b i ab :: rest) info). split; [|reflexivity].
      apply (pdec_cur lay _ _ (dec_record e lay a HA) pos); [exact HP|]. eauto.
  Qed.

  Lemma exit_stops l scs info x : stops (fst (exit_block o (mkParser l scs info))) x <->
    (length scs <= 1)%nat /\ x = Stop (SBadScope SfNoBlock).
  Proof.
    unfold exit_block, bind, on_cur, c_align. cbn [p_cur p_scopes p_info].
    destruct scs as [|sc [|sc2 rest]]; cbn [fst stops length]; destruct x; split; intros H; try (destruct H; fail);
      try (subst; split; [lia|reflexivity]); try (destruct H as [H1 H2]; first [now injection H2 as ->|discriminate H2|lia]).
  Qed.

  Lemma step_stops_iff pos l scs info x : scs <> [] -> Forall scope_shaped scs -> pos + blen l = tot lay ->
    (stops (fst (step e o (mkParser l scs info))) x <-> step_stops e (gap lay) pos scs l x).
  Proof.
    intros HN HS HP. unfold step. cbn [p_cur].
    destruct (op_exhausted o l) eqn:EX.
    { assert (l = []) as -> by (destruct l; [reflexivity|discriminate EX]). cbn [fst stops]. split.
      - destruct x; [|intros []]. intros <-. constructor.
      - assert (F : forall w v t, fixed_text w v t -> t <> []).
        { intros w v t (HW & _ & ->) E. pose proof (fixed_blen w v) as B. rewrite E in B. cbn in B. lia. }
        intros H. inversion H; subst; try reflexivity; try congruence;
          match goal with K : ?t ++ _ = [], K2 : fixed_text _ _ ?t |- _ => apply app_eq_nil in K; destruct K as [K _]; apply F in K2; congruence end. }
    assert (HL : l <> []) by (intros ->; discriminate EX). clear EX.
    destruct scs as [|sc rest]; [congruence|]. unfold bind at 1, get_scope at 1. cbn [p_scopes].
    rewrite stops_bind, (pfail_cur _ _ (fails_read (sc_width sc)) pos _ _ _ _ HP).
    assert (P1 : forall t l', l = t ++ l' -> pos + blen t + blen l' = tot lay).
    { intros t l' ->. rewrite blen_app in HP. rewrite <- N.add_assoc. exact HP. }
    split.
    - intros [H|(v & [l1 s1 i1] & E & H)]; [now apply StId|].
      apply (pdec_cur lay _ _ (dec_read lay (sc_width sc)) pos) in E; [|exact HP]. destruct E as (t & -> & HV & -> & ->).
      specialize (P1 t l1 eq_refl). destruct (id_split v) as [->|[->|[->|[->|Hv]]]].
      + apply exit_stops in H. destruct H as [H ->]. cbn [length] in H. destruct rest; [|cbn in H; lia]. now apply StClose.
      + apply (pfail_enter (pos + blen t)) in H; [|exact P1].
        destruct H as [l x H|bid tb l x HB H|bid tb tw l HB HW|bid tb w tw p l x HB HW H1 HPd H].
        * now apply StEnterId.
        * eapply StEnterWidth; eassumption.
        * eapply StEnterZero; eassumption.
        * eapply StEnterLength; try eassumption. rewrite !blen_app in *. rewrite <- !N.add_assoc in *. exact HPd.
      + change (abbrev_id_of 2) with IdDefineAbbrev in H. cbv iota in H. apply stops_bind in H. destruct H as [H|(u & s2 & _ & [])].
        apply (define_stops (pos + blen t)) in H; [|exact P1].
        destruct H as [H|(a & ta & l' & -> & HD & [(-> & ->)|(w & ab & -> & ->)])].
        * now apply StDefine.
        * eapply StDefineOutside; eassumption.
        * eapply StDefineForNone; eassumption.
      + change (abbrev_id_of 3) with IdUnabbrevRecord in H. cbv iota in H. destruct sc as [|w b i ab].
        * cbn [parse_unabbrev] in H. unfold parse_unabbrev, bind, get_scope in H. cbn [p_scopes fail fst stops] in H.
          destruct x; [|destruct H]. subst. now apply StRecordOutside.
        * apply (unabbrev_stops_iff (pos + blen t)) in H; [|exact P1]. cbn [sc_width] in HV.
          destruct H as [H|(code & fields & tr & l' & -> & HU & -> & [(HC & ->)|(-> & -> & ->)])].
          -- now apply StRecord.
          -- eapply StInfoCode; eassumption.
          -- eapply StInfoNone; eassumption.
      + rewrite (id_defined v Hv) in H. destruct sc as [|w b i ab].
        * exfalso. destruct HV as (_ & HV & _). cbn [sc_width] in HV. change (2 ^ 2) with 4 in HV. lia.
        * cbn [sc_width] in HV. apply (with_abbrev_stops v (pos + blen t)) in H; [|now inversion HS|exact P1|exact Hv].
          destruct H as [(EA & ->)|(a & EA & [H|(tr & l' & -> & HT & ->)])].
          -- apply StUndefined; [exact HV|exact Hv|]. apply nth_error_None in EA. lia.
          -- eapply StValues; eassumption.
          -- eapply StNoCode; eassumption.
    - intros H.
      assert (GO : forall t l' v, l = t ++ l' -> fixed_text (sc_width sc) v t ->
        stops (fst (match abbrev_id_of v with
         | IdEndBlock => exit_block o | IdEnterSubBlock => enter_block e o
         | IdDefineAbbrev => bind (define_abbrev e o) (fun _ => ret None)
         | IdUnabbrevRecord => parse_unabbrev e o | IdDefined id => parse_with_abbrev e o id end (mkParser l' (sc :: rest) info))) x ->
        fixed_stops (sc_width sc) l x \/ exists a s1, on_cur (c_read o (sc_width sc)) (mkParser l (sc :: rest) info) = (Ok a, s1) /\
          stops (fst (match abbrev_id_of a with
         | IdEndBlock => exit_block o | IdEnterSubBlock => enter_block e o
         | IdDefineAbbrev => bind (define_abbrev e o) (fun _ => ret None)
         | IdUnabbrevRecord => parse_unabbrev e o | IdDefined id => parse_with_abbrev e o id end s1)) x).
      { intros t l' v -> HV HK. right. exists v, (mkParser l' (sc :: rest) info). split; [|exact HK].
        apply (pdec_cur lay _ _ (dec_read lay (sc_width sc)) pos); [exact HP|]. exists t. auto. }
      apply (fun h => conj h I) in HS. apply (fun h => conj h I) in HP.
      inversion H; subst; destruct HS as [HS _]; destruct HP as [HP _].
      + congruence.
      + left. assumption.
      + eapply GO; [reflexivity|eassumption|]. apply exit_stops. auto.
      + eapply GO; [reflexivity|eassumption|]. eapply pfail_enter; [apply P1; reflexivity|]. now apply EnId.
      + eapply GO; [reflexivity|eassumption|]. eapply pfail_enter; [apply P1; reflexivity|]. eapply EnWidth; eassumption.
      + eapply GO; [reflexivity|eassumption|]. eapply pfail_enter; [apply P1; reflexivity|]. eapply EnZero; eassumption.
      + eapply GO; [reflexivity|eassumption|]. eapply pfail_enter; [apply P1; reflexivity|]. eapply EnLength; try eassumption.
        rewrite !blen_app in *. rewrite <- !N.add_assoc in *. assumption.
      + eapply GO; [reflexivity|eassumption|]. change (abbrev_id_of 2) with IdDefineAbbrev. cbv iota. apply stops_bind. left.
        eapply define_stops; [apply P1; reflexivity|]. left. assumption.
      + eapply GO; [reflexivity|eassumption|]. change (abbrev_id_of 2) with IdDefineAbbrev. cbv iota. apply stops_bind. left.
        eapply define_stops; [apply P1; reflexivity|]. right. do 3 eexists. split; [reflexivity|]. split; [eassumption|]. auto.
      + eapply GO; [reflexivity|eassumption|]. change (abbrev_id_of 2) with IdDefineAbbrev. cbv iota. apply stops_bind. left.
        eapply define_stops; [apply P1; reflexivity|]. right. do 3 eexists. split; [reflexivity|]. split; [eassumption|]. eauto 6.
      + eapply GO; [reflexivity|eassumption|]. reflexivity.
      + eapply GO; [reflexivity|eassumption|]. eapply unabbrev_stops_iff; [apply P1; reflexivity|]. left. assumption.
      + eapply GO; [reflexivity|eassumption|]. eapply unabbrev_stops_iff; [apply P1; reflexivity|]. right. do 4 eexists. split; [reflexivity|].
        split; [eassumption|]. auto.
      + eapply GO; [reflexivity|eassumption|]. eapply unabbrev_stops_iff; [apply P1; reflexivity|]. right. do 4 eexists. split; [reflexivity|].
        split; [eassumption|]. auto.
      + eapply GO; [reflexivity|eassumption|]. rewrite id_defined by assumption.
        eapply with_abbrev_stops; [now inversion HS|apply P1; reflexivity|assumption|]. left. split; [|reflexivity]. apply nth_error_None. lia.
      + eapply GO; [reflexivity|eassumption|]. rewrite id_defined by assumption.
        eapply with_abbrev_stops; [now inversion HS|apply P1; reflexivity|assumption|]. right. eexists. split; [eassumption|]. left. assumption.
      + eapply GO; [reflexivity|eassumption|]. rewrite id_defined by assumption.
        eapply with_abbrev_stops; [now inversion HS|apply P1; reflexivity|assumption|]. right. eexists. split; [eassumption|]. right. eauto.
  Qed.

  Lemma stack_ne (scs : list scope) (info : info_map) : stack_ok (scs, info) -> scs <> [].
  Proof. intros (bs & E & _) ->. cbn [fst] in E. destruct bs; discriminate E. Qed.

  Lemma loop_stops_sound f : forall pos l scs info x, stack_ok (scs, info) -> stored_ok (mkParser l scs info) ->
    pos + blen l = tot lay -> stops (fst (advance_loop e o f (mkParser l scs info))) x ->
    next_stops e (gap lay) pos (registered info) scs l x.
  Proof.
    induction f as [|f IH]; intros pos l scs info x HO HS HP H; cbn [advance_loop] in H; [destruct H|].
    apply stops_bind in H. destruct H as [H|(y & [l1 s1 i1] & E & H)].
    - apply (step_stops_iff pos) in H; [now constructor|now apply stack_ne in HO|apply HS|exact HP].
    - destruct (step_inv e lay (mkParser l scs info) _ _ HO HS E) as [HO1 HS1].
      apply (step_sound e lay pos) in E; [|exact HO|apply HS|exact HP]. destruct E as (t & -> & HT). destruct y as [y|]; [destruct H|].
      eapply NSilentStops; [exact HT|]. apply IH; [exact HO1|exact HS1|rewrite blen_app in HP; rewrite <- N.add_assoc; exact HP|exact H].
  Qed.

  Lemma loop_stops_complete pos regs scs l x : next_stops e (gap lay) pos regs scs l x ->
    forall f info, stack_ok (scs, info) -> stored_ok (mkParser l scs info) -> pos + blen l = tot lay -> (length l < f)%nat ->
    (forall k, regs k = registered info k) -> stops (fst (advance_loop e o f (mkParser l scs info))) x.
  Proof.
    induction 1 as [pos regs scs l x H|pos regs scs t scs1 regs1 l x HT HN IH];
      intros f info HO HS HP HF HR; (destruct f as [|f]; [lia|]); cbn [advance_loop]; apply stops_bind.
    - left. apply (step_stops_iff pos); [now apply stack_ne in HO|apply HS|exact HP|exact H].
    - right. destruct (step_complete e lay pos (t ++ l) scs info _ l scs1 regs regs1 t (proj1 HS) HP HR eq_refl HT) as (info1 & E & HR1).
      exists None, (mkParser l scs1 info1). split; [exact E|].
      destruct (step_inv e lay (mkParser (t ++ l) scs info) _ _ HO HS E) as [HO1 HS1]. apply IH; auto.
      + rewrite blen_app in HP. rewrite <- N.add_assoc. exact HP.
      + pose proof (step_consumes _ _ _ _ _ _ _ _ _ HT). destruct t; [congruence|]. cbn [app length] in HF. rewrite app_length in HF. lia.
  Qed.

  Lemma told_next (s : PS) x : (length (p_cur s) < op_fuel o (p_cur s))%nat ->
    fst (next e o s) = told x <-> stops (fst (advance e o s)) x.
  Proof.
    intros _. unfold next. destruct (advance e o s) as [[y|y|p|] s']; cbn [fst stops].
    - destruct x as [[]|]; cbn [told]; split; intros H; try discriminate H; destruct H.
    - destruct x as [z|q]; cbn [told]; [|destruct y; cbn [fst]; split; intros H; try discriminate H; destruct H].
      destruct y, z; cbn [told fst]; split; intros H; try discriminate H; try reflexivity; try (injection H; intros; subst; reflexivity);
        try (injection H; intros; congruence).
    - destruct x as [z|q]; cbn [told]; [destruct z; split; intros H; try discriminate H; destruct H|].
      split; intros H; [now injection H|now subst].
    - destruct x as [[]|]; cbn [told]; split; intros H; try discriminate H; destruct H.
  Qed.
End Stops.

(** ** The real parser *)

Lemma next_stops_exact e lay s regs x : sound_state lay s -> (forall k, regs k = registered (p_info s) k) ->
  (fst (next e cursor_ops s) = told x <-> next_stops e (gap lay) (pos s) regs (p_scopes s) (unread s) x).
Proof.
  intros HS HR. pose proof (state_total lay s HS) as [HA HT]. pose proof HS as (I & (start & F & P) & SO & ST).
  set (t0 := mkParser (unread s) (p_scopes s) (p_info s)).
  pose proof (next_gap_sim lay start (inner (p_cur s)) (byte_len (p_cur s)) e s t0 F (tracks_self _ I) P eq_refl eq_refl) as K.
  destruct (next e cursor_ops s) as [r1 s1]. destruct (next e (gap_ops lay) t0) as [r2 t1] eqn:E2. destruct K as [-> _]. cbn [fst].
  replace r2 with (fst (next e (gap_ops lay) t0)) by now rewrite E2.
  rewrite told_next by (cbn; lia). unfold advance. split.
  - intros H. apply (loop_stops_sound e lay _ (pos s)) in H; [|exact SO|exact ST|exact HA].
    clear - H HR. revert H. generalize (pos s) (p_scopes s) (unread s) (registered (p_info s)) HR. clear HR. intros p scs l r HR H.
    revert regs HR. induction H as [p r scs l x H|p r scs t scs1 r1 l x HT HN IH]; intros regs HR; [now constructor|].
    assert (exists r1', step_text e (gap lay) p regs scs t None scs1 r1' /\ forall k, r1' k = r1 k) as (r1' & T' & R').
    { assert (NONE : forall y q s1 s2 r2, y = None -> step_text e (gap lay) p regs s1 q y s2 r2 -> step_text e (gap lay) p regs s1 q None s2 r2) by (intros; subst; assumption).
      inversion HT; subst.
      - exists regs. split; [|intros k; now rewrite HR]. first [apply SEnd; auto; fail|eapply NONE; [exact H|apply SEnd; auto]].
      - exists regs. split; [|intros k; now rewrite HR].
        rewrite <- (HR bid). first [apply SEnter; auto; fail|match goal with K : (if _ then None else Some _) = None |- _ => eapply NONE; [exact K|] end; apply SEnter; auto].
      - exists regs. split; [|intros k; now rewrite HR]. apply SDefine; auto.
      - exists (register regs b a). split; [apply SRegister with a; auto|].
        intros k. match goal with K : forall k, r1 k = _ |- _ => rewrite K end. unfold register. now rewrite HR.
      - exists regs. split; [|intros k; now rewrite HR]. eapply SSetBid; eauto.
      - exists regs. split; [|intros k; now rewrite HR]. eapply SName; eauto.
      - exists regs. split; [|intros k; now rewrite HR].
        first [eapply SAbbrev; eauto; fail|match goal with K : (if _ then None else Some _) = None |- _ => eapply NONE; [exact K|] end; eapply SAbbrev; eauto]. }
    eapply NSilentStops; [exact T'|]. apply IH. exact R'.
  - intros H. apply (loop_stops_complete e lay _ _ _ _ _ H); [exact SO|exact ST|exact HA|cbn; lia|exact HR].
Qed.

Lemma next_stops_exactly e g s x : opened e g s ->
  (fst (next e cursor_ops s) = told x <-> next_stops e g (pos s) (registered (p_info s)) (p_scopes s) (unread s) x).
Proof. intros HO. destruct (opened_sound e g s HO) as (lay & -> & HS). now apply next_stops_exact. Qed.

Lemma story_sound e g xs x : forall s, opened e g s -> run e cursor_ops (S (length xs)) s = oks xs ++ [told x] ->
  story e g (pos s) (registered (p_info s)) (p_scopes s) (unread s) xs x.
Proof.
  induction xs as [|y xs IH]; intros s HO HR.
  - cbn [length run oks map app] in HR. destruct (next e cursor_ops s) as [r s1] eqn:E. injection HR as HR.
    constructor. apply (next_stops_exactly e g s x HO). rewrite E. exact HR.
  - cbn [length oks map app] in HR. cbn [run] in HR. pose proof (OpNext e g s HO) as HO1.
    destruct (next e cursor_ops s) as [r s1] eqn:E. cbn [snd] in *. injection HR as -> HR.
    destruct (opened_sound e g s HO) as (lay & -> & HS).
    destruct (proj1 (next_exact e lay s y (unread s1) (p_scopes s1) HS) s1 E eq_refl eq_refl) as (t1 & T1 & T2 & T3).
    rewrite T1. eapply StoryCons; [exact T2|]. rewrite <- T3. apply IH; [exact HO1|]. exact HR.
Qed.

Lemma story_complete e g xs x : forall s regs, opened e g s -> (forall k, regs k = registered (p_info s) k) ->
  story e g (pos s) regs (p_scopes s) (unread s) xs x -> run e cursor_ops (S (length xs)) s = oks xs ++ [told x].
Proof.
  induction xs as [|y xs IH]; intros s regs HO HR HT; inversion HT; subst.
  - cbn [length run oks map app]. destruct (next e cursor_ops s) as [r s1] eqn:E. f_equal.
    destruct (opened_sound e g s HO) as (lay & -> & HS).
    match goal with K : next_stops _ _ _ _ _ _ _ |- _ => apply (next_stops_exact e lay s regs x HS HR) in K; rewrite E in K; exact K end.
  - pose proof (OpNext e g s HO) as HO1. destruct (opened_sound e g s HO) as (lay & -> & HS).
    edestruct (proj2 (next_exact e lay s y l scs1 HS)) as (s1 & E & U1 & C1 & R1 & P1); [exact HR|symmetry; eassumption|eassumption|].
    cbn [length oks map app]. cbn [run]. rewrite E in *. cbn [snd] in *. f_equal.
    eapply (IH s1); [exact HO1|exact R1|]. rewrite P1, C1, U1. assumption.
Qed.

Lemma story_exactly e buf magic xs x :
  (exists s, from_raw buf = Ok (mkBitstream magic s) /\ run e cursor_ops (S (length xs)) s = oks xs ++ [told x]) <->
  N.of_nat (length buf) mod 4 = 0 /\
  exists t l, bits_of_bytes buf = t ++ l /\ fixed_text 32 magic t /\ story e word_gap 32 (fun _ => []) [ScInitial] l xs x.
Proof.
  pose proof (from_raw_spec buf) as K. pose proof (bits_of_bytes_length buf) as BL. split.
  - intros (s & E & HR).
    destruct ((N.of_nat (length buf) mod 4 =? 0) && (4 <=? N.of_nat (length buf))) eqn:EB; [|congruence].
    destruct K as (c' & K & T). rewrite K in E. injection E as <- <-. split; [lia|].
    pose proof (OpRaw e buf _ K) as HO. cbn [bs_parser] in HO. apply (story_sound e _ xs x _ HO) in HR.
    pose proof (tracks_tell _ _ _ _ (proj1 T)) as (P1 & P2 & _).
    assert (HUN : unread (parser_new c') = skipn 32 (bits_of_bytes buf)) by apply T.
    exists (firstn 32 (bits_of_bytes buf)), (skipn 32 (bits_of_bytes buf)). rewrite firstn_skipn. split; [reflexivity|]. split.
    + destruct (fixed_bits_of (firstn 32 (bits_of_bytes buf)) 32) as [F1 F2].
      { unfold blen. rewrite firstn_length. lia. }
      split; [lia|]. split; [exact F2|]. now symmetry.
    + replace (pos (parser_new c')) with 32 in HR; [rewrite HUN in HR; exact HR|]. unfold pos. cbn [parser_new p_cur]. rewrite P1, skipn_length, BL. lia.
  - intros (HM & t0 & l & HB & (_ & HV & HT0) & HT).
    assert (HL0 : length t0 = 32%nat) by (rewrite HT0, fixed_bits_length; reflexivity).
    assert (HL : (32 <= length (bits_of_bytes buf))%nat) by (rewrite HB, app_length; lia).
    replace ((N.of_nat (length buf) mod 4 =? 0) && (4 <=? N.of_nat (length buf))) with true in K by lia.
    destruct K as (c' & K & T).
    assert (F : firstn 32 (bits_of_bytes buf) = t0) by (rewrite HB, <- HL0, firstn_app, firstn_all, Nat.sub_diag; cbn; now rewrite app_nil_r).
    assert (SK : skipn 32 (bits_of_bytes buf) = l) by (rewrite HB, <- HL0, skipn_app, skipn_all, Nat.sub_diag; reflexivity).
    rewrite F in K. rewrite HT0, N_of_fixed in K by exact HV.
    pose proof (OpRaw e buf _ K) as HO. cbn [bs_parser] in HO.
    pose proof (tracks_tell _ _ _ _ (proj1 T)) as (P1 & P2 & _).
    assert (HUN : unread (parser_new c') = l) by (rewrite <- SK; apply T).
    exists (parser_new c'). split; [exact K|].
    apply (story_complete e _ xs x _ (fun _ => []) HO); [reflexivity|]. rewrite HUN.
    replace (pos (parser_new c')) with 32; [exact HT|]. unfold pos. cbn [parser_new p_cur]. rewrite P1, skipn_length, BL. lia.
Qed.

Lemma advance_panics e g s p : opened e g s ->
  (fst (advance e cursor_ops s) = Panic p <-> next_stops e g (pos s) (registered (p_info s)) (p_scopes s) (unread s) (Crash p)).
Proof.
  intros HO. rewrite <- (next_stops_exactly e g s (Crash p) HO). unfold next. cbn [told].
  destruct (advance e cursor_ops s) as [[y|[]|q|] s']; cbn [fst]; split; intros H; try discriminate H; congruence.
Qed.

Lemma next_consumes e lay pos regs scs t x scs' regs' : next_text e (gap lay) pos regs scs t x scs' regs' -> t <> [].
Proof.
  intros H. destruct H; [eapply step_consumes; eassumption|]. intros E. apply app_eq_nil in E. destruct E as [-> _].
  match goal with K : step_text _ _ _ _ _ [] _ _ _ |- _ => apply step_consumes in K; congruence end.
Qed.

(** Every input has exactly one story. *)
Lemma run_stops e g s : opened e g s -> (forall s', opened e g s' -> fst (advance e cursor_ops s') <> OutOfFuel) ->
  exists xs x, run e cursor_ops (S (length xs)) s = oks xs ++ [told x].
Proof.
  intros HO HF. remember (length (unread s)) as n eqn:HN. revert s HO HN.
  induction n as [n IH] using lt_wf_ind. intros s HO HN. pose proof (OpNext e g s HO) as HO1.
  destruct (next e cursor_ops s) as [r s1] eqn:E. cbn [snd] in HO1.
  assert (BASE : forall x, r = told x -> exists xs x, run e cursor_ops (S (length xs)) s = oks xs ++ [told x]).
  { intros x ->. exists [], x. cbn [length run oks map app]. now rewrite E. }
  destruct r as [[y|y|p|]|].
  - destruct (opened_sound e g s HO) as (lay & -> & HS).
    destruct (proj1 (next_exact e lay s y (unread s1) (p_scopes s1) HS) s1 E eq_refl eq_refl) as (t1 & T1 & T2 & T3).
    apply next_consumes in T2. destruct t1; [congruence|].
    destruct (IH (length (unread s1))) with (s := s1) as (xs & x & HR); [rewrite HN, T1; cbn [app length]; rewrite app_length; lia|exact HO1|reflexivity|].
    exists (y :: xs), x. cbn [length oks map app]. cbn [run]. rewrite E. f_equal. exact HR.
  - apply (BASE (Stop y)). destruct y; try reflexivity. unfold next in E. destruct (advance e cursor_ops s) as [[?|[]|?|] ?]; discriminate E.
  - now apply (BASE (Crash p)).
  - exfalso. apply (HF s HO). unfold next in E. destruct (advance e cursor_ops s) as [[?|[]|?|] ?]; try discriminate E; reflexivity.
  - now apply (BASE (Stop SExhausted)).
Qed.

Lemma told_not_ok x y : told x <> Some (Ok y).
Proof. destruct x as [[]|]; discriminate. Qed.
Lemma told_inj x y : told x = told y -> x = y.
Proof. destruct x as [[]|], y as [[]|]; intros H; try discriminate H; try reflexivity; try (injection H; intros; subst; reflexivity). Qed.

Lemma run_stops_once e : forall xs ys s x y, run e cursor_ops (S (length xs)) s = oks xs ++ [told x] ->
  run e cursor_ops (S (length ys)) s = oks ys ++ [told y] -> xs = ys /\ x = y.
Proof.
  induction xs as [|a xs IH]; intros [|b ys] s x y H1 H2; cbn [length oks map app] in *; cbn [run] in H1, H2;
    destruct (next e cursor_ops s) as [r s1].
  - injection H1 as ->. injection H2 as H2. split; [reflexivity|]. now apply told_inj.
  - injection H1 as ->. injection H2 as H2 _. now apply told_not_ok in H2.
  - injection H2 as ->. injection H1 as H1 _. now apply told_not_ok in H1.
  - injection H1 as -> H1. injection H2 as -> H2. destruct (IH ys s1 x y H1 H2) as [-> ->]. auto.
Qed.

Lemma opened_fuel e g s : opened e g s -> fst (advance e cursor_ops s) <> OutOfFuel.
Proof.
  intros HO. destruct (opened_sound e g s HO) as (lay & _ & I & _ & SO & _).
  pose proof (advance_nice e cursor_ops inv63 _ cursor_progressive s (conj I (stack_ne _ _ SO))) as K.
  destruct (advance e cursor_ops s) as [[x|x|p|] s']; try discriminate. contradiction.
Qed.

Lemma story_unique e buf : N.of_nat (length buf) mod 4 = 0 -> (4 <= length buf)%nat ->
  exists magic t l xs x, bits_of_bytes buf = t ++ l /\ fixed_text 32 magic t /\ story e word_gap 32 (fun _ => []) [ScInitial] l xs x /\
    forall xs' x', story e word_gap 32 (fun _ => []) [ScInitial] l xs' x' -> xs' = xs /\ x' = x.
Proof.
  intros HM HL. pose proof (from_raw_spec buf) as K.
  replace ((N.of_nat (length buf) mod 4 =? 0) && (4 <=? N.of_nat (length buf))) with true in K by lia.
  destruct K as (c' & K & T). match type of K with _ = Ok (mkBitstream ?m _) => set (magic := m) in * end.
  pose proof (OpRaw e buf _ K) as HO. cbn [bs_parser] in HO.
  destruct (run_stops e _ _ HO (fun s' H => opened_fuel e _ s' H)) as (xs & x & HR).
  destruct (proj1 (story_exactly e buf magic xs x)) as (_ & t & l & HB & HT & HS); [eauto|].
  exists magic, t, l, xs, x. split; [exact HB|]. split; [exact HT|]. split; [exact HS|].
  intros xs' x' HS'. destruct (proj2 (story_exactly e buf magic xs' x')) as (s & E & HR').
  { split; [exact HM|]. eauto. }
  rewrite K in E. injection E as <-. exact (run_stops_once e xs' xs _ x' x HR' HR).
Qed.

(** *** The numbers in front of blocks and records (C57) *)

Definition header_fits (x : entry) : Prop :=
  match x with
  | ESubBlock id len => id <> 0 /\ exists words, words < 2 ^ 32 /\ len = 4 * words
  | ERecord (Some a) _ _ => 4 <= a < 2 ^ 63
  | _ => True
  end.
Lemma step_header e gap pos regs scs t x scs' regs' : step_text e gap pos regs scs t (Some x) scs' regs' -> header_fits x.
Proof.
  intros H. inversion H; subst; cbn.
  - destruct (b =? 0); [discriminate|]. now injection H0 as <-.
  - match goal with H : (if ?b then _ else _) = Some _ |- _ => destruct b eqn:B; [discriminate H|]; injection H as <- end.
    match goal with H : fixed_text 32 _ _ |- _ => destruct H as (_ & F & _) end. cbn. split; [lia|]. eauto.
  - exact I.
  - match goal with H : (if ?b then _ else _) = Some _ |- _ => destruct b eqn:B; [discriminate H|]; injection H as <- end.
    match goal with H : fixed_text _ id _ |- _ => destruct H as (F1 & F2 & _) end. cbn. split; [assumption|].
    eapply N.lt_le_trans; [exact F2|]. apply N.pow_le_mono_r; lia.
Qed.
Lemma next_header e gap pos regs scs t x scs' regs' : next_text e gap pos regs scs t x scs' regs' -> header_fits x.
Proof. induction 1; [eapply step_header; eassumption|assumption]. Qed.
Lemma headers_fit e gap s : opened e gap s ->
  (forall id len, fst (next e cursor_ops s) = Some (Ok (ESubBlock id len)) ->
     id <> 0 /\ exists words, words < 2 ^ 32 /\ len = 4 * words) /\
  (forall a code fields, fst (next e cursor_ops s) = Some (Ok (ERecord (Some a) code fields)) -> 4 <= a < 2 ^ 63).
Proof.
  intros O. assert (K : forall x, fst (next e cursor_ops s) = Some (Ok x) -> header_fits x).
  { intros x X. destruct (next e cursor_ops s) as [r s'] eqn:E. cbn in X. subst r.
    destruct (proj1 (next_exactly e gap s x (unread s') (p_scopes s') (registered (p_info s')) O)
      (ex_intro _ s' (conj E (conj eq_refl (conj eq_refl (fun k => eq_refl)))))) as (t & _ & T).
    exact (next_header _ _ _ _ _ _ _ _ _ T). }
  split.
  - intros id len H. exact (K _ H).
  - intros a code fields H. exact (K _ H).
Qed.
