(** The parser accepts exactly the texts of [GrammarSpec]. *)
From Verif Require Import Base CursorModel CursorSpec CursorHist CursorProofs CursorSim CursorVbr CursorMain CursorExact
  StreamModel StreamSpec StreamHist StreamProofs StreamPres StreamEffect StreamRound StreamMain StreamEnd StreamAbb StreamBox
  GrammarSpec CursorGap.
From Coq Require Import Lia ZifyBool ZifyNat ZifyN.
Ltac Zify.zify_post_hook ::= Z.div_mod_to_equations.
Local Open Scope N_scope.
#[local] Arguments N.add : simpl never.
#[local] Arguments N.mul : simpl never.
#[local] Arguments N.div : simpl never.
#[local] Arguments N.modulo : simpl never.
#[local] Arguments N.sub : simpl never.
#[local] Arguments N.pow : simpl never.

Notation L := (list bool).

Lemma bind_ok {St E A B} (m : M St E A) (k : A -> M St E B) s b s' :
  bind m k s = (Ok b, s') <-> exists a s1, m s = (Ok a, s1) /\ k a s1 = (Ok b, s').
Proof.
  unfold bind. split.
  - destruct (m s) as [[a|x|p|] s1]; try discriminate. eauto.
  - intros (a & s1 & -> & H). exact H.
Qed.

Section Grammar.
Variable e : env.
Variable lay : layout.
Notation o := (gap_ops lay).

(** ** Decoders on the list cursor *)

(** [m] succeeds exactly on the texts [T], for inputs shorter than [n]. *)
Definition decn {A} (n : nat) (m : M L serr A) (T : N -> A -> L -> Prop) : Prop :=
  forall pos l a l', (length l < n)%nat -> pos + blen l = tot lay ->
    (m l = (Ok a, l') <-> exists t, l = t ++ l' /\ T pos a t).
Definition dec {A} (m : M L serr A) (T : N -> A -> L -> Prop) : Prop := forall n, decn n m T.

Definition seqt {A B} (T : N -> A -> L -> Prop) (U : A -> N -> B -> L -> Prop) : N -> B -> L -> Prop :=
  fun pos b t => exists a t1 t2, T pos a t1 /\ U a (pos + blen t1) b t2 /\ t = t1 ++ t2.

Lemma decn_ext {A} n (m : M L serr A) T T' : (forall pos a t, T pos a t <-> T' pos a t) -> decn n m T -> decn n m T'.
Proof.
  intros HT H pos l a l' HL HP. rewrite (H pos l a l' HL HP). split; intros (t & E1 & E2); exists t; (split; [exact E1|now apply HT]).
Qed.
Lemma dec_ext {A} (m : M L serr A) T T' : (forall pos a t, T pos a t <-> T' pos a t) -> dec m T -> dec m T'.
Proof. intros HT H n. exact (decn_ext n m T T' HT (H n)). Qed.

Lemma decn_bind {A B} n (m : M L serr A) (k : A -> M L serr B) T U :
  decn n m T -> (forall a, decn n (k a) (U a)) -> decn n (bind m k) (seqt T U).
Proof.
  intros Hm Hk pos l b l' HL HP. rewrite bind_ok. split.
  - intros (a & l1 & E1 & E2). apply (Hm pos l a l1 HL HP) in E1. destruct E1 as (t1 & -> & T1).
    assert (L1 : (length l1 < n)%nat) by (rewrite app_length in HL; lia).
    assert (P1 : pos + blen t1 + blen l1 = tot lay) by (rewrite blen_app in HP; rewrite <- N.add_assoc; exact HP).
    apply (Hk a (pos + blen t1) l1 b l' L1 P1) in E2. destruct E2 as (t2 & -> & T2).
    exists (t1 ++ t2). split; [now rewrite app_assoc|]. exists a, t1, t2. auto.
  - intros (t & -> & a & t1 & t2 & T1 & T2 & ->). rewrite <- app_assoc in *.
    exists a, (t2 ++ l'). split; [apply (Hm pos _ a _ HL HP); eauto|].
    assert (L1 : (length (t2 ++ l') < n)%nat) by (rewrite app_length in HL; lia).
    assert (P1 : pos + blen t1 + blen (t2 ++ l') = tot lay) by (rewrite blen_app in HP; rewrite <- N.add_assoc; exact HP).
    apply (Hk a (pos + blen t1) _ b l' L1 P1). eauto.
Qed.
(** After at least one bit, less is left. *)
Lemma decn_bind1 {A B} n (m : M L serr A) (k : A -> M L serr B) T U :
  decn (S n) m T -> (forall pos a t, T pos a t -> t <> []) -> (forall a, decn n (k a) (U a)) ->
  decn (S n) (bind m k) (seqt T U).
Proof.
  intros Hm Hne Hk pos l b l' HL HP. rewrite bind_ok. split.
  - intros (a & l1 & E1 & E2). apply (Hm pos l a l1 HL HP) in E1. destruct E1 as (t1 & -> & T1).
    assert (L1 : (length l1 < n)%nat).
    { pose proof (Hne _ _ _ T1) as Ht. destruct t1; [congruence|]. rewrite app_length in HL. cbn in HL. lia. }
    assert (P1 : pos + blen t1 + blen l1 = tot lay) by (rewrite blen_app in HP; rewrite <- N.add_assoc; exact HP).
    apply (Hk a (pos + blen t1) l1 b l' L1 P1) in E2. destruct E2 as (t2 & -> & T2).
    exists (t1 ++ t2). split; [now rewrite app_assoc|]. exists a, t1, t2. auto.
  - intros (t & -> & a & t1 & t2 & T1 & T2 & ->). rewrite <- app_assoc in *.
    exists a, (t2 ++ l'). split; [apply (Hm pos _ a _ HL HP); eauto|].
    assert (L1 : (length (t2 ++ l') < n)%nat).
    { pose proof (Hne _ _ _ T1) as Ht. destruct t1; [congruence|]. rewrite app_length in HL. cbn in HL. lia. }
    assert (P1 : pos + blen t1 + blen (t2 ++ l') = tot lay) by (rewrite blen_app in HP; rewrite <- N.add_assoc; exact HP).
    apply (Hk a (pos + blen t1) _ b l' L1 P1). eauto.
Qed.
Lemma dec_bind {A B} (m : M L serr A) (k : A -> M L serr B) T U :
  dec m T -> (forall a, dec (k a) (U a)) -> dec (bind m k) (seqt T U).
Proof. intros Hm Hk n. apply decn_bind; [apply Hm|intros a; apply Hk]. Qed.
Lemma dec_ret {A} (a : A) : dec (ret a) (fun _ b t => b = a /\ t = []).
Proof.
  intros n pos l b l' HL HP. unfold ret. split.
  - intros E. injection E as -> ->. exists []. auto.
  - intros (t & -> & -> & ->). reflexivity.
Qed.
Lemma dec_fail {A} x : dec (fail (A := A) x) (fun _ _ _ => False).
Proof. intros n pos l b l' HL HP. unfold fail. split; [discriminate|]. intros (t & _ & []). Qed.
Lemma dec_crash {A} x : dec (crash (A := A) x) (fun _ _ _ => False).
Proof. intros n pos l b l' HL HP. unfold crash. split; [discriminate|]. intros (t & _ & []). Qed.

(** ** Primitive fields *)

Lemma fixed_bits_of (t : L) n : blen t = n -> fixed_bits n (N_of_bits t) = t /\ N_of_bits t < 2 ^ n.
Proof.
  intros <-. unfold blen. split; [|apply N_of_bits_bound].
  unfold fixed_bits. rewrite Nat2N.id. apply bits_of_N_of_bits.
Qed.

Lemma lift_ok {St E F A} (f : E -> F) (m : M St E A) s a s' : lift_err f m s = (Ok a, s') <-> m s = (Ok a, s').
Proof. unfold lift_err. destruct (m s) as [[]]; split; congruence. Qed.


  Lemma dec_read w : dec (c_read o w) (fun _ v t => fixed_text w v t).
  Proof.
    intros n pos l v l' _ _. unfold c_read. rewrite lift_ok. cbn [op_read gap_ops]. unfold list_read, fixed_text.
    destruct ((w =? 0) || (64 <=? w)) eqn:EW.
    { split; [discriminate|]. intros (t & _ & H & _). lia. }
    destruct (w <=? N.of_nat (length l)) eqn:EL.
    - split.
      + intros E. injection E as <- <-. exists (firstn (N.to_nat w) l). split; [now rewrite firstn_skipn|].
        assert (B : blen (firstn (N.to_nat w) l) = w) by (unfold blen; rewrite firstn_length; lia).
        destruct (fixed_bits_of _ _ B) as [E1 E2]. split; [lia|]. split; [exact E2|now rewrite E1].
      + intros (t & -> & H1 & H2 & ->). pose proof (fixed_blen w v) as B. unfold blen in B.
        rewrite firstn_app, skipn_app. replace (N.to_nat w - length (fixed_bits w v))%nat with 0%nat by lia.
        rewrite firstn_all2 by lia. rewrite skipn_all2 by lia. cbn [firstn skipn app]. rewrite app_nil_r.
        now rewrite N_of_fixed.
    - split; [destruct l; discriminate|]. intros (t & -> & H1 & H2 & ->).
      pose proof (fixed_blen w v) as B. unfold blen in B. rewrite app_length in EL. lia.
  Qed.

  Lemma vbr_value_text w ps last : 2 <= w <= 32 -> Forall (group_len w) ps -> group_len w last ->
    overflow_checks e && (64 <=? 0 + N.of_nat (length ps) * (w - 1)) = false ->
    acc_groups w (ps ++ [last]) 0 0 =
      if overflow_checks e then vbr_value ps last mod two64 else wrapped_groups w 0 (ps ++ [last]).
  Proof.
    intros Hw H1 H2 HB. destruct (overflow_checks e); cbn [andb] in HB.
    - rewrite acc_groups_low by (try assumption; rewrite ?N.pow_0_r; lia). now rewrite N.pow_0_r, N.add_0_l, N.mul_1_l.
    - pose proof (acc_wrapped w (ps ++ [last]) 0 0) as A. rewrite N.lor_0_l in A. replace (0 * (w - 1)) with 0 in A by lia. exact A.
  Qed.

  Lemma dec_vbr w : dec (c_vbr e o w) (fun _ v t => vbr_means e w v t).
  Proof.
    intros n pos l v l' _ _. unfold c_vbr. rewrite lift_ok. unfold read_vbr, vbr_means. change (vbr_loop e o) with (vbr_loop e list_ops).
    destruct ((2 <=? w) && (w <=? 32)) eqn:EW.
    2:{ split; [discriminate|]. intros (t & _ & H & _). lia. }
    assert (Hw : 2 <= w <= 32) by lia.
    split.
    - intros E. destruct (vbr_decompose w l ltac:(lia)) as [(ps & last & rest & -> & H1 & H2)|(ps & tl & -> & H1 & H2)].
      + destruct (vbr_loop_text e w ps last rest (op_fuel o (vbr_text ps last ++ rest)) 0 0 Hw H1 H2) as (l2 & E').
        { cbn. lia. }
        rewrite E' in E. exists (vbr_text ps last).
        destruct (overflow_checks e && (64 <=? 0 + N.of_nat (length ps) * (w - 1))) eqn:EB; [discriminate E|].
        rewrite (vbr_value_text w ps last Hw H1 H2 EB) in E.
        injection E as <- <-. split; [reflexivity|]. split; [exact Hw|]. exists ps, last. split; [exact H1|]. split; [exact H2|].
        split; [reflexivity|]. destruct (overflow_checks e); [|reflexivity]. cbn [andb] in EB. split; [lia|reflexivity].
      + destruct (vbr_loop_trunc e w ps tl (op_fuel o (flat_map (fun p => p ++ [true]) ps ++ tl)) 0 0 Hw H1 H2) as (l2 & E').
        { cbn. lia. }
        rewrite E' in E. match type of E with (if ?b then _ else _) = _ => destruct b end; discriminate E.
    - intros (t & -> & _ & ps & last & H1 & H2 & -> & HV).
      destruct (vbr_loop_text e w ps last l' (op_fuel o (vbr_text ps last ++ l')) 0 0 Hw H1 H2) as (l2 & ->).
      { cbn. lia. }
      assert (EB : overflow_checks e && (64 <=? 0 + N.of_nat (length ps) * (w - 1)) = false).
      { destruct (overflow_checks e); [lia|reflexivity]. }
      rewrite EB, (vbr_value_text w ps last Hw H1 H2 EB). destruct (overflow_checks e).
      + now destruct HV as [_ ->].
      + now rewrite HV.
  Qed.

  Lemma dec_read_as t w : ity_signed t = false -> w <= ity_bits t \/ 64 <= w -> dec (c_read_as o t w) (fun _ v x => fixed_text w v x).
  Proof.
    intros HT HB. apply dec_ext with (seqt (fun _ v x => fixed_text w v x) (fun a _ v x => v = a /\ x = [])).
    { intros pos a x. unfold seqt. split.
      - intros (b & t1 & t2 & H & [-> ->] & ->). now rewrite app_nil_r.
      - intros H. exists a, x, []. rewrite app_nil_r. auto. }
    intros n pos l v l' HL HP. unfold c_read_as. rewrite lift_ok. unfold read_as. rewrite bind_ok.
    pose proof (dec_read w n pos l) as HR. unfold c_read in HR.
    transitivity (exists a s1, op_read o w l = (Ok a, s1) /\ v = a /\ l' = s1).
    { split.
      - intros (a & s1 & E1 & E2). exists a, s1. split; [exact E1|].
        destruct (num_cast t a) eqn:EN; [|discriminate E2]. unfold num_cast in EN. destruct (_ <? _); [|discriminate EN].
        injection E2 as <- <-. injection EN as ->. auto.
      - intros (a & s1 & E1 & -> & ->). exists a, s1. split; [exact E1|].
        assert (F : a < 2 ^ ity_bits t).
        { destruct (proj1 (HR a s1 HL HP) ltac:(now apply lift_ok)) as (x & _ & X1 & X2 & _).
          eapply N.lt_le_trans; [exact X2|]. apply N.pow_le_mono_r; lia. }
        unfold num_cast. rewrite HT. replace (a <? 2 ^ ity_bits t) with true by lia. reflexivity. }
    split.
    - intros (a & s1 & E1 & -> & ->). destruct (proj1 (HR a s1 HL HP) ltac:(now apply lift_ok)) as (x & -> & X).
      exists x. split; [reflexivity|]. exists a, x, []. rewrite app_nil_r. auto.
    - intros (x & -> & a & t1 & t2 & H & [-> ->] & ->). exists a, l'. split; [|auto].
      apply (lift_ok SCursor). apply (HR a l' HL HP). exists t1. rewrite app_nil_r. auto.
  Qed.

  Lemma dec_align : dec (c_align o) (fun pos _ t => padding (gap lay) pos t).
  Proof.
    intros n pos l [] l' _ HP. unfold c_align. cbn [op_align32 gap_ops]. unfold gap_align, padding.
    assert (PE : tot lay - N.of_nat (length l) = pos) by (unfold blen in HP; lia). rewrite PE.
    pose proof (inside lay pos ltac:(lia)) as IN. set (k := N.to_nat (gap lay pos)). assert (KL : (k <= length l)%nat) by (subst k; unfold blen in HP; lia).
    assert (KE : N.of_nat k = gap lay pos) by (subst k; lia).
    split.
    - intros E. injection E as <-. exists (firstn k l). split; [now rewrite firstn_skipn|].
      unfold blen. rewrite firstn_length. lia.
    - intros (t & -> & B). do 2 f_equal. replace k with (length t) by (unfold blen in B; lia).
      rewrite skipn_app, skipn_all, Nat.sub_diag. reflexivity.
  Qed.

  Lemma dec_capacity n : dec (with_capacity e n) (fun _ _ t => n <= alloc_limit e /\ t = []).
  Proof.
    intros k pos l [] l' _ _. unfold with_capacity. destruct (n <=? alloc_limit e) eqn:EN.
    - split; [intros E; injection E as <-; exists []; split; [reflexivity|split; [lia|reflexivity]]|]. intros (t & -> & _ & ->). reflexivity.
    - split; [discriminate|]. intros (t & _ & H & _). lia.
  Qed.

  Lemma dec_times (m : M L serr (list N)) (P : N -> L -> Prop) n :
    dec m (fun _ r t => exists v, r = [v] /\ P v t) ->
    dec (times n m) (fun _ vals t => N.of_nat (length vals) = n /\ exists ts, Forall2 P vals ts /\ t = concat ts).
  Proof.
    intros Hm k pos l vals l' HL HP. rewrite times_nat.
    transitivity (exists t, l = t ++ l' /\ length vals = N.to_nat n /\ exists ts, Forall2 P vals ts /\ t = concat ts).
    2:{ split; intros (t & E & H1 & H2); exists t; (split; [exact E|]); (split; [lia|exact H2]). }
    revert pos l vals HL HP. generalize (N.to_nat n) as c. induction c as [|c IH]; intros pos l vals HL HP; cbn [times_n].
    - unfold ret. split.
      + intros E. injection E as <- <-. exists []. split; [reflexivity|]. split; [reflexivity|]. exists []. split; [constructor|reflexivity].
      + intros (t & -> & HV & ts & HF & ->). destruct vals; [|discriminate HV]. inversion HF. subst. reflexivity.
    - rewrite bind_ok. split.
      + intros (a & l1 & E1 & E2). apply (Hm k pos l a l1 HL HP) in E1. destruct E1 as (t1 & -> & v & -> & HPv).
        apply bind_ok in E2. destruct E2 as (b & l2 & E2 & E3). injection E3 as <- <-.
        apply (IH (pos + blen t1)) in E2; [|rewrite app_length in HL; lia|rewrite blen_app in HP; rewrite <- N.add_assoc; exact HP].
        destruct E2 as (t2 & -> & HV & ts & HF & ->). exists (t1 ++ concat ts). split; [now rewrite app_assoc|].
        split; [cbn; lia|]. exists (t1 :: ts). split; [now constructor|reflexivity].
      + intros (t & -> & HV & ts & HF & ->). destruct HF as [|v t1 vals ts HPv HF]; [discriminate HV|].
        cbn [concat] in *. rewrite <- app_assoc in *. exists [v], (concat ts ++ l'). split; [apply (Hm k pos _ _ _ HL HP); eauto|].
        apply bind_ok. exists vals, l'. split; [|reflexivity].
        apply (IH (pos + blen t1)); [rewrite app_length in HL; lia|rewrite blen_app in HP; rewrite <- N.add_assoc; exact HP|].
        exists (concat ts). split; [reflexivity|]. split; [cbn in HV; lia|]. eauto.
  Qed.

  (** ** Records *)

  Lemma char6_inverse i c : i < 64 -> (nth_error char6_alphabet (N.to_nat i) = Some c <-> char6_code c = Some i).
  Proof.
    intros Hi. split; [|intros H; now apply char6_decode].
    assert (F : forallb (fun k => match nth_error char6_alphabet k with
                 | Some c => match char6_code c with Some j => N.to_nat j =? k | None => false end%nat | None => false end)
                (seq 0 64) = true) by (vm_compute; reflexivity).
    rewrite forallb_forall in F. specialize (F (N.to_nat i)). rewrite in_seq in F. specialize (F ltac:(lia)).
    intros E. rewrite E in F. destruct (char6_code c); [|discriminate F]. f_equal. lia.
  Qed.

  Lemma dec_scalar op : is_scalar op = true ->
    dec (op_parse e o op) (fun _ r t => exists v, r = [v] /\ scalar_text e op v t).
  Proof.
    intros HS. destruct op as [v|w|w|el| |]; try discriminate HS; cbn [op_parse].
    - eapply dec_ext; [|apply dec_bind; [apply dec_vbr|intros x; apply dec_ret]].
      intros pos r t. unfold seqt. split.
      + intros (x & t1 & t2 & H & [-> ->] & ->). rewrite app_nil_r. exists x. split; [reflexivity|now constructor].
      + intros (v & -> & H). inversion H; subst. exists v, t, []. rewrite app_nil_r. auto.
    - destruct (N.lt_ge_cases w 65) as [Hw|Hw].
      + assert (D : dec (c_read_as o u64t w) (fun _ v x => fixed_text w v x)).
        { apply dec_read_as; [reflexivity|cbn [ity_bits]; change (ity_bits u64t) with 64; lia]. }
        eapply dec_ext; [|apply dec_bind; [exact D|intros x; apply dec_ret]].
        intros pos r t. unfold seqt. split.
        * intros (x & t1 & t2 & H & [-> ->] & ->). rewrite app_nil_r. exists x. split; [reflexivity|now constructor].
        * intros (v & -> & H). inversion H; subst. exists v, t, []. rewrite app_nil_r. auto.
      + assert (D : dec (c_read_as o u64t w) (fun _ v x => fixed_text w v x)) by (apply dec_read_as; [reflexivity|lia]).
        eapply dec_ext; [|apply dec_bind; [exact D|intros x; apply dec_ret]].
        intros pos r t. unfold seqt. split.
        * intros (x & t1 & t2 & H & [-> ->] & ->). rewrite app_nil_r. exists x. split; [reflexivity|now constructor].
        * intros (v & -> & H). inversion H; subst. exists v, t, []. rewrite app_nil_r. auto.
    - assert (D : dec (c_read_as o u8t 6) (fun _ v x => fixed_text 6 v x)).
      { apply dec_read_as; [reflexivity|change (ity_bits u8t) with 8; lia]. }
      assert (D6 : forall x, dec (decode_char6 x) (fun _ c t => nth_error char6_alphabet (N.to_nat x) = Some c /\ t = [])).
      { intros x. unfold decode_char6. destruct (nth_error _ _) as [c|].
        - eapply dec_ext; [|apply dec_ret]. intros pos c' t. split; [intros [-> ->]; auto|]. intros [E ->]. injection E as ->. auto.
        - eapply dec_ext; [|apply dec_crash]. intros pos c' t. split; [intros []|]. intros [E _]. discriminate E. }
      eapply dec_ext; [|apply dec_bind; [exact D|intros x; apply dec_bind; [apply D6|intros c; apply dec_ret]]].
      intros pos r t. unfold seqt. split.
      + intros (x & t1 & t2 & H & (c & t3 & t4 & [E ->] & [-> ->] & ->) & ->). cbn [app]. rewrite app_nil_r.
        exists c. split; [reflexivity|]. apply TChar6 with x; [|exact H]. apply char6_inverse; [|exact E].
        destruct H as (_ & H & _). exact H.
      + intros (c & -> & H). inversion H; subst. exists i, t, []. rewrite app_nil_r. split; [assumption|]. split; [|reflexivity].
        exists c, [], []. split; [|auto]. split; [|reflexivity]. now apply char6_decode.
  Qed.

  Lemma dec_byte : dec (bind (c_read_as o u8t 8) (fun b => ret [b])) (fun _ r t => exists v, r = [v] /\ fixed_text 8 v t).
  Proof.
    assert (D : dec (c_read_as o u8t 8) (fun _ v x => fixed_text 8 v x)).
    { apply dec_read_as; [reflexivity|change (ity_bits u8t) with 8; lia]. }
    eapply dec_ext; [|apply dec_bind; [exact D|intros x; apply dec_ret]].
    intros pos r t. unfold seqt. split.
    - intros (x & t1 & t2 & H & [-> ->] & ->). rewrite app_nil_r. eauto.
    - intros (v & -> & H). exists v, t, []. rewrite app_nil_r. auto.
  Qed.

  Lemma dec_op_last op a : dec (op_parse e o op) (fun pos vals t => values_text e (gap lay) pos [op] vals t) ->
    a = [] -> dec (abbrev_parse e o (op :: a)) (fun pos vals t => values_text e (gap lay) pos (op :: a) vals t).
  Proof.
    intros H ->. cbn [abbrev_parse].
    eapply dec_ext; [|apply dec_bind; [exact H|intros x; apply dec_bind; [apply dec_ret|intros y; apply dec_ret]]].
    intros pos vals t. unfold seqt. split.
    - intros (x & t1 & t2 & HV & (y & t3 & t4 & [-> ->] & [-> ->] & ->) & ->). cbn [app]. now rewrite !app_nil_r.
    - intros HV. exists vals, t, []. rewrite app_nil_r. split; [exact HV|]. split; [|reflexivity].
      exists [], [], []. rewrite app_nil_r. auto.
  Qed.

  Lemma dec_record a : ops_shaped a = true -> dec (abbrev_parse e o a) (fun pos vals t => values_text e (gap lay) pos a vals t).
  Proof.
    induction a as [|op a IH]; intros HS.
    { cbn [abbrev_parse]. eapply dec_ext; [|apply dec_ret]. intros pos vals t. split.
      - intros [-> ->]. constructor.
      - intros H. inversion H. auto. }
    assert (SC : is_scalar op = true -> ops_shaped a = true ->
              dec (abbrev_parse e o (op :: a)) (fun pos vals t => values_text e (gap lay) pos (op :: a) vals t)).
    { intros H1 H2. cbn [abbrev_parse].
      eapply dec_ext; [|apply dec_bind; [apply dec_scalar; exact H1|intros x; apply dec_bind; [apply IH; exact H2|intros y; apply dec_ret]]].
      intros pos vals t. unfold seqt. split.
      - intros (x & t1 & t2 & (v & -> & HT) & (y & t3 & t4 & HV & [-> ->] & ->) & ->). rewrite app_nil_r. cbn [app].
        apply VScalar; assumption.
      - intros HV. inversion HV; subst; try discriminate H1.
        match goal with HT : scalar_text e op ?v ?t1, HW : values_text e (gap lay) _ a ?vals ?t2 |- _ =>
          exists [v], t1, t2; split; [exists v; auto|]; split; [|reflexivity];
          exists vals, t2, []; rewrite app_nil_r; auto end. }
    destruct op as [v|w|w|el| |].
    - cbn [abbrev_parse op_parse].
      eapply dec_ext; [|apply dec_bind; [apply dec_ret|intros x; apply dec_bind; [apply IH; destruct a; exact HS|intros y; apply dec_ret]]].
      intros pos vals t. unfold seqt. split.
      + intros (x & t1 & t2 & [-> ->] & (y & t3 & t4 & HV & [-> ->] & ->) & ->). rewrite app_nil_r. cbn [app].
        apply VLiteral. change (blen []) with 0 in HV. now rewrite N.add_0_r in HV.
      + intros HV. inversion HV; subst.
        * exists [v], [], t. split; [auto|]. split; [|reflexivity]. change (blen []) with 0. rewrite N.add_0_r.
          exists vals0, t, []. rewrite app_nil_r. auto.
        * match goal with HT : scalar_text _ (OpLiteral _) _ _ |- _ => inversion HT end.
    - apply SC; [reflexivity|]. destruct a; exact HS.
    - apply SC; [reflexivity|]. destruct a; exact HS.
    - destruct a as [|]; [|discriminate HS]. cbn [ops_shaped] in HS. apply dec_op_last; [|reflexivity]. cbn [op_parse].
      eapply dec_ext; [|apply dec_bind; [apply dec_vbr|intros n; apply dec_bind; [apply dec_capacity|intros ?;
        apply dec_times, dec_scalar, HS]]].
      intros pos vals t. unfold seqt. split.
      + intros (n & t1 & t2 & HN & (u & t3 & t4 & [HC ->] & (HL & ts & HF & ->) & ->) & ->). subst n. cbn [app].
        now apply VArray.
      + intros HV. inversion HV; subst.
        * match goal with HT : scalar_text _ (OpArray _) _ _ |- _ => inversion HT end.
        * exists (N.of_nat (length vals)), t0, (concat ts). split; [assumption|]. split; [|reflexivity].
          exists tt, [], (concat ts). split; [auto|]. split; [|reflexivity]. eauto.
    - apply SC; [reflexivity|]. destruct a; exact HS.
    - destruct a as [|]; [|discriminate HS]. apply dec_op_last; [|reflexivity]. cbn [op_parse].
      eapply dec_ext; [|apply dec_bind; [apply dec_vbr|intros n; apply dec_bind; [apply dec_align|intros ?;
        apply dec_bind; [apply dec_capacity|intros ?; apply dec_bind; [apply dec_times, dec_byte|intros bs;
        apply dec_bind; [apply dec_align|intros ?; apply dec_ret]]]]]].
      intros pos vals t. unfold seqt. split.
      + intros (n & t1 & t2 & HN & (u1 & p1 & t3 & HP1 & (u2 & t4 & t5 & [HC ->] & (bs & t6 & t7 & (HL & ts & HF & ->) &
          (u3 & p2 & t8 & HP2 & [-> ->] & ->) & ->) & ->) & ->) & ->). subst n. cbn [app]. rewrite app_nil_r.
        apply VBlob; try assumption. rewrite !blen_app. change (blen []) with 0 in HP2. rewrite N.add_0_r in HP2.
        replace (pos + (blen t1 + (blen p1 + blen (concat ts)))) with (pos + blen t1 + blen p1 + blen (concat ts)) by lia.
        exact HP2.
      + intros HV. inversion HV; subst.
        * match goal with HT : scalar_text _ OpBlob _ _ |- _ => inversion HT end.
        * exists (N.of_nat (length vals)), t0, (p1 ++ concat ts ++ p2). split; [assumption|]. split; [|reflexivity].
          exists tt, p1, (concat ts ++ p2). split; [assumption|]. split; [|reflexivity].
          exists tt, [], (concat ts ++ p2). split; [auto|]. split; [|reflexivity].
          exists vals, (concat ts), p2. split; [eauto|]. split; [|reflexivity].
          exists tt, p2, []. rewrite app_nil_r. split; [|auto].
          change (blen []) with 0. rewrite N.add_0_r. rewrite !blen_app in *.
          replace (pos + blen t0 + blen p1 + blen (concat ts)) with (pos + (blen t0 + (blen p1 + blen (concat ts)))) by lia.
          assumption.
  Qed.

  (** ** Definitions *)

  Lemma dec_enc : dec (read_enc o) (fun _ x t => exists v, abbrev_enc_of v = Some x /\ t = fixed_bits 3 v).
  Proof.
    unfold read_enc.
    assert (D : forall v, dec (match abbrev_enc_of v with Some x => ret x | None => fail (SBadAbbrevOpEnc v) end)
                  (fun _ x t => abbrev_enc_of v = Some x /\ t = [])).
    { intros v. destruct (abbrev_enc_of v).
      - eapply dec_ext; [|apply dec_ret]. intros pos x t. split; [intros [-> ->]; auto|]. intros [E ->]. injection E as ->. auto.
      - eapply dec_ext; [|apply dec_fail]. intros pos x t. split; [intros []|]. intros [E _]. discriminate E. }
    eapply dec_ext; [|apply dec_bind; [apply dec_read|exact D]].
    intros pos x t. unfold seqt. split.
    - intros (v & t1 & t2 & (_ & _ & ->) & [E ->] & ->). rewrite app_nil_r. eauto.
    - intros (v & E & ->). exists v, (fixed_bits 3 v), []. rewrite app_nil_r. split; [|auto].
      split; [lia|]. split; [|reflexivity]. change (2 ^ 3) with 8.
      unfold abbrev_enc_of in E. destruct v as [|[[[]|[]|]|[[]|[]|]|]]; try discriminate E; lia.
  Qed.

  Lemma enc_cases v x : abbrev_enc_of v = Some x <->
    v = match x with EncFixed => 1 | EncVbr => 2 | EncArray => 3 | EncChar6 => 4 | EncBlob => 5 end.
  Proof.
    split.
    - unfold abbrev_enc_of. destruct v as [|[[[]|[]|]|[[]|[]|]|]]; intros E; try discriminate E; injection E as <-; reflexivity.
    - intros ->. destruct x; reflexivity.
  Qed.

  (** What follows the encoding number. *)
  Definition rest_text (x : abbrev_enc) (op : abbrev_op) (t : L) : Prop :=
    match x with
    | EncFixed => exists w, op = OpFixed w /\ vbr_means e 5 w t
    | EncVbr => exists w, op = OpVbr w /\ vbr_means e 5 w t
    | EncChar6 => op = OpChar6 /\ t = []
    | _ => False
    end.
  Lemma encoding_rest op t : encoding_text e op t <->
    exists v x t', abbrev_enc_of v = Some x /\ rest_text x op t' /\ t = fixed_bits 3 v ++ t'.
  Proof.
    split.
    - intros H. destruct H.
      + exists 1, EncFixed, t. cbn [rest_text]. eauto.
      + exists 2, EncVbr, t. cbn [rest_text]. eauto.
      + exists 4, EncChar6, []. cbn [rest_text]. rewrite app_nil_r. auto.
    - intros (v & x & t' & E & H & ->). apply enc_cases in E. subst v.
      destruct x; cbn [rest_text] in H; try contradiction.
      + destruct H as (w & -> & H). now constructor.
      + destruct H as (w & -> & H). now constructor.
      + destruct H as [-> ->]. rewrite app_nil_r. constructor.
  Qed.

  Lemma dec_array_elem : dec (array_elem e o) (fun _ op t => exists b t', encoding_text e op t' /\ t = b :: t').
  Proof.
    unfold array_elem.
    assert (D : forall x, dec (match x with
      | EncFixed => bind (c_vbr e o 5) (fun w => ret (OpFixed w)) | EncVbr => bind (c_vbr e o 5) (fun w => ret (OpVbr w))
      | EncChar6 => ret OpChar6 | EncArray | EncBlob => fail (SAbbrevParse (AfArrayElement x)) end) (fun _ op t => rest_text x op t)).
    { intros x. destruct x; cbn [rest_text]; try apply dec_fail.
      - eapply dec_ext; [|apply dec_bind; [apply dec_vbr|intros w; apply dec_ret]]. intros pos op t. unfold seqt. split.
        + intros (w & t1 & t2 & H & [-> ->] & ->). rewrite app_nil_r. eauto.
        + intros (w & -> & H). exists w, t, []. rewrite app_nil_r. auto.
      - eapply dec_ext; [|apply dec_bind; [apply dec_vbr|intros w; apply dec_ret]]. intros pos op t. unfold seqt. split.
        + intros (w & t1 & t2 & H & [-> ->] & ->). rewrite app_nil_r. eauto.
        + intros (w & -> & H). exists w, t, []. rewrite app_nil_r. auto.
      - apply dec_ret. }
    eapply dec_ext; [|apply dec_bind; [apply dec_read|intros f; apply dec_bind; [apply dec_enc|exact D]]].
    intros pos op t. unfold seqt. split.
    - intros (f & t1 & t2 & (_ & F1 & ->) & (x & t3 & t4 & (v & E & ->) & HR & ->) & ->).
      exists (N.odd f), (fixed_bits 3 v ++ t4). split; [apply encoding_rest; exists v, x, t4; auto|reflexivity].
    - intros (b & t' & HE & ->). apply encoding_rest in HE. destruct HE as (v & x & t4 & E & HR & ->).
      exists (if b then 1 else 0), [b], (fixed_bits 3 v ++ t4). split.
      + split; [lia|]. destruct b; split; reflexivity.
      + split; [|reflexivity]. exists x, (fixed_bits 3 v), t4. eauto.
  Qed.

  Notation count_ops a := (fold_right (fun op n => op_count op + n) 0 a).
  Lemma op_count_pos op : 1 <= op_count op.
  Proof. destruct op; cbn; lia. Qed.

  Lemma bit_text v t : fixed_text 1 v t <-> (v = 0 /\ t = [false]) \/ (v = 1 /\ t = [true]).
  Proof.
    unfold fixed_text. change (2 ^ 1) with 2. split.
    - intros (_ & H & ->). destruct (N.eq_dec v 0) as [->|Hv]; [left; auto|]. replace v with 1 by lia. right. auto.
    - intros [[-> ->]|[-> ->]]; (split; [lia|]); split; (reflexivity || lia).
  Qed.

  Lemma dec_ops fuel num idx acc : idx <= num -> 1 <= num ->
    decn fuel (abbrev_loop e o fuel num idx acc)
      (fun _ a t => exists a', a = acc ++ a' /\ operands_text e a' t /\ idx + count_ops a' = num).
  Proof.
    revert idx acc. induction fuel as [|f IH]; intros idx acc HI HN; [intros pos l a l' HL; lia|]. cbn [abbrev_loop].
    destruct (num <=? idx) eqn:EI.
    { eapply decn_ext; [|apply (dec_ret acc)]. intros pos a t. split.
      - intros [-> ->]. exists []. rewrite app_nil_r. split; [reflexivity|]. split; [constructor|cbn; lia].
      - intros (a' & -> & HT & HC). destruct a' as [|op a']; [|cbn [fold_right] in HC; pose proof (op_count_pos op); lia].
        inversion HT. rewrite app_nil_r. auto. }
    assert (IH1 : forall op, decn f (abbrev_loop e o f num (idx + 1) (acc ++ [op]))
              (fun _ a t => exists a', a = acc ++ op :: a' /\ operands_text e a' t /\ idx + 1 + count_ops a' = num)).
    { intros op. eapply decn_ext; [|apply IH; lia]. intros pos a t. split; intros (a' & E & H); exists a'; (split; [|exact H]).
      - rewrite E, <- app_assoc. reflexivity.
      - rewrite E, <- app_assoc. reflexivity. }
    (* scalar operands after their encoding number *)
    assert (DS : forall n mk, (n <= S f)%nat -> (forall w, op_count (mk w) = 1) ->
        decn f (bind (c_vbr e o 5) (fun w => abbrev_loop e o f num (idx + 1) (acc ++ [mk w])))
          (fun _ a t => exists w a' t1 t2, a = acc ++ mk w :: a' /\ vbr_means e 5 w t1 /\ operands_text e a' t2 /\
             t = t1 ++ t2 /\ idx + 1 + count_ops a' = num)).
    { intros n mk _ _. eapply decn_ext; [|apply decn_bind; [apply dec_vbr|intros w; apply IH1]].
      intros pos a t. unfold seqt. split.
      - intros (w & t1 & t2 & H & (a' & E1 & E2 & E3) & ->). exists w, a', t1, t2. auto.
      - intros (w & a' & t1 & t2 & E1 & H & E2 & -> & E3). exists w, t1, t2. split; [exact H|]. split; [|reflexivity]. eauto. }
    set (tail := fun x a (t : L) => match x with
      | EncFixed => exists w a' t1 t2, a = acc ++ OpFixed w :: a' /\ vbr_means e 5 w t1 /\ operands_text e a' t2 /\
             t = t1 ++ t2 /\ idx + 1 + count_ops a' = num
      | EncVbr => exists w a' t1 t2, a = acc ++ OpVbr w :: a' /\ vbr_means e 5 w t1 /\ operands_text e a' t2 /\
             t = t1 ++ t2 /\ idx + 1 + count_ops a' = num
      | EncArray => idx + 2 = num /\ exists el b t', a = acc ++ [OpArray el] /\ encoding_text e el t' /\ t = b :: t'
      | EncChar6 => exists a', a = acc ++ OpChar6 :: a' /\ operands_text e a' t /\ idx + 1 + count_ops a' = num
      | EncBlob => idx + 1 = num /\ a = acc ++ [OpBlob] /\ t = []
      end).
    assert (DT : forall x, decn f (match x with
            | EncFixed => bind (c_vbr e o 5) (fun w => abbrev_loop e o f num (idx + 1) (acc ++ [OpFixed w]))
            | EncVbr => bind (c_vbr e o 5) (fun w => abbrev_loop e o f num (idx + 1) (acc ++ [OpVbr w]))
            | EncArray =>
                if (num <? 2) && overflow_checks e then crash PAbbrevCount
                else
                  let last2 := if num <? 2 then num + two64 - 2 else num - 2 in
                  if negb (idx =? last2) then fail (SAbbrevParse AfArrayPlace)
                  else bind (array_elem e o) (fun elem => ret (acc ++ [OpArray elem]))
            | EncChar6 => abbrev_loop e o f num (idx + 1) (acc ++ [OpChar6])
            | EncBlob =>
                if negb (idx =? num - 1) then fail (SAbbrevParse AfBlobPlace)
                else abbrev_loop e o f num (idx + 1) (acc ++ [OpBlob])
            end) (fun _ a t => tail x a t)).
    { intros x. destruct x; unfold tail.
      - apply (DS 0%nat); [lia|reflexivity].
      - apply (DS 0%nat); [lia|reflexivity].
      - destruct (num <? 2) eqn:E2.
        + assert (NE : idx + 2 = num -> False) by lia.
          destruct (overflow_checks e); cbn [andb].
          * eapply decn_ext; [|apply dec_crash]. intros pos a t. split; [intros []|]. intros [H _]. now apply NE.
          * cbv zeta. replace (negb (idx =? num + two64 - 2)) with true by (unfold two64 in *; lia).
            eapply decn_ext; [|apply dec_fail]. intros pos a t. split; [intros []|]. intros [H _]. now apply NE.
        + cbn [andb]. cbv zeta. destruct (negb (idx =? num - 2)) eqn:E3.
          * eapply decn_ext; [|apply dec_fail]. intros pos a t. split; [intros []|]. intros [H _]. lia.
          * eapply decn_ext; [|apply decn_bind; [apply dec_array_elem|intros el; apply dec_ret]].
            intros pos a t. unfold seqt. split.
            -- intros (el & t1 & t2 & (b & t' & H & ->) & [-> ->] & ->). rewrite app_nil_r. split; [lia|]. exists el, b, t'. auto.
            -- intros (_ & el & b & t' & -> & H & ->). exists el, (b :: t'), []. rewrite app_nil_r. split; [eauto|auto].
      - apply IH1.
      - destruct (negb (idx =? num - 1)) eqn:E3.
        + eapply decn_ext; [|apply dec_fail]. intros pos a t. split; [intros []|]. intros [H _]. lia.
        + eapply decn_ext; [|apply IH1]. intros pos a t. split.
          * intros (a' & E1 & E2 & E4). destruct a' as [|op a']; [|cbn [fold_right] in E4; pose proof (op_count_pos op); lia].
            inversion E2. split; [lia|]. auto.
          * intros (H & -> & ->). exists []. split; [reflexivity|]. split; [constructor|cbn; lia]. }
    set (branch := fun (k : N) (_ : N) (a : abbrev) (t : L) => if k =? 1 then
          exists v a' t1 t2, a = acc ++ OpLiteral v :: a' /\ vbr_means e 8 v t1 /\ operands_text e a' t2 /\ t = t1 ++ t2 /\
            idx + 1 + count_ops a' = num
        else exists v x t', abbrev_enc_of v = Some x /\ tail x a t' /\ t = fixed_bits 3 v ++ t').
    eapply decn_ext; [|apply decn_bind1 with (U := branch); [apply dec_read| |intros k]]; unfold branch; clear branch.
    - intros pos a t. unfold seqt. split.
      + intros (k & t1 & t2 & HK & HB & ->). apply bit_text in HK. destruct HK as [[-> ->]|[-> ->]].
        * cbv beta in HB. change (0 =? 1) with false in HB. cbv iota in HB. destruct HB as (v & x & t' & E & HT & ->).
          apply enc_cases in E. subst v. destruct x; cbn iota in HT; unfold tail in HT.
          -- destruct HT as (w & a' & t1 & t3 & -> & H1 & H2 & -> & HC). exists (OpFixed w :: a').
             split; [reflexivity|]. split; [|cbn [fold_right op_count]; lia]. rewrite (app_assoc (fixed_bits 3 1)).
             apply OScalar; [now constructor|exact H2].
          -- destruct HT as (w & a' & t1 & t3 & -> & H1 & H2 & -> & HC). exists (OpVbr w :: a').
             split; [reflexivity|]. split; [|cbn [fold_right op_count]; lia]. rewrite (app_assoc (fixed_bits 3 2)).
             apply OScalar; [now constructor|exact H2].
          -- destruct HT as (HC & el & b & t3 & -> & H1 & ->). exists [OpArray el].
             split; [reflexivity|]. split; [|cbn [fold_right op_count]; lia]. apply (OArray e el b t3 H1).
          -- destruct HT as (a' & -> & H1 & HC). exists (OpChar6 :: a').
             split; [reflexivity|]. split; [|cbn [fold_right op_count]; lia]. apply OScalar; [constructor|exact H1].
          -- destruct HT as (HC & -> & ->). exists [OpBlob].
             split; [reflexivity|]. split; [|cbn [fold_right op_count]; lia]. exact (OBlob e).
        * cbv beta in HB. change (1 =? 1) with true in HB. cbv iota in HB. destruct HB as (v & a' & t1 & t3 & -> & H1 & H2 & -> & HC).
          exists (OpLiteral v :: a'). split; [reflexivity|]. split; [|cbn [fold_right op_count]; lia]. now apply OLiteral.
      + intros (a' & -> & HT & HC). apply (fun h => conj h I) in HC. inversion HT; subst; destruct HC as [HC _]; cbn [fold_right op_count] in HC.
        * exfalso. lia.
        * exists 1, [true], (t1 ++ t2). split; [apply bit_text; auto|]. split; [|reflexivity].
          cbv beta. change (1 =? 1) with true. cbv iota. exists v, a, t1, t2. repeat (split; [first [reflexivity|assumption]|]). lia.
        * exists 0, [false], (t1 ++ t2). split; [apply bit_text; auto|]. split; [|reflexivity].
          cbv beta. change (0 =? 1) with false. cbv iota.
          match goal with HE : encoding_text e op t1 |- _ => destruct HE end.
          -- exists 1, EncFixed, (t ++ t2). split; [reflexivity|]. split; [|now rewrite app_assoc].
             exists w, a, t, t2. cbn [op_count] in HC. repeat (split; [first [reflexivity|assumption]|]). lia.
          -- exists 2, EncVbr, (t ++ t2). split; [reflexivity|]. split; [|now rewrite app_assoc].
             exists w, a, t, t2. cbn [op_count] in HC. repeat (split; [first [reflexivity|assumption]|]). lia.
          -- exists 4, EncChar6, t2. split; [reflexivity|]. split; [|reflexivity].
             exists a. cbn [op_count] in HC. repeat (split; [first [reflexivity|assumption]|]). lia.
        * exists 0, [false], (fixed_bits 3 3 ++ [b] ++ t0). split; [apply bit_text; auto|]. split; [|reflexivity].
          cbv beta. change (0 =? 1) with false. cbv iota. exists 3, EncArray, ([b] ++ t0). split; [reflexivity|]. split; [|reflexivity].
          split; [lia|]. exists elem, b, t0. auto.
        * exists 0, [false], (fixed_bits 3 5). split; [apply bit_text; auto|]. split; [|reflexivity].
          cbv beta. change (0 =? 1) with false. cbv iota. exists 5, EncBlob, []. split; [reflexivity|]. split; [|now rewrite app_nil_r].
          split; [lia|]. auto.
    - intros pos k t (_ & _ & ->) E. discriminate E.
    - destruct (k =? 1).
      + eapply decn_ext; [|apply decn_bind; [apply dec_vbr|intros v; apply IH1]]. intros pos a t. unfold seqt. split.
        * intros (v & t1 & t2 & H & (a' & E1 & E2 & E3) & ->). exists v, a', t1, t2. auto.
        * intros (v & a' & t1 & t2 & E1 & H & E2 & -> & E3). exists v, t1, t2. split; [exact H|]. split; [|reflexivity]. eauto.
      + eapply decn_ext; [|apply decn_bind; [apply dec_enc|exact DT]]. intros pos a t. unfold seqt. split.
        * intros (x & t1 & t2 & (v & E & ->) & HT & ->). exists v, x, t2. auto.
        * intros (v & x & t' & E & HT & ->). exists x, (fixed_bits 3 v), t'. eauto.
  Qed.

  Lemma dec_define : dec (abbrev_new e o) (fun _ a t => definition_text e a t).
  Proof.
    unfold abbrev_new.
    assert (D : forall num, dec (if num <? 1 then fail (SAbbrevParse AfNoOperand) else fun c => abbrev_loop e o (S (op_fuel o c)) num 0 [] c)
              (fun _ a t => 1 <= num /\ operands_text e a t /\ count_ops a = num)).
    { intros num. destruct (num <? 1) eqn:E1.
      - eapply dec_ext; [|apply dec_fail]. intros pos a t. split; [intros []|]. intros [H _]. lia.
      - intros n pos l a l' HL HP. rewrite (dec_ops (S (op_fuel o l)) num 0 [] ltac:(lia) ltac:(lia) pos l a l' ltac:(cbn; lia) HP).
        split.
        + intros (t & -> & a' & -> & HT & HC). exists t. split; [reflexivity|]. split; [lia|]. split; [exact HT|]. cbn [app]. lia.
        + intros (t & -> & _ & HT & HC). exists t. split; [reflexivity|]. exists a. split; [reflexivity|]. split; [exact HT|]. lia. }
    eapply dec_ext; [|apply dec_bind; [apply dec_vbr|exact D]].
    intros pos a t. unfold seqt, definition_text. split.
    - intros (num & t0 & t1 & HN & (H1 & HT & HC) & ->). split; [intros ->; cbn in HC; lia|]. subst num. eauto.
    - intros (HA & t0 & t1 & HN & HT & ->). exists (count_ops a), t0, t1. split; [exact HN|]. split; [|reflexivity].
      split; [|auto]. destruct a as [|op a]; [congruence|]. cbn [fold_right]. pose proof (op_count_pos op). lia.
  Qed.

  (** ** The parser on the list cursor *)

  Notation PS := (sparser L).
  Definition pdec {A} (m : M PS serr A) (T : N -> list scope -> info_map -> A -> L -> list scope -> info_map -> Prop) : Prop :=
    forall pos l scs info a l' scs' info', pos + blen l = tot lay ->
      (m (mkParser l scs info) = (Ok a, mkParser l' scs' info') <-> exists t, l = t ++ l' /\ T pos scs info a t scs' info').

  Lemma pdec_ext {A} (m : M PS serr A) T T' :
    (forall pos scs info a t scs' info', T pos scs info a t scs' info' <-> T' pos scs info a t scs' info') -> pdec m T -> pdec m T'.
  Proof.
    intros HT H pos l scs info a l' scs' info' HP. rewrite (H pos l scs info a l' scs' info' HP).
    split; intros (t & E1 & E2); exists t; (split; [exact E1|now apply HT]).
  Qed.

  Definition seqp {A B} (T : N -> list scope -> info_map -> A -> L -> list scope -> info_map -> Prop)
      (U : A -> N -> list scope -> info_map -> B -> L -> list scope -> info_map -> Prop) :=
    fun pos scs info b t scs' info' => exists a t1 t2 scs1 info1,
      T pos scs info a t1 scs1 info1 /\ U a (pos + blen t1) scs1 info1 b t2 scs' info' /\ t = t1 ++ t2.

  Lemma pdec_bind {A B} (m : M PS serr A) (k : A -> M PS serr B) T U :
    pdec m T -> (forall a, pdec (k a) (U a)) -> pdec (bind m k) (seqp T U).
  Proof.
    intros Hm Hk pos l scs info b l' scs' info' HP. rewrite bind_ok. split.
    - intros (a & [l1 scs1 info1] & E1 & E2). apply (Hm pos l scs info a l1 scs1 info1 HP) in E1. destruct E1 as (t1 & -> & T1).
      assert (P1 : pos + blen t1 + blen l1 = tot lay) by (rewrite blen_app in HP; rewrite <- N.add_assoc; exact HP).
      apply (Hk a (pos + blen t1) l1 scs1 info1 b l' scs' info' P1) in E2. destruct E2 as (t2 & -> & T2).
      exists (t1 ++ t2). split; [now rewrite app_assoc|]. exists a, t1, t2, scs1, info1. auto.
    - intros (t & -> & a & t1 & t2 & scs1 & info1 & T1 & T2 & ->). rewrite <- app_assoc in *.
      exists a, (mkParser (t2 ++ l') scs1 info1). split; [apply (Hm pos _ _ _ _ _ _ _ HP); eauto|].
      assert (P1 : pos + blen t1 + blen (t2 ++ l') = tot lay) by (rewrite blen_app in HP; rewrite <- N.add_assoc; exact HP).
      apply (Hk a (pos + blen t1) _ _ _ _ _ _ _ P1). eauto.
  Qed.

  Lemma pdec_cur {A} (m : M L serr A) T : dec m T ->
    pdec (on_cur m) (fun pos scs info a t scs' info' => T pos a t /\ scs' = scs /\ info' = info).
  Proof.
    intros Hm pos l scs info a l' scs' info' HP. unfold on_cur. cbn [p_cur p_scopes p_info].
    specialize (Hm (S (length l)) pos l). split.
    - intros E. destruct (m l) as [r c] eqn:Em. injection E as -> -> <- <-.
      destruct (proj1 (Hm a l' ltac:(lia) HP) eq_refl) as (t & -> & HT). exists t. auto.
    - intros (t & -> & HT & -> & ->). replace (m (t ++ l')) with (Ok (E := serr) a, l'); [reflexivity|]. symmetry.
      apply Hm; [lia|exact HP|eauto].
  Qed.

  Lemma pdec_pure {A} (m : M PS serr A) (T : list scope -> info_map -> A -> list scope -> info_map -> Prop) :
    (forall l scs info a l' scs' info',
       m (mkParser l scs info) = (Ok a, mkParser l' scs' info') <-> l' = l /\ T scs info a scs' info') ->
    pdec m (fun _ scs info a t scs' info' => t = [] /\ T scs info a scs' info').
  Proof.
    intros Hm pos l scs info a l' scs' info' HP. rewrite Hm. split.
    - intros [-> H]. exists []. auto.
    - intros (t & -> & -> & H). auto.
  Qed.

  Lemma pdec_ret {A} (a : A) : pdec (ret a) (fun _ scs info b t scs' info' => t = [] /\ b = a /\ scs' = scs /\ info' = info).
  Proof.
    apply pdec_pure with (T := fun scs info b scs' info' => b = a /\ scs' = scs /\ info' = info).
    intros l scs info b l' scs' info'. unfold ret. split.
    - intros E. injection E as -> -> -> ->. auto.
    - intros (-> & -> & -> & ->). reflexivity.
  Qed.
  Lemma pdec_no {A} (m : M PS serr A) : (forall s a s', m s <> (Ok a, s')) -> pdec m (fun _ _ _ _ _ _ _ => False).
  Proof. intros H pos l scs info a l' scs' info' HP. split; [intros E; now apply H in E|]. intros (t & _ & []). Qed.
  Lemma pdec_fail {A} x : pdec (fail (A := A) x) (fun _ _ _ _ _ _ _ => False).
  Proof. apply pdec_no. intros s a s' E. discriminate E. Qed.
  Lemma pdec_crash {A} x : pdec (crash (A := A) x) (fun _ _ _ _ _ _ _ => False).
  Proof. apply pdec_no. intros s a s' E. discriminate E. Qed.

  Lemma pdec_get_scope : pdec get_scope (fun _ scs info a t scs' info' => t = [] /\ (exists rest, scs = a :: rest) /\ scs' = scs /\ info' = info).
  Proof.
    apply pdec_pure with (T := fun scs info a scs' info' => (exists rest, scs = a :: rest) /\ scs' = scs /\ info' = info).
    intros l scs info a l' scs' info'. unfold get_scope. cbn [p_scopes]. split.
    - destruct scs as [|sc rest]; [discriminate|]. intros E. injection E as <- <- <- <-. split; [reflexivity|]. eauto.
    - intros (-> & (rest & ->) & -> & ->). reflexivity.
  Qed.
  Lemma pdec_capacity n : pdec (with_capacity e n) (fun _ scs info _ t scs' info' => t = [] /\ n <= alloc_limit e /\ scs' = scs /\ info' = info).
  Proof.
    apply pdec_pure with (T := fun scs info _ scs' info' => n <= alloc_limit e /\ scs' = scs /\ info' = info).
    intros l scs info [] l' scs' info'. unfold with_capacity. destruct (n <=? alloc_limit e) eqn:EN.
    - unfold ret. split.
      + intros E. injection E as -> -> ->. split; [reflexivity|]. split; [lia|auto].
      + intros (-> & _ & -> & ->). reflexivity.
    - split; [discriminate|]. intros (_ & H & _). lia.
  Qed.

  (** One construct, with the registered abbreviations as the parser keeps them. *)
  Definition out_of (b : N) (x : entry) : option entry := if b =? 0 then None else Some x.

  Lemma pdec_exit : pdec (exit_block o) (fun pos scs info x t scs' info' =>
    padding (gap lay) pos t /\ exists sc, scs = sc :: scs' /\ scs' <> [] /\ x = (if sc_is_blockinfo sc then None else Some EEndBlock) /\ info' = info).
  Proof.
    unfold exit_block.
    eapply pdec_ext; [|apply pdec_bind; [apply pdec_cur, dec_align|intros u;
      apply (pdec_pure _ (fun scs info x scs' info' => exists sc, scs = sc :: scs' /\ scs' <> [] /\
        x = (if sc_is_blockinfo sc then None else Some EEndBlock) /\ info' = info))]].
    - intros pos scs info x t scs' info'. unfold seqp. split.
      + intros (u & t1 & t2 & scs1 & info1 & (HP & -> & ->) & (-> & H) & ->). rewrite app_nil_r. auto.
      + intros (HP & H). exists tt, t, [], scs, info. rewrite app_nil_r. auto.
    - intros l scs info x l' scs' info'. cbn [p_scopes p_cur p_info]. split.
      + destruct scs as [|sc [|sc2 rest]]; try discriminate. intros E. injection E as <- <- <- <-. split; [reflexivity|].
        exists sc. split; [reflexivity|]. split; [discriminate|auto].
      + intros (-> & sc & -> & NE & -> & ->). destruct scs' as [|sc2 rest]; [congruence|reflexivity].
  Qed.

  Lemma pdec_enter : pdec (enter_block e o) (fun pos scs info x t scs' info' =>
    exists bid tb w tw p words tl, vbr_means e 8 bid tb /\ vbr_means e 4 w tw /\ 1 <= w /\
      padding (gap lay) (pos + blen (tb ++ tw)) p /\ fixed_text 32 words tl /\ t = tb ++ tw ++ p ++ tl /\
      x = out_of bid (ESubBlock bid (words * 4)) /\ scs' = ScBlock w bid None (registered info bid) :: scs /\ info' = info).
  Proof.
    unfold enter_block.
    set (tail := fun bid w words => bind (push_scope (ScBlock w bid None [])) (fun _ : unit =>
      bind (fun s : PS => match info_get (p_info s) bid with Some l => extend_scope l s | None => ret tt s end) (fun _ : unit =>
      bind get_scope (fun sc => if sc_is_blockinfo sc then ret None else ret (Some (ESubBlock bid (words * 4))))))).
    assert (DT : forall bid w words, pdec (tail bid w words) (fun _ scs info x t scs' info' => t = [] /\
       x = out_of bid (ESubBlock bid (words * 4)) /\ scs' = ScBlock w bid None (registered info bid) :: scs /\ info' = info)).
    { intros bid w words. apply (pdec_pure _ (fun scs info x scs' info' =>
       x = out_of bid (ESubBlock bid (words * 4)) /\ scs' = ScBlock w bid None (registered info bid) :: scs /\ info' = info)).
      intros l scs info x l' scs' info'. unfold tail, bind, push_scope, out_of, registered. cbn [p_info p_scopes p_cur].
      destruct (info_get info bid) as [r|]; unfold extend_scope, bind, get_scope, set_scope, ret;
        cbn [p_info p_scopes p_cur sc_extend sc_is_blockinfo app]; destruct (bid =? 0); (split;
        [intros E; injection E as <- <- <- <-; auto|intros (-> & -> & -> & ->); reflexivity]). }
    assert (DW : forall bid w, pdec (if w <? 1 then fail (SBadScope (SfWidth w)) else bind (on_cur (c_read o 32)) (fun words => tail bid w words))
      (fun _ scs info x t scs' info' => 1 <= w /\ exists words, fixed_text 32 words t /\
         x = out_of bid (ESubBlock bid (words * 4)) /\ scs' = ScBlock w bid None (registered info bid) :: scs /\ info' = info)).
    { intros bid w. destruct (w <? 1) eqn:EW.
      - eapply pdec_ext; [|apply pdec_fail]. intros. split; [intros []|]. intros [H _]. lia.
      - eapply pdec_ext; [|apply pdec_bind; [apply pdec_cur, dec_read|intros words; apply DT]].
        intros pos scs info x t scs' info'. unfold seqp. split.
        + intros (words & t1 & t2 & scs1 & info1 & (HW & -> & ->) & (-> & -> & -> & ->) & ->). rewrite app_nil_r.
          split; [lia|]. eauto.
        + intros (_ & words & HW & -> & -> & ->). exists words, t, [], scs, info. rewrite app_nil_r. split; [auto|]. split; [|reflexivity]. auto. }
    eapply pdec_ext; [|apply pdec_bind; [apply pdec_cur, dec_vbr|intros bid; apply pdec_bind; [apply pdec_cur, dec_vbr|intros w;
      apply pdec_bind; [apply pdec_cur, dec_align|intros u; apply DW]]]].
    intros pos scs info x t scs' info'. unfold seqp. split.
    - intros (bid & tb & t1 & s1 & i1 & (HB & -> & ->) & (w & tw & t2 & s2 & i2 & (HW & -> & ->) &
        (u & p & tl & s3 & i3 & (HP & -> & ->) & (H1 & words & HL & -> & -> & ->) & ->) & ->) & ->).
      exists bid, tb, w, tw, p, words, tl. rewrite blen_app, N.add_assoc. auto 10.
    - intros (bid & tb & w & tw & p & words & tl & HB & HW & H1 & HP & HL & -> & -> & -> & ->).
      exists bid, tb, (tw ++ p ++ tl), scs, info. split; [auto|]. split; [|reflexivity].
      exists w, tw, (p ++ tl), scs, info. split; [auto|]. split; [|reflexivity].
      exists tt, p, tl, scs, info. rewrite blen_app, N.add_assoc in HP. split; [auto|]. split; [|reflexivity]. split; [exact H1|]. exists words. auto.
  Qed.

  Lemma pdec_define : pdec (define_abbrev e o) (fun pos scs info _ t scs' info' => exists a, definition_text e a t /\
    ((exists w b i l rest, scs = ScBlock w b i l :: rest /\ b <> 0 /\ scs' = ScBlock w b i (l ++ [a]) :: rest /\ info' = info) \/
     (exists w b l rest, scs = ScBlock w 0 (Some b) l :: rest /\ scs' = scs /\ info' = info_push info b a))).
  Proof.
    unfold define_abbrev.
    eapply pdec_ext; [|apply pdec_bind; [apply pdec_cur, dec_define|intros a;
      apply (pdec_pure _ (fun scs info _ scs' info' =>
        (exists w b i l rest, scs = ScBlock w b i l :: rest /\ b <> 0 /\ scs' = ScBlock w b i (l ++ [a]) :: rest /\ info' = info) \/
        (exists w b l rest, scs = ScBlock w 0 (Some b) l :: rest /\ scs' = scs /\ info' = info_push info b a)))]].
    - intros pos scs info x t scs' info'. unfold seqp. split.
      + intros (a & t1 & t2 & s1 & i1 & (HD & -> & ->) & (-> & H) & ->). rewrite app_nil_r. eauto.
      + intros (a & HD & H). exists a, t, [], scs, info. rewrite app_nil_r. auto.
    - intros l scs info [] l' scs' info'. unfold bind, get_scope. cbn [p_scopes].
      destruct scs as [|[|w b i ab] rest].
      + split; [discriminate|]. intros (_ & [(w & b & i & ab & rest & E & _)|(w & b & ab & rest & E & _)]); discriminate E.
      + cbn [sc_is_blockinfo]. unfold extend_scope, bind, get_scope. cbn [p_scopes sc_extend].
        split; [discriminate|]. intros (_ & [(w & b & i & ab & rest' & E & _)|(w & b & ab & rest' & E & _)]); discriminate E.
      + cbn [sc_is_blockinfo sc_blockinfo_bid]. destruct (b =? 0) eqn:EB.
        * destruct i as [k|].
          -- cbn [p_cur p_scopes p_info]. split.
             ++ intros E. injection E as <- <- <-. split; [reflexivity|]. right. exists w, k, ab, rest. split; [|auto]. do 2 f_equal. lia.
             ++ intros (-> & [(w' & b' & i' & ab' & rest' & E & NB & _)|(w' & b' & ab' & rest' & E & -> & ->)]).
                ** injection E as _ <- _ _ _. lia.
                ** injection E as _ _ <- _ _. reflexivity.
          -- split; [discriminate|]. intros (-> & [(w' & b' & i' & ab' & rest' & E & NB & _)|(w' & b' & ab' & rest' & E & -> & ->)]).
             ++ injection E as _ <- _ _ _. lia.
             ++ discriminate E.
        * unfold extend_scope, bind, get_scope, set_scope. cbn [p_scopes sc_extend p_cur p_info]. split.
          -- intros E. injection E as <- <- <-. split; [reflexivity|]. left. exists w, b, i, ab, rest. split; [reflexivity|]. split; [lia|auto].
          -- intros (-> & [(w' & b' & i' & ab' & rest' & E & NB & -> & ->)|(w' & b' & ab' & rest' & E & -> & ->)]).
             ++ injection E as <- <- <- <- <-. reflexivity.
             ++ injection E as _ -> _ _ _. discriminate EB.
  Qed.

  Lemma dec_field : dec (bind (c_vbr e o 6) (fun x => ret [x])) (fun _ r t => exists v, r = [v] /\ vbr_means e 6 v t).
  Proof.
    eapply dec_ext; [|apply dec_bind; [apply dec_vbr|intros x; apply dec_ret]].
    intros pos r t. unfold seqt. split.
    - intros (x & t1 & t2 & H & [-> ->] & ->). rewrite app_nil_r. eauto.
    - intros (v & -> & H). exists v, t, []. rewrite app_nil_r. auto.
  Qed.

  (** What is done with an unabbreviated record. *)
  Definition unabbrev_done (code : N) (fields : list N) (scs : list scope) (x : option entry) (scs' : list scope) : Prop :=
    exists w b i l rest, scs = ScBlock w b i l :: rest /\
      ((b <> 0 /\ x = Some (ERecord None code fields) /\ scs' = scs) \/
       (b = 0 /\ code = 1 /\ x = None /\ exists k fs, fields = k :: fs /\ scs' = ScBlock w b (Some k) l :: rest) \/
       (b = 0 /\ (code = 2 \/ code = 3) /\ x = None /\ scs' = scs)).

  Lemma bi_code v x : blockinfo_code_of v = Some x <-> v = match x with BiSetBid => 1 | BiBlockName => 2 | BiSetRecordName => 3 end.
  Proof.
    split.
    - unfold blockinfo_code_of. destruct v as [|[[]|[]|]]; intros E; try discriminate E; injection E as <-; reflexivity.
    - intros ->. destruct x; reflexivity.
  Qed.

  Lemma pdec_unabbrev : pdec (parse_unabbrev e o) (fun pos scs info x t scs' info' =>
    exists code fields, unabbrev_text e code fields t /\ unabbrev_done code fields scs x scs' /\ info' = info).
  Proof.
    unfold parse_unabbrev.
    set (tail := fun code fields => bind get_scope (fun sc => if sc_is_blockinfo sc then
          match blockinfo_code_of code with
          | None => fail (SBadBlockInfoCode code)
          | Some BiSetBid =>
              match fields with
              | [] => crash PSetBidNoField
              | bid :: _ =>
                  match sc_set_bid sc bid with
                  | None => fail (SBadScope SfSetBid)
                  | Some sc' => bind (set_scope sc') (fun _ => ret None)
                  end
              end
          | Some _ => ret None
          end
        else ret (Some (ERecord None code fields)) : M PS serr (option entry))).
    assert (DT : forall code fields, pdec (tail code fields) (fun _ scs info x t scs' info' => t = [] /\
       (unabbrev_done code fields scs x scs' \/ exists rest, scs = ScInitial :: rest /\ scs' = scs /\ x = Some (ERecord None code fields)) /\ info' = info)).
    { intros code fields. apply (pdec_pure _ (fun scs info x scs' info' =>
       (unabbrev_done code fields scs x scs' \/ exists rest, scs = ScInitial :: rest /\ scs' = scs /\ x = Some (ERecord None code fields)) /\ info' = info)).
      intros l scs info x l' scs' info'. unfold tail, bind, get_scope. cbn [p_scopes].
      destruct scs as [|[|w b i ab] rest].
      - split; [discriminate|]. intros (_ & [(w & b & i & ab & r & E & _)|(r & E & _)] & _); discriminate E.
      - cbn [sc_is_blockinfo]. unfold ret. split.
        + intros E. injection E as <- <- <- <-. eauto 10.
        + intros (-> & [(w & b & i & ab & r & E & _)|(r & E & -> & ->)] & ->); [discriminate E|reflexivity].
      - cbn [sc_is_blockinfo]. assert (NI : forall P Q : Prop, P -> (forall rest', ScBlock w b i ab :: rest = ScInitial :: rest' -> Q)) by discriminate.
        destruct (b =? 0) eqn:EB.
        + assert (b = 0) as -> by lia. destruct (blockinfo_code_of code) as [bc|] eqn:EC.
          * apply bi_code in EC. destruct bc; subst code.
            -- destruct fields as [|k fs].
               ++ split; [discriminate|]. intros (_ & [(w' & b' & i' & ab' & r & E & [H|[H|H]])|(r & E & _)] & _); [| | |discriminate E].
                  ** destruct H as [H _]. injection E as _ <- _ _ _. congruence.
                  ** destruct H as (_ & _ & _ & k & fs & H & _). discriminate H.
                  ** destruct H as (_ & [H|H] & _); discriminate H.
               ++ cbn [sc_set_bid]. unfold bind, set_scope, ret. cbn [p_scopes p_cur p_info]. split.
                  ** intros E. injection E as <- <- <- <-. split; [reflexivity|]. split; [|reflexivity]. left.
                     exists w, 0, i, ab, rest. split; [reflexivity|]. right. left. eauto 10.
                  ** intros (-> & [(w' & b' & i' & ab' & r & E & [H|[H|H]])|(r & E & _)] & ->); [| | |discriminate E].
                     --- destruct H as [H _]. injection E as _ <- _ _ _. congruence.
                     --- destruct H as (_ & _ & -> & k' & fs' & H & ->). injection H as <- <-. injection E as <- <- <- <- <-. reflexivity.
                     --- destruct H as (_ & [H|H] & _); discriminate H.
            -- unfold ret. split.
               ++ intros E. injection E as <- <- <- <-. split; [reflexivity|]. split; [|reflexivity]. left.
                  exists w, 0, i, ab, rest. split; [reflexivity|]. right. right. auto.
               ++ intros (-> & [(w' & b' & i' & ab' & r & E & [H|[H|H]])|(r & E & _)] & ->); [| | |discriminate E].
                  ** destruct H as [H _]. injection E as _ <- _ _ _. congruence.
                  ** destruct H as (_ & H & _). discriminate H.
                  ** destruct H as (_ & _ & -> & ->). reflexivity.
            -- unfold ret. split.
               ++ intros E. injection E as <- <- <- <-. split; [reflexivity|]. split; [|reflexivity]. left.
                  exists w, 0, i, ab, rest. split; [reflexivity|]. right. right. auto.
               ++ intros (-> & [(w' & b' & i' & ab' & r & E & [H|[H|H]])|(r & E & _)] & ->); [| | |discriminate E].
                  ** destruct H as [H _]. injection E as _ <- _ _ _. congruence.
                  ** destruct H as (_ & H & _). discriminate H.
                  ** destruct H as (_ & _ & -> & ->). reflexivity.
          * split; [discriminate|]. intros (_ & [(w' & b' & i' & ab' & r & E & [H|[H|H]])|(r & E & _)] & _); [| | |discriminate E].
            -- destruct H as [H _]. injection E as _ <- _ _ _. congruence.
            -- destruct H as (_ & -> & _). discriminate EC.
            -- destruct H as (_ & [->| ->] & _); discriminate EC.
        + unfold ret. split.
          * intros E. injection E as <- <- <- <-. split; [reflexivity|]. split; [|reflexivity]. left.
            exists w, b, i, ab, rest. split; [reflexivity|]. left. split; [lia|auto].
          * intros (-> & [(w' & b' & i' & ab' & r & E & [H|[H|H]])|(r & E & _)] & ->); [| | |discriminate E].
            -- destruct H as (_ & -> & ->). reflexivity.
            -- destruct H as [H _]. injection E as _ <- _ _ _. lia.
            -- destruct H as [H _]. injection E as _ <- _ _ _. lia. }
    assert (DB : pdec (bind (on_cur (c_vbr e o 6)) (fun code => bind (on_cur (c_vbr e o 6)) (fun num =>
        bind (with_capacity e num) (fun _ => bind (on_cur (times num (bind (c_vbr e o 6) (fun x => ret [x])))) (fun fields => tail code fields)))))
      (fun pos scs info x t scs' info' => exists code fields, unabbrev_text e code fields t /\ 
        (unabbrev_done code fields scs x scs' \/ exists rest, scs = ScInitial :: rest /\ scs' = scs /\ x = Some (ERecord None code fields)) /\ info' = info)).
    { eapply pdec_ext; [|apply pdec_bind; [apply pdec_cur, dec_vbr|intros code; apply pdec_bind; [apply pdec_cur, dec_vbr|intros num;
        apply pdec_bind; [apply pdec_capacity|intros u; apply pdec_bind; [apply pdec_cur, dec_times, dec_field|intros fields; apply DT]]]]].
      intros pos scs info x t scs' info'. unfold seqp, unabbrev_text. split.
      - intros (code & t0 & t1 & s1 & i1 & (HC & -> & ->) & (num & t2 & t3 & s2 & i2 & (HN & -> & ->) &
          (u & t4 & t5 & s3 & i3 & (-> & HA & -> & ->) & (fields & t6 & t7 & s4 & i4 & ((HL & ts & HF & ->) & -> & ->) &
          (-> & HD & ->) & ->) & ->) & ->) & ->).
        subst num. exists code, fields. split; [|auto]. exists t0, t2, ts. cbn [app]. rewrite app_nil_r. auto 10.
      - intros (code & fields & (t0 & t1 & ts & HC & HN & HA & HF & ->) & HD & ->).
        exists code, t0, (t1 ++ concat ts), scs, info. split; [auto|]. split; [|reflexivity].
        exists (N.of_nat (length fields)), t1, (concat ts), scs, info. split; [auto|]. split; [|reflexivity].
        exists tt, [], (concat ts), scs, info. split; [auto|]. split; [|reflexivity].
        exists fields, (concat ts), [], scs, info. rewrite app_nil_r. split; [split; [split; [reflexivity|exists ts; auto]|auto]|]. auto. }
    intros pos l scs info x l' scs' info' HP. unfold bind at 1, get_scope at 1. cbn [p_scopes].
    destruct scs as [|[|w b i ab] rest].
    - split; [discriminate|]. intros (t & _ & code & fields & _ & (w & b & i & ab & r & E & _) & _). discriminate E.
    - split; [discriminate|]. intros (t & _ & code & fields & _ & (w & b & i & ab & r & E & _) & _). discriminate E.
    - etransitivity; [apply (DB pos l (ScBlock w b i ab :: rest) info x l' scs' info' HP)|]. split.
      + intros (t & -> & code & fields & H1 & [H2|(r & E & _)] & H3); [eauto 10|discriminate E].
      + intros (t & -> & code & fields & H1 & H2 & H3). eauto 10.
  Qed.

  (** The record part of [parse_with_abbrev], for shaped abbreviations. *)
  Lemma with_abbrev_iff id pos l scs info x l' scs' info' : Forall scope_shaped scs -> pos + blen l = tot lay -> 4 <= id ->
    (parse_with_abbrev e o id (mkParser l scs info) = (Ok x, mkParser l' scs' info') <->
     exists t, l = t ++ l' /\ exists w b i ab rest a code fields, scs = ScBlock w b i ab :: rest /\
       nth_error ab (N.to_nat (id - 4)) = Some a /\ values_text e (gap lay) pos a (code :: fields) t /\
       x = out_of b (ERecord (Some id) code fields) /\ scs' = scs /\ info' = info).
  Proof.
    intros HS HP HI. unfold parse_with_abbrev. unfold bind at 1, get_scope at 1. cbn [p_scopes].
    destruct scs as [|[|w b i ab] rest].
    - split; [discriminate|]. intros (t & _ & w & b & i & ab & rest & a & code & fields & E & _). discriminate E.
    - split; [discriminate|]. intros (t & _ & w & b & i & ab & rest' & a & code & fields & E & _). discriminate E.
    - unfold bind at 1, get_abbrev. replace (id <? 4) with false by lia.
      destruct (nth_error ab (N.to_nat (id - 4))) as [a|] eqn:EA.
      2:{ split; [discriminate|]. intros (t & _ & w' & b' & i' & ab' & rest' & a & code & fields & E & EN & _).
          injection E as <- <- <- <- <-. congruence. }
      assert (HA : ops_shaped a = true).
      { inversion HS as [|? ? H1 _]; subst. cbn [scope_shaped] in H1. rewrite Forall_forall in H1.
        specialize (H1 a (nth_error_In _ _ EA)). unfold shaped in H1. apply andb_true_iff in H1. apply H1. }
      unfold ret at 1. cbn [fst snd].
      set (tail := fun fields => match fields with
        | [] => crash PRemoveEmpty
        | code :: fields' => bind get_scope (fun sc => if sc_is_blockinfo sc then ret None else ret (Some (ERecord (Some id) code fields')))
        end : M PS serr (option entry)).
      assert (DT : forall fields, pdec (tail fields) (fun _ scs info x t scs' info' => t = [] /\
          exists sc rest code fs, scs = sc :: rest /\ fields = code :: fs /\
            x = (if sc_is_blockinfo sc then None else Some (ERecord (Some id) code fs)) /\ scs' = scs /\ info' = info)).
      { intros fields. apply (pdec_pure _ (fun scs info x scs' info' =>
          exists sc rest code fs, scs = sc :: rest /\ fields = code :: fs /\
            x = (if sc_is_blockinfo sc then None else Some (ERecord (Some id) code fs)) /\ scs' = scs /\ info' = info)).
        intros k ss inf y k' ss' inf'. unfold tail. destruct fields as [|code fs].
        - split; [discriminate|]. intros (_ & sc & r & c & fs & _ & E & _). discriminate E.
        - unfold bind, get_scope. cbn [p_scopes]. destruct ss as [|sc r].
          + split; [discriminate|]. intros (_ & sc & r & c & fs' & E & _). discriminate E.
          + destruct (sc_is_blockinfo sc) eqn:EB; unfold ret; (split;
              [intros E; injection E as <- <- <- <-; split; [reflexivity|]; exists sc, r, code, fs; rewrite EB; auto|
               intros (-> & sc' & r' & c' & fs' & E1 & E2 & -> & -> & ->); injection E1 as <- <-; injection E2 as <- <-; rewrite EB; reflexivity]). }
      etransitivity; [apply (pdec_bind (on_cur (abbrev_parse e o a)) tail _ _ (pdec_cur _ _ (dec_record a HA)) DT pos l _ info x l' scs' info' HP)|].
      split; intros (t & -> & H); exists t; (split; [reflexivity|]).
      + destruct H as (vals & t1 & t2 & s1 & i1 & (HV & -> & ->) & (-> & sc & r & code & fs & E & -> & -> & -> & ->) & ->).
        rewrite app_nil_r. injection E as <- <-. exists w, b, i, ab, rest, a, code, fs. auto 10.
      + destruct H as (w' & b' & i' & ab' & rest' & a' & code & fs & E & EN & HV & -> & -> & ->). injection E as <- <- <- <- <-.
        assert (a' = a) as -> by congruence.
        exists (code :: fs), t, [], (ScBlock w b i ab :: rest), info. rewrite app_nil_r. split; [auto|]. split; [|reflexivity].
        split; [reflexivity|]. exists (ScBlock w b i ab), rest, code, fs. auto.
  Qed.

  Lemma id_cases v : abbrev_id_of v = match v with 0 => IdEndBlock | 1 => IdEnterSubBlock | 2 => IdDefineAbbrev | 3 => IdUnabbrevRecord | _ => IdDefined v end.
  Proof. reflexivity. Qed.
  Lemma id_defined v : 4 <= v -> abbrev_id_of v = IdDefined v.
  Proof. intros H. unfold abbrev_id_of. destruct v as [|[[]|[]|]]; try reflexivity; lia. Qed.
  Lemma id_split v : v = 0 \/ v = 1 \/ v = 2 \/ v = 3 \/ 4 <= v.
  Proof. lia. Qed.

  Lemma step_sound pos l scs info x l' scs' info' : stack_ok (scs, info) -> Forall scope_shaped scs -> pos + blen l = tot lay ->
    step e o (mkParser l scs info) = (Ok x, mkParser l' scs' info') ->
    exists t, l = t ++ l' /\ step_text e (gap lay) pos (registered info) scs t x scs' (registered info').
  Proof.
    intros HO HS HP. unfold step. cbn [p_cur]. destruct (op_exhausted o l); [discriminate|].
    unfold bind at 1, get_scope at 1. cbn [p_scopes]. destruct scs as [|sc rest] eqn:ESC; [discriminate|]. rewrite <- ESC in *.
    rewrite bind_ok. intros (v & [l1 s1 i1] & E1 & E2).
    apply (pdec_cur _ _ (dec_read (sc_width sc)) pos) in E1; [|exact HP]. destruct E1 as (t1 & -> & HV & -> & ->).
    assert (P1 : pos + blen t1 + blen l1 = tot lay) by (rewrite blen_app in HP; rewrite <- N.add_assoc; exact HP).
    destruct (id_split v) as [->|[->|[->|[->|Hv]]]].
    - apply (pdec_exit (pos + blen t1)) in E2; [|exact P1]. destruct E2 as (t2 & -> & H2 & sc' & E & NE & -> & ->).
      exists (t1 ++ t2). split; [now rewrite app_assoc|]. assert (sc' = sc /\ scs' = rest) as [-> ->] by (split; congruence).
      destruct rest as [|sc2 rest]; [congruence|]. rewrite ESC.
      destruct HO as (bs & HO & HB). cbn [fst] in HO. rewrite ESC in HO.
      destruct bs as [|b0 bs]; [injection HO as _ HO; discriminate HO|]. injection HO as -> HO. cbn [forallb] in HB.
      destruct b0 as [|w b i ab]; [discriminate HB|]. cbn [sc_is_blockinfo sc_width] in *. apply SEnd; auto.
    - apply (pdec_enter (pos + blen t1)) in E2; [|exact P1].
      destruct E2 as (t2 & -> & bid & tb & w & tw & p & words & tl & HB & HW & H1 & HPd & HL & -> & -> & -> & ->).
      exists (t1 ++ tb ++ tw ++ p ++ tl). split; [now rewrite app_assoc|]. rewrite ESC. unfold out_of.
      rewrite (N.mul_comm words). apply SEnter; auto. rewrite !blen_app in *. rewrite <- !N.add_assoc in *. exact HPd.
    - change (abbrev_id_of 2) with IdDefineAbbrev in E2. cbv iota in E2. apply bind_ok in E2.
      destruct E2 as (u & [l2 s2 i2] & E2 & E3). injection E3 as <- <- <- <-.
      apply (pdec_define (pos + blen t1)) in E2; [|exact P1]. destruct E2 as (t2 & -> & a & HD & H).
      exists (t1 ++ t2). split; [now rewrite app_assoc|].
      destruct H as [(w & b & i & ab & r & E & NB & -> & ->)|(w & b & ab & r & E & -> & ->)]; rewrite E in ESC; injection ESC as <- <-;
        rewrite E; cbn [sc_width] in HV.
      + apply SDefine; auto.
      + apply SRegister with a; auto. intros k. rewrite registered_push. reflexivity.
    - apply (pdec_unabbrev (pos + blen t1)) in E2; [|exact P1]. destruct E2 as (t2 & -> & code & fields & HU & (w & b & i & ab & r & E & H) & ->).
      exists (t1 ++ t2). split; [now rewrite app_assoc|]. rewrite E in ESC. injection ESC as <- <-. cbn [sc_width] in HV.
      destruct H as [(NB & -> & ->)|[(-> & -> & -> & k & fs & -> & ->)|(-> & HC & -> & ->)]]; rewrite E.
      + apply SUnabbrev; auto.
      + apply SSetBid with fs; auto.
      + apply SName with code fields; auto.
    - rewrite (id_defined v Hv) in E2. apply (with_abbrev_iff v (pos + blen t1)) in E2; [|exact HS|exact P1|exact Hv].
      destruct E2 as (t2 & -> & w & b & i & ab & r & a & code & fields & E & EA & HT & -> & -> & ->).
      exists (t1 ++ t2). split; [now rewrite app_assoc|]. rewrite E in ESC. injection ESC as <- <-. cbn [sc_width] in HV. rewrite E.
      apply SAbbrev with a; auto.
  Qed.

  Lemma step_complete pos l scs info x l' scs' regs regs' t : Forall scope_shaped scs -> pos + blen l = tot lay ->
    (forall k, regs k = registered info k) -> l = t ++ l' -> step_text e (gap lay) pos regs scs t x scs' regs' ->
    exists info', step e o (mkParser l scs info) = (Ok x, mkParser l' scs' info') /\ forall k, regs' k = registered info' k.
  Proof.
    intros HS HP HR -> HT.
    assert (ST : forall sc rest t1 t2 v info', scs = sc :: rest -> t = t1 ++ t2 -> fixed_text (sc_width sc) v t1 ->
       (pos + blen t1 + blen (t2 ++ l') = tot lay ->
         match abbrev_id_of v with
         | IdEndBlock => exit_block o | IdEnterSubBlock => enter_block e o
         | IdDefineAbbrev => bind (define_abbrev e o) (fun _ => ret None)
         | IdUnabbrevRecord => parse_unabbrev e o | IdDefined id => parse_with_abbrev e o id end (mkParser (t2 ++ l') scs info) =
         (Ok x, mkParser l' scs' info')) ->
       step e o (mkParser (t ++ l') scs info) = (Ok x, mkParser l' scs' info')).
    { intros sc rest t1 t2 v info' ESC -> HV HB. unfold step. cbn [p_cur].
      assert (EX : op_exhausted o ((t1 ++ t2) ++ l') = false).
      { destruct HV as (HW & _ & ->). pose proof (fixed_blen (sc_width sc) v) as B. destruct (fixed_bits (sc_width sc) v); [cbn in B; lia|reflexivity]. }
      rewrite EX. unfold bind at 1, get_scope at 1. cbn [p_scopes]. rewrite ESC at 1.
      apply bind_ok. rewrite <- app_assoc in *. exists v, (mkParser (t2 ++ l') scs info). split.
      - apply (pdec_cur _ _ (dec_read (sc_width sc)) pos); [exact HP|]. exists t1. auto.
      - apply HB. rewrite blen_app in HP. rewrite <- N.add_assoc. exact HP. }
    inversion HT; subst.
    - exists info. split; [|intros k; congruence]. eapply ST; [reflexivity|reflexivity|eassumption|]. intros P1.
      apply (pdec_exit _ _ _ _ _ _ _ _ P1). exists p. split; [reflexivity|]. split; [assumption|].
      eexists. split; [reflexivity|]. split; [discriminate|]. auto.
    - exists info. split; [|intros k; congruence]. eapply ST; [reflexivity|reflexivity|eassumption|]. intros P1.
      apply (pdec_enter _ _ _ _ _ _ _ _ P1). exists (tb ++ tw ++ p ++ tl). split; [reflexivity|].
      exists bid, tb, w, tw, p, words, tl. split; [assumption|]. split; [assumption|]. split; [assumption|].
      split; [rewrite !blen_app in *; rewrite <- !N.add_assoc in *; assumption|]. split; [assumption|]. split; [reflexivity|].
      split; [unfold out_of; now rewrite (N.mul_comm words)|]. split; [|reflexivity]. now rewrite HR.
    - exists info. split; [|intros k; congruence]. eapply ST; [reflexivity|reflexivity|eassumption|]. intros P1.
      change (abbrev_id_of 2) with IdDefineAbbrev. cbv iota. apply bind_ok. exists tt, (mkParser l' (ScBlock w b i (l ++ [a]) :: scs0) info). split.
      + apply (pdec_define _ _ _ _ _ _ _ _ P1). exists ta. split; [reflexivity|]. exists a. split; [assumption|]. left.
        exists w, b, i, l, scs0. auto.
      + reflexivity.
    - exists (info_push info b a). split.
      2:{ intros k. rewrite registered_push. unfold register in *. rewrite H1, HR. reflexivity. }
      eapply ST; [reflexivity|reflexivity|eassumption|]. intros P1.
      change (abbrev_id_of 2) with IdDefineAbbrev. cbv iota. apply bind_ok. exists tt, (mkParser l' (ScBlock w 0 (Some b) l :: scs0) (info_push info b a)). split.
      + apply (pdec_define _ _ _ _ _ _ _ _ P1). exists ta. split; [reflexivity|]. exists a. split; [assumption|]. right.
        exists w, b, l, scs0. auto.
      + reflexivity.
    - exists info. split; [|intros k; congruence]. eapply ST; [reflexivity|reflexivity|eassumption|]. intros P1.
      apply (pdec_unabbrev _ _ _ _ _ _ _ _ P1). exists tr. split; [reflexivity|]. exists code, fields. split; [assumption|].
      split; [|reflexivity]. exists w, b, i, l, scs0. auto 10.
    - exists info. split; [|intros k; congruence]. eapply ST; [reflexivity|reflexivity|eassumption|]. intros P1.
      apply (pdec_unabbrev _ _ _ _ _ _ _ _ P1). exists tr. split; [reflexivity|]. exists 1, (b :: fields). split; [assumption|].
      split; [|reflexivity]. exists w, 0, i, l, scs0. split; [reflexivity|]. right. left. eauto 10.
    - exists info. split; [|intros k; congruence]. eapply ST; [reflexivity|reflexivity|eassumption|]. intros P1.
      apply (pdec_unabbrev _ _ _ _ _ _ _ _ P1). exists tr. split; [reflexivity|]. exists code, fields. split; [assumption|].
      split; [|reflexivity]. exists w, 0, i, l, scs0. split; [reflexivity|]. right. right. auto.
    - exists info. split; [|intros k; congruence]. eapply ST; [reflexivity|reflexivity|eassumption|]. intros P1.
      rewrite id_defined by assumption. apply (with_abbrev_iff id (pos + blen t0)); [exact HS|exact P1|assumption|].
      exists tr. split; [reflexivity|]. exists w, b, i, l, scs0, a, code, fields. auto 10.
  Qed.

  Lemma step_inv (s : PS) x s' : stack_ok (view s) -> stored_ok s -> step e o s = (Ok x, s') -> stack_ok (view s') /\ stored_ok s'.
  Proof.
    intros H1 H2 E. pose proof (step_acts e o (view s) s eq_refl) as K. pose proof (stored_step e o s H2) as K2.
    rewrite E in *. cbn [fst snd] in *. split; [|exact K2]. exact (effect_stack_ok _ _ _ K H1).
  Qed.

  Lemma step_consumes t pos regs scs x scs' regs' : step_text e (gap lay) pos regs scs t x scs' regs' -> t <> [].
  Proof.
    intros H. assert (F : forall w v u r, fixed_text w v u -> u ++ r <> []).
    { intros w v u r (HW & _ & ->) E. apply app_eq_nil in E. destruct E as [E _].
      pose proof (fixed_blen w v) as B. rewrite E in B. cbn in B. lia. }
    destruct H; eapply F; eassumption.
  Qed.

  Lemma loop_sound f : forall pos l scs info x l' scs' info', stack_ok (scs, info) -> stored_ok (mkParser l scs info) ->
    pos + blen l = tot lay ->
    advance_loop e o f (mkParser l scs info) = (Ok x, mkParser l' scs' info') ->
    exists t, l = t ++ l' /\ next_text e (gap lay) pos (registered info) scs t x scs' (registered info').
  Proof.
    induction f as [|f IH]; intros pos l scs info x l' scs' info' HO HS HP E; cbn [advance_loop] in E; [discriminate E|].
    apply bind_ok in E. destruct E as (y & [l1 s1 i1] & E1 & E2).
    destruct (step_inv (mkParser l scs info) _ _ HO HS E1) as [HO1 HS1].
    apply (step_sound pos) in E1; [|exact HO|apply HS|exact HP]. destruct E1 as (t1 & -> & T1).
    destruct y as [y|].
    - injection E2 as -> -> -> ->. exists t1. split; [reflexivity|now constructor].
    - apply (IH (pos + blen t1)) in E2; [|exact HO1|exact HS1|rewrite blen_app in HP; rewrite <- N.add_assoc; exact HP].
      destruct E2 as (t2 & -> & T2). exists (t1 ++ t2). split; [now rewrite app_assoc|]. eapply NSilent; eassumption.
  Qed.

  Lemma loop_complete pos regs scs t x scs' regs' : next_text e (gap lay) pos regs scs t x scs' regs' ->
    forall f l info l', stack_ok (scs, info) -> stored_ok (mkParser l scs info) -> pos + blen l = tot lay -> (length l < f)%nat ->
    (forall k, regs k = registered info k) -> l = t ++ l' ->
    exists info', advance_loop e o f (mkParser l scs info) = (Ok x, mkParser l' scs' info') /\ forall k, regs' k = registered info' k.
  Proof.
    induction 1 as [pos regs scs t x scs' regs' HT|pos regs scs t1 scs1 regs1 t2 x scs' regs' HT HN IH];
      intros f l info l' HO HS HP HF HR HL; (destruct f as [|f]; [lia|]); cbn [advance_loop].
    - destruct (step_complete pos l scs info _ l' scs' regs regs' t (proj1 HS) HP HR HL HT) as (info' & E & HR').
      exists info'. split; [|exact HR']. apply bind_ok. eauto.
    - rewrite <- app_assoc in HL.
      destruct (step_complete pos l scs info _ (t2 ++ l') scs1 regs regs1 t1 (proj1 HS) HP HR HL HT) as (info1 & E & HR1).
      destruct (step_inv (mkParser l scs info) _ _ HO HS E) as [HO1 HS1].
      destruct (IH f (t2 ++ l') info1 l') as (info' & E2 & HR'); auto.
      + subst l. rewrite blen_app in HP. rewrite <- N.add_assoc. exact HP.
      + pose proof (step_consumes _ _ _ _ _ _ _ HT). subst l. destruct t1; [congruence|]. cbn [app length] in HF. rewrite app_length in HF. lia.
      + exists info'. split; [|exact HR']. apply bind_ok. eauto.
  Qed.
  Lemma step_text_ext pos regs scs t x scs' r1 r2 : (forall k, r2 k = r1 k) ->
    step_text e (gap lay) pos regs scs t x scs' r1 -> step_text e (gap lay) pos regs scs t x scs' r2.
  Proof.
    intros H T. destruct T; econstructor; eauto; intros k; rewrite H; auto.
  Qed.

  Lemma next_text_ext pos regs scs t x scs' r1 r2 : (forall k, r2 k = r1 k) ->
    next_text e (gap lay) pos regs scs t x scs' r1 -> next_text e (gap lay) pos regs scs t x scs' r2.
  Proof.
    intros HX T. revert HX. induction T; intros HX; [eapply NStep|eapply NSilent]; eauto using step_text_ext.
  Qed.

  Lemma list_next (t t' : PS) x : next e o t = (Some (Ok x), t') <-> advance_loop e o (op_fuel o (p_cur t)) t = (Ok x, t').
  Proof.
    unfold next, advance. destruct (advance_loop e o (op_fuel o (p_cur t)) t) as [[y|[]|p|] u]; split; intros E; try discriminate E;
      injection E as -> ->; reflexivity.
  Qed.
End Grammar.

(** ** The real parser *)

Definition sound_state (lay : layout) (s : sparser cursor) : Prop :=
  inv63 (p_cur s) /\ (exists start, fits lay start (byte_len (p_cur s)) /\ phase start (p_cur s)) /\ stack_ok (view s) /\ stored_ok s.

Lemma sound_state_new lay start c : inv63 c -> fits lay start (byte_len c) -> phase start c -> sound_state lay (parser_new c).
Proof.
  intros I F P. split; [exact I|]. split; [exists start; auto|]. split; [exists []; split; reflexivity|].
  split; cbn; repeat constructor.
Qed.

Lemma from_cursor_phase c b start : inv63 c -> phase start c -> from_cursor c = Ok b ->
  exists c', bs_parser b = parser_new c' /\ inv63 c' /\ phase start c' /\ byte_len c' = byte_len c /\ byte_len c mod 4 = 0.
Proof.
  intros I P E. unfold from_cursor in E. destruct (byte_len c mod 4 =? 0) eqn:E4; [|discriminate E]. cbn [negb] in E.
  destruct (read_exact cursor_ops u32t c) as [[m|x|p|] c'] eqn:ER; try discriminate E. injection E as <-. cbn [bs_parser].
  exists c'. split; [reflexivity|]. unfold read_exact, read_as, bind in ER. cbn [ity_bits u32t op_read cursor_ops] in ER.
  pose proof (read_inv 32 c I) as (I' & [_ S2] & _). pose proof (read_phase start 32 c I P) as [P' _].
  destruct (read 32 c) as [[v|x|p|] c1]; try discriminate ER. cbn [snd] in *.
  destruct (num_cast _ v); [|discriminate ER]. injection ER as _ <-. repeat split; try assumption; try apply I'; try apply P'. lia.
Qed.

Lemma fits_word start len H : start mod 4 = 0 -> len mod 4 = 0 -> fits (word_layout (8 * len) H) start len.
Proof. intros H1 H2. split; [reflexivity|]. intros p HP. cbn [gap word_layout]. symmetry. apply block_word; lia. Qed.
Lemma fits_block start len : fits (block_layout (8 * start) (8 * len)) start len.
Proof. split; [reflexivity|]. reflexivity. Qed.

Lemma wrapped_phase e buf w b : from_wrapped e buf = Ok (w, b) ->
  exists c, bs_parser b = parser_new c /\ inv63 c /\ phase (wr_offset w) c /\ byte_len c = wr_size w + 20 /\ byte_len c mod 4 = 0.
Proof.
  intros H. unfold from_wrapped in H. destruct (fst (read_wrapper (cur_new buf))) as [w'|x|p|]; try discriminate H. cbn [omap_err obind] in H.
  unfold cur_new_with_len in H. destruct (N.of_nat (length buf) <? wr_size w' + 20) eqn:E1; [discriminate H|]. cbn [omap_err obind] in H.
  unfold seek, seek_offset in H. cbn [byte_len inner current_block bit_index] in H.
  destruct (wr_size w' + 20 <? wr_offset w') eqn:E2; [discriminate H|].
  unfold clear_block_state in H. cbn [byte_len inner byte_pos] in H.
  destruct (from_cursor _) as [b'|x|p|] eqn:E; cbn [obind] in H; try discriminate H. injection H as <- <-.
  apply (from_cursor_phase _ _ (wr_offset w')) in E.
  - destruct E as (c & E & I & P & L & M). cbn [byte_len] in L, M. exists c. rewrite L. auto.
  - split; [split|]; cbn [byte_len inner byte_pos bit_index current_block]; try lia. reflexivity.
  - unfold phase, tell_bit. cbn [byte_len inner byte_pos bit_index current_block]. split; [lia|]. split; [lia|]. now left.
Qed.

Lemma opened_sound e g s : opened e g s -> exists lay, g = gap lay /\ sound_state lay s.
Proof.
  induction 1 as [buf b H|buf w b H HM|buf w b H|g s _ IH].
  - unfold from_raw in H. apply (from_cursor_phase _ _ 0) in H.
    + destruct H as (c & -> & I & P & L & M). assert (M8 : 8 * byte_len c mod 32 = 0) by lia.
      exists (word_layout (8 * byte_len c) M8). split; [reflexivity|]. apply (sound_state_new _ 0); [exact I|apply fits_word; lia|exact P].
    + split; [apply inv_new|cbn; lia].
    + unfold phase, tell_bit. cbn [cur_new byte_len inner byte_pos bit_index current_block]. split; [lia|]. split; [lia|]. now left.
  - apply wrapped_phase in H. destruct H as (c & -> & I & P & L & M). assert (M8 : 8 * byte_len c mod 32 = 0) by lia.
    exists (word_layout (8 * byte_len c) M8). split; [reflexivity|]. apply (sound_state_new _ (wr_offset w)); [exact I|apply fits_word; lia|exact P].
  - apply wrapped_phase in H. destruct H as (c & -> & I & P & L & M).
    exists (block_layout (8 * wr_offset w) (8 * (wr_size w + 20))). split; [reflexivity|].
    apply (sound_state_new _ (wr_offset w)); [exact I|rewrite L; apply fits_block|exact P].
  - destruct IH as (lay & -> & I1 & (start & I2 & I2') & I3 & I4). exists lay. split; [reflexivity|].
    set (PP := fun c => inv63 c /\ byte_len c = byte_len (p_cur s) /\ phase start c).
    assert (K : PP (p_cur (snd (next e cursor_ops s)))).
    { apply (next_pres e cursor_ops PP).
      - intros n c (H1 & H2 & H3). destruct (read_inv n c H1) as (K1 & [_ K2] & _). destruct (read_phase start n c H1 H3) as [K3 _].
        cbn [op_read cursor_ops]. split; [exact K1|]. split; [congruence|exact K3].
      - intros c (H1 & H2 & H3). destruct (align32_inv c H1) as (K1 & [_ K2] & _). pose proof (align_phase start c H1 H3) as K3.
        cbn [op_align32 cursor_ops]. split; [exact K1|]. split; [congruence|exact K3].
      - split; [exact I1|]. split; [reflexivity|exact I2']. }
    destruct K as (K1 & K2 & K3). split; [exact K1|]. split; [exists start; rewrite K2; auto|]. split.
    + exact (after_inv e cursor_ops stack_ok effect_stack_ok 1 s I3).
    + now apply stored_next.
Qed.

Lemma state_total lay s : sound_state lay s -> pos s + blen (unread s) = tot lay /\ pos s + blen (unread s) = total s.
Proof.
  intros (I & (start & [A1 _] & _) & _). pose proof (rem_length (p_cur s) (proj1 I)) as RL. pose proof (tell_bit_le (p_cur s) (proj1 I)) as T.
  unfold pos, total, unread, blen in *. rewrite <- rem_content. unfold bit_len in *. lia.
Qed.

Lemma next_exact e lay s x rest scs' : sound_state lay s ->
  (forall s', next e cursor_ops s = (Some (Ok x), s') -> unread s' = rest -> p_scopes s' = scs' ->
     exists t, unread s = t ++ rest /\
       next_text e (gap lay) (pos s) (registered (p_info s)) (p_scopes s) t x scs' (registered (p_info s')) /\ pos s' = pos s + blen t) /\
  (forall regs t regs', (forall k, regs k = registered (p_info s) k) -> unread s = t ++ rest ->
     next_text e (gap lay) (pos s) regs (p_scopes s) t x scs' regs' ->
     exists s', next e cursor_ops s = (Some (Ok x), s') /\ unread s' = rest /\ p_scopes s' = scs' /\
       (forall k, regs' k = registered (p_info s') k) /\ pos s' = pos s + blen t).
Proof.
  intros HS. pose proof (state_total lay s HS) as [HA HT]. pose proof HS as (I & (start & F & P) & SO & ST).
  set (t0 := mkParser (unread s) (p_scopes s) (p_info s)).
  pose proof (next_gap_sim lay start (inner (p_cur s)) (byte_len (p_cur s)) e s t0 F (tracks_self _ I) P eq_refl eq_refl) as K.
  assert (HPOS : forall c l, tracks (inner (p_cur s)) (byte_len (p_cur s)) c l ->
    forall t, unread s = t ++ l -> tell_bit c = pos s + blen t).
  { intros c l T t E. apply tracks_tell in T. destruct T as (T1 & T2 & _). rewrite T1. rewrite E, blen_app in HT.
    unfold total, bit_len in HT. change (N.of_nat (length l)) with (blen l) in *. lia. }
  destruct (next e cursor_ops s) as [r1 s1], (next e (gap_ops lay) t0) as [r2 t1] eqn:E2. destruct K as [-> K]. split.
  - intros s' [= -> ->] HU HC. specialize (K ltac:(eauto)). destruct K as ([K1 KA] & K2 & K3).
    apply list_next in E2. destruct t1 as [l1 sc1 i1]. cbn [p_cur p_scopes p_info] in *.
    assert (HL : l1 = rest) by (rewrite <- HU; symmetry; apply K1). subst l1.
    destruct (loop_sound e lay _ (pos s) _ _ _ _ _ _ _ SO ST HA E2) as (t & T1 & T2).
    exists t. split; [exact T1|]. rewrite K3, <- HC, K2. split; [exact T2|]. exact (HPOS _ _ K1 t T1).
  - intros regs t regs' HR HU HN.
    destruct (loop_complete e lay _ _ _ _ _ _ _ HN (op_fuel (gap_ops lay) (unread s)) (unread s) (p_info s) rest SO ST HA) as (info' & E & HR'); auto.
    change (mkParser (unread s) (p_scopes s) (p_info s)) with t0 in E.
    apply list_next in E. rewrite E2 in E. injection E as -> ->.
    specialize (K ltac:(eauto)). destruct K as ([K1 KA] & K2 & K3). cbn [p_cur p_scopes p_info] in *.
    exists s1. split; [reflexivity|]. split; [apply K1|]. split; [exact K2|]. split; [|exact (HPOS _ _ K1 t HU)].
    intros k. rewrite K3. apply HR'.
Qed.

Lemma next_exactly e g s x rest scs' regs' : opened e g s ->
  ((exists s', next e cursor_ops s = (Some (Ok x), s') /\ unread s' = rest /\ p_scopes s' = scs' /\
      forall k, regs' k = registered (p_info s') k) <->
   exists t, unread s = t ++ rest /\ next_text e g (pos s) (registered (p_info s)) (p_scopes s) t x scs' regs').
Proof.
  intros HO. destruct (opened_sound e g s HO) as (lay & -> & HS). destruct (next_exact e lay s x rest scs' HS) as [H1 H2]. split.
  - intros (s' & E & HU & HC & HR). destruct (H1 s' E HU HC) as (t & T1 & T2 & _). exists t. split; [exact T1|].
    eapply next_text_ext; eassumption.
  - intros (t & T1 & T2). destruct (H2 _ t regs' (fun k => eq_refl) T1 T2) as (s' & E & HU & HC & HR & _). eauto 6.
Qed.

Definition oks (xs : list entry) : list (option (outcome serr entry)) := map (fun x => Some (Ok x)) xs.

Lemma run_sound e g xs : forall s, opened e g s -> run e cursor_ops (length xs) s = oks xs ->
  exists t, unread s = t ++ unread (after e cursor_ops (length xs) s) /\
    tells e g (pos s) (registered (p_info s)) (p_scopes s) t xs.
Proof.
  induction xs as [|x xs IH]; intros s HO HR.
  - exists []. split; [reflexivity|constructor].
  - cbn [length run oks map after] in *. pose proof (OpNext e g s HO) as HO1. destruct (next e cursor_ops s) as [r s1] eqn:E. cbn [snd] in *.
    injection HR as -> HR. destruct (IH s1 HO1 HR) as (t2 & U1 & U2). destruct (opened_sound e g s HO) as (lay & -> & HS).
    destruct (proj1 (next_exact e lay s x (unread s1) (p_scopes s1) HS) s1 E eq_refl eq_refl) as (t1 & T1 & T2 & T3).
    exists (t1 ++ t2). split; [rewrite T1, U1; now rewrite app_assoc|].
    eapply TellCons; [exact T2|]. rewrite <- T3. exact U2.
Qed.

Lemma run_complete e g xs : forall s regs t rest, opened e g s -> (forall k, regs k = registered (p_info s) k) ->
  unread s = t ++ rest -> tells e g (pos s) regs (p_scopes s) t xs ->
  run e cursor_ops (length xs) s = oks xs /\ unread (after e cursor_ops (length xs) s) = rest.
Proof.
  induction xs as [|x xs IH]; intros s regs t rest HO HR HU HT; inversion HT; subst.
  - cbn. split; [reflexivity|exact HU].
  - rewrite <- app_assoc in HU. destruct (opened_sound e g s HO) as (lay & -> & HS).
    edestruct (proj2 (next_exact e lay s x (t2 ++ rest) scs1 HS)) as (s1 & E & U1 & C1 & R1 & P1); [exact HR|exact HU|eassumption|].
    pose proof (OpNext e _ s HO) as HO1. cbn [length run oks map after]. rewrite E in *. cbn [snd] in *.
    edestruct (IH s1) as [H1 H2]; [exact HO1|exact R1|exact U1|rewrite P1, C1; eassumption|].
    split; [f_equal; exact H1|exact H2].
Qed.

Lemma stream_exactly e buf magic xs rest :
  (exists s, from_raw buf = Ok (mkBitstream magic s) /\ run e cursor_ops (length xs) s = oks xs /\
     unread (after e cursor_ops (length xs) s) = rest) <->
  N.of_nat (length buf) mod 4 = 0 /\
  exists t0 t, bits_of_bytes buf = t0 ++ t ++ rest /\ fixed_text 32 magic t0 /\
    tells e word_gap 32 (fun _ => []) [ScInitial] t xs.
Proof.
  pose proof (from_raw_spec buf) as K. pose proof (bits_of_bytes_length buf) as BL. split.
  - intros (s & E & HR & HU).
    destruct ((N.of_nat (length buf) mod 4 =? 0) && (4 <=? N.of_nat (length buf))) eqn:EB; [|congruence].
    destruct K as (c' & K & T). rewrite K in E. injection E as <- <-. split; [lia|].
    pose proof (OpRaw e buf _ K) as HO. cbn [bs_parser] in HO.
    destruct (run_sound e _ xs _ HO HR) as (t & T1 & T2). rewrite HU in T1.
    pose proof (tracks_tell _ _ _ _ (proj1 T)) as (P1 & P2 & _).
    assert (HUN : unread (parser_new c') = skipn 32 (bits_of_bytes buf)) by apply T.
    exists (firstn 32 (bits_of_bytes buf)), t. rewrite <- T1, HUN, firstn_skipn. split; [reflexivity|]. split.
    + destruct (fixed_bits_of (firstn 32 (bits_of_bytes buf)) 32) as [F1 F2].
      { unfold blen. rewrite firstn_length. lia. }
      split; [lia|]. split; [exact F2|]. now symmetry.
    + replace (pos (parser_new c')) with 32 in T2; [exact T2|]. unfold pos. cbn [parser_new p_cur]. rewrite P1, skipn_length, BL. lia.
  - intros (HM & t0 & t & HB & (_ & HV & HT0) & HT).
    assert (HL0 : length t0 = 32%nat) by (rewrite HT0, fixed_bits_length; reflexivity).
    assert (HL : (32 <= length (bits_of_bytes buf))%nat) by (rewrite HB, app_length; lia).
    replace ((N.of_nat (length buf) mod 4 =? 0) && (4 <=? N.of_nat (length buf))) with true in K by lia.
    destruct K as (c' & K & T).
    assert (F : firstn 32 (bits_of_bytes buf) = t0) by (rewrite HB, <- HL0, firstn_app, firstn_all, Nat.sub_diag; cbn; now rewrite app_nil_r).
    assert (SK : skipn 32 (bits_of_bytes buf) = t ++ rest) by (rewrite HB, <- HL0, skipn_app, skipn_all, Nat.sub_diag; reflexivity).
    rewrite F in K. rewrite HT0, N_of_fixed in K by exact HV.
    pose proof (OpRaw e buf _ K) as HO. cbn [bs_parser] in HO.
    pose proof (tracks_tell _ _ _ _ (proj1 T)) as (P1 & P2 & _).
    assert (HUN : unread (parser_new c') = t ++ rest) by (rewrite <- SK; apply T).
    exists (parser_new c'). split; [exact K|].
    eapply (run_complete e _ xs _ (fun _ => []) t rest HO); [reflexivity|exact HUN|].
    replace (pos (parser_new c')) with 32; [exact HT|]. unfold pos. cbn [parser_new p_cur]. rewrite P1, skipn_length, BL. lia.
Qed.
