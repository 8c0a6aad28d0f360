(** Progress, panics and the end of iteration, on the real cursor. *)
From Verif Require Import Base CursorModel CursorSpec CursorHist CursorProofs CursorSim CursorVbr CursorMain
  StreamModel StreamSpec StreamHist StreamProofs StreamPres StreamEffect StreamRound StreamMain.
From Coq Require Import Lia ZifyBool ZifyNat ZifyN.
Ltac Zify.zify_post_hook ::= Z.div_mod_to_equations.
Local Open Scope N_scope.
Arguments N.add : simpl never.
Arguments N.mul : simpl never.
Arguments N.div : simpl never.
Arguments N.modulo : simpl never.
Arguments N.sub : simpl never.
Arguments N.pow : simpl never.

Lemma read_inv63 n : preserves inv63 (op_read cursor_ops n).
Proof. intros c H. apply (read_inv n c H). Qed.
Lemma align_inv63 c : inv63 c -> inv63 (op_align32 cursor_ops c).
Proof. intros H. apply (align32_inv c H). Qed.

(** The invariant of parsers a caller can hold. *)
Lemma reachable_parser e s : parser_reachable e s -> pinv inv63 s /\ stack_ok (view s).
Proof.
  intros H. induction H as [c H|s H [[I1 I2] I3]].
  - split; [split; [exact (reachable_inv e c H)|discriminate]|]. exists []. split; reflexivity.
  - assert (S : stack_ok (view (snd (next e cursor_ops s)))).
    { exact (after_inv e cursor_ops stack_ok effect_stack_ok 1 s I3). }
    split; [split|exact S].
    + apply (next_pres e cursor_ops inv63 read_inv63 align_inv63 s I1).
    + destruct S as (bs & K & _). unfold view in K. cbn [fst] in K. rewrite K. now destruct bs.
Qed.

Lemma same_data_read c0 n : preserves (good c0) (op_read cursor_ops n).
Proof. apply read_good. Qed.
Lemma same_data_align c0 c : good c0 c -> good c0 (op_align32 cursor_ops c).
Proof.
  intros [I S]. pose proof (align32_inv c I) as (I' & S' & _). split; [exact I'|]. exact (same_data_trans _ _ _ S S').
Qed.

Lemma next_total e s : parser_reachable e s -> total (snd (next e cursor_ops s)) = total s.
Proof.
  intros H. destruct (reachable_parser e s H) as [[I _] _].
  pose proof (next_pres e cursor_ops (good (p_cur s)) (same_data_read _) (same_data_align _) s) as K.
  unfold PP in K. destruct K as [_ [_ K]]; [split; [exact I|apply same_data_refl]|].
  unfold total, bit_len. now rewrite K.
Qed.

Lemma pos_le e s : parser_reachable e s -> pos s <= total s.
Proof. intros H. destruct (reachable_parser e s H) as [[I _] _]. apply tell_bit_le, I. Qed.

(** C14, C18: one call. *)
Lemma advance_main e s : parser_reachable e s ->
  (forall x s', advance e cursor_ops s = (Ok x, s') -> pos s < pos s' <= total s) /\
  (forall x s', advance e cursor_ops s = (Err x, s') -> pos s <= pos s' <= total s) /\
  fst (advance e cursor_ops s) <> OutOfFuel /\
  (forall p, fst (advance e cursor_ops s) = Panic p -> input_panic e p).
Proof.
  intros H. pose proof (pos_le e s H) as L. pose proof (pos_le e _ (PRNext e s H)) as L'.
  pose proof (next_total e s H) as T. destruct (reachable_parser e s H) as [I _].
  pose proof (advance_nice e cursor_ops inv63 _ cursor_progressive s I) as K.
  unfold next in *. unfold pmu, pos, total in *.
  destruct (advance e cursor_ops s) as [[x|x|p|] s'] eqn:E; cbn [fst snd] in *.
  - split; [|split; [|split]]; try discriminate; intros ? ? [= <- <-]; lia.
  - assert (total s' = total s /\ pos s' <= total s') as [T' P'] by (destruct x; cbn [fst snd] in *; auto).
    unfold total, pos in *. split; [|split; [|split]]; try discriminate; intros ? ? [= <- <-]; lia.
  - split; [|split; [|split]]; try discriminate. intros q [= <-]. exact K.
  - contradiction.
Qed.

Lemma run_leading e n s : parser_reachable e s ->
  N.of_nat (length (leading (run e cursor_ops n s))) <= total s - pos s.
Proof.
  revert s. induction n as [|n IH]; intros s H; [cbn; lia|]. cbn [run].
  pose proof (advance_main e s H) as (A & _). pose proof (IH _ (PRNext e s H)) as K.
  pose proof (next_total e s H) as T. unfold next in *.
  destruct (advance e cursor_ops s) as [[x|[]|p|] s']; cbn [fst snd leading length] in *; try lia.
  specialize (A _ _ eq_refl). lia.
Qed.

(** ** C17 *)

(** Twice the remaining bits, plus one if no block is loaded. *)
Definition mu2 (c : cursor) : N := 2 * (bit_len c - tell_bit c) + (if bit_index c =? 0 then 1 else 0).

Lemma mu2_align c : inv63 c -> mu2 (align32 c) <= mu2 c.
Proof.
  intros H. pose proof (tell_bit_le c (proj1 H)) as T. pose proof (inv_idx c (proj1 H)) as T2. pose proof (inv_pos c (proj1 H)) as T3. unfold mu2, align32, tell_bit, bit_len in *.
  destruct (32 <=? bit_index c) eqn:E; cbn [clear_block_state byte_pos bit_index byte_len];
    change (32 =? 0) with false; change (0 =? 0) with true; destruct (bit_index c =? 0) eqn:E2; lia.
Qed.

Lemma mu2_read n c : inv63 c ->
  mu2 (snd (read n c)) <= mu2 c /\ (1 <= n <= 63 -> exhausted c = false -> mu2 (snd (read n c)) < mu2 c).
Proof.
  intros H. pose proof (rem_len_N c H) as L. pose proof (tell_bit_le c (proj1 H)) as T.
  destruct ((n =? 0) || (64 <=? n)) eqn:E0.
  { rewrite read_invalid by lia. cbn [snd]. split; [lia|]. intros. lia. }
  destruct (N.le_gt_cases (tell_bit c + n) (bit_len c)) as [Hr|Hr].
  - destruct (read_ok63 n c H ltac:(lia) ltac:(lia)) as (c' & -> & I' & R' & T' & [S1 S2] & _).
    cbn [snd]. unfold mu2. assert (bit_len c' = bit_len c) as -> by (unfold bit_len; congruence).
    rewrite T'. destruct (bit_index c' =? 0), (bit_index c =? 0); lia.
  - pose proof (read_inv n c H) as (I' & [S1 S2] & _).
    destruct (read_fail63 n c H ltac:(lia) ltac:(lia)) as [[Hr2 E]|[Hr2 (c' & E & K)]]; rewrite E in *; cbn [snd] in *.
    + split; [lia|]. intros _ X. exfalso. rewrite Hr2 in L. cbn [length] in L.
      unfold exhausted in X. apply andb_false_iff in X. destruct H as [H1 H2]. pose proof (inv_pos c H1). pose proof (inv_idx c H1).
      unfold bit_len, tell_bit in *. lia.
    + destruct K as (_ & _ & K & _). unfold mu2. assert (bit_len c' = bit_len c) as -> by (unfold bit_len; congruence).
      assert (B : bit_index c = 0 -> bit_index c' <> 0).
      { intros Z. pose proof (inv_pos c (proj1 H)) as P. unfold read in E. rewrite E0 in E. rewrite Z in E.
        replace (n <=? 0) with false in E by lia. unfold load_current_block in E.
        assert (tell_byte c = byte_pos c) as TB by (unfold tell_byte, tell_bit; rewrite Z; lia).
        assert (byte_pos c < byte_len c) as PL.
        { destruct (rem c); [congruence|]. cbn [length] in L. unfold bit_len, tell_bit in L. lia. }
        rewrite TB in E. replace (byte_len c <=? byte_pos c) with false in E by lia.
        assert (tell_byte (clear_block_state c) = byte_pos c) as TB2 by (unfold tell_byte, tell_bit; cbn; lia).
        rewrite TB2 in E. cbn [byte_len inner byte_pos clear_block_state] in E.
        pose proof (inv_len c (proj1 H)) as IL. unfold slice in E.
        destruct (byte_pos c + 8 <? byte_len c) eqn:EB.
        - replace (_ && _) with true in E by lia. cbv iota in E. rewrite firstn_length, skipn_length in E. cbn [bit_index] in E.
          destruct (_ <? _) eqn:EC in E; [|discriminate]. injection E as <-. cbn [bit_index]. lia.
        - replace (_ && _) with true in E by lia. cbv iota in E. rewrite firstn_length, skipn_length in E. cbn [bit_index] in E.
          destruct (_ <? _) eqn:EC in E; [|discriminate]. injection E as <-. cbn [bit_index]. lia. }
      assert (TC : tell_bit c = 8 * byte_pos c - bit_index c) by (unfold tell_bit; lia).
      pose proof (inv_idx c (proj1 H)). pose proof (inv_pos c (proj1 H)).
      assert (bit_len c = 8 * byte_len c) by (unfold bit_len; lia). rewrite K.
      split; [|intros _ _];
      destruct (bit_index c =? 0) eqn:EZ, (bit_index c' =? 0) eqn:EZ'; lia.
Qed.

Definition mu2_inv (k : N) (c : cursor) : Prop := inv63 c /\ mu2 c <= k.
Lemma mu2_pres_read k n : preserves (mu2_inv k) (op_read cursor_ops n).
Proof.
  intros c [I H]. cbn [op_read cursor_ops]. split; [apply (read_inv n c I)|]. pose proof (mu2_read n c I). lia.
Qed.
Lemma mu2_pres_align k c : mu2_inv k c -> mu2_inv k (op_align32 cursor_ops c).
Proof. intros [I H]. split; [apply (align32_inv c I)|]. pose proof (mu2_align c I). cbn. lia. Qed.

Lemma body_pres {C} e (o : cops C) (P : C -> Prop) :
  (forall n, preserves P (op_read o n)) -> (forall c, P c -> P (op_align32 o c)) ->
  forall v, preserves (PP P) (body e o v).
Proof.
  intros HR HA v. unfold body. destruct (abbrev_id_of v).
  - now apply exit_block_pres.
  - now apply enter_block_pres.
  - apply preserves_bind; [now apply define_abbrev_pres|]. intros ?. apply preserves_ret.
  - now apply parse_unabbrev_pres.
  - now apply parse_with_abbrev_pres.
Qed.

Lemma next_mu2 e s r s' : pinv inv63 s -> 1 <= id_width s <= 63 ->
  next e cursor_ops s = (Some r, s') -> mu2 (p_cur s') < mu2 (p_cur s).
Proof.
  intros [I Hs] Hw H. unfold id_width in Hw. destruct (p_scopes s) as [|sc scs] eqn:ES; [congruence|].
  destruct (exhausted (p_cur s)) eqn:EX.
  { rewrite (next_exhausted e cursor_ops s EX) in H by apply cursor_fuel. discriminate. }
  pose proof (proj2 (mu2_read (sc_width sc) (p_cur s) I) Hw EX) as M.
  set (k := mu2 (snd (read (sc_width sc) (p_cur s)))) in *.
  assert (K : PP (mu2_inv k) (snd (advance e cursor_ops s))).
  { unfold advance. cbn [op_fuel cursor_ops]. cbn [advance_loop].
    assert (KS : PP (mu2_inv k) (snd (step e cursor_ops s))).
    { rewrite (step_eq e cursor_ops inv63) by (split; [exact I|congruence]).
      cbn [op_exhausted cursor_ops]. rewrite EX, ES. unfold bind, on_cur, c_read, lift_err. cbn [op_read cursor_ops].
      assert (KR : mu2_inv k (snd (read (sc_width sc) (p_cur s)))).
      { split; [apply (read_inv _ _ I)|]. subst k. lia. }
      destruct (read (sc_width sc) (p_cur s)) as [[v|x|p|] c1]; try exact KR.
      apply body_pres; [apply mu2_pres_read|apply mu2_pres_align|exact KR]. }
    unfold bind. destruct (step e cursor_ops s) as [[[x|]|x|p|] s1]; try exact KS. cbn [snd] in KS.
    apply advance_loop_pres; [apply mu2_pres_read|apply mu2_pres_align|exact KS]. }
  assert (snd (advance e cursor_ops s) = s') as <-.
  { unfold next in H. destruct (advance e cursor_ops s) as [[x|[]|p|] s1]; now inversion H. }
  destruct K as [_ K]. lia.
Qed.

Lemma after_reachable e n s : parser_reachable e s -> parser_reachable e (after e cursor_ops n s).
Proof. revert s. induction n as [|n IH]; intros s H; [exact H|]. cbn [after]. apply IH. now constructor. Qed.

(** Widths are never 0. *)
Definition widths_ok (v : list scope * info_map) : Prop := Forall (fun sc => 1 <= sc_width sc) (fst v).
Lemma effect_widths v r v' : effect v r v' -> widths_ok v -> widths_ok v'.
Proof.
  intros E H. unfold widths_ok in *. destruct E; cbn [fst] in *; try (constructor; assumption);
  repeat match goal with H : Forall _ (_ :: _) |- _ => inversion H; clear H; subst end; repeat constructor; auto.
Qed.
Lemma reachable_widths e s : parser_reachable e s -> widths_ok (view s).
Proof.
  intros H. induction H as [c H|s H IH].
  - constructor; [cbn; lia|constructor].
  - exact (after_inv e cursor_ops widths_ok effect_widths 1 s IH).
Qed.

Lemma ends_or_wide e s : parser_reachable e s ->
  exists n, N.of_nat n <= 2 * (total s - pos s) + 1 /\
    ((exists s', next e cursor_ops (after e cursor_ops n s) = (None, s')) \/
     64 <= id_width (after e cursor_ops n s)).
Proof.
  intros H. destruct (reachable_parser e s H) as [[I0 S0] _].
  assert (B : mu2 (p_cur s) <= 2 * (total s - pos s) + 1).
  { unfold mu2, total, pos. destruct (_ =? 0); lia. }
  revert B. generalize (2 * (total s - pos s) + 1). intros k B. 
  remember (N.to_nat k) as m eqn:Hm. assert (HB : (N.to_nat (mu2 (p_cur s)) <= m)%nat) by lia.
  assert (G : exists n, (n <= m)%nat /\
    ((exists s', next e cursor_ops (after e cursor_ops n s) = (None, s')) \/ 64 <= id_width (after e cursor_ops n s))).
  2:{ destruct G as (n & Hn & G). exists n. split; [lia|exact G]. }
  clear k B Hm I0 S0. revert s H HB. induction m as [|m IH]; intros s H HB.
  all: destruct (reachable_parser e s H) as [[I0 S0] _]; pose proof (reachable_widths e s H) as W.
  all: destruct (N.le_gt_cases 64 (id_width s)) as [Hw|Hw]; [exists O; split; [lia|right; exact Hw]|].
  all: assert (Hw1 : 1 <= id_width s <= 63) by
    (split; [|lia]; unfold id_width; unfold widths_ok, view in W; cbn [fst] in W; destruct (p_scopes s); [congruence|]; now inversion W).
  all: destruct (next e cursor_ops s) as [[r|] s'] eqn:E; [|exists O; split; [lia|left; eexists; exact E]].
  all: pose proof (next_mu2 e s r s' (conj I0 S0) Hw1 E) as M.
  { lia. }
  destruct (IH s') as (n & Hn & K).
  - pose proof (PRNext e s H) as X. now rewrite E in X.
  - lia.
  - exists (S n). split; [lia|]. cbn [after]. rewrite E. exact K.
Qed.

Lemma after_plus {C} e (o : cops C) i j s : after e o (i + j) s = after e o j (after e o i s).
Proof. revert s. induction i as [|i IH]; intros s; [reflexivity|]. cbn [Nat.add after]. apply IH. Qed.

Lemma none_stays e s s' : parser_reachable e s -> next e cursor_ops s = (None, s') ->
  forall k, run e cursor_ops k s' = repeat None k.
Proof. intros _ H k. eapply none_forever; [exact cursor_fuel|exact H]. Qed.
