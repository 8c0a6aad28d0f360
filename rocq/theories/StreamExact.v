(** Exactly when iteration does not end. *)
From Verif Require Import Base CursorModel CursorSpec CursorHist CursorProofs CursorSim CursorVbr CursorMain
  StreamModel StreamSpec StreamHist StreamProofs StreamPres StreamEffect StreamMain StreamEnd StreamApi.
From Coq Require Import Lia ZifyBool ZifyNat ZifyN.
Ltac Zify.zify_post_hook ::= Z.div_mod_to_equations.
Local Open Scope N_scope.

Lemma exhausted_pos e s : parser_reachable e s -> exhausted (p_cur s) = true <-> pos s = total s.
Proof.
  intros H. destruct (reachable_parser e s H) as [[I _] _]. rewrite (exhausted_spec _ (proj1 I)).
  pose proof (rem_len_N _ I) as L. pose proof (pos_le e s H) as P. unfold pos, total in *.
  rewrite <- length_zero_iff_nil. lia.
Qed.

Lemma wide_stuck e s : parser_reachable e s -> 64 <= id_width s -> pos s < total s ->
  next e cursor_ops s = (Some (Err (SCursor InvalidReadSize)), s).
Proof.
  intros H W P. destruct (reachable_parser e s H) as [[I S0] _].
  destruct (exhausted (p_cur s)) eqn:EX; [apply (exhausted_pos e s H) in EX; lia|].
  unfold id_width in W. destruct (p_scopes s) as [|sc scs] eqn:ES; [congruence|].
  unfold next, advance. cbn [op_fuel cursor_ops]. cbn [advance_loop].
  assert (K : step e cursor_ops s = (Err (SCursor InvalidReadSize), s)).
  { rewrite (step_eq e cursor_ops inv63) by (split; [exact I|congruence]).
    cbn [op_exhausted cursor_ops]. rewrite EX, ES. unfold bind, on_cur, c_read, lift_err. cbn [op_read cursor_ops].
    rewrite read_invalid by lia. destruct s; reflexivity. }
  unfold bind. rewrite K. reflexivity.
Qed.

Lemma run_in {C} e (o : cops C) k s r : In r (run e o k s) -> exists i, (i < k)%nat /\ fst (next e o (after e o i s)) = r.
Proof.
  revert s. induction k as [|k IH]; intros s; cbn [run]; [intros []|].
  destruct (next e o s) as [r1 s1] eqn:E. intros [<-|H].
  - exists O. split; [lia|]. cbn [after]. now rewrite E.
  - destruct (IH _ H) as (i & L & K). exists (S i). split; [lia|]. cbn [after]. now rewrite E.
Qed.
Lemma run_in_rev {C} e (o : cops C) k s i : (i < k)%nat -> In (fst (next e o (after e o i s))) (run e o k s).
Proof.
  revert s i. induction k as [|k IH]; intros s i L; [lia|]. cbn [run]. destruct (next e o s) as [r1 s1] eqn:E.
  destruct i as [|i]; cbn [after]; rewrite E; [now left|right]. apply IH. lia.
Qed.

Lemma none_later e s i j : parser_reachable e s -> (i <= j)%nat ->
  fst (next e cursor_ops (after e cursor_ops i s)) = None -> fst (next e cursor_ops (after e cursor_ops j s)) = None.
Proof.
  intros H L N0. replace j with (i + (j - i))%nat by lia. rewrite after_plus.
  pose proof (after_reachable e i s H) as R. revert R N0. generalize (after e cursor_ops i s). intros t R N0.
  destruct (j - i)%nat as [|k]; [exact N0|]. cbn [after]. destruct (next e cursor_ops t) as [r t'] eqn:E. cbn [fst snd] in *. subst r.
  pose proof (none_stays e t t' R E (S k)) as K.
  pose proof (run_in_rev e cursor_ops (S k) t' k ltac:(lia)) as X. rewrite K in X. now apply repeat_spec in X.
Qed.

Lemma endless_iff e s : parser_reachable e s ->
  (forall k, ~ In None (run e cursor_ops k s)) <->
  exists n, 64 <= id_width (after e cursor_ops n s) /\ pos (after e cursor_ops n s) < total (after e cursor_ops n s).
Proof.
  intros H. split.
  - intros N0. destruct (ends_or_wide e s H) as (n & _ & [[s' K]|K]).
    + destruct (N0 (S n)). pose proof (run_in_rev e cursor_ops (S n) s n ltac:(lia)) as X. now rewrite K in X.
    + exists n. split; [exact K|]. pose proof (after_reachable e n s H) as R. pose proof (pos_le e _ R) as P.
      destruct (N.eq_dec (pos (after e cursor_ops n s)) (total (after e cursor_ops n s))) as [EX|EX]; [|lia].
      apply (exhausted_pos e _ R) in EX. destruct (N0 (S n)).
      pose proof (run_in_rev e cursor_ops (S n) s n ltac:(lia)) as X.
      rewrite (next_exhausted e cursor_ops _ EX (cursor_fuel _)) in X. exact X.
  - intros (n & W & P) k HI. apply run_in in HI as (i & L & HI). pose proof (after_reachable e n s H) as R.
    pose proof (wide_stuck e _ R W P) as ST.
    assert (X : fst (next e cursor_ops (after e cursor_ops (Nat.max i n) s)) = None) by (apply (none_later e s i); [exact H|lia|exact HI]).
    replace (Nat.max i n) with (n + (Nat.max i n - n))%nat in X by lia. rewrite after_plus in X. revert X.
    generalize (Nat.max i n - n)%nat. intros j X.
    assert (A : after e cursor_ops j (after e cursor_ops n s) = after e cursor_ops n s).
    { clear X. induction j as [|j IH]; [reflexivity|]. cbn [after]. rewrite ST. exact IH. }
    rewrite A, ST in X. discriminate X.
Qed.

(** What such an iteration yields from then on. *)
Lemma endless_yields e s n : parser_reachable e s ->
  64 <= id_width (after e cursor_ops n s) -> pos (after e cursor_ops n s) < total (after e cursor_ops n s) ->
  forall k, run e cursor_ops k (after e cursor_ops n s) = repeat (Some (Err (SCursor InvalidReadSize))) k.
Proof. intros H W P. apply stuck_run, (wide_stuck e); [now apply after_reachable|exact W|exact P]. Qed.
