(** Last steps towards the statements of P_Stream.v. *)
From Verif Require Import Base CursorModel CursorSpec CursorHist StreamModel StreamSpec StreamHist
  StreamProofs StreamEffect StreamMain StreamEnd StreamBox StreamAbb StreamTrace.
From Coq Require Import Lia ZifyBool ZifyNat ZifyN.
Local Open Scope N_scope.

Lemma next_snd {C} e (o : cops C) s : snd (next e o s) = snd (advance e o s).
Proof. unfold next. destruct (advance e o s) as [[x|[]|p|] s']; reflexivity. Qed.

(** Every parser a caller can hold lies on the sequence of steps from its start. *)
Lemma reachable_micro e s : parser_reachable e s ->
  exists c n, reachable e c /\ s = micro e cursor_ops n (parser_new c).
Proof.
  intros H. induction H as [c H|s H IH].
  - exists c, 0%nat. split; [exact H|reflexivity].
  - destruct IH as (c & n & HC & ->). destruct (advance_micro e _ H) as (k & K & _).
    exists c, (S k + n)%nat. split; [exact HC|]. rewrite next_snd, K. symmetry. apply micro_plus.
Qed.

(** C16 at the level of [next]. *)
Lemma next_blockinfo e s b len s' : parser_reachable e s ->
  next e cursor_ops s = (Some (Ok (ESubBlock b len)), s') -> b <> 0.
Proof.
  intros H HN. destruct (reachable_micro e s H) as (c & n & _ & E). 
  destruct (advance_micro e s H) as (k & K1 & _ & K2).
  assert (HA : advance e cursor_ops s = (Ok (ESubBlock b len), s')).
  { unfold next in HN. destruct (advance e cursor_ops s) as [[x|[]|p|] s'']; now inversion HN. }
  rewrite HA in K2. cbn [fst] in K2. rewrite E in K2. rewrite <- micro_plus in K2.
  destruct (step e cursor_ops (micro e cursor_ops (k + n) (parser_new c))) as [r t] eqn:ES. cbn [fst] in K2. subst r.
  apply micro_step in ES. apply ES.
Qed.

Lemma run_nested e c n i : (i <= n)%nat ->
  let l := run e cursor_ops n (parser_new c) in
  (count is_end (firstn i l) <= count is_start (firstn i l))%nat /\
  (forall a code fs, nth_error l i = Some (Some (Ok (ERecord a code fs))) ->
     (count is_end (firstn i l) < count is_start (firstn i l))%nat).
Proof.
  intros H. apply (run_depth e cursor_ops n (parser_new c) i); [|exact H]. exists []. split; reflexivity.
Qed.

(** A result that leaves the parser unchanged is repeated forever. *)
Lemma stuck_run {C} e (o : cops C) s r : next e o s = (r, s) -> forall k, run e o k s = repeat r k.
Proof. intros H k. induction k as [|k IH]; [reflexivity|]. cbn [run]. rewrite H. cbn [repeat]. now rewrite IH. Qed.

Lemma stuck_after1 {C} e (o : cops C) s r s1 r1 : next e o s = (r, s1) -> next e o s1 = (r1, s1) ->
  r <> None -> r1 <> None -> forall k, ~ In None (run e o k s).
Proof.
  intros H1 H2 N1 N2 [|k]; cbn [run]; [tauto|]. rewrite H1. rewrite (stuck_run e o s1 r1 H2).
  intros [H|H]; [contradiction|]. apply repeat_spec in H. congruence.
Qed.

Lemma wrapper_main e w payload padding : wrapper_ok w -> wr_offset w = 20 ->
  wr_size w = N.of_nat (length payload) ->
  let buf := wrapper_header w ++ payload ++ padding in
  (forall w' b, from_wrapped e buf = Ok (w', b) -> w' = w) /\
  same_stream e (payload_result (from_wrapped e buf)) (from_raw payload).
Proof.
  intros W HO HS buf. pose proof (from_wrapped_slice e w (payload ++ padding) W) as K. cbn zeta in K.
  rewrite HO, HS, app_length in K. specialize (K ltac:(lia) ltac:(lia) eq_refl). fold buf in K.
  subst buf. rewrite sub_bytes_20 in K. exact K.
Qed.

Lemma wrapper_dispatch e w rest : wrapper_ok w -> wr_magic w = 0x0b17c0de ->
  let buf := wrapper_header w ++ rest in
  from e buf = match from_wrapped e buf with
               | Ok (w, b) => Ok (Some w, b) | Err x => Err x | Panic p => Panic p | OutOfFuel => OutOfFuel
               end.
Proof.
  intros W HM buf. subst buf. unfold wrapper_header. rewrite HM. 
  change (le32 0x0b17c0de) with [b8 0xde; b8 0xc0; b8 0x17; b8 0x0b]. cbn [app].
  rewrite from_dispatch. reflexivity.
Qed.

Lemma no_char6_panic e s : parser_reachable e s -> fst (advance e cursor_ops s) <> Panic PChar6Range.
Proof. intros H K. destruct (advance_main e s H) as (_ & _ & _ & P). exact (P _ K). Qed.
