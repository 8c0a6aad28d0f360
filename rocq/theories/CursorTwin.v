(** Nothing a cursor does depends on buffer bytes at or past its length limit. *)
From Verif Require Import Base CursorModel CursorSpec CursorHist CursorProofs CursorSim CursorVbr CursorMain.
From Coq Require Import Lia ZifyBool ZifyNat ZifyN.
Ltac Zify.zify_post_hook ::= Z.div_mod_to_equations.
Local Open Scope N_scope.
Arguments N.add : simpl never.
Arguments N.mul : simpl never.
Arguments N.div : simpl never.
Arguments N.modulo : simpl never.
Arguments N.sub : simpl never.

Definition trunc (c : cursor) : cursor :=
  mkCursor (byte_len c) (firstn (N.to_nat (byte_len c)) (inner c))
           (byte_pos c) (current_block c) (bit_index c).

Definition commutes {E A} (m : M cursor E A) : Prop :=
  forall c, inv63 c -> m (trunc c) = (fst (m c), trunc (snd (m c))).

Lemma slice_firstn (l : list byte) a b n : b <= n -> n <= N.of_nat (length l) ->
  slice (firstn (N.to_nat n) l) a b = slice l a b.
Proof.
  intros Hb Hn. unfold slice. rewrite firstn_length.
  replace (N.of_nat (Nat.min (N.to_nat n) (length l))) with n by lia.
  destruct (a <=? b) eqn:E; cbn [andb]; [|reflexivity].
  replace (b <=? n) with true by lia. replace (b <=? N.of_nat (length l)) with true by lia.
  f_equal. rewrite skipn_firstn_comm, firstn_firstn. f_equal. lia.
Qed.

Lemma load_commutes : commutes load_current_block.
Proof.
  intros c I. unfold load_current_block.
  change (tell_byte (trunc c)) with (tell_byte c). change (byte_len (trunc c)) with (byte_len c).
  destruct (byte_len c <=? tell_byte c) eqn:E; [reflexivity|].
  cbn [byte_len byte_pos inner clear_block_state trunc].
  assert (L : byte_len c <= N.of_nat (length (inner c))) by apply I.
  change (tell_byte (clear_block_state (trunc c))) with (tell_byte (clear_block_state c)).
  destruct (tell_byte (clear_block_state c) + 8 <? byte_len c) eqn:E2;
    rewrite slice_firstn by lia; destruct (slice _ _ _); reflexivity.
Qed.

Lemma read_commutes n : commutes (read n).
Proof.
  intros c I. unfold read.
  cbn [bit_index current_block trunc].
  destruct ((n =? 0) || (64 <=? n)); [reflexivity|].
  destruct (n <=? bit_index c); [reflexivity|].
  rewrite (load_commutes c I). destruct (load_current_block c) as [[| | |] c']; cbn [fst snd]; try reflexivity.
  cbn [bit_index current_block trunc]. destruct (_ <? _); reflexivity.
Qed.

Lemma commutes_bind {E A B} (m : M cursor E A) (k : A -> M cursor E B) :
  commutes m -> preserves inv63 m -> (forall a, commutes (k a)) -> commutes (bind m k).
Proof.
  intros H1 H2 H3 c I. unfold bind. rewrite (H1 c I). specialize (H2 c I).
  destruct (m c) as [[a| | |] c']; cbn [fst snd] in *; auto. apply H3, H2.
Qed.

Lemma read_pres n : preserves inv63 (op_read cursor_ops n).
Proof. intros c I. apply (read_inv n c I). Qed.

Lemma vbr_loop_commutes e f w r s : commutes (vbr_loop e cursor_ops f w r s).
Proof.
  revert r s. induction f as [|f IH]; intros r s; cbn [vbr_loop]; [intros c I; reflexivity|].
  apply commutes_bind; [apply read_commutes|apply read_pres|].
  intros b. destruct (_ && _); [intros c I; reflexivity|].
  destruct (_ =? 0); [intros c I; reflexivity|apply IH].
Qed.

Lemma read_vbr_commutes e w : commutes (read_vbr e cursor_ops w).
Proof.
  intros c I. unfold read_vbr. destruct (_ && _); [|reflexivity]. apply vbr_loop_commutes, I.
Qed.

Lemma read_svbr_commutes e w : commutes (read_svbr e cursor_ops w).
Proof.
  apply commutes_bind; [apply read_vbr_commutes|apply read_vbr_preserves, read_pres|].
  intros r. destruct (_ =? 0); intros c I; reflexivity.
Qed.

Lemma read_as_commutes t n : commutes (read_as cursor_ops t n).
Proof.
  apply commutes_bind; [apply read_commutes|apply read_pres|].
  intros r. destruct (num_cast t r); intros c I; reflexivity.
Qed.

Lemma seek_bit_commutes p : commutes (seek_bit p).
Proof.
  intros c I. unfold seek_bit. change (byte_len (trunc c)) with (byte_len c).
  destruct (byte_len c <? _) eqn:E; [reflexivity|].
  set (c1 := clear_block_state (mkCursor (byte_len c) (inner c) (N.ldiff (p / 8) 7) 0 0)).
  change (clear_block_state _) with (trunc c1).
  destruct (0 <? p mod 64); [|reflexivity].
  assert (I1 : inv63 c1).
  { pose proof (seek_bit_inv (64 * (p / 64)) c I) as K.
    assert (E8 : N.ldiff (64 * (p / 64) / 8) 7 = N.ldiff (p / 8) 7) by (rewrite !ldiff_7; lia).
    unfold seek_bit in K. rewrite E8, E in K.
    replace ((64 * (p / 64)) mod 64) with 0 in K by lia. cbn [N.ltb N.compare snd] in K. apply K. }
  rewrite (read_commutes _ c1 I1). destruct (read (p mod 64) c1) as [[| | |] c']; reflexivity.
Qed.

Lemma seek_commutes e sf : commutes (seek e sf).
Proof.
  intros c I. unfold seek. change (seek_offset e (trunc c) sf) with (seek_offset e c sf).
  destruct (seek_offset e c sf); try reflexivity. cbn [byte_len trunc].
  destruct (_ <? _); reflexivity.
Qed.

Lemma op_commutes e c o : inv63 c ->
  result_of e (trunc c) o = result_of e c o /\ apply_op e (trunc c) o = trunc (apply_op e c o).
Proof.
  intros I. destruct o as [n|t n|t|w|w| |p|sf]; cbn [result_of apply_op].
  - rewrite (read_commutes n c I). auto.
  - rewrite (read_as_commutes t n c I). auto.
  - unfold read_exact. rewrite (read_as_commutes _ _ c I). auto.
  - rewrite (read_vbr_commutes e w c I). auto.
  - rewrite (read_svbr_commutes e w c I). auto.
  - split; [reflexivity|]. unfold align32. cbn [bit_index trunc]. destruct (32 <=? bit_index c); reflexivity.
  - rewrite (seek_bit_commutes p c I). auto.
  - rewrite (seek_commutes e sf c I). auto.
Qed.

Lemma observe_trunc e ops c : inv63 c -> observe e (trunc c) ops = observe e c ops.
Proof.
  revert c. induction ops as [|o ops IH]; intros c I; [reflexivity|].
  cbn [observe]. destruct (op_commutes e c o I) as [-> ->].
  change (tell_bit (trunc ?x)) with (tell_bit x). change (exhausted (trunc ?x)) with (exhausted x).
  f_equal. apply IH. apply (apply_good e c o c). split; [exact I|apply same_data_refl].
Qed.

Lemma observe_limit e ops buf1 buf2 len c1 c2 :
  cur_new_with_len buf1 len = Ok c1 -> cur_new_with_len buf2 len = Ok c2 ->
  firstn (N.to_nat len) buf1 = firstn (N.to_nat len) buf2 ->
  observe e c1 ops = observe e c2 ops.
Proof.
  intros H1 H2 HE.
  rewrite <- (observe_trunc e ops c1), <- (observe_trunc e ops c2).
  - f_equal. unfold cur_new_with_len in *. destruct (_ <? _); [discriminate|]. destruct (_ <? _); [discriminate|].
    injection H1 as <-. injection H2 as <-. unfold trunc. cbn. now rewrite HE.
  - apply fresh_inv. right. eauto.
  - apply fresh_inv. right. eauto.
Qed.
