(** Lemmas about the cursor model. *)
From Verif Require Import Base CursorModel CursorSpec.
From Coq Require Import Lia ZifyBool ZifyNat ZifyN.
Ltac Zify.zify_post_hook ::= Z.div_mod_to_equations.
Local Open Scope N_scope.
Arguments N.add : simpl never.
Arguments N.mul : simpl never.
Arguments N.div : simpl never.
Arguments N.modulo : simpl never.
Arguments N.shiftl : simpl never.
Arguments N.shiftr : simpl never.
Arguments N.pow : simpl never.
Arguments N.sub : simpl never.

(** ** Bits and numbers *)

Lemma skipn_skipn {A} n m (l : list A) : skipn n (skipn m l) = skipn (n + m) l.
Proof.
  revert l; induction m as [|m IH]; intros l; [now rewrite Nat.add_0_r|].
  rewrite Nat.add_succ_r. destruct l as [|x l]; [now rewrite !skipn_nil|]. apply IH.
Qed.

Lemma byte_bits_length b : length (byte_bits b) = 8%nat.
Proof. reflexivity. Qed.

Lemma bits_of_bytes_length bs : length (bits_of_bytes bs) = (8 * length bs)%nat.
Proof.
  induction bs as [|b bs IH]; [reflexivity|].
  unfold bits_of_bytes in *. cbn [flat_map length]. rewrite app_length, IH, byte_bits_length. lia.
Qed.

Lemma bits_of_bytes_app a b : bits_of_bytes (a ++ b) = bits_of_bytes a ++ bits_of_bytes b.
Proof. apply flat_map_app. Qed.

Lemma bits_of_bytes_skipn n bs :
  bits_of_bytes (skipn n bs) = skipn (8 * n) (bits_of_bytes bs).
Proof.
  revert bs; induction n as [|n IH]; intros bs; [reflexivity|].
  destruct bs as [|b bs]; [rewrite skipn_nil; reflexivity|].
  cbn [skipn]. rewrite IH.
  replace (8 * S n)%nat with (length (byte_bits b) + 8 * n)%nat by (rewrite byte_bits_length; lia).
  change (bits_of_bytes (b :: bs)) with (byte_bits b ++ bits_of_bytes bs).
  rewrite skipn_app, (skipn_all2 (byte_bits b)) by lia. cbn [app]. f_equal. lia.
Qed.

Lemma bits_of_bytes_firstn n bs :
  bits_of_bytes (firstn n bs) = firstn (8 * n) (bits_of_bytes bs).
Proof.
  revert bs; induction n as [|n IH]; intros bs; [reflexivity|].
  destruct bs as [|b bs]; [rewrite firstn_nil; reflexivity|].
  cbn [firstn].
  replace (8 * S n)%nat with (length (byte_bits b) + 8 * n)%nat by (rewrite byte_bits_length; lia).
  change (bits_of_bytes (b :: bs)) with (byte_bits b ++ bits_of_bytes bs).
  rewrite firstn_app_2. change (bits_of_bytes (b :: firstn n bs)) with (byte_bits b ++ bits_of_bytes (firstn n bs)).
  f_equal. apply IH.
Qed.

Lemma N_of_bits_bound bs : N_of_bits bs < 2 ^ N.of_nat (length bs).
Proof.
  induction bs as [|b bs IH]; cbn [N_of_bits length].
  - rewrite N.pow_0_r. lia.
  - rewrite Nat2N.inj_succ, N.pow_succ_r'. destruct b; lia.
Qed.

Lemma N_of_bits_app a b :
  N_of_bits (a ++ b) = N_of_bits a + 2 ^ N.of_nat (length a) * N_of_bits b.
Proof.
  induction a as [|x a IH]; cbn [app N_of_bits length].
  - rewrite N.pow_0_r. lia.
  - rewrite IH, Nat2N.inj_succ, N.pow_succ_r'. destruct x; lia.
Qed.

Lemma N_of_bits_firstn n bs :
  N_of_bits (firstn n bs) = N_of_bits bs mod 2 ^ N.of_nat n.
Proof.
  rewrite <- (firstn_skipn n bs) at 2. rewrite N_of_bits_app.
  destruct (Nat.le_gt_cases n (length bs)) as [H|H].
  - rewrite firstn_length, Nat.min_l by lia.
    rewrite (N.mul_comm (2 ^ _)), N.mod_add by (apply N.pow_nonzero; lia).
    symmetry. apply N.mod_small.
    pose proof (N_of_bits_bound (firstn n bs)) as B.
    rewrite firstn_length, Nat.min_l in B by lia. exact B.
  - rewrite skipn_all2 by lia. cbn [N_of_bits]. rewrite N.mul_0_r, N.add_0_r.
    symmetry. apply N.mod_small.
    pose proof (N_of_bits_bound (firstn n bs)) as B.
    eapply N.lt_le_trans; [exact B|]. apply N.pow_le_mono_r; [lia|].
    rewrite firstn_length. lia.
Qed.

Lemma N_of_bits_skipn n bs :
  N_of_bits (skipn n bs) = N_of_bits bs / 2 ^ N.of_nat n.
Proof.
  rewrite <- (firstn_skipn n bs) at 2. rewrite N_of_bits_app.
  destruct (Nat.le_gt_cases n (length bs)) as [H|H].
  - rewrite firstn_length, Nat.min_l by lia.
    rewrite (N.mul_comm (2 ^ _)), N.div_add by (apply N.pow_nonzero; lia).
    rewrite (N.div_small (N_of_bits (firstn n bs))); [lia|].
    pose proof (N_of_bits_bound (firstn n bs)) as B.
    rewrite firstn_length, Nat.min_l in B by lia. exact B.
  - rewrite skipn_all2 by lia. cbn [N_of_bits]. rewrite N.mul_0_r, N.add_0_r.
    symmetry. apply N.div_small.
    pose proof (N_of_bits_bound (firstn n bs)) as B.
    eapply N.lt_le_trans; [exact B|]. apply N.pow_le_mono_r; [lia|].
    rewrite firstn_length. lia.
Qed.

Lemma N_of_byte_bits b : N_of_bits (byte_bits b) = Byte.to_N b.
Proof. destruct b; reflexivity. Qed.

Lemma byte_lt b : Byte.to_N b < 256.
Proof. destruct b; reflexivity. Qed.

Lemma bits_of_N_length n v : length (bits_of_N n v) = n.
Proof. revert v; induction n as [|n IH]; intros v; cbn [bits_of_N length]; [reflexivity|]. now rewrite IH. Qed.

Lemma N_odd_div2 v : v = (if N.odd v then 1 else 0) + 2 * (v / 2).
Proof.
  rewrite (N.div_mod' v 2) at 1. rewrite <- N.bit0_mod, N.bit0_odd.
  destruct (N.odd v); cbn [N.b2n]; lia.
Qed.

Lemma N_of_bits_of_N n v : N_of_bits (bits_of_N n v) = v mod 2 ^ N.of_nat n.
Proof.
  revert v; induction n as [|n IH]; intros v; cbn [bits_of_N N_of_bits].
  - rewrite N.pow_0_r, N.mod_1_r. reflexivity.
  - rewrite IH, Nat2N.inj_succ, N.pow_succ_r'.
    rewrite N.mod_mul_r by (try apply N.pow_nonzero; lia).
    rewrite <- N.bit0_mod, N.bit0_odd. destruct (N.odd v); reflexivity.
Qed.

Lemma bits_of_N_of_bits bs : bits_of_N (length bs) (N_of_bits bs) = bs.
Proof.
  induction bs as [|b bs IH]; cbn [length bits_of_N N_of_bits]; [reflexivity|].
  f_equal.
  - rewrite N.odd_add, N.odd_mul. destruct b; reflexivity.
  - rewrite (N.mul_comm 2), N.div_add by lia.
    replace ((if b then 1 else 0) / 2) with 0 by (destruct b; reflexivity). exact IH.
Qed.

Lemma fixed_bits_length w v : length (fixed_bits w v) = N.to_nat w.
Proof. apply bits_of_N_length. Qed.

Lemma N_of_fixed_bits w v : v < 2 ^ w -> N_of_bits (fixed_bits w v) = v.
Proof.
  intros H. unfold fixed_bits. rewrite N_of_bits_of_N, N2Nat.id. now apply N.mod_small.
Qed.

(** Disjoint or is addition. *)
Lemma lor_shiftl_add a b s : a < 2 ^ s -> N.lor a (N.shiftl b s) = a + 2 ^ s * b.
Proof.
  intros H.
  rewrite N.shiftl_mul_pow2, N.mul_comm.
  rewrite <- N.lxor_lor, <- N.add_nocarry_lxor; [reflexivity| |].
  - apply N.bits_inj. intros i. rewrite N.land_spec, N.bits_0.
    rewrite N.mul_comm, <- N.shiftl_mul_pow2.
    destruct (N.lt_ge_cases i s) as [Hi|Hi].
    + rewrite N.shiftl_spec_low by exact Hi. apply andb_false_r.
    + replace a with (a mod 2 ^ s) by (now apply N.mod_small).
      rewrite N.mod_pow2_bits_high by exact Hi. reflexivity.
  - apply N.bits_inj. intros i. rewrite N.land_spec, N.bits_0.
    rewrite N.mul_comm, <- N.shiftl_mul_pow2.
    destruct (N.lt_ge_cases i s) as [Hi|Hi].
    + rewrite N.shiftl_spec_low by exact Hi. apply andb_false_r.
    + replace a with (a mod 2 ^ s) by (now apply N.mod_small).
      rewrite N.mod_pow2_bits_high by exact Hi. reflexivity.
Qed.

Lemma two64_pow : two64 = 2 ^ 64.
Proof. reflexivity. Qed.

Lemma shl64_exact x s k : x < 2 ^ k -> k + s <= 64 -> shl64 x s = N.shiftl x s.
Proof.
  intros H Hk. unfold shl64. apply N.mod_small.
  rewrite N.shiftl_mul_pow2, two64_pow.
  apply N.lt_le_trans with (2 ^ k * 2 ^ s).
  - apply N.mul_lt_mono_pos_r; [|exact H]. apply N.neq_0_lt_0, N.pow_nonzero. lia.
  - rewrite <- N.pow_add_r. apply N.pow_le_mono_r; lia.
Qed.

Lemma mask_low_spec x n : 1 <= n <= 64 -> mask_low x n = x mod 2 ^ n.
Proof.
  intros H. unfold mask_low.
  replace (N.shiftr u64_max (64 - n)) with (N.ones n).
  - apply N.land_ones.
  - change u64_max with (N.ones 64). rewrite N.shiftr_div_pow2.
    rewrite N.ones_div_pow2 by lia. f_equal. lia.
Qed.

(** ** Assembling a block *)

Lemma assemble_spec bs idx acc :
  N.of_nat (length bs) + idx <= 8 ->
  acc < 2 ^ (8 * idx) ->
  assemble idx bs acc = acc + 2 ^ (8 * idx) * N_of_bits (bits_of_bytes bs).
Proof.
  revert idx acc; induction bs as [|b bs IH]; intros idx acc Hl Ha; cbn [assemble].
  - cbn. lia.
  - cbn [length] in Hl.
    rewrite (shl64_exact _ _ 8) by (try apply byte_lt; lia).
    rewrite (N.mul_comm idx 8), lor_shiftl_add by exact Ha.
    pose proof (byte_lt b) as Hb.
    assert (E : 2 ^ (8 * (idx + 1)) = 2 ^ (8 * idx) * 256)
      by (rewrite N.mul_add_distr_l, N.pow_add_r; reflexivity).
    rewrite IH; [|lia|].
    + change (bits_of_bytes (b :: bs)) with (byte_bits b ++ bits_of_bytes bs).
      rewrite N_of_bits_app, N_of_byte_bits, byte_bits_length, E.
      change (2 ^ N.of_nat 8) with 256. lia.
    + rewrite E. nia.
Qed.

(** ** The invariant and the abstraction *)

(** The bytes the cursor may read. *)
Definition data (c : cursor) : list byte := firstn (N.to_nat (byte_len c)) (inner c).

(** The bits from the current position on. *)
Definition rem (c : cursor) : list bool :=
  skipn (N.to_nat (tell_bit c)) (bits_of_bytes (data c)).

Record inv (c : cursor) : Prop := {
  inv_len : byte_len c <= N.of_nat (length (inner c));
  inv_pos : byte_pos c <= byte_len c;
  inv_idx : bit_index c <= 8 * byte_pos c;
  inv_idx64 : bit_index c <= 64;
  inv_block : current_block c = N_of_bits (firstn (N.to_nat (bit_index c)) (rem c))
}.

Lemma data_length c : inv c -> length (data c) = N.to_nat (byte_len c).
Proof. intros [H _ _ _ _]. unfold data. rewrite firstn_length. lia. Qed.

Lemma bits_length c : inv c -> length (bits_of_bytes (data c)) = N.to_nat (bit_len c).
Proof. intros H. rewrite bits_of_bytes_length, data_length by exact H. unfold bit_len. lia. Qed.

Lemma rem_length c : inv c -> length (rem c) = N.to_nat (bit_len c - tell_bit c).
Proof. intros H. unfold rem. rewrite skipn_length, bits_length by exact H. lia. Qed.

Lemma inv_new buf : inv (cur_new buf).
Proof. split; cbn; lia. Qed.

Lemma inv_new_with_len buf len c : cur_new_with_len buf len = Ok c -> inv c.
Proof.
  unfold cur_new_with_len. destruct (N.of_nat (length buf) <? len) eqn:E; [discriminate|].
  intros [= <-]. split; cbn; lia.
Qed.

Lemma inv_clear c : inv c -> inv (clear_block_state c).
Proof. intros [H1 H2 H3 H4 H5]. split; cbn; try lia; try reflexivity. Qed.

Lemma tell_bit_le c : inv c -> tell_bit c <= bit_len c.
Proof. intros [H1 H2 H3 H4 H5]. unfold tell_bit, bit_len. lia. Qed.

(** Dropping bits from the front of the block. *)
Lemma inv_drop_bits n c : inv c -> n <= bit_index c ->
  inv (drop_bits n c) /\ rem (drop_bits n c) = skipn (N.to_nat n) (rem c) /\
  tell_bit (drop_bits n c) = tell_bit c + n.
Proof.
  intros I Hn. pose proof I as [H1 H2 H3 H4 H5].
  assert (T : tell_bit (drop_bits n c) = tell_bit c + n)
    by (unfold tell_bit, drop_bits; cbn; lia).
  assert (R : rem (drop_bits n c) = skipn (N.to_nat n) (rem c)).
  { unfold rem. rewrite T. rewrite skipn_skipn.
    replace (N.to_nat (tell_bit c + n)) with (N.to_nat n + N.to_nat (tell_bit c))%nat by lia.
    reflexivity. }
  split; [|split; assumption].
  split; cbn -[N.to_nat]; try lia.
  rewrite R, H5, N.shiftr_div_pow2.
  rewrite <- (N2Nat.id n) at 1. rewrite <- N_of_bits_skipn.
  rewrite skipn_firstn_comm. f_equal. f_equal. lia.
Qed.

(** Loading a block: either nothing is left at the byte position, or the state
    after it has the next (at most 8) bytes loaded. *)
Lemma load_spec c : inv c ->
  load_current_block c =
    (if bit_len c =? tell_bit c then (Err Eof, c)
     else (Ok tt, snd (load_current_block c))) /\
  (bit_len c <> tell_bit c ->
   let c' := snd (load_current_block c) in
   inv c' /\ tell_bit c' = 8 * byte_pos c /\
   rem c' = skipn (N.to_nat (bit_index c)) (rem c) /\
   byte_len c' = byte_len c /\ inner c' = inner c /\
   bit_index c' = 8 * N.min 8 (byte_len c - byte_pos c)).
Proof.
  intros I. pose proof I as [H1 H2 H3 H4 H5].
  unfold load_current_block.
  destruct (byte_len c <=? tell_byte c) eqn:E.
  { assert (bit_len c = tell_bit c) as ->
      by (unfold tell_byte, tell_bit, bit_len in *; lia).
    rewrite N.eqb_refl. split; [reflexivity|]. intros K. now elim K. }
  assert (Hne : (bit_len c =? tell_bit c) = false)
    by (unfold tell_byte, tell_bit, bit_len in *; lia).
  rewrite Hne.
  set (c0 := clear_block_state c).
  assert (T0 : tell_byte c0 = byte_pos c)
    by (unfold tell_byte, tell_bit, c0, clear_block_state; cbn [byte_pos bit_index]; lia).
  rewrite T0.
  set (n := N.min 8 (byte_len c - byte_pos c)).
  set (bs := firstn (N.to_nat n) (skipn (N.to_nat (byte_pos c)) (inner c))).
  assert (S : (if byte_pos c + 8 <? byte_len c0
               then slice (inner c0) (byte_pos c) (byte_pos c + 8)
               else slice (inner c0) (byte_pos c) (byte_len c0)) = Some bs).
  { change (byte_len c0) with (byte_len c). change (inner c0) with (inner c).
    unfold slice, bs, n. destruct (byte_pos c + 8 <? byte_len c) eqn:E8.
    - replace ((byte_pos c <=? byte_pos c + 8) &&
               (byte_pos c + 8 <=? N.of_nat (length (inner c)))) with true by lia.
      do 3 f_equal. lia.
    - replace ((byte_pos c <=? byte_len c) &&
               (byte_len c <=? N.of_nat (length (inner c)))) with true by lia.
      do 3 f_equal. lia. }
  rewrite S. cbn [snd].
  assert (Lb : N.of_nat (length bs) = n).
  { unfold bs. rewrite firstn_length, skipn_length. lia. }
  split; [reflexivity|]. intros _.
  rewrite Lb.
  change (byte_len c0) with (byte_len c). change (inner c0) with (inner c).
  change (byte_pos c0) with (byte_pos c).
  set (c' := mkCursor _ _ _ _ _).
  assert (T : tell_bit c' = 8 * byte_pos c) by (unfold tell_bit, c'; cbn [byte_pos bit_index]; lia).
  assert (D : data c' = data c) by reflexivity.
  assert (R : rem c' = skipn (N.to_nat (bit_index c)) (rem c)).
  { unfold rem. rewrite T, D, skipn_skipn. f_equal. unfold tell_bit. lia. }
  assert (R2 : rem c' = bits_of_bytes (skipn (N.to_nat (byte_pos c)) (data c))).
  { unfold rem. rewrite T, D, bits_of_bytes_skipn. f_equal. lia. }
  split; [|repeat split; try assumption; try reflexivity; unfold c'; cbn [bit_index]; lia].
  split; unfold c'; cbn [byte_len inner byte_pos bit_index current_block]; try lia.
  fold c'. rewrite assemble_spec by (rewrite ?Lb; cbn; lia).
  change (2 ^ (8 * 0)) with 1. rewrite N.mul_1_l, N.add_0_l. f_equal.
  rewrite R2. replace (N.to_nat (n * 8)) with (8 * N.to_nat n)%nat by lia.
  rewrite <- bits_of_bytes_firstn. f_equal.
  unfold bs, data. rewrite skipn_firstn_comm, firstn_firstn. f_equal. lia.
Qed.

(** ** [read] *)

Lemma read_invalid n c : n = 0 \/ 64 <= n -> read n c = (Err InvalidReadSize, c).
Proof.
  intros H. unfold read. replace ((n =? 0) || (64 <=? n)) with true by lia. reflexivity.
Qed.

Lemma rem_split c : inv c ->
  N.of_nat (length (rem c)) = bit_index c + 8 * (byte_len c - byte_pos c).
Proof.
  intros I. rewrite rem_length by exact I. pose proof I as [H1 H2 H3 H4 H5].
  unfold bit_len, tell_bit. lia.
Qed.

Lemma read_ok n c : inv c -> 1 <= n <= 63 -> n <= N.of_nat (length (rem c)) ->
  exists c',
  read n c = (Ok (N_of_bits (firstn (N.to_nat n) (rem c))), c') /\
  inv c' /\ rem c' = skipn (N.to_nat n) (rem c) /\
  tell_bit c' = tell_bit c + n /\
  byte_len c' = byte_len c /\ inner c' = inner c /\
  (byte_pos c mod 4 = 0 -> byte_len c mod 4 = 0 -> byte_pos c' mod 4 = 0).
Proof.
  intros I Hn Hr. pose proof I as [H1 H2 H3 H4 H5].
  unfold read. replace ((n =? 0) || (64 <=? n)) with false by lia.
  destruct (n <=? bit_index c) eqn:E.
  - destruct (inv_drop_bits n c I ltac:(lia)) as (I' & R' & T').
    exists (drop_bits n c). split; [|split; [exact I'|]; split; [exact R'|]; split; [exact T'|]; auto].
    do 2 f_equal. rewrite mask_low_spec, H5 by lia.
    rewrite <- (N2Nat.id n) at 1. rewrite <- N_of_bits_firstn, firstn_firstn. do 2 f_equal. lia.
  - pose proof (rem_split c I) as RS.
    destruct (load_spec c I) as [L L'].
    assert (Hne : bit_len c <> tell_bit c).
    { intros K. rewrite rem_length, K in Hr by exact I. lia. }
    specialize (L' Hne). cbv zeta in L'.
    replace (bit_len c =? tell_bit c) with false in L by lia.
    rewrite L. set (c1 := snd (load_current_block c)) in *.
    destruct L' as (I1 & T1 & R1 & BL1 & IN1 & BI1).
    replace (bit_index c1 <? n - bit_index c) with false by lia.
    destruct (inv_drop_bits (n - bit_index c) c1 I1 ltac:(lia)) as (I' & R' & T').
    exists (drop_bits (n - bit_index c) c1).
    assert (BP1 : byte_pos c1 = byte_pos c + N.min 8 (byte_len c - byte_pos c)).
    { destruct I1 as [_ _ K3 _ _]. unfold tell_bit in T1. lia. }
    split; [|split; [exact I'|]; split; [|split; [|split; [|split]]]].
    + do 2 f_equal.
      replace (if 0 <? bit_index c then current_block c else 0)
        with (N_of_bits (firstn (N.to_nat (bit_index c)) (rem c))).
      2:{ rewrite <- H5. destruct (0 <? bit_index c) eqn:Z0; [reflexivity|].
          rewrite H5. replace (bit_index c) with 0 by lia. reflexivity. }
      rewrite mask_low_spec by lia.
      destruct I1 as [K1 K2 K3 K4 K5]. rewrite K5.
      rewrite <- (N2Nat.id (n - bit_index c)) at 1. rewrite <- N_of_bits_firstn, firstn_firstn.
      replace (Nat.min (N.to_nat (n - bit_index c)) (N.to_nat (bit_index c1)))
        with (N.to_nat (n - bit_index c)) by lia.
      set (p2 := firstn (N.to_nat (n - bit_index c)) (rem c1)).
      set (p1 := firstn (N.to_nat (bit_index c)) (rem c)).
      assert (Lp1 : N.of_nat (length p1) = bit_index c) by (unfold p1; rewrite firstn_length; lia).
      pose proof (N_of_bits_bound p1) as B1. rewrite Lp1 in B1.
      pose proof (N_of_bits_bound p2) as B2.
      assert (Lp2 : N.of_nat (length p2) = n - bit_index c).
      { unfold p2. rewrite firstn_length, R1, skipn_length. lia. }
      rewrite Lp2 in B2.
      replace (n - (n - bit_index c)) with (bit_index c) by lia.
      rewrite (shl64_exact _ _ (n - bit_index c)) by (try exact B2; lia).
      rewrite lor_shiftl_add by exact B1.
      rewrite <- Lp1, <- N_of_bits_app. f_equal.
      unfold p1, p2. rewrite R1.
      rewrite <- (firstn_skipn (N.to_nat (bit_index c)) (rem c)) at 3.
      rewrite firstn_app. rewrite firstn_firstn, firstn_length.
      f_equal; f_equal; lia.
    + rewrite R', R1, skipn_skipn. f_equal. lia.
    + rewrite T', T1. unfold tell_bit. lia.
    + exact BL1.
    + exact IN1.
    + intros A4 L4. change (byte_pos (drop_bits (n - bit_index c) c1)) with (byte_pos c1).
      rewrite BP1. lia.
Qed.

Lemma read_fail n c : inv c -> 1 <= n <= 63 -> N.of_nat (length (rem c)) < n ->
  (rem c = [] /\ read n c = (Err Eof, c)) \/
  (rem c <> [] /\ exists c', read n c = (Err Short, c') /\ inv c' /\
   rem c' = skipn (N.to_nat (bit_index c)) (rem c) /\
   tell_bit c' = 8 * byte_pos c /\
   byte_len c' = byte_len c /\ inner c' = inner c).
Proof.
  intros I Hn Hr. pose proof I as [H1 H2 H3 H4 H5].
  pose proof (rem_split c I) as RS.
  unfold read. replace ((n =? 0) || (64 <=? n)) with false by lia.
  replace (n <=? bit_index c) with false by lia.
  destruct (load_spec c I) as [L L'].
  pose proof (rem_length c I) as RL. pose proof (tell_bit_le c I) as TL.
  destruct (bit_len c =? tell_bit c) eqn:E.
  - left. split; [|rewrite L; reflexivity].
    apply length_zero_iff_nil. lia.
  - right. split.
    { intros K. rewrite K in RL. cbn [length] in RL. lia. }
    specialize (L' ltac:(lia)). cbv zeta in L'.
    rewrite L. set (c1 := snd (load_current_block c)) in *.
    destruct L' as (I1 & T1 & R1 & BL1 & IN1 & BI1).
    replace (bit_index c1 <? n - bit_index c) with true by lia.
    exists c1. auto 10.
Qed.

(** ** States between operations: at most 63 buffered bits *)

Definition inv63 (c : cursor) : Prop := inv c /\ bit_index c <= 63.

(** Buffer and limit never change. *)
Definition same_data (c c' : cursor) : Prop := inner c' = inner c /\ byte_len c' = byte_len c.

Lemma same_data_refl c : same_data c c.
Proof. split; reflexivity. Qed.

Lemma same_data_trans a b c : same_data a b -> same_data b c -> same_data a c.
Proof. intros [H1 H2] [H3 H4]. split; congruence. Qed.

Lemma same_data_bits c c' : same_data c c' -> data c' = data c /\ bit_len c' = bit_len c.
Proof. intros [H1 H2]. unfold data, bit_len. rewrite H1, H2. auto. Qed.

Definition aligned4 (c : cursor) : Prop := byte_pos c mod 4 = 0 /\ byte_len c mod 4 = 0.

Lemma load_bit_index c c' : load_current_block c = (Ok tt, c') ->
  byte_pos c' = byte_pos c + bit_index c' / 8.
Proof.
  unfold load_current_block. destruct (byte_len c <=? tell_byte c); [discriminate|].
  destruct (if _ <? _ then _ else _) as [bs|]; [|discriminate].
  intros [= <-]. cbn [byte_pos bit_index clear_block_state]. f_equal.
  rewrite N.div_mul; lia.
Qed.

(** Every [read] keeps the invariant, whatever its result. *)
Lemma read_inv n c : inv63 c ->
  inv63 (snd (read n c)) /\ same_data c (snd (read n c)) /\
  (aligned4 c -> aligned4 (snd (read n c))).
Proof.
  intros [I I63]. pose proof I as [H1 H2 H3 H4 H5].
  destruct (N.eq_dec n 0) as [->|Hn0]; [cbn; split; [split|split]; auto using same_data_refl|].
  destruct (N.lt_ge_cases n 64) as [Hn|Hn].
  2:{ rewrite read_invalid by lia. cbn; split; [split|split]; auto using same_data_refl. }
  unfold read. replace ((n =? 0) || (64 <=? n)) with false by lia.
  destruct (n <=? bit_index c) eqn:E.
  { destruct (inv_drop_bits n c I ltac:(lia)) as (I' & R' & T'). cbn [snd].
    split; [split; [exact I'|cbn; lia]|]. split; [split; reflexivity|].
    intros [A B]. split; assumption. }
  destruct (load_spec c I) as [L L'].
  destruct (bit_len c =? tell_bit c) eqn:E2.
  { rewrite L. cbn [snd]. split; [split|split]; auto using same_data_refl. }
  specialize (L' ltac:(lia)). cbv zeta in L'. rewrite L.
  set (c1 := snd (load_current_block c)) in *.
  destruct L' as (I1 & T1 & R1 & BL1 & IN1 & BI1).
  pose proof (load_bit_index _ _ L) as BP1.
  destruct (bit_index c1 <? n - bit_index c) eqn:E3; cbn [snd].
  - split; [split; [exact I1|lia]|]. split; [split; assumption|].
    intros [A B]. split; [|congruence]. rewrite BP1. lia.
  - destruct (inv_drop_bits (n - bit_index c) c1 I1 ltac:(lia)) as (I' & R' & T').
    split; [split; [exact I'|cbn; lia]|]. split; [split; assumption|].
    intros [A B]. split; [|cbn; congruence].
    change (byte_pos (drop_bits (n - bit_index c) c1)) with (byte_pos c1). rewrite BP1. lia.
Qed.

Lemma read_no_panic n c : inv c ->
  forall p, fst (read n c) <> Panic p.
Proof.
  intros I p. 
  destruct (N.eq_dec n 0) as [->|Hn0]; [rewrite read_invalid by lia; discriminate|].
  destruct (N.lt_ge_cases n 64) as [Hn|Hn]; [|rewrite read_invalid by lia; discriminate].
  destruct (N.le_gt_cases n (N.of_nat (length (rem c)))) as [Hr|Hr].
  - destruct (read_ok n c I ltac:(lia) Hr) as (c' & -> & _). discriminate.
  - destruct (read_fail n c I ltac:(lia) Hr) as [[_ ->]|[_ (c' & -> & _)]]; discriminate.
Qed.

Lemma read_fuel_free n c : inv c -> fst (read n c) <> OutOfFuel.
Proof.
  intros I.
  destruct (N.eq_dec n 0) as [->|Hn0]; [rewrite read_invalid by lia; discriminate|].
  destruct (N.lt_ge_cases n 64) as [Hn|Hn]; [|rewrite read_invalid by lia; discriminate].
  destruct (N.le_gt_cases n (N.of_nat (length (rem c)))) as [Hr|Hr].
  - destruct (read_ok n c I ltac:(lia) Hr) as (c' & -> & _). discriminate.
  - destruct (read_fail n c I ltac:(lia) Hr) as [[_ ->]|[_ (c' & -> & _)]]; discriminate.
Qed.

(** ** [align32] *)

Lemma align32_inv c : inv63 c -> inv63 (align32 c) /\ same_data c (align32 c) /\
  (aligned4 c -> aligned4 (align32 c)).
Proof.
  intros [I I63]. pose proof I as [H1 H2 H3 H4 H5]. unfold align32.
  destruct (32 <=? bit_index c) eqn:E.
  - destruct (inv_drop_bits (bit_index c - 32) c I ltac:(lia)) as (I' & R' & T').
    assert (Eq : mkCursor (byte_len c) (inner c) (byte_pos c)
             (N.shiftr (current_block c) (bit_index c - 32)) 32 = drop_bits (bit_index c - 32) c).
    { unfold drop_bits. f_equal. lia. }
    rewrite Eq. split; [split; [exact I'|cbn; lia]|]. split; [split; reflexivity|]. intros [A B]; split; assumption.
  - split; [split; [apply inv_clear; exact I|cbn; lia]|]. split; [split; reflexivity|].
    intros [A B]; split; assumption.
Qed.

Lemma align32_tell c : inv63 c -> byte_pos c mod 4 = 0 ->
  tell_bit (align32 c) = 32 * ((tell_bit c + 31) / 32).
Proof.
  intros [[H1 H2 H3 H4 H5] I63] A. unfold align32, tell_bit.
  destruct (32 <=? bit_index c) eqn:E; cbn [byte_pos bit_index clear_block_state]; lia.
Qed.

Lemma align32_rem c : inv63 c -> aligned4 c ->
  rem (align32 c) = skipn (length (rem c) mod 32) (rem c).
Proof.
  intros I [A B]. pose proof (align32_inv c I) as (I' & S & _).
  pose proof (align32_tell c I A) as T.
  destruct (same_data_bits _ _ S) as [D L].
  pose proof I as [I0 I63].
  rewrite rem_length by exact I0.
  unfold rem. rewrite D, T, skipn_skipn. f_equal.
  pose proof (tell_bit_le c I0). unfold bit_len in *. lia.
Qed.

(** ** [exhausted] *)

Lemma exhausted_spec c : inv c -> exhausted c = true <-> rem c = [].
Proof.
  intros I. pose proof (rem_split c I) as RS. pose proof I as [H1 H2 H3 H4 H5].
  unfold exhausted. rewrite <- length_zero_iff_nil. lia.
Qed.

(** ** [seek_bit] *)

Lemma ldiff_7 a : N.ldiff a 7 = 8 * (a / 8).
Proof.
  change 7 with (N.ones 3). rewrite N.ldiff_ones_r, N.shiftr_div_pow2, N.shiftl_mul_pow2.
  change (2 ^ 3) with 8. lia.
Qed.

Lemma read_ok63 n c : inv63 c -> 1 <= n <= 63 -> n <= N.of_nat (length (rem c)) ->
  exists c',
  read n c = (Ok (N_of_bits (firstn (N.to_nat n) (rem c))), c') /\
  inv63 c' /\ rem c' = skipn (N.to_nat n) (rem c) /\
  tell_bit c' = tell_bit c + n /\ same_data c c' /\ (aligned4 c -> aligned4 c').
Proof.
  intros I Hn Hr. destruct (read_ok n c (proj1 I) Hn Hr) as (c' & E & I' & R' & T' & _).
  pose proof (read_inv n c I) as (J & S & A). rewrite E in *. cbn [snd] in *.
  exists c'. auto 10.
Qed.

Lemma read_fail63 n c : inv63 c -> 1 <= n <= 63 -> N.of_nat (length (rem c)) < n ->
  (rem c = [] /\ read n c = (Err Eof, c)) \/
  (rem c <> [] /\ exists c', read n c = (Err Short, c') /\ inv63 c' /\
   rem c' = skipn (N.to_nat (bit_index c)) (rem c) /\
   tell_bit c' = 8 * byte_pos c /\ same_data c c').
Proof.
  intros I Hn Hr. destruct (read_fail n c (proj1 I) Hn Hr) as [K|[K (c' & E & I' & R' & T' & _)]]; [left; exact K|].
  right. split; [exact K|].
  pose proof (read_inv n c I) as (J & S & A). rewrite E in *. cbn [snd] in *.
  exists c'. auto 10.
Qed.

Lemma seek_bit_start c bp : inv c -> bp <= byte_len c ->
  let c0 := clear_block_state (mkCursor (byte_len c) (inner c) bp 0 0) in
  inv63 c0 /\ tell_bit c0 = 8 * bp /\ same_data c c0 /\ byte_pos c0 = bp.
Proof.
  intros [H1 H2 H3 H4 H5] Hb. cbv zeta.
  split; [split; [split|]|split; [unfold tell_bit|repeat split]]; cbn [clear_block_state byte_len inner byte_pos bit_index current_block]; try lia; reflexivity.
Qed.

Lemma seek_bit_ok p c : inv c -> p <= bit_len c ->
  exists c', seek_bit p c = (Ok tt, c') /\ inv63 c' /\ tell_bit c' = p /\ same_data c c'.
Proof.
  intros I Hp. unfold seek_bit. rewrite ldiff_7.
  replace (p / 8 / 8) with (p / 64) by (rewrite N.div_div by lia; reflexivity).
  unfold bit_len in Hp.
  replace (byte_len c <? 8 * (p / 64)) with false by lia.
  destruct (seek_bit_start c (8 * (p / 64)) I ltac:(lia)) as (I0 & T0 & S0 & _).
  set (c0 := clear_block_state _) in *.
  destruct (0 <? p mod 64) eqn:E.
  - assert (L0 : N.of_nat (length (rem c0)) = bit_len c0 - tell_bit c0) by (rewrite rem_length by exact (proj1 I0); lia).
    destruct (same_data_bits _ _ S0) as [D0 B0].
    destruct (read_ok63 (p mod 64) c0 I0 ltac:(lia)) as (c' & -> & I' & R' & T' & S' & _).
    { rewrite L0, B0, T0. unfold bit_len. lia. }
    exists c'. split; [reflexivity|]. split; [exact I'|].
    split; [rewrite T', T0; lia|]. exact (same_data_trans _ _ _ S0 S').
  - exists c0. split; [reflexivity|]. split; [exact I0|]. split; [lia|exact S0].
Qed.

Lemma seek_bit_err p c : inv c -> bit_len c < p ->
  exists e c', seek_bit p c = (Err e, c') /\ (e = Eof \/ e = Short).
Proof.
  intros I Hp. unfold seek_bit. rewrite ldiff_7.
  replace (p / 8 / 8) with (p / 64) by (rewrite N.div_div by lia; reflexivity).
  unfold bit_len in Hp.
  destruct (byte_len c <? 8 * (p / 64)) eqn:E0; [eauto|].
  destruct (seek_bit_start c (8 * (p / 64)) I ltac:(lia)) as (I0 & T0 & S0 & _).
  set (c0 := clear_block_state _) in *.
  replace (0 <? p mod 64) with true by lia.
  assert (L0 : N.of_nat (length (rem c0)) = bit_len c0 - tell_bit c0) by (rewrite rem_length by exact (proj1 I0); lia).
  destruct (same_data_bits _ _ S0) as [D0 B0].
  destruct (read_fail63 (p mod 64) c0 I0 ltac:(lia)) as [[_ ->]|[_ (c' & -> & _)]]; eauto.
  rewrite L0, B0, T0. unfold bit_len. lia.
Qed.

Lemma seek_bit_inv p c : inv63 c ->
  inv63 (snd (seek_bit p c)) /\ same_data c (snd (seek_bit p c)) /\
  (aligned4 c -> aligned4 (snd (seek_bit p c))).
Proof.
  intros I. unfold seek_bit. rewrite ldiff_7.
  destruct (byte_len c <? 8 * (p / 8 / 8)) eqn:E; [auto using same_data_refl|].
  destruct (seek_bit_start c (8 * (p / 8 / 8)) (proj1 I) ltac:(lia)) as (I0 & T0 & S0 & P0).
  set (c0 := clear_block_state _) in *.
  assert (A0 : aligned4 c -> aligned4 c0).
  { intros [A B]. split; [rewrite P0; lia|]. destruct S0 as [_ ->]. exact B. }
  destruct (0 <? p mod 64) eqn:E1; [|auto].
  pose proof (read_inv (p mod 64) c0 I0) as (I1 & S1 & A1).
  destruct (read (p mod 64) c0) as [[]]; cbn [snd] in *; eauto 6 using same_data_trans.
Qed.

(** ** [io::Seek] *)

Lemma as_i64_small x : x < 9223372036854775808 -> as_i64 x = Z.of_N x.
Proof.
  intros H. unfold as_i64, two64. rewrite N.mod_small by lia.
  replace (x <? 9223372036854775808) with true by lia. reflexivity.
Qed.

Lemma seek_ok_state c off : inv c -> off <= byte_len c ->
  let c' := clear_block_state (mkCursor (byte_len c) (inner c) off (current_block c) (bit_index c)) in
  inv63 c' /\ tell_bit c' = 8 * off /\ same_data c c' /\ byte_pos c' = off.
Proof. apply seek_bit_start. Qed.

Lemma seek_inv e sf c : inv63 c ->
  inv63 (snd (seek e sf c)) /\ same_data c (snd (seek e sf c)).
Proof.
  intros I. unfold seek. destruct (seek_offset e c sf) as [off| | |]; cbn [snd]; auto using same_data_refl.
  destruct (byte_len c <? off) eqn:E; cbn [snd]; auto using same_data_refl.
  destruct (seek_ok_state c off (proj1 I) ltac:(lia)) as (I' & _ & S' & _). auto.
Qed.
