(** Reading past 512 MiB: the byte that is there, and the byte a 32-bit target reads. *)
From Verif Require Import Base CursorModel CursorSpec CursorHist CursorProofs CursorMain WordModel WordSpec WordCursor.
From Coq Require Import Lia ZifyBool ZifyNat ZifyN.
Ltac Zify.zify_post_hook ::= Z.div_mod_to_equations.
Local Open Scope N_scope.
#[local] Arguments N.add : simpl never.
#[local] Arguments N.mul : simpl never.
#[local] Arguments N.sub : simpl never.

(** With 64-bit words the byte at the position is read. *)
Lemma byte_at e buf p b : N.of_nat (length buf) < two64 -> nth_error buf (N.to_nat p) = Some b ->
  exists c, seek e (SeekStart p) (cur_new buf) = (Ok p, c) /\ fst (read 8 c) = Ok (Byte.to_N b).
Proof.
  intros B H. destruct (nth_error_split _ _ H) as (pre & post & E & LP). set (c0 := cur_new buf).
  assert (LB : N.of_nat (length buf) = p + 1 + N.of_nat (length post)) by (rewrite E, app_length; cbn [length]; lia).
  destruct (seek_ok_state c0 p) as (I & T & _ & _); [apply inv_new|cbn; lia|].
  set (c := clear_block_state _) in *. exists c. split.
  { unfold seek, seek_offset. change (byte_len c0) with (N.of_nat (length buf)). replace (N.of_nat (length buf) <? p) with false by lia. reflexivity. }
  assert (R : rem c = byte_bits b ++ bits_of_bytes post).
  { unfold rem. rewrite T. unfold data. change (inner c) with buf. change (byte_len c) with (N.of_nat (length buf)). rewrite Nat2N.id, firstn_all.
    rewrite E, bits_of_bytes_app. change (bits_of_bytes (b :: post)) with (byte_bits b ++ bits_of_bytes post).
    rewrite skipn_app, bits_of_bytes_length. rewrite skipn_all2 by (rewrite bits_of_bytes_length; lia).
    replace (N.to_nat (8 * p) - 8 * length pre)%nat with 0%nat by lia. reflexivity. }
  destruct (read_ok63 8 c I) as (c' & RD & _); [lia|rewrite R, app_length, byte_bits_length; lia|].
  rewrite RD. cbn [fst]. rewrite R. change (N.to_nat 8) with 8%nat. rewrite firstn_app, byte_bits_length, Nat.sub_diag, firstn_O, app_nil_r.
  rewrite firstn_all2 by (rewrite byte_bits_length; lia). now rewrite N_of_byte_bits.
Qed.
(** [h], then [k] zeros, then [t]. *)
Definition long (k : nat) (h t : byte) : list byte := (h :: repeat Byte.x00 k) ++ [t].
Lemma long_length k h t : length (long k h t) = S (S k).
Proof. unfold long. rewrite app_length. cbn [length]. rewrite repeat_length. lia. Qed.
Lemma long_last k h t : nth_error (long k h t) (S k) = Some t.
Proof.
  unfold long. rewrite nth_error_app2 by (cbn [length]; rewrite repeat_length; lia). cbn [length]. rewrite repeat_length.
  rewrite Nat.sub_diag. reflexivity.
Qed.
Lemma long_reads k h t e p : p = 536870912 -> N.of_nat k + 1 = p -> exists c c',
  seek e (SeekStart p) (cur_new (long k h t)) = (Ok p, c) /\ fst (read 8 c) = Ok (Byte.to_N t) /\
  seek_w two32 release_env (SeekStart p) (cur_new (long k h t)) = (Ok p, c') /\ fst (read_w two32 release_env 8 c') = Ok (Byte.to_N h) /\
  fst (read_w two32 debug_env 8 (snd (seek_w two32 debug_env (SeekStart p) (cur_new (long k h t))))) = Panic PMulOverflow.
Proof.
  intros P K. pose proof (long_length k h t) as L.
  destruct (byte_at e (long k h t) p t) as (c & S1 & R1).
  { rewrite L. unfold two64. lia. }
  { replace (N.to_nat p) with (S k) by lia. apply long_last. }
  destruct (past_limit (long k h t) 0 h) as (c' & S2 & _ & R2); [rewrite L; unfold two32; lia|rewrite L; lia|lia|reflexivity|].
  replace (536870912 + 0) with p in S2 by lia. exists c, c'. split; [exact S1|]. split; [exact R1|]. split; [exact S2|]. split; [exact R2|].
  replace p with (536870912 + 0) by lia. apply past_limit_checked; rewrite L; [unfold two32; lia|lia].
Qed.

(** Indices are taken modulo the number of values of [usize]. *)
Lemma us_wraps U v : 0 < U -> us U (U + v) = us U v.
Proof. intros H. unfold us. rewrite N.add_comm. rewrite <- (N.mul_1_l U) at 1. apply N.mod_add. lia. Qed.
