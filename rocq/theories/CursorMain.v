(** Main lemmas behind the cursor properties. *)
From Verif Require Import Base CursorModel CursorSpec CursorHist CursorProofs CursorSim CursorVbr.
From Coq Require Import Lia ZifyBool ZifyNat ZifyN.
Ltac Zify.zify_post_hook ::= Z.div_mod_to_equations.
Local Open Scope N_scope.
Arguments N.add : simpl never.
Arguments N.mul : simpl never.
Arguments N.div : simpl never.
Arguments N.modulo : simpl never.
Arguments N.shiftl : simpl never.
Arguments N.shiftr : simpl never.
Arguments N.pow : simpl never.
Arguments N.sub : simpl never.

(** ** Programs over [read] preserve what [read] preserves *)
Definition preserves {C E A} (P : C -> Prop) (m : M C E A) : Prop := forall c, P c -> P (snd (m c)).

Lemma preserves_bind {C E A B} (P : C -> Prop) (m : M C E A) (k : A -> M C E B) :
  preserves P m -> (forall a, preserves P (k a)) -> preserves P (bind m k).
Proof.
  intros H1 H2 c Hc. specialize (H1 c Hc). unfold bind. destruct (m c) as [[a| | |] c']; cbn [snd] in *; auto.
  apply H2, H1.
Qed.
Lemma preserves_ret {C E A} (P : C -> Prop) (a : A) : preserves P (ret (E := E) a).
Proof. intros c H. exact H. Qed.
Lemma preserves_fail {C E A} (P : C -> Prop) (x : E) : preserves P (fail (A := A) x).
Proof. intros c H. exact H. Qed.

Section Pres.
  Context {C : Type} (e : env) (o : cops C) (P : C -> Prop) (HR : forall n, preserves P (op_read o n)).
  Lemma vbr_loop_preserves f w r s : preserves P (vbr_loop e o f w r s).
  Proof.
    revert r s. induction f as [|f IH]; intros r s; cbn [vbr_loop]; [intros c H; exact H|].
    apply preserves_bind; [apply HR|]. intros b.
    destruct (_ && _); [intros c H; exact H|]. destruct (_ =? 0); [apply preserves_ret|apply IH].
  Qed.
  Lemma read_vbr_preserves w : preserves P (read_vbr e o w).
  Proof. intros c H. unfold read_vbr. destruct (_ && _); [apply vbr_loop_preserves, H|exact H]. Qed.
  Lemma read_svbr_preserves w : preserves P (read_svbr e o w).
  Proof.
    apply preserves_bind; [apply read_vbr_preserves|]. intros r. destruct (_ =? 0); apply preserves_ret.
  Qed.
  Lemma read_as_preserves t n : preserves P (read_as o t n).
  Proof.
    apply preserves_bind; [apply HR|]. intros v. destruct (num_cast t v); [apply preserves_ret|apply preserves_fail].
  Qed.
End Pres.

(** ** Histories *)

Definition good (c0 c : cursor) : Prop := inv63 c /\ same_data c0 c.

Lemma read_good c0 n : preserves (good c0) (op_read cursor_ops n).
Proof.
  intros c [I S]. pose proof (read_inv n c I) as (I' & S' & _). split; [exact I'|].
  exact (same_data_trans _ _ _ S S').
Qed.

Lemma apply_good e c0 o c : good c0 c -> good c0 (apply_op e c o).
Proof.
  intros G. destruct o as [n|t n|t|w|w| |p|sf]; cbn [apply_op].
  - now apply (read_good c0 n).
  - now apply (read_as_preserves cursor_ops (good c0) (read_good c0)).
  - now apply (read_as_preserves cursor_ops (good c0) (read_good c0)).
  - now apply (read_vbr_preserves e cursor_ops (good c0) (read_good c0)).
  - now apply (read_svbr_preserves e cursor_ops (good c0) (read_good c0)).
  - destruct G as [I S]. pose proof (align32_inv c I) as (I' & S' & _). split; [exact I'|].
    exact (same_data_trans _ _ _ S S').
  - destruct G as [I S]. pose proof (seek_bit_inv p c I) as (I' & S' & _). split; [exact I'|].
    exact (same_data_trans _ _ _ S S').
  - destruct G as [I S]. pose proof (seek_inv e sf c I) as (I' & S'). split; [exact I'|].
    exact (same_data_trans _ _ _ S S').
Qed.

Lemma fold_good e c0 ops c : good c0 c -> good c0 (fold_left (apply_op e) ops c).
Proof.
  revert c. induction ops as [|o ops IH]; intros c G; [exact G|]. cbn [fold_left]. apply IH, apply_good, G.
Qed.

Lemma fresh_inv c : fresh c -> inv63 c /\ tell_bit c = 0.
Proof.
  intros [[buf ->]|(buf & len & H)].
  - split; [split; [apply inv_new|cbn; lia]|reflexivity].
  - split; [split; [eapply inv_new_with_len; exact H|]|].
    + unfold cur_new_with_len in H. destruct (_ <? _); [discriminate|]. injection H as <-. cbn. lia.
    + unfold cur_new_with_len in H. destruct (_ <? _); [discriminate|]. injection H as <-. reflexivity.
Qed.

Lemma reachable_inv e c : reachable e c -> inv63 c.
Proof.
  intros (c0 & ops & F & ->). destruct (fresh_inv c0 F) as [I _].
  apply (fold_good e c0 ops c0). split; [exact I|apply same_data_refl].
Qed.

Lemma reachable_step e c o : reachable e c -> reachable e (apply_op e c o).
Proof.
  intros (c0 & ops & F & ->). exists c0, (ops ++ [o]). split; [exact F|].
  rewrite fold_left_app. reflexivity.
Qed.

(** ** Content and position *)

Lemma rem_content c : rem c = skipn (N.to_nat (tell_bit c)) (content c).
Proof. reflexivity. Qed.

Lemma sub_bits_rem c n : sub_bits (tell_bit c) n (content c) = firstn (N.to_nat n) (rem c).
Proof. reflexivity. Qed.

Lemma same_content c c' : same_data c c' -> content c' = content c.
Proof. intros [H1 H2]. unfold content. now rewrite H1, H2. Qed.

Lemma content_length c : inv63 c -> N.of_nat (length (content c)) = bit_len c.
Proof. intros [I _]. change (content c) with (bits_of_bytes (data c)). rewrite bits_length by exact I. lia. Qed.

Lemma rem_len_N c : inv63 c -> N.of_nat (length (rem c)) = bit_len c - tell_bit c.
Proof. intros [I _]. rewrite rem_length by exact I. lia. Qed.

(** C01 *)
Lemma read_main e c n : reachable e c -> 1 <= n <= 63 -> tell_bit c + n <= bit_len c ->
  exists c', read n c = (Ok (N_of_bits (sub_bits (tell_bit c) n (content c))), c') /\
             tell_bit c' = tell_bit c + n /\ content c' = content c /\ bit_len c' = bit_len c.
Proof.
  intros H Hn Hr. apply reachable_inv in H. pose proof (rem_len_N c H) as L.
  destruct (read_ok63 n c H Hn ltac:(lia)) as (c' & E & I' & R' & T' & S' & _).
  exists c'. rewrite sub_bits_rem. split; [exact E|]. split; [exact T'|].
  split; [now apply same_content|]. now apply same_data_bits.
Qed.

Lemma read_seq_main e c ns : reachable e c -> Forall (fun n => 1 <= n <= 63) ns ->
  tell_bit c + fold_right N.add 0 ns <= bit_len c ->
  exists c', read_seq ns c = (Ok (fields_of ns (skipn (N.to_nat (tell_bit c)) (content c))), c') /\
             tell_bit c' = tell_bit c + fold_right N.add 0 ns /\ content c' = content c.
Proof.
  intros H Hns. revert c H. induction Hns as [|n ns Hn Hns IH]; intros c H Hr; cbn [fold_right read_seq fields_of] in *.
  - exists c. split; [reflexivity|]. split; [lia|reflexivity].
  - destruct (read_main e c n H Hn ltac:(lia)) as (c1 & E1 & T1 & C1 & B1).
    assert (H1 : reachable e c1).
    { replace c1 with (apply_op e c (ORead n)) by (cbn [apply_op]; now rewrite E1).
      now apply reachable_step. }
    destruct (IH c1 H1 ltac:(lia)) as (c2 & E2 & T2 & C2).
    exists c2. unfold bind. rewrite E1, E2. unfold ret.
    split; [|split; [lia|congruence]].
    do 3 f_equal. rewrite T1, C1, skipn_skipn. f_equal. f_equal. lia.
Qed.

(** C02 *)
Lemma read_cases e c n : reachable e c ->
  (fst (read n c) = Err InvalidReadSize <-> n = 0 \/ 64 <= n) /\
  (fst (read n c) = Err Eof <-> 1 <= n <= 63 /\ tell_bit c = bit_len c) /\
  (fst (read n c) = Err Short <-> 1 <= n <= 63 /\ tell_bit c < bit_len c < tell_bit c + n) /\
  ((exists v, fst (read n c) = Ok v) <-> 1 <= n <= 63 /\ tell_bit c + n <= bit_len c) /\
  (fst (read n c) = Err InvalidReadSize \/ fst (read n c) = Err Eof -> snd (read n c) = c).
Proof.
  intros H. apply reachable_inv in H. pose proof (rem_len_N c H) as L.
  pose proof (tell_bit_le c (proj1 H)) as T.
  destruct (N.eq_dec n 0) as [Hn|Hn]; [|destruct (N.le_gt_cases 64 n) as [Hn'|Hn']].
  1,2: rewrite read_invalid by lia; cbn [fst snd];
       (split; [split; [lia|reflexivity]|]); (split; [split; [discriminate|lia]|]);
       (split; [split; [discriminate|lia]|]); (split; [split; [intros [v K]; discriminate|lia]|auto]).
  destruct (N.le_gt_cases n (N.of_nat (length (rem c)))) as [Hr|Hr].
  - destruct (read_ok63 n c H ltac:(lia) Hr) as (c' & -> & _). cbn [fst snd].
    split; [split; [discriminate|lia]|]. split; [split; [discriminate|lia]|].
    split; [split; [discriminate|lia]|]. split; [split; [lia|eauto]|]. intros [K|K]; discriminate.
  - destruct (read_fail63 n c H ltac:(lia) Hr) as [[Hz ->]|[Hz (c' & -> & _)]]; cbn [fst snd].
    + rewrite Hz in L. cbn in L.
      split; [split; [discriminate|lia]|]. split; [split; [lia|reflexivity]|].
      split; [split; [discriminate|lia]|]. split; [split; [intros [v K]; discriminate|lia]|auto].
    + assert (0 < N.of_nat (length (rem c))) by (destruct (rem c); [congruence|cbn; lia]).
      split; [split; [discriminate|lia]|]. split; [split; [discriminate|lia]|].
      split; [split; [lia|reflexivity]|]. split; [split; [intros [v K]; discriminate|lia]|].
      intros [K|K]; discriminate.
Qed.

(** C03 *)
Lemma read_fail_main e c n x c' : reachable e c -> read n c = (Err x, c') ->
  tell_bit c <= tell_bit c' <= bit_len c /\ content c' = content c /\ bit_len c' = bit_len c /\
  reachable e c' /\ (x <> Short -> c' = c).
Proof.
  intros HR E.
  assert (HR' : reachable e c').
  { replace c' with (apply_op e c (ORead n)) by (cbn [apply_op]; now rewrite E). now apply reachable_step. }
  pose proof (reachable_inv _ _ HR) as H. pose proof (reachable_inv _ _ HR') as H'.
  pose proof (read_inv n c H) as (_ & S & _). rewrite E in S. cbn [snd] in S.
  destruct (same_data_bits _ _ S) as [_ B].
  pose proof (tell_bit_le c (proj1 H)) as T.
  pose proof (tell_bit_le c' (proj1 H')) as T'.
  assert (K : c' = c \/ (x = Short /\ tell_bit c' = 8 * byte_pos c)).
  { destruct (N.eq_dec n 0) as [Hn|Hn]; [|destruct (N.le_gt_cases 64 n) as [Hn'|Hn']].
    1,2: rewrite read_invalid in E by lia; left; congruence.
    destruct (N.le_gt_cases n (N.of_nat (length (rem c)))) as [Hr|Hr].
    - destruct (read_ok63 n c H ltac:(lia) Hr) as (c1 & E1 & _). congruence.
    - destruct (read_fail63 n c H ltac:(lia) Hr) as [[Hz E1]|[Hz (c1 & E1 & _ & _ & T1 & _)]].
      + left. congruence.
      + right. split; congruence. }
  split.
  { split; [|rewrite B in T'; exact T']. destruct K as [->|[_ ->]]; [lia|]. unfold tell_bit. lia. }
  split; [now apply same_content|]. split; [exact B|]. split; [exact HR'|].
  intros Hx. destruct K as [K|[K _]]; [exact K|contradiction].
Qed.

(** C04 *)
Lemma seek_bit_main e c p : reachable e c ->
  (p <= bit_len c ->
   exists c', seek_bit p c = (Ok tt, c') /\ tell_bit c' = p /\ content c' = content c /\ reachable e c') /\
  (bit_len c < p -> exists x c', seek_bit p c = (Err x, c') /\ (x = Eof \/ x = Short)).
Proof.
  intros HR. pose proof (reachable_inv _ _ HR) as [H _]. split; intros Hp.
  - destruct (seek_bit_ok p c H Hp) as (c' & E & I' & T' & S').
    exists c'. split; [exact E|]. split; [exact T'|]. split; [now apply same_content|].
    replace c' with (apply_op e c (OSeekBit p)) by (cbn [apply_op]; now rewrite E). now apply reachable_step.
  - apply seek_bit_err; assumption.
Qed.

(** C05 *)
Lemma as_u64_range z : (0 <= z < 18446744073709551616)%Z -> as_u64 z = Z.to_N z.
Proof. intros H. unfold as_u64. rewrite Z.mod_small by lia. reflexivity. Qed.

Lemma as_u64_neg z : (i64_min <= z < 0)%Z -> 9223372036854775808 <= as_u64 z.
Proof. intros H. unfold as_u64, i64_min in *. lia. Qed.

Lemma as_i64_u64 z : as_u64 (as_i64 (as_u64 z)) = as_u64 z.
Proof.
  unfold as_i64, as_u64, two64. set (m := (z mod 18446744073709551616)%Z).
  assert (0 <= m < 18446744073709551616)%Z by (subst m; lia).
  rewrite (N.mod_small (Z.to_N m)) by lia. rewrite Z2N.id by lia.
  destruct (Z.to_N m <? 9223372036854775808) eqn:E; lia.
Qed.

(** The offset computed by a seek, when it does not panic. *)
Lemma seek_offset_spec e c sf : inv63 c -> byte_len c < 9223372036854775808 -> seek_arg_ok sf ->
  ~ seek_forward_from_end sf ->
  ((seek_target c sf <= i64_max)%Z \/ overflow_checks e = false \/ (exists p, sf = SeekStart p)) ->
  exists off, seek_offset e c sf = Ok off /\
    ((0 <= seek_target c sf <= Z.of_N (byte_len c))%Z -> off = Z.to_N (seek_target c sf)) /\
    (~ (0 <= seek_target c sf <= Z.of_N (byte_len c))%Z -> byte_len c < off).
Proof.
  intros I HB HA HF HO.
  assert (HT : tell_byte c <= byte_len c).
  { pose proof (tell_bit_le c (proj1 I)) as T. unfold tell_byte, bit_len in *. lia. }
  assert (Add : forall a d, (0 <= a <= Z.of_N (byte_len c))%Z -> (i64_min <= d <= i64_max)%Z ->
     ((a + d <= i64_max)%Z \/ overflow_checks e = false) ->
     exists s, add_i64 e a d = Ok s /\ as_u64 s = as_u64 (a + d)).
  { intros a d Ha Hd Ho. unfold add_i64.
    destruct ((i64_min <=? a + d)%Z && (a + d <=? i64_max)%Z) eqn:E.
    - exists (a + d)%Z. auto.
    - destruct Ho as [Ho|Ho]; [exfalso; unfold i64_min, i64_max in *; lia|]. rewrite Ho.
      eexists. split; [reflexivity|]. apply as_i64_u64. }
  assert (Fin : forall z, (i64_min <= z <= 18446744073709551615)%Z ->
     ((0 <= z <= Z.of_N (byte_len c))%Z -> as_u64 z = Z.to_N z) /\
     (~ (0 <= z <= Z.of_N (byte_len c))%Z -> byte_len c < as_u64 z)).
  { intros z Hz. split; intros K.
    - apply as_u64_range. lia.
    - destruct (Z.lt_ge_cases z 0) as [Hneg|Hpos].
      + pose proof (as_u64_neg z ltac:(lia)). lia.
      + rewrite as_u64_range by lia. lia. }
  destruct sf as [p|d|d]; cbn [seek_offset seek_target seek_arg_ok seek_forward_from_end] in *.
  - exists p. split; [reflexivity|]. lia.
  - replace (0 <=? d)%Z with false by lia.
    rewrite as_i64_small by lia.
    destruct (Add (Z.of_N (byte_len c)) d ltac:(lia) HA) as (s & -> & Es).
    { left. unfold i64_max. lia. }
    cbn [obind]. exists (as_u64 s). split; [reflexivity|]. rewrite Es.
    apply Fin. unfold i64_min, i64_max in *. lia.
  - rewrite as_i64_small by lia.
    destruct (Add (Z.of_N (tell_byte c)) d ltac:(lia) HA) as (s & -> & Es).
    { destruct HO as [HO|[HO|[p K]]]; [left; exact HO|right; exact HO|discriminate]. }
    cbn [obind]. exists (as_u64 s). split; [reflexivity|]. rewrite Es.
    apply Fin. unfold i64_min, i64_max in *. lia.
Qed.

Lemma seek_main e c sf : reachable e c -> byte_len c < 9223372036854775808 -> seek_arg_ok sf ->
  ((seek_target c sf <= i64_max)%Z \/ overflow_checks e = false \/ (exists p, sf = SeekStart p)) ->
  ((0 <= seek_target c sf <= Z.of_N (byte_len c))%Z /\ ~ seek_forward_from_end sf ->
   exists c', seek e sf c = (Ok (Z.to_N (seek_target c sf)), c') /\
     tell_bit c' = 8 * Z.to_N (seek_target c sf) /\ content c' = content c /\ reachable e c') /\
  (~ ((0 <= seek_target c sf <= Z.of_N (byte_len c))%Z /\ ~ seek_forward_from_end sf) ->
   exists x, seek e sf c = (Err x, c)).
Proof.
  intros HR HB HA HO. pose proof (reachable_inv _ _ HR) as H.
  assert (DF : seek_forward_from_end sf \/ ~ seek_forward_from_end sf).
  { destruct sf as [p|d|d]; cbn; [tauto|lia|tauto]. }
  destruct DF as [F|F].
  - split; [tauto|]. intros _. destruct sf as [p|d|d]; cbn in F; try contradiction.
    unfold seek. cbn [seek_offset]. replace (0 <=? d)%Z with true by lia. eauto.
  - destruct (seek_offset_spec e c sf H HB HA F HO) as (off & E & H1 & H2). unfold seek. rewrite E.
    split.
    + intros [K _]. specialize (H1 K). subst off.
      replace (byte_len c <? Z.to_N (seek_target c sf)) with false by lia.
      destruct (seek_ok_state c (Z.to_N (seek_target c sf)) (proj1 H) ltac:(lia)) as (I' & T' & S' & _).
      eexists. split; [reflexivity|]. split; [exact T'|]. split; [reflexivity|].
      pose proof (reachable_step e c (OSeek sf) HR) as HS. cbn [apply_op] in HS. unfold seek in HS.
      rewrite E in HS. replace (byte_len c <? Z.to_N (seek_target c sf)) with false in HS by lia. exact HS.
    + intros K. assert (L : byte_len c < off) by (apply H2; tauto).
      replace (byte_len c <? off) with true by lia. eauto.
Qed.

(** ** VBR on the real cursor *)

Lemma sim_ok {C D E A} (R : C -> D -> Prop) (x : outcome E A * C) a d' :
  sim_res R x (Ok a, d') -> exists c', x = (Ok a, c') /\ R c' d'.
Proof. destruct x as [[]]; cbn; try contradiction. intros [-> H]. eauto. Qed.

Lemma tracks_end e c c' l rest : reachable e c -> rem c = l ++ rest ->
  tracks (inner c) (byte_len c) c' rest ->
  tell_bit c' = tell_bit c + N.of_nat (length l) /\ content c' = content c.
Proof.
  intros HR HC T. apply reachable_inv in HR.
  destruct (tracks_tell _ _ _ _ T) as (T1 & T2 & _).
  pose proof (rem_len_N c HR) as L. pose proof (tell_bit_le c (proj1 HR)) as TL.
  rewrite HC, app_length in L. unfold bit_len in *. split; [lia|].
  destruct T as (_ & HB & HL & _). apply same_content. split; congruence.
Qed.

Lemma read_vbr_main e c w v rest : reachable e c -> 2 <= w <= 32 -> v < two64 ->
  skipn (N.to_nat (tell_bit c)) (content c) = vbr_bits w v ++ rest ->
  exists c', read_vbr e cursor_ops w c = (Ok v, c') /\
    tell_bit c' = tell_bit c + N.of_nat (length (vbr_bits w v)) /\ content c' = content c.
Proof.
  intros HR Hw Hv HC. pose proof (reachable_inv _ _ HR) as H.
  pose proof (read_vbr_sim _ _ _ (cursor_read_sim (inner c) (byte_len c)) e w c _ (tracks_self c H)) as S.
  rewrite rem_content, HC, read_vbr_list in S by assumption.
  apply sim_ok in S. destruct S as (c' & E & T). exists c'. split; [exact E|].
  eapply tracks_end; eassumption.
Qed.

Lemma svbr_decode z : (i64_min < z <= i64_max)%Z ->
  svbr_number z < two64 /\
  (if N.land (svbr_number z) 1 =? 0 then Z.of_N (N.shiftr (svbr_number z) 1)
   else (- Z.of_N (N.shiftr (svbr_number z) 1))%Z) = z.
Proof.
  intros Hz. unfold svbr_number, i64_min, i64_max, two64 in *.
  assert (L : forall x, N.land x 1 = x mod 2) by (intros x; change 1 with (N.ones 1); rewrite N.land_ones; reflexivity).
  destruct (0 <=? z)%Z eqn:E; rewrite L, N.shiftr_div_pow2; change (2 ^ 1) with 2.
  - split; [lia|]. replace (Z.to_N z * 2 mod 2 =? 0) with true by lia. lia.
  - rewrite (N.mod_small (_ + 1)) by lia.
    split; [lia|]. replace ((Z.to_N (- z) * 2 + 1) mod 2 =? 0) with false by lia. lia.
Qed.

Lemma read_svbr_main e c w z rest : reachable e c -> 2 <= w <= 32 -> (i64_min < z <= i64_max)%Z ->
  skipn (N.to_nat (tell_bit c)) (content c) = svbr_bits w z ++ rest ->
  exists c', read_svbr e cursor_ops w c = (Ok z, c') /\
    tell_bit c' = tell_bit c + N.of_nat (length (svbr_bits w z)) /\ content c' = content c.
Proof.
  intros HR Hw Hz HC. destruct (svbr_decode z Hz) as [B D].
  destruct (read_vbr_main e c w (svbr_number z) rest HR Hw B HC) as (c' & E & T & K).
  exists c'. split; [|split; assumption]. unfold read_svbr, bind. rewrite E.
  destruct (_ =? 0); unfold ret; congruence.
Qed.

Lemma read_svbr_min e c w rest : reachable e c -> 2 <= w <= 32 ->
  skipn (N.to_nat (tell_bit c)) (content c) = svbr_bits w i64_min ++ rest ->
  exists c', read_svbr e cursor_ops w c = (Ok 0%Z, c').
Proof.
  intros HR Hw HC.
  destruct (read_vbr_main e c w (svbr_number i64_min) rest HR Hw ltac:(reflexivity) HC) as (c' & E & T & K).
  exists c'. unfold read_svbr, bind. rewrite E. reflexivity.
Qed.

Lemma read_vbr_bad_width e c w : w < 2 \/ 32 < w -> read_vbr e cursor_ops w c = (Err InvalidVbrWidth, c).
Proof. intros H. unfold read_vbr. replace ((2 <=? w) && (w <=? 32)) with false by lia. reflexivity. Qed.

(** C08 *)
Lemma read_vbr_terminates e c w : reachable e c -> fst (read_vbr e cursor_ops w c) <> OutOfFuel.
Proof.
  intros HR. pose proof (reachable_inv _ _ HR) as H.
  destruct (N.lt_ge_cases w 2) as [Hw|Hw]; [rewrite read_vbr_bad_width by lia; discriminate|].
  destruct (N.le_gt_cases w 32) as [Hw'|Hw']; [|rewrite read_vbr_bad_width by lia; discriminate].
  pose proof (read_vbr_sim _ _ _ (cursor_read_sim (inner c) (byte_len c)) e w c _ (tracks_self c H)) as S.
  pose proof (read_vbr_list_total e w (rem c) ltac:(lia)) as T.
  unfold sim_res in S. destruct (fst (read_vbr e cursor_ops w c)); try discriminate.
  destruct (fst (read_vbr e list_ops w (rem c))); try contradiction; congruence.
Qed.

Lemma read_vbr_text e c w ps last rest : reachable e c -> 2 <= w <= 32 ->
  Forall (fun p => N.of_nat (length p) = w - 1) ps -> N.of_nat (length last) = w - 1 ->
  skipn (N.to_nat (tell_bit c)) (content c) = vbr_text ps last ++ rest ->
  (N.of_nat (length ps) * (w - 1) < 64 ->
    exists c', read_vbr e cursor_ops w c = (Ok (vbr_value ps last mod two64), c') /\
      tell_bit c' = tell_bit c + N.of_nat (length (vbr_text ps last)) /\ content c' = content c) /\
  (64 <= N.of_nat (length ps) * (w - 1) -> overflow_checks e = true ->
    fst (read_vbr e cursor_ops w c) = Panic PShiftOverflow) /\
  (overflow_checks e = false -> vbr_value ps last < two64 ->
    exists c', read_vbr e cursor_ops w c = (Ok (vbr_value ps last), c') /\
      tell_bit c' = tell_bit c + N.of_nat (length (vbr_text ps last)) /\ content c' = content c).
Proof.
  intros HR Hw Hps Hl HC. pose proof (reachable_inv _ _ HR) as H.
  pose proof (read_vbr_sim _ _ _ (cursor_read_sim (inner c) (byte_len c)) e w c _ (tracks_self c H)) as S.
  rewrite rem_content, HC in S. unfold read_vbr in S at 2.
  replace ((2 <=? w) && (w <=? 32)) with true in S by lia.
  destruct (vbr_loop_text e w ps last rest (op_fuel list_ops (vbr_text ps last ++ rest)) 0 0 Hw Hps Hl) as (l' & E).
  { cbn. lia. }
  rewrite E in S. rewrite N.add_0_l in S.
  assert (P1 : 0 < 2 ^ 0) by (rewrite N.pow_0_r; lia).
  split; [|split].
  - intros Hs. replace (overflow_checks e && (64 <=? N.of_nat (length ps) * (w - 1))) with false in S by lia.
    apply sim_ok in S. destruct S as (c' & Ec & T). exists c'.
    rewrite acc_groups_low in Ec by (try exact Hps; try exact Hl; try exact P1; lia).
    rewrite N.pow_0_r, N.add_0_l, N.mul_1_l in Ec. split; [exact Ec|].
    eapply tracks_end; eassumption.
  - intros Hs Ho. rewrite Ho in S. replace (true && (64 <=? N.of_nat (length ps) * (w - 1))) with true in S by lia.
    unfold sim_res in S. cbn [fst] in S. destruct (fst (read_vbr e cursor_ops w c)); try contradiction. congruence.
  - intros Ho Hv. rewrite Ho in S. cbn [andb] in S.
    apply sim_ok in S. destruct S as (c' & Ec & T). exists c'.
    assert (CC : concat (ps ++ [last]) = concat ps ++ last) by (rewrite concat_app; cbn; now rewrite app_nil_r).
    rewrite acc_groups_exact in Ec.
    + rewrite N.pow_0_r, N.add_0_l, N.mul_1_l, CC in Ec. split; [exact Ec|].
      eapply tracks_end; eassumption.
    + exact Hw.
    + apply Forall_app. split; [exact Hps|]. constructor; [exact Hl|constructor].
    + exact P1.
    + rewrite N.pow_0_r, N.mul_1_l, CC. exact Hv.
Qed.

(** A VBR read that succeeds has consumed a complete VBR text. *)
Lemma read_vbr_sound e c w v c' : reachable e c -> read_vbr e cursor_ops w c = (Ok v, c') ->
  exists ps last rest,
    2 <= w <= 32 /\ Forall (fun p => N.of_nat (length p) = w - 1) ps /\ N.of_nat (length last) = w - 1 /\
    skipn (N.to_nat (tell_bit c)) (content c) = vbr_text ps last ++ rest /\
    tell_bit c' = tell_bit c + N.of_nat (length (vbr_text ps last)).
Proof.
  intros HR E. pose proof (reachable_inv _ _ HR) as H.
  assert (Hw : 2 <= w <= 32).
  { destruct (N.lt_ge_cases w 2) as [Hw|Hw]; [rewrite read_vbr_bad_width in E by lia; discriminate|].
    destruct (N.le_gt_cases w 32) as [Hw'|Hw']; [lia|rewrite read_vbr_bad_width in E by lia; discriminate]. }
  pose proof (read_vbr_sim _ _ _ (cursor_read_sim (inner c) (byte_len c)) e w c _ (tracks_self c H)) as S.
  rewrite E in S. unfold read_vbr in S. replace ((2 <=? w) && (w <=? 32)) with true in S by lia.
  destruct (vbr_decompose w (rem c) ltac:(lia)) as [(ps & last & rest & Er & H1 & H2)|(ps & tl & Er & H1 & H2)].
  - exists ps, last, rest. split; [exact Hw|]. split; [exact H1|]. split; [exact H2|]. split; [exact Er|].
    rewrite Er in S.
    destruct (vbr_loop_text e w ps last rest (op_fuel list_ops (vbr_text ps last ++ rest)) 0 0 Hw H1 H2) as (l' & E').
    { cbn. lia. }
    rewrite E' in S. destruct (_ && _); [contradiction|]. destruct S as [_ S]. cbn [snd] in S.
    eapply tracks_end; eassumption.
  - exfalso. rewrite Er in S.
    destruct (vbr_loop_trunc e w ps tl (op_fuel list_ops (flat_map (fun p => p ++ [true]) ps ++ tl)) 0 0 Hw H1 H2) as (l' & E').
    { cbn. lia. }
    rewrite E' in S. destruct (_ && _); contradiction.
Qed.

(** ** Alignment *)

Definition good4 (c0 c : cursor) : Prop := good c0 c /\ aligned4 c.

Lemma read_good4 c0 n : preserves (good4 c0) (op_read cursor_ops n).
Proof.
  intros c [[I S] A]. pose proof (read_inv n c I) as (I' & S' & A'). split; [split; [exact I'|]|now apply A'].
  exact (same_data_trans _ _ _ S S').
Qed.

Lemma apply_good4 e c0 o c : word_op o -> good4 c0 c -> good4 c0 (apply_op e c o).
Proof.
  intros W G. destruct o as [n|t n|t|w|w| |p|sf]; cbn [apply_op].
  - now apply (read_good4 c0 n).
  - now apply (read_as_preserves cursor_ops (good4 c0) (read_good4 c0)).
  - now apply (read_as_preserves cursor_ops (good4 c0) (read_good4 c0)).
  - now apply (read_vbr_preserves e cursor_ops (good4 c0) (read_good4 c0)).
  - now apply (read_svbr_preserves e cursor_ops (good4 c0) (read_good4 c0)).
  - destruct G as [[I S] A]. pose proof (align32_inv c I) as (I' & S' & A'). split; [split; [exact I'|]|now apply A'].
    exact (same_data_trans _ _ _ S S').
  - destruct G as [[I S] A]. pose proof (seek_bit_inv p c I) as (I' & S' & A'). split; [split; [exact I'|]|now apply A'].
    exact (same_data_trans _ _ _ S S').
  - destruct sf as [p|d|d]; cbn [word_op] in W; try contradiction.
    split; [apply (apply_good e c0 (OSeek (SeekStart p)) c), G|].
    unfold seek. cbn [seek_offset]. destruct (byte_len c <? p); cbn [snd]; [apply G|].
    destruct G as [_ [A B]]. split; cbn [byte_pos byte_len clear_block_state]; assumption.
Qed.

Lemma word_reachable_good e c : word_reachable e c -> exists c0, good4 c0 c.
Proof.
  intros (c0 & ops & F & HL & W & ->). exists c0.
  assert (G : good4 c0 c0).
  { destruct (fresh_inv c0 F) as [I _]. split; [split; [exact I|apply same_data_refl]|].
    split; [|exact HL]. destruct F as [[buf ->]|(buf & len & K)]; [reflexivity|].
    unfold cur_new_with_len in K. destruct (_ <? _); [discriminate|]. injection K as <-. reflexivity. }
  revert G. generalize c0 at 2 4. induction W as [|o ops Ho W IH]; intros c G; [exact G|].
  cbn [fold_left]. apply IH, apply_good4; assumption.
Qed.

Lemma align32_main e c : word_reachable e c ->
  tell_bit (align32 c) = 32 * ((tell_bit c + 31) / 32) /\ content (align32 c) = content c.
Proof.
  intros HR. destruct (word_reachable_good e c HR) as (c0 & [[I _] [A B]]).
  split; [now apply align32_tell|]. pose proof (align32_inv c I) as (_ & S & _). now apply same_content.
Qed.

(** ** exhausted *)
Lemma exhausted_main e c : reachable e c ->
  (exhausted c = true <-> tell_bit c = bit_len c) /\
  (exhausted c = true <-> exists x, fst (read 1 c) = Err x).
Proof.
  intros HR. pose proof (reachable_inv _ _ HR) as H. pose proof (rem_len_N c H) as L.
  pose proof (tell_bit_le c (proj1 H)) as T.
  assert (E1 : exhausted c = true <-> tell_bit c = bit_len c).
  { rewrite exhausted_spec by apply H. rewrite <- length_zero_iff_nil. lia. }
  split; [exact E1|]. rewrite E1.
  destruct (read_cases e c 1 HR) as (_ & C2 & _ & C4 & _). split.
  - intros K. exists Eof. apply C2. lia.
  - intros [x K]. destruct (N.le_gt_cases (tell_bit c + 1) (bit_len c)) as [Q|Q]; [|lia].
    destruct C4 as [_ C4]. destruct C4 as [v Hv]; [lia|]. congruence.
Qed.

(** ** Typed reads *)
Lemma read_as_main e c t n : reachable e c -> 1 <= n <= 63 -> tell_bit c + n <= bit_len c ->
  let v := N_of_bits (sub_bits (tell_bit c) n (content c)) in
  let bound := if ity_signed t then 2 ^ (ity_bits t - 1) else 2 ^ ity_bits t in
  exists c', read_as cursor_ops t n c = ((if v <? bound then Ok v else Err BadCast), c') /\
             tell_bit c' = tell_bit c + n /\ content c' = content c.
Proof.
  intros HR Hn Hr v bound. destruct (read_main e c n HR Hn Hr) as (c' & E & T & K & _).
  exists c'. split; [|auto]. unfold read_as, bind. cbn [op_read cursor_ops]. rewrite E. fold v.
  unfold num_cast. fold bound. destruct (v <? bound); reflexivity.
Qed.

Lemma read_exact_main e c t : reachable e c -> ity_signed t = false -> 1 <= ity_bits t <= 63 ->
  tell_bit c + ity_bits t <= bit_len c ->
  exists c', read_exact cursor_ops t c = (Ok (N_of_bits (sub_bits (tell_bit c) (ity_bits t) (content c))), c') /\
             tell_bit c' = tell_bit c + ity_bits t /\ content c' = content c.
Proof.
  intros HR Hs Hb Hr. destruct (read_as_main e c t (ity_bits t) HR Hb Hr) as (c' & E & T & K).
  exists c'. split; [|auto]. unfold read_exact. rewrite E, Hs.
  match goal with |- ((if ?b then _ else _), _) = _ => replace b with true; [reflexivity|] end.
  symmetry. apply N.ltb_lt.
  eapply N.lt_le_trans; [apply N_of_bits_bound|]. apply N.pow_le_mono_r; [lia|].
  unfold sub_bits. rewrite firstn_length. lia.
Qed.

Lemma read_exact_64 t c : ity_bits t = 64 -> read_exact cursor_ops t c = (Err InvalidReadSize, c).
Proof. intros H. unfold read_exact, read_as, bind. rewrite H. reflexivity. Qed.

(** C12 *)
Lemma history_main e c0 ops : fresh c0 ->
  let c := fold_left (apply_op e) ops c0 in
  content c = content c0 /\ bit_len c = bit_len c0 /\ tell_bit c <= bit_len c /\
  bit_index c <= byte_pos c * 8 /\
  N.of_nat (length (content c)) = bit_len c /\
  forall n, 1 <= n <= 63 -> tell_bit c + n <= bit_len c ->
    exists c', read n c = (Ok (N_of_bits (sub_bits (tell_bit c) n (content c))), c') /\
               tell_bit c' = tell_bit c + n.
Proof.
  intros F c. destruct (fresh_inv c0 F) as [I0 _].
  assert (G : good c0 c) by (apply fold_good; split; [exact I0|apply same_data_refl]).
  assert (HR : reachable e c) by (exists c0, ops; auto).
  destruct G as [I S]. split; [now apply same_content|]. split; [now apply same_data_bits|].
  split; [apply tell_bit_le, I|]. split; [destruct I as [[]]; lia|].
  split; [now apply content_length|].
  intros n Hn Hr. destruct (read_main e c n HR Hn Hr) as (c' & E & T & _). eauto.
Qed.

Lemma read_never_panics e c n p : reachable e c -> fst (read n c) <> Panic p.
Proof. intros H. apply reachable_inv in H. apply read_no_panic, H. Qed.
