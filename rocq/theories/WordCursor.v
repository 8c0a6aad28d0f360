(** The cursor on targets of another word size. *)
From Verif Require Import Base CursorModel CursorSpec CursorHist CursorProofs CursorSim CursorVbr CursorMain StreamPres WordModel WordSpec.
From Coq Require Import Lia ZifyBool ZifyNat ZifyN.
Ltac Zify.zify_post_hook ::= Z.div_mod_to_equations.
Local Open Scope N_scope.
Arguments N.add : simpl never.
Arguments N.mul : simpl never.
Arguments N.div : simpl never.
Arguments N.modulo : simpl never.
Arguments N.sub : simpl never.
Arguments N.pow : simpl never.

(** A cursor over few enough bytes for its bit positions to be [usize]s. *)
Definition inv_w (U : N) (c : cursor) : Prop := inv63 c /\ 8 * byte_len c < U.

Lemma us_small U v : v < U -> us U v = v.
Proof. intros H. unfold us. apply N.mod_small. exact H. Qed.

Section Cursor.
  Context (U : N) (e : env).

  Lemma tell_bit_same c : inv_w U c -> tell_bit_w U e c = Ok (tell_bit c).
  Proof.
    intros [[[H1 H2 H3 H4 H5] H6] H7]. unfold tell_bit_w, w_mul, w_sub, tell_bit, obind.
    replace (byte_pos c * 8 <? U) with true by lia. replace (bit_index c <=? byte_pos c * 8) with true by lia. reflexivity.
  Qed.
  Lemma tell_byte_same c : inv_w U c -> tell_byte_w U e c = Ok (tell_byte c).
  Proof. intros H. unfold tell_byte_w. now rewrite tell_bit_same. Qed.
  Lemma bit_len_same c : inv_w U c -> bit_len_w U e c = Ok (bit_len c).
  Proof. intros [_ H]. unfold bit_len_w, w_mul, bit_len. now replace (byte_len c * 8 <? U) with true by lia. Qed.
  Lemma clear_inv c : inv_w U c -> inv_w U (clear_block_state c).
  Proof.
    intros [[H1 H6] H7]. destruct (seek_bit_start c (byte_pos c) H1) as (I & _ & _ & _); [apply H1|].
    split; [exact I|exact H7].
  Qed.
  Lemma slice_length {A} (l : list A) a b x : slice l a b = Some x -> N.of_nat (length x) = b - a.
  Proof.
    unfold slice. destruct ((a <=? b) && (b <=? N.of_nat (length l)))%N eqn:E; [|discriminate]. intros [= <-].
    rewrite firstn_length, skipn_length. lia.
  Qed.
  Lemma load_same c : inv_w U c -> load_current_block_w U e c = load_current_block c.
  Proof.
    intros H. unfold load_current_block_w, load_current_block. rewrite tell_byte_same by exact H.
    destruct (byte_len c <=? tell_byte c); [reflexivity|]. pose proof (clear_inv c H) as H'. rewrite tell_byte_same by exact H'.
    assert (T : tell_byte (clear_block_state c) = byte_pos c) by (unfold tell_byte, tell_bit; cbn [byte_pos bit_index clear_block_state]; lia).
    rewrite T. cbv zeta. match goal with |- context [match ?x with Some _ => _ | None => _ end] => destruct x as [bs|] eqn:E end; [|reflexivity].
    assert (L : byte_pos c + N.of_nat (length bs) <= byte_len c).
    { cbn [byte_len inner clear_block_state] in E. destruct H as [[[A1 A2 A3 A4 A5] A6] A7].
      destruct (byte_pos c + 8 <? byte_len c) eqn:E1; apply slice_length in E; lia. }
    unfold w_add. cbn [byte_pos clear_block_state byte_len inner]. destruct H as [_ H]. replace (byte_pos c + N.of_nat (length bs) <? U) with true by lia. reflexivity.
  Qed.
  Lemma read_same n c : inv_w U c -> read_w U e n c = read n c.
  Proof.
    intros H. unfold read_w, read. destruct ((n =? 0) || (64 <=? n)); [reflexivity|]. destruct (n <=? bit_index c); [reflexivity|].
    rewrite load_same by exact H. reflexivity.
  Qed.
  Lemma read_keeps n : preserves (inv_w U) (op_read cursor_ops n).
  Proof.
    intros c [H1 H2]. destruct (read_inv n c H1) as (A & [_ B] & _). split; [exact A|]. change (op_read cursor_ops n) with (read n). rewrite B. exact H2.
  Qed.
  Lemma align_keeps c : inv_w U c -> inv_w U (align32 c).
  Proof. intros [H1 H2]. destruct (align32_inv c H1) as (A & [_ B] & _). split; [exact A|]. rewrite B. exact H2. Qed.

  (** Equal on the cursors over few enough bytes. *)
  Definition alike {E A} (m m' : M cursor E A) : Prop := forall c, inv_w U c -> m' c = m c.
  Lemma alike_bind {E A B} (m m' : M cursor E A) (k k' : A -> M cursor E B) :
    alike m m' -> preserves (inv_w U) m -> (forall a, alike (k a) (k' a)) -> alike (bind m k) (bind m' k').
  Proof.
    intros H P K c I. unfold bind. rewrite (H c I). specialize (P c I). destruct (m c) as [[a| | |] c']; try reflexivity. apply K, P.
  Qed.
  Lemma read_as_same t n : alike (read_as cursor_ops t n) (read_as (cursor_ops_w U e) t n).
  Proof.
    apply alike_bind; [intros c I; exact (read_same n c I)|apply read_keeps|]. intros v c _. reflexivity.
  Qed.
  Lemma vbr_loop_same f w : forall r s, alike (vbr_loop e cursor_ops f w r s) (vbr_loop e (cursor_ops_w U e) f w r s).
  Proof.
    induction f as [|f IH]; intros r s; cbn [vbr_loop]; [intros c _; reflexivity|].
    apply alike_bind; [intros c I; exact (read_same w c I)|apply read_keeps|]. intros b. cbv zeta.
    destruct (_ && _)%bool; [intros c _; reflexivity|]. destruct (_ =? 0); [intros c _; reflexivity|apply IH].
  Qed.
  Lemma read_vbr_same w : alike (read_vbr e cursor_ops w) (read_vbr e (cursor_ops_w U e) w).
  Proof.
    intros c I. unfold read_vbr. destruct (_ && _)%bool; [|reflexivity]. exact (vbr_loop_same _ w 0 0 c I).
  Qed.
  Lemma seek_bit_same p : alike (seek_bit p) (seek_bit_w U e p).
  Proof.
    intros c I. unfold seek_bit_w, seek_bit. destruct (byte_len c <? _) eqn:E; [reflexivity|]. destruct (0 <? _); [|reflexivity].
    cbv zeta. rewrite read_same; [reflexivity|]. destruct (seek_bit_start c (N.ldiff (p / 8) 7)) as (K & _ & _ & _); [apply I|lia|].
    split; [exact K|apply I].
  Qed.
  Lemma read_as_keeps t n : preserves (inv_w U) (read_as cursor_ops t n).
  Proof. unfold read_as. apply preserves_bind; [apply read_keeps|]. intros v. destruct (num_cast t v); intros c I; exact I. Qed.
End Cursor.

(** *** 32-bit targets *)
Lemma as_u64_nonneg z : (0 <= z < 18446744073709551616)%Z -> as_u64 z = Z.to_N z.
Proof. intros H. unfold as_u64. now rewrite Z.mod_small. Qed.
Lemma seek_same e sf : same_request (OSeek sf) -> alike two32 (seek e sf) (seek_w two32 e sf).
Proof.
  intros R c I. unfold seek, seek_w.
  assert (B : byte_len c < 536870912) by (destruct I as [_ I]; unfold two32 in I; lia).
  assert (K : forall x d, x <= byte_len c -> (-2147483648 <= d <= 2147483647)%Z ->
    exists off off', (let? s := add_i64 e (as_i64 x) d in Ok (as_u64 s)) = Ok (E := seek_err) off /\
                     (let? s := add_i64 e (as_i64 x) d in Ok (us two32 (as_u64 s))) = Ok (E := seek_err) off' /\
                     ((byte_len c < off /\ byte_len c < off') \/ off = off')).
  { intros x d L D. rewrite as_i64_small by lia. unfold add_i64.
    replace ((i64_min <=? Z.of_N x + d) && (Z.of_N x + d <=? i64_max))%Z with true by (unfold i64_min, i64_max; lia). cbn [obind].
    eexists _, _. split; [reflexivity|]. split; [reflexivity|]. unfold us, as_u64, two32.
    destruct (Z.neg_nonneg_cases (Z.of_N x + d)) as [N|P].
    - left. assert (Q : ((Z.of_N x + d) mod 18446744073709551616 = Z.of_N x + d + 18446744073709551616)%Z) by lia. rewrite Q. lia.
    - right. rewrite Z.mod_small by lia. rewrite N.mod_small by lia. reflexivity. }
  assert (F : forall off off' : N, ((byte_len c < off /\ byte_len c < off') \/ off = off') ->
    (if byte_len c <? off' then (Err SeekInvalidInput, c)
     else (Ok off', clear_block_state (mkCursor (byte_len c) (inner c) off' (current_block c) (bit_index c)))) =
    (if byte_len c <? off then (Err SeekInvalidInput, c)
     else (Ok off, clear_block_state (mkCursor (byte_len c) (inner c) off (current_block c) (bit_index c))))).
  { intros off off' [[A1 A2]| ->]; [|reflexivity]. replace (byte_len c <? off') with true by lia. now replace (byte_len c <? off) with true by lia. }
  destruct sf as [p|d|d]; cbn [seek_offset seek_offset_w same_request] in *.
  - rewrite us_small by exact R. reflexivity.
  - destruct (0 <=? d)%Z; [reflexivity|]. destruct (K (byte_len c) d ltac:(lia) R) as (off & off' & -> & -> & X). now apply F.
  - rewrite tell_byte_same by exact I. cbn [omap_err obind]. 
    assert (T : tell_byte c <= byte_len c) by (pose proof (tell_bit_le c (proj1 (proj1 I))) as T; unfold bit_len in T; unfold tell_byte; lia).
    destruct (K (tell_byte c) d T R) as (off & off' & -> & -> & X). now apply F.
Qed.

Lemma op_same e c o : inv_w two32 c -> same_request o ->
  result_of_w two32 e c o = result_of e c o /\ apply_op_w two32 e c o = apply_op e c o.
Proof.
  intros I R. destruct o as [n|t n|t|w|w| |p|sf]; cbn [result_of_w result_of apply_op_w apply_op].
  - rewrite read_same by exact I. auto.
  - rewrite read_as_same by exact I. auto.
  - unfold read_exact. rewrite read_as_same by exact I. auto.
  - rewrite read_vbr_same by exact I. auto.
  - destruct R.
  - auto.
  - rewrite seek_bit_same by exact I. auto.
  - rewrite seek_same by assumption. auto.
Qed.
Lemma apply_keeps e c o : inv_w two32 c -> inv_w two32 (apply_op e c o).
Proof.
  intros [I B]. destruct (apply_good e c o c) as [A [_ D]]; [split; [exact I|apply same_data_refl]|].
  split; [exact A|]. rewrite D. exact B.
Qed.
Lemma observe_same e ops : Forall same_request ops -> forall c, inv_w two32 c ->
  observe_w two32 e c ops = map (fun x => let '(r, p, t) := x in (r, Ok p, t)) (observe e c ops).
Proof.
  induction 1 as [|o ops R _ IH]; intros c I; [reflexivity|]. cbn [observe_w observe map].
  destruct (op_same e c o I R) as [-> ->]. pose proof (apply_keeps e c o I) as K. rewrite tell_bit_same by exact K. now rewrite IH by exact K.
Qed.

(** [read_svbr]. *)
Lemma svbr_same e w c z : inv_w two32 c -> fst (read_svbr e cursor_ops w c) = Ok z -> (-2147483648 < z < 2147483648)%Z ->
  read_svbr_w two32 e w c = read_svbr e cursor_ops w c.
Proof.
  intros I H B. unfold read_svbr_w, read_svbr, bind in *. rewrite read_vbr_same by exact I.
  destruct (read_vbr e cursor_ops w c) as [[r| | |] c']; try discriminate H.
  assert (X : N.shiftr r 1 < 2147483648 -> as_isize two32 (N.shiftr r 1) = Z.of_N (N.shiftr r 1)).
  { intros L. unfold as_isize. rewrite us_small by (unfold two32; lia). change (two32 / 2) with 2147483648. now replace (N.shiftr r 1 <? 2147483648) with true by lia. }
  destruct (N.land r 1 =? 0); cbn [fst ret] in H; injection H as <-.
  - rewrite X by lia. reflexivity.
  - rewrite X by lia. change (Z.of_N two32 / 2)%Z with 2147483648%Z. destruct (Z.eqb_spec (Z.of_N (N.shiftr r 1)) (- (2147483648))) as [Q|Q]; [lia|reflexivity].
Qed.

(** *** Past 512 MiB *)
Lemma first_byte b bs : (length (b :: bs) <= 8)%nat -> mask_low (assemble 0 (b :: bs) 0) 8 = Byte.to_N b.
Proof.
  intros L. rewrite mask_low_spec by lia. rewrite assemble_spec; [|cbn [length] in *; lia|reflexivity].
  cbn [bits_of_bytes flat_map]. rewrite N_of_bits_app, byte_bits_length, N_of_byte_bits. change (8 * 0) with 0. change (2 ^ 0) with 1.
  change (2 ^ N.of_nat 8) with 256. change (2 ^ 8) with 256. pose proof (byte_lt b). lia.
Qed.
Lemma past_limit buf q b : N.of_nat (length buf) < two32 -> 536870912 + q <= N.of_nat (length buf) -> q < 536870912 ->
  nth_error buf (N.to_nat q) = Some b ->
  exists c, seek_w two32 release_env (SeekStart (536870912 + q)) (cur_new buf) = (Ok (536870912 + q), c) /\
            exhausted c = (536870912 + q =? N.of_nat (length buf)) /\
            fst (read_w two32 release_env 8 c) = Ok (Byte.to_N b).
Proof.
  intros B L Q H. unfold two32 in B. eexists. split; [|split].
  - unfold seek_w, seek_offset_w. rewrite us_small by (unfold two32; lia). cbn [byte_len cur_new].
    replace (N.of_nat (length buf) <? 536870912 + q) with false by lia. reflexivity.
  - unfold exhausted. cbn [bit_index byte_len byte_pos clear_block_state cur_new]. change (0 =? 0) with true. cbn [andb]. lia.
  - unfold read_w. change ((8 =? 0) || (64 <=? 8)) with false. cbv iota. cbn [bit_index clear_block_state]. change (8 <=? 0) with false. cbv iota zeta.
    change (0 <? 0) with false. cbv iota. set (c := clear_block_state _).
    assert (T : tell_byte_w two32 release_env c = Ok q).
    { unfold tell_byte_w, tell_bit_w, w_mul, w_sub, c, two32. cbn [byte_pos bit_index clear_block_state overflow_checks release_env obind].
      replace ((536870912 + q) * 8 <? 4294967296) with false by lia. cbn [obind].
      replace (((536870912 + q) * 8) mod 4294967296) with (8 * q) by lia. replace (0 <=? 8 * q) with true by lia. cbn [obind]. f_equal. lia. }
    unfold load_current_block_w. rewrite T. change (clear_block_state c) with c. rewrite T. cbv zeta.
    change (byte_len c) with (N.of_nat (length buf)). change (inner c) with buf. change (byte_pos c) with (536870912 + q).
    replace (N.of_nat (length buf) <=? q) with false by lia.
    destruct (nth_error_split _ _ H) as (pre & post & E & LP).
    assert (S8 : exists bs, (length (b :: bs) <= 8)%nat /\
      (if q + 8 <? N.of_nat (length buf) then slice buf q (q + 8) else slice buf q (N.of_nat (length buf))) = Some (b :: bs)).
    { exists (firstn 7 post). split; [cbn [length]; rewrite firstn_length; lia|].
      assert (SK : skipn (N.to_nat q) buf = b :: post) by (rewrite E, <- LP; now rewrite skipn_app, skipn_all, Nat.sub_diag).
      replace (q + 8 <? N.of_nat (length buf)) with true by lia. unfold slice. replace ((q <=? q + 8) && (q + 8 <=? N.of_nat (length buf))) with true by lia.
      rewrite SK. replace (N.to_nat (q + 8 - q)) with 8%nat by lia. reflexivity. }
    destruct S8 as (bs & L8 & ->). unfold w_add. replace (536870912 + q + N.of_nat (length (b :: bs)) <? two32) with true by (unfold two32; lia).
    cbn [bit_index]. replace (N.of_nat (length (b :: bs)) * 8 <? 8 - 0) with false by (cbn [length]; lia). cbn [fst current_block].
    change (8 - 0) with 8. rewrite first_byte by exact L8. change (8 - 8) with 0. unfold shl64. rewrite N.shiftl_0_r. rewrite N.mod_small by (pose proof (byte_lt b); unfold two64; lia).
    reflexivity.
Qed.
Lemma past_limit_checked buf q : N.of_nat (length buf) < two32 -> 536870912 + q <= N.of_nat (length buf) ->
  fst (read_w two32 debug_env 8 (snd (seek_w two32 debug_env (SeekStart (536870912 + q)) (cur_new buf)))) = Panic PMulOverflow.
Proof.
  intros B L. unfold two32 in B. unfold seek_w, seek_offset_w. rewrite us_small by (unfold two32; lia). cbn [byte_len cur_new].
  replace (N.of_nat (length buf) <? 536870912 + q) with false by lia. cbn [snd]. unfold read_w. change ((8 =? 0) || (64 <=? 8)) with false. cbv iota.
  cbn [bit_index clear_block_state]. change (8 <=? 0) with false. cbv iota zeta. unfold load_current_block_w, tell_byte_w, tell_bit_w, w_mul, two32.
  cbn [byte_pos clear_block_state]. replace ((536870912 + q) * 8 <? 4294967296) with false by lia. reflexivity.
Qed.
