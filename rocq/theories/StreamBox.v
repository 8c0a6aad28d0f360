(** Raw and wrapped containers. *)
From Verif Require Import Base CursorModel CursorSpec CursorHist CursorProofs CursorSim CursorVbr CursorMain
  StreamModel StreamSpec StreamHist StreamProofs StreamPres StreamEffect StreamRound StreamMain StreamEnd.
From Coq Require Import Lia ZifyBool ZifyNat ZifyN.
Ltac Zify.zify_post_hook ::= Z.div_mod_to_equations.
Local Open Scope N_scope.
Arguments N.add : simpl never.
Arguments N.mul : simpl never.
Arguments N.div : simpl never.
Arguments N.modulo : simpl never.
Arguments N.sub : simpl never.
Arguments N.pow : simpl never.

Lemma bits_of_bytes_app a b : bits_of_bytes (a ++ b) = bits_of_bytes a ++ bits_of_bytes b.
Proof. apply flat_map_app. Qed.

Lemma word_bits b0 b1 b2 b3 rest :
  firstn 32 (bits_of_bytes (b0 :: b1 :: b2 :: b3 :: rest)) = bits_of_bytes [b0; b1; b2; b3] /\
  skipn 32 (bits_of_bytes (b0 :: b1 :: b2 :: b3 :: rest)) = bits_of_bytes rest /\
  N_of_bits (bits_of_bytes [b0; b1; b2; b3]) = word32 b0 b1 b2 b3.
Proof.
  split; [reflexivity|]. split; [reflexivity|].
  unfold bits_of_bytes. cbn [flat_map]. rewrite app_nil_r, !N_of_bits_app, !N_of_byte_bits.
  unfold word32. change (2 ^ N.of_nat (length (byte_bits b0))) with 256.
  change (2 ^ N.of_nat (length (byte_bits b1))) with 256. change (2 ^ N.of_nat (length (byte_bits b2))) with 256. lia.
Qed.

(** C22 *)
Lemma from_raw_cases buf :
  (from_raw buf = Err (SBadContainer BxLength) <-> N.of_nat (length buf) mod 4 <> 0) /\
  (from_raw buf = Err (SBadContainer (BxMagic Eof)) <-> buf = []) /\
  (forall b0 b1 b2 b3 rest, buf = b0 :: b1 :: b2 :: b3 :: rest -> N.of_nat (length buf) mod 4 = 0 ->
     exists s, from_raw buf = Ok (mkBitstream (word32 b0 b1 b2 b3) s) /\
       pos s = 32 /\ total s = 8 * N.of_nat (length buf) /\ content (p_cur s) = bits_of_bytes buf /\
       p_scopes s = [ScInitial] /\ p_info s = []).
Proof.
  pose proof (from_raw_spec buf) as K. split; [|split].
  - destruct (_ && _) eqn:E in K.
    + destruct K as (c' & K & _). rewrite K. split; [discriminate|lia].
    + rewrite K. destruct (N.of_nat (length buf) mod 4 =? 0) eqn:M; split; (discriminate || lia || reflexivity).
  - destruct (_ && _) eqn:E in K.
    + destruct K as (c' & K & _). rewrite K. split; [discriminate|]. intros ->. discriminate.
    + rewrite K. destruct (N.of_nat (length buf) mod 4 =? 0) eqn:M; split; try discriminate; intros H; [|reflexivity|].
      * destruct buf as [|b buf]; [reflexivity|]. cbn [length] in *. lia.
      * subst buf. discriminate.
  - intros b0 b1 b2 b3 rest HB HM. rewrite HM in K. replace (_ && _) with true in K by (subst buf; cbn [length] in *; lia).
    destruct K as (c' & K & T). subst buf. destruct (word_bits b0 b1 b2 b3 rest) as (W1 & W2 & W3).
    rewrite W1, W3 in K. rewrite W2 in T. exists (parser_new c'). split; [exact K|].
    destruct T as [T _]. destruct (tracks_tell _ _ _ _ T) as (T1 & T2 & T3). destruct T as (HI & HB & HL & HR).
    unfold pos, total, content. cbn [p_cur parser_new p_scopes p_info].
    rewrite bits_of_bytes_length in T1. unfold bit_len. rewrite HL, HB.
    rewrite Nat2N.id, firstn_all. cbn [length] in *. repeat split; lia.
Qed.

(** Reading words through [read_exact::<u32>]. *)
Lemma read_word buf len c b0 b1 b2 b3 rest : tracks buf len c (bits_of_bytes (b0 :: b1 :: b2 :: b3 :: rest)) ->
  exists c', read_exact cursor_ops u32t c = (Ok (word32 b0 b1 b2 b3), c') /\ tracks buf len c' (bits_of_bytes rest).
Proof.
  intros T. pose proof (read_as_sim _ _ _ (cursor_read_sim buf len) u32t 32 c _ T) as K.
  change (read_as cursor_ops u32t 32) with (read_exact cursor_ops u32t) in K.
  change (read_as list_ops u32t 32) with (read_exact list_ops u32t) in K.
  rewrite read_u32_list in K. unfold list_read in K.
  change ((32 =? 0) || (64 <=? 32)) with false in K. cbv iota in K.
  rewrite bits_of_bytes_length in K. replace (32 <=? _) with true in K by (cbn [length]; lia).
  change (N.to_nat 32) with 32%nat in K. destruct (word_bits b0 b1 b2 b3 rest) as (W1 & W2 & W3).
  rewrite W1, W2, W3 in K. now apply sim_ok in K.
Qed.

Lemma new_tracks_any buf : tracks buf (N.of_nat (length buf)) (cur_new buf) (bits_of_bytes buf).
Proof.
  split; [split; [apply inv_new|cbn; lia]|]. split; [reflexivity|]. split; [reflexivity|].
  unfold rem, data, tell_bit. cbn [cur_new byte_len inner byte_pos bit_index]. rewrite Nat2N.id, firstn_all. reflexivity.
Qed.

Lemma to_N_b8 n : Byte.to_N (b8 n) = n mod 256.
Proof.
  unfold b8. destruct (Byte.of_N (n mod 256)) as [b|] eqn:E.
  - now apply Byte.to_of_N.
  - apply Byte.of_N_None_iff in E. lia.
Qed.

Lemma word32_le32 v : v < two32 -> word32 (b8 v) (b8 (v / 256)) (b8 (v / 65536)) (b8 (v / 16777216)) = v.
Proof.
  intros H. unfold word32, two32 in *. rewrite !to_N_b8. lia.
Qed.

Lemma header_read w rest : wrapper_ok w ->
  fst (read_wrapper (cur_new (wrapper_header w ++ rest))) = Ok w.
Proof.
  intros (H1 & H2 & H3 & H4 & H5). set (buf := wrapper_header w ++ rest). pose proof (new_tracks_any buf) as T0.
  unfold read_wrapper. unfold buf at 4 in T0. unfold wrapper_header, le32 in T0. cbn [app] in T0.
  apply read_word in T0. destruct T0 as (c1 & R1 & T1).
  apply read_word in T1. destruct T1 as (c2 & R2 & T2).
  apply read_word in T2. destruct T2 as (c3 & R3 & T3).
  apply read_word in T3. destruct T3 as (c4 & R4 & T4).
  apply read_word in T4. destruct T4 as (c5 & R5 & T5).
  unfold bind. rewrite R1, R2, R3, R4, R5. cbn [fst ret]. rewrite !word32_le32 by assumption. now destruct w.
Qed.

(** The cursor [from_wrapped] parses from. *)
Lemma slice_tracks buf len off : len <= N.of_nat (length buf) -> off <= len -> len mod 4 = 0 -> off mod 4 = 0 ->
  tracks4 buf len (mkCursor len buf off 0 0) (bits_of_bytes (sub_bytes buf off len)).
Proof.
  intros H1 H2 H3 H4. split; [|split; [exact H4|exact H3]]. split; [split|].
  - split; cbn [byte_len inner byte_pos bit_index current_block]; try lia. reflexivity.
  - cbn. lia.
  - split; [reflexivity|]. split; [reflexivity|]. unfold rem, data, tell_bit, sub_bytes.
    cbn [byte_len inner byte_pos bit_index]. rewrite N.sub_0_r.
    rewrite <- (firstn_skipn (N.to_nat off) (firstn (N.to_nat len) buf)).
    rewrite bits_of_bytes_app, skipn_app.
    assert (L : length (bits_of_bytes (firstn (N.to_nat off) (firstn (N.to_nat len) buf))) = N.to_nat (off * 8)).
    { rewrite bits_of_bytes_length, !firstn_length. lia. }
    rewrite skipn_all2 by lia. rewrite L, Nat.sub_diag, skipn_O. cbn [app].
    rewrite skipn_firstn_comm. do 2 f_equal. lia.
Qed.

Lemma same_stream_bits e buf1 len1 c1 buf2 len2 c2 l :
  tracks4 buf1 len1 c1 l -> tracks4 buf2 len2 c2 l -> same_stream e (from_cursor c1) (from_cursor c2).
Proof.
  intros T1 T2. apply from_cursor_spec in T1. apply from_cursor_spec in T2.
  destruct (32 <=? length l)%nat.
  - destruct T1 as (c1' & -> & T1), T2 as (c2' & -> & T2). split; [reflexivity|]. cbn [bs_parser].
    intros n. transitivity (upto_stop (run e list_ops n (parser_new (skipn 32 l)))).
    + eapply sim_run; [apply cursor_sim|]. split; [exact T1|]. split; reflexivity.
    + symmetry. eapply sim_run; [apply cursor_sim|]. split; [exact T2|]. split; reflexivity.
  - rewrite T1, T2. reflexivity.
Qed.

Lemma from_wrapped_slice e w rest : wrapper_ok w ->
  let buf := wrapper_header w ++ rest in
  wr_size w <= N.of_nat (length rest) -> wr_offset w <= wr_size w + 20 -> wr_offset w mod 4 = 0 ->
  (forall w' b, from_wrapped e buf = Ok (w', b) -> w' = w) /\
  same_stream e (payload_result (from_wrapped e buf)) (from_raw (sub_bytes buf (wr_offset w) (wr_size w + 20))).
Proof.
  intros W buf HS HO HM. unfold from_wrapped. 
  assert (HR : fst (read_wrapper (cur_new buf)) = Ok w) by (now apply header_read).
  rewrite HR. cbn [omap_err obind].
  assert (HLEN : N.of_nat (length buf) = 20 + N.of_nat (length rest)).
  { subst buf. rewrite app_length. unfold wrapper_header, le32. cbn [app length]. lia. }
  unfold cur_new_with_len. replace (_ <? _) with false by lia. cbn [omap_err obind].
  unfold seek, seek_offset. cbn [byte_len inner current_block bit_index].
  replace (wr_size w + 20 <? wr_offset w) with false by lia. unfold clear_block_state. cbn [byte_len inner byte_pos].
  split.
  - intros w' b. destruct (from_cursor _); cbn [obind]; try discriminate. now intros [= <- <-].
  - replace (payload_result _) with (from_cursor (mkCursor (wr_size w + 20) buf (wr_offset w) 0 0)) by
      (destruct (from_cursor _); reflexivity).
    set (sl := sub_bytes buf (wr_offset w) (wr_size w + 20)).
    assert (SL : N.of_nat (length sl) = wr_size w + 20 - wr_offset w).
    { subst sl. unfold sub_bytes. rewrite firstn_length, skipn_length. lia. }
    destruct ((wr_size w + 20) mod 4 =? 0) eqn:E4.
    + eapply same_stream_bits; [apply slice_tracks; lia|]. apply (new_tracks sl). rewrite SL. lia.
    + unfold from_raw, from_cursor. cbn [byte_len cur_new]. rewrite E4.
      replace (N.of_nat (length sl) mod 4 =? 0) with false by lia. reflexivity.
Qed.

(** Standard wrapper: offset 20. *)
Lemma sub_bytes_20 w payload padding : 
  sub_bytes (wrapper_header w ++ payload ++ padding) 20 (N.of_nat (length payload) + 20) = payload.
Proof.
  unfold sub_bytes. unfold wrapper_header, le32. cbn [app]. change (N.to_nat 20) with 20%nat.
  cbn [skipn]. replace (N.to_nat (N.of_nat (length payload) + 20 - 20)) with (length payload + 0)%nat by lia.
  rewrite firstn_app_2. cbn. apply app_nil_r.
Qed.

Lemma from_dispatch e b0 b1 b2 b3 rest :
  let buf := b0 :: b1 :: b2 :: b3 :: rest in
  from e buf =
    if word32 b0 b1 b2 b3 =? 0x0b17c0de
    then match from_wrapped e buf with Ok (w, b) => Ok (Some w, b) | Err x => Err x | Panic p => Panic p | OutOfFuel => OutOfFuel end
    else match from_raw buf with Ok b => Ok (None, b) | Err x => Err x | Panic p => Panic p | OutOfFuel => OutOfFuel end.
Proof.
  intros buf. unfold from. destruct (read_word _ _ _ _ _ _ _ _ (new_tracks_any buf)) as (c' & -> & _).
  cbn [fst omap_err obind]. unfold BITCODE_WRAPPER_MAGIC. destruct (_ =? _).
  - destruct (from_wrapped e buf) as [[]| | |]; reflexivity.
  - destruct (from_raw buf) as [| | |]; reflexivity.
Qed.

Lemma from_short e buf : (length buf < 4)%nat ->
  from e buf = Err (SCursor (match buf with [] => Eof | _ => Short end)).
Proof. intros H. destruct buf as [|b0 [|b1 [|b2 [|b3 buf]]]]; [vm_compute; reflexivity..|cbn in H; lia]. Qed.
