(** [from] opens exactly the inputs of OpenSpec.v. *)
From Verif Require Import Base Strings CursorModel CursorSpec CursorHist CursorProofs CursorSim CursorVbr CursorMain
  StreamModel StreamSpec StreamHist StreamProofs StreamPres StreamEffect StreamRound StreamMain StreamEnd StreamBox RuleSpec Rules OpenSpec.
From Coq Require Import Lia ZifyBool ZifyNat ZifyN.
Ltac Zify.zify_post_hook ::= Z.div_mod_to_equations.
Local Open Scope N_scope.
#[local] Arguments N.add : simpl never.
#[local] Arguments N.mul : simpl never.
#[local] Arguments N.div : simpl never.
#[local] Arguments N.modulo : simpl never.
#[local] Arguments N.sub : simpl never.
#[local] Arguments N.pow : simpl never.

Lemma read_no_word buf len c l : tracks buf len c (bits_of_bytes l) -> (length l < 4)%nat ->
  fst (read_exact cursor_ops u32t c) = Err (match l with [] => Eof | _ => Short end).
Proof.
  intros T L. pose proof (read_as_sim _ _ _ (cursor_read_sim buf len) u32t 32 c _ T) as K.
  change (read_as cursor_ops u32t 32) with (read_exact cursor_ops u32t) in K.
  change (read_as list_ops u32t 32) with (read_exact list_ops u32t) in K.
  rewrite read_u32_list in K. unfold list_read in K.
  change ((32 =? 0) || (64 <=? 32)) with false in K. cbv iota in K.
  rewrite bits_of_bytes_length in K. replace (32 <=? _) with false in K by (cbn [length]; lia).
  destruct (read_exact cursor_ops u32t c) as [o c']. destruct l as [|b l]; cbn in K |- *; unfold sim_res in K; cbn in K; destruct o; now subst||contradiction.
Qed.
Lemma at_tracks buf len off : len <= N.of_nat (length buf) -> off <= len ->
  tracks buf len (mkCursor len buf off 0 0) (bits_of_bytes (sub_bytes buf off len)).
Proof.
  intros H1 H2. split; [split|].
  - split; cbn [byte_len inner byte_pos bit_index current_block]; try lia. reflexivity.
  - cbn. lia.
  - split; [reflexivity|]. split; [reflexivity|]. unfold rem, data, tell_bit, sub_bytes.
    cbn [byte_len inner byte_pos bit_index]. rewrite N.sub_0_r.
    rewrite <- (firstn_skipn (N.to_nat off) (firstn (N.to_nat len) buf)).
    rewrite bits_of_bytes_app, skipn_app.
    assert (L : length (bits_of_bytes (firstn (N.to_nat off) (firstn (N.to_nat len) buf))) = N.to_nat (off * 8)).
    { rewrite bits_of_bytes_length, !firstn_length. lia. }
    rewrite skipn_all2 by lia. rewrite L, Nat.sub_diag, skipn_O. cbn [app].
    rewrite skipn_firstn_comm. do 2 f_equal. lia.
Qed.

(** *** From a position *)

Lemma four {A} (l : list A) : (4 <= length l)%nat -> exists a b c d r, l = a :: b :: c :: d :: r.
Proof. destruct l as [|a [|b [|c [|d r]]]]; cbn; intros; [lia..|]. eauto 6. Qed.
Lemma from_at buf len off : len <= N.of_nat (length buf) -> off <= len ->
  let o := from_cursor (mkCursor len buf off 0 0) in
  (len mod 4 = 0 /\ off + 4 <= len -> exists b, o = Ok b /\ starts_at buf off len b) /\
  (len mod 4 <> 0 -> o = Err (SBadContainer BxLength)) /\
  (len mod 4 = 0 -> len < off + 4 -> o = Err (SBadContainer (BxMagic (if off =? len then Eof else Short)))).
Proof.
  intros H1 H2. cbv zeta. pose proof (at_tracks buf len off H1 H2) as T.
  assert (SL : N.of_nat (length (sub_bytes buf off len)) = len - off) by (unfold sub_bytes; rewrite firstn_length, skipn_length; lia).
  unfold from_cursor. cbn [byte_len]. split; [|split].
  - intros [M L]. replace (len mod 4 =? 0) with true by lia. cbn [negb].
    destruct (four (sub_bytes buf off len) ltac:(lia)) as (b0 & b1 & b2 & b3 & rest & E). rewrite E in T.
    destruct (read_word _ _ _ _ _ _ _ _ T) as (c' & R & T'). rewrite R. eexists. split; [reflexivity|].
    destruct (tracks_tell _ _ _ _ T') as (T1 & _ & _). destruct T' as (HI & HB & HL & HR).
    unfold starts_at, pos, total, content. cbn [bs_magic bs_parser parser_new p_cur p_scopes p_info].
    rewrite bits_of_bytes_length in T1. rewrite E in SL. cbn [length] in SL. unfold bit_len. rewrite HL, HB.
    split; [|repeat split; lia]. unfold sub_bytes in E. exists b0, b1, b2, b3, (skipn 4 (skipn (N.to_nat off) buf)). split; [|reflexivity].
    rewrite <- (firstn_skipn 4 (skipn (N.to_nat off) buf)) at 1. change (b0 :: b1 :: b2 :: b3 :: skipn 4 (skipn (N.to_nat off) buf)) with ([b0; b1; b2; b3] ++ skipn 4 (skipn (N.to_nat off) buf)).
    f_equal. transitivity (firstn 4 (firstn (N.to_nat (len - off)) (skipn (N.to_nat off) buf))); [rewrite firstn_firstn; f_equal; lia|]. now rewrite E.
  - intros M. now replace (len mod 4 =? 0) with false by lia.
  - intros M N0. replace (len mod 4 =? 0) with true by lia. cbn [negb].
    assert (L : (length (sub_bytes buf off len) < 4)%nat) by lia. pose proof (read_no_word _ _ _ _ T L) as R.
    destruct (read_exact cursor_ops u32t _) as [o c']. cbn [fst] in R. rewrite R. do 3 f_equal.
    destruct (sub_bytes buf off len) as [|b s]; cbn [length] in SL; destruct (off =? len) eqn:Z; (reflexivity || lia).
Qed.

(** *** The header *)

Lemma b8_to_N b : b8 (Byte.to_N b) = b.
Proof. unfold b8. rewrite N.mod_small by (apply Byte.to_N_bounded || (pose proof (Byte.to_N_bounded b); lia)). now rewrite Byte.of_to_N. Qed.
Lemma le32_word b0 b1 b2 b3 : le32 (word32 b0 b1 b2 b3) = [b0; b1; b2; b3].
Proof.
  unfold le32, word32. pose proof (Byte.to_N_bounded b0). pose proof (Byte.to_N_bounded b1). pose proof (Byte.to_N_bounded b2). pose proof (Byte.to_N_bounded b3).
  assert (E : forall n b, n mod 256 = Byte.to_N b -> b8 n = b).
  { intros n b E. unfold b8. rewrite E. now rewrite Byte.of_to_N. }
  repeat f_equal; apply E; lia.
Qed.
Lemma word32_small b0 b1 b2 b3 : word32 b0 b1 b2 b3 < two32.
Proof.
  unfold word32, two32. pose proof (Byte.to_N_bounded b0). pose proof (Byte.to_N_bounded b1). pose proof (Byte.to_N_bounded b2). pose proof (Byte.to_N_bounded b3). lia.
Qed.
Lemma header_exists buf : (20 <= length buf)%nat -> exists w rest, buf = wrapper_header w ++ rest /\ wrapper_ok w.
Proof.
  intros L. destruct (four buf) as (a0 & a1 & a2 & a3 & r1 & ->); [lia|]. cbn [length] in L.
  destruct (four r1) as (b0 & b1 & b2 & b3 & r2 & ->); [lia|]. cbn [length] in L.
  destruct (four r2) as (c0 & c1 & c2 & c3 & r3 & ->); [lia|]. cbn [length] in L.
  destruct (four r3) as (d0 & d1 & d2 & d3 & r4 & ->); [lia|]. cbn [length] in L.
  destruct (four r4) as (e0 & e1 & e2 & e3 & r5 & ->); [lia|].
  exists (mkWrapper (word32 a0 a1 a2 a3) (word32 b0 b1 b2 b3) (word32 c0 c1 c2 c3) (word32 d0 d1 d2 d3) (word32 e0 e1 e2 e3)), r5.
  split; [unfold wrapper_header; cbn [wr_magic wr_version wr_offset wr_size wr_cpu]; now rewrite !le32_word|].
  repeat split; apply word32_small.
Qed.
Lemma header_word w rest n : wrapper_ok w -> first_word (wrapper_header w ++ rest) n -> wr_magic w = n.
Proof.
  intros (H & _) (b0 & b1 & b2 & b3 & r & E & <-). unfold wrapper_header, le32 in E. cbn [app] in E. injection E as <- <- <- <- _.
  now rewrite word32_le32.
Qed.
Lemma header_same w rest w' rest' : wrapper_ok w -> wrapper_ok w' -> wrapper_header w ++ rest = wrapper_header w' ++ rest' -> w = w' /\ rest = rest'.
Proof.
  intros H H' E. pose proof (header_read w rest H) as R. rewrite E, (header_read w' rest' H') in R. injection R as <-. split; [reflexivity|].
  now apply app_inv_head in E.
Qed.
Lemma header_short buf : (length buf < 20)%nat ->
  fst (read_wrapper (cur_new buf)) = Err (if N.of_nat (length buf) mod 4 =? 0 then Eof else Short).
Proof.
  intros L. pose proof (new_tracks_any buf) as T. unfold read_wrapper.
  assert (STEP : forall (l : list byte) c, tracks buf (N.of_nat (length buf)) c (bits_of_bytes l) ->
    (exists b0 b1 b2 b3 rest, l = b0 :: b1 :: b2 :: b3 :: rest /\ exists c', read_exact cursor_ops u32t c = (Ok (word32 b0 b1 b2 b3), c') /\
       tracks buf (N.of_nat (length buf)) c' (bits_of_bytes rest)) \/
    ((length l < 4)%nat /\ exists c', read_exact cursor_ops u32t c = (Err (if N.of_nat (length l) mod 4 =? 0 then Eof else Short), c'))).
  { intros l c X. destruct (Nat.lt_ge_cases (length l) 4) as [Y|Y].
    - right. split; [exact Y|]. pose proof (read_no_word _ _ _ _ X Y) as R. destruct (read_exact cursor_ops u32t c) as [o c']. cbn [fst] in R. subst o. exists c'.
      do 2 f_equal. destruct l as [|b l]; [reflexivity|]. cbn [length] in *. destruct (_ =? 0) eqn:Z; [lia|reflexivity].
    - left. destruct (four l Y) as (b0 & b1 & b2 & b3 & rest & ->). exists b0, b1, b2, b3, rest. split; [reflexivity|]. now apply read_word in X. }
  assert (MOD : forall b0 b1 b2 b3 (rest : list byte), N.of_nat (length (b0 :: b1 :: b2 :: b3 :: rest)) mod 4 = N.of_nat (length rest) mod 4) by (intros; cbn [length]; lia).
  unfold bind.
  destruct (STEP buf (cur_new buf) T) as [(b0 & b1 & b2 & b3 & r1 & E1 & c1 & R1 & T1)|[_ (c' & R1)]]; rewrite R1; [|reflexivity].
  destruct (STEP r1 c1 T1) as [(d0 & d1 & d2 & d3 & r2 & E2 & c2 & R2 & T2)|[_ (c' & R2)]]; rewrite R2; [|now rewrite E1, MOD].
  destruct (STEP r2 c2 T2) as [(f0 & f1 & f2 & f3 & r3 & E3 & c3 & R3 & T3)|[_ (c' & R3)]]; rewrite R3; [|now rewrite E1, MOD, E2, MOD].
  destruct (STEP r3 c3 T3) as [(g0 & g1 & g2 & g3 & r4 & E4 & c4 & R4 & T4)|[_ (c' & R4)]]; rewrite R4; [|now rewrite E1, MOD, E2, MOD, E3, MOD].
  destruct (STEP r4 c4 T4) as [(h0 & h1 & h2 & h3 & r5 & E5 & c5 & R5 & T5)|[_ (c' & R5)]]; rewrite R5; [|now rewrite E1, MOD, E2, MOD, E3, MOD, E4, MOD].
  exfalso. rewrite E1, E2, E3, E4, E5 in L. cbn [length] in L. lia.
Qed.

(** *** [from_wrapped] and [from] *)

Lemma wrapped_at e w rest : wrapper_ok w ->
  decided (from_wrapped e (wrapper_header w ++ rest))
    (in_order [ demand (wr_size w <= N.of_nat (length rest)) (SCursor InvalidLength);
                demand (wr_offset w <= wr_size w + 20) (SStreamParse (PfSeek SeekInvalidInput));
                demand (wr_size w mod 4 = 0) (SBadContainer BxLength);
                demand (wr_offset w <> wr_size w + 20) (SBadContainer (BxMagic Eof));
                demand (wr_offset w + 4 <= wr_size w + 20) (SBadContainer (BxMagic Short)) ]) /\
  (forall w' b, from_wrapped e (wrapper_header w ++ rest) = Ok (w', b) ->
     w' = w /\ starts_at (wrapper_header w ++ rest) (wr_offset w) (wr_size w + 20) b).
Proof.
  intros W. unfold from_wrapped. rewrite (header_read w rest W). cbn [omap_err obind].
  assert (HLEN : N.of_nat (length (wrapper_header w ++ rest)) = 20 + N.of_nat (length rest)).
  { rewrite app_length. unfold wrapper_header, le32. cbn [app length]. lia. }
  unfold cur_new_with_len. rewrite HLEN. destruct (20 + N.of_nat (length rest) <? wr_size w + 20) eqn:X.
  { cbn [omap_err obind]. split; [apply dec_stop; lia|discriminate]. }
  cbn [omap_err obind]. unfold seek, seek_offset. cbn [byte_len inner current_block bit_index].
  destruct (wr_size w + 20 <? wr_offset w) eqn:Y.
  { split; [apply dec_next; [lia|]; apply dec_stop; lia|discriminate]. }
  unfold clear_block_state. cbn [byte_len inner byte_pos].
  destruct (from_at (wrapper_header w ++ rest) (wr_size w + 20) (wr_offset w)) as (F1 & F2 & F3); [lia|lia|].
  destruct (N.eq_dec (wr_size w mod 4) 0) as [M|M]; [destruct (N.le_gt_cases (wr_offset w + 4) (wr_size w + 20)) as [O|O]|].
  - destruct F1 as (b & -> & B); [lia|]. cbn [obind]. split; [repeat (apply dec_next; [lia|]); apply dec_ok|]. intros w' b' H. injection H as <- <-. split; [reflexivity|exact B].
  - rewrite F3 by lia. cbn [obind]. destruct (wr_offset w =? wr_size w + 20) eqn:Z; split; try discriminate.
    + do 3 (apply dec_next; [lia|]). apply dec_stop. lia.
    + do 4 (apply dec_next; [lia|]). apply dec_stop. lia.
  - rewrite F2 by lia. cbn [obind]. split; [do 2 (apply dec_next; [lia|]); apply dec_stop; lia|discriminate].
Qed.
Lemma first_word_same buf n m : first_word buf n -> first_word buf m -> n = m.
Proof. intros (a0 & a1 & a2 & a3 & r & -> & <-) (b0 & b1 & b2 & b3 & r' & [= <- <- <- <- _] & <-). reflexivity. Qed.
Lemma first_word_length buf n : first_word buf n -> (4 <= length buf)%nat.
Proof. intros (a0 & a1 & a2 & a3 & r & -> & _). cbn. lia. Qed.
Lemma from_raw_at buf n : first_word buf n ->
  decided (from_raw buf) (demand (N.of_nat (length buf) mod 4 = 0) (SBadContainer BxLength)) /\
  (forall b, from_raw buf = Ok b -> starts_at buf 0 (N.of_nat (length buf)) b).
Proof.
  intros F. apply first_word_length in F. destruct (from_at buf (N.of_nat (length buf)) 0) as (F1 & F2 & _); [lia|lia|].
  change (from_cursor (mkCursor (N.of_nat (length buf)) buf 0 0 0)) with (from_raw buf) in *.
  destruct (N.eq_dec (N.of_nat (length buf) mod 4) 0) as [M|M].
  - destruct F1 as (b & E & B); [lia|]. split; [apply dec_demand; right; eauto|]. intros b' X. rewrite E in X. injection X as <-. exact B.
  - assert (E : from_raw buf = Err (SBadContainer BxLength)) by (apply F2; lia). split; [apply dec_demand; left; auto|]. rewrite E. discriminate.
Qed.
Lemma from_exact e buf : decided (from e buf) (open_rule buf) /\ (forall w b, from e buf = Ok (w, b) -> starts buf w b).
Proof.
  destruct (Nat.lt_ge_cases (length buf) 4) as [S4|S4].
  { assert (E : from e buf = Err (SCursor (match buf with [] => Eof | _ => Short end))).
    { destruct buf as [|b0 [|b1 [|b2 [|b3 buf]]]]; [| | | |cbn in S4; lia]; vm_compute; reflexivity. }
    rewrite E. split; [|discriminate]. apply dec_intro.
    - destruct buf; [now constructor|]. apply OgCut. cbn [length] in *. lia.
    - intros v V. destruct V as [-> |H|n v H|H|H|w rest v -> W]; try (apply first_word_length in H; lia); [reflexivity|destruct buf; [cbn in H; lia|reflexivity]|].
      rewrite app_length in S4. unfold wrapper_header, le32 in S4. cbn in S4. lia. }
  destruct (four buf S4) as (b0 & b1 & b2 & b3 & rest & E).
  assert (FW : first_word buf (word32 b0 b1 b2 b3)) by (exists b0, b1, b2, b3, rest; auto).
  assert (D : from e buf = if word32 b0 b1 b2 b3 =? 0x0b17c0de
    then match from_wrapped e buf with Ok (w, b) => Ok (Some w, b) | Err x => Err x | Panic p => Panic p | OutOfFuel => OutOfFuel end
    else match from_raw buf with Ok b => Ok (None, b) | Err x => Err x | Panic p => Panic p | OutOfFuel => OutOfFuel end) by (rewrite E; apply from_dispatch).
  rewrite D. destruct (_ =? _) eqn:M.
  - apply N.eqb_eq in M. change 0x0b17c0de with wrapper_word in M. rewrite M in FW. clear D.
    destruct (Nat.lt_ge_cases (length buf) 20) as [S20|S20].
    + unfold from_wrapped. rewrite (header_short buf S20). cbn [omap_err obind]. split; [|discriminate]. apply dec_intro.
      * destruct (N.of_nat (length buf) mod 4 =? 0) eqn:Z; [apply OgHeaderEnd|apply OgHeaderCut]; auto; lia.
      * intros v V. destruct V as [-> |H|n v H K|H H2 H3|H H2 H3|w r v -> W]; [discriminate E|lia|exfalso; apply K; eapply first_word_same; eassumption|..].
        -- rewrite H3. reflexivity.
        -- cbn. destruct (_ =? 0) eqn:Z; [lia|reflexivity].
        -- exfalso. rewrite app_length in S20. unfold wrapper_header, le32 in S20. cbn in S20. lia.
    + destruct (header_exists buf S20) as (w & r & B & W). pose proof (wrapped_at e w r W) as [Q1 Q2]. rewrite <- B in Q1, Q2.
      assert (MW : wr_magic w = wrapper_word) by (apply (header_word w r); [exact W|now rewrite <- B]). split.
      * apply (dec_same (from_wrapped e buf)); [now destruct (from_wrapped e buf) as [[]| | |]|].
        apply (dec_ext _ _ _ Q1). intros v. split; [intros H; now apply OgWrapped with w r|].
        intros V. destruct V as [-> |H|n v H K|H H2 H3|H H2 H3|w' r' v B' W' M' V]; [discriminate E|lia|exfalso; apply K; eapply first_word_same; eassumption|lia|lia|].
        rewrite B in B'. apply header_same in B' as [<- <-]; auto.
      * intros w' b H. destruct (from_wrapped e buf) as [[w2 b2']|x|p|] eqn:Q; try discriminate. injection H as <- <-.
        destruct (Q2 w2 b2' eq_refl) as [-> O]. now apply BgWrapped with r.
  - apply N.eqb_neq in M. change 0x0b17c0de with wrapper_word in M. destruct (from_raw_at buf _ FW) as [Q1 Q2]. split.
    + apply (dec_same (from_raw buf)); [now destruct (from_raw buf)|]. apply (dec_ext _ _ _ Q1). intros v.
      split; [intros H; eapply OgRaw; eauto|]. intros V. destruct V as [-> |H|n v H K V|H H2 H3|H H2 H3|w r v B W MW].
      * discriminate E.
      * lia.
      * exact V.
      * exfalso. apply M. eapply first_word_same; eassumption.
      * exfalso. apply M. eapply first_word_same; eassumption.
      * exfalso. apply M. rewrite B in FW. apply header_word in FW; [congruence|exact W].
    + intros w b H. destruct (from_raw buf) as [b'|x|p|] eqn:Q; try discriminate. injection H as <- <-. eapply BgRaw; eauto.
Qed.
