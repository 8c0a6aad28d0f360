(** Exact descriptions of the cases in which the claims about the cursor fail. *)
From Verif Require Import Base CursorModel CursorSpec CursorHist CursorProofs CursorSim CursorVbr CursorMain.
From Coq Require Import Lia ZifyBool ZifyNat ZifyN.
Ltac Zify.zify_post_hook ::= Z.div_mod_to_equations.
Local Open Scope N_scope.
#[local] Arguments N.add : simpl never.
#[local] Arguments N.mul : simpl never.
#[local] Arguments N.div : simpl never.
#[local] Arguments N.modulo : simpl never.
#[local] Arguments N.pow : simpl never.
#[local] Arguments N.sub : simpl never.

(** C03: a short read drops the bits of the loaded block. *)
Lemma short_read_main e c n c' : reachable e c -> read n c = (Err Short, c') ->
  tell_bit c' = tell_bit c + bit_index c.
Proof.
  intros HR E. pose proof (reachable_inv _ _ HR) as H. pose proof (inv_pos c (proj1 H)) as P.
  assert (tell_bit c' = 8 * byte_pos c) as ->.
  { destruct (N.eq_dec n 0) as [Hn|Hn]; [|destruct (N.le_gt_cases 64 n) as [Hn'|Hn']].
    1,2: rewrite read_invalid in E by lia; discriminate E.
    destruct (N.le_gt_cases n (N.of_nat (length (rem c)))) as [Hr|Hr].
    - destruct (read_ok63 n c H ltac:(lia) Hr) as (c1 & E1 & _). congruence.
    - destruct (read_fail63 n c H ltac:(lia) Hr) as [[Hz E1]|[Hz (c1 & E1 & _ & _ & T1 & _)]]; congruence. }
  pose proof (inv_idx c (proj1 H)). unfold tell_bit. lia.
Qed.

(** C05: the only panic. *)
Lemma seek_panics e c sf p : reachable e c -> byte_len c < 9223372036854775808 -> seek_arg_ok sf ->
  (fst (seek e sf c) = Panic p <->
   p = PAddOverflow /\ overflow_checks e = true /\ exists d, sf = SeekCurrent d /\ (i64_max < Z.of_N (tell_byte c) + d)%Z).
Proof.
  intros HR HB HA. pose proof (reachable_inv _ _ HR) as H. split.
  - intros HP. destruct (Z_le_gt_dec (seek_target c sf) i64_max) as [L|L].
    + exfalso. destruct (seek_main e c sf HR HB HA (or_introl L)) as [A B].
      destruct (Z_le_gt_dec 0 (seek_target c sf)) as [L0|L0]; [destruct (Z_le_gt_dec (seek_target c sf) (Z.of_N (byte_len c))) as [L1|L1]|].
      * assert (DF : seek_forward_from_end sf \/ ~ seek_forward_from_end sf) by (destruct sf; cbn; [tauto|lia|tauto]).
        destruct DF as [F|F]; [destruct B as (x & B); [tauto|]|destruct A as (c1 & A & _); [split; [lia|exact F]|]].
        -- rewrite B in HP. discriminate HP.
        -- rewrite A in HP. discriminate HP.
      * destruct B as (x & B); [lia|]. rewrite B in HP. discriminate HP.
      * destruct B as (x & B); [lia|]. rewrite B in HP. discriminate HP.
    + assert (TB : tell_byte c <= byte_len c).
      { pose proof (tell_bit_le c (proj1 H)) as T. unfold tell_byte, bit_len in *. lia. }
      destruct sf as [q|d|d]; unfold seek in HP; cbn [seek_offset seek_target seek_arg_ok] in *.
      * destruct (_ <? _) in HP; discriminate HP.
      * destruct (0 <=? d)%Z eqn:E; [discriminate HP|]. unfold i64_max in *. lia.
      * rewrite as_i64_small in HP by lia. unfold add_i64 in HP.
        replace ((i64_min <=? Z.of_N (tell_byte c) + d)%Z && (Z.of_N (tell_byte c) + d <=? i64_max)%Z) with false in HP by lia.
        destruct (overflow_checks e); cbn [obind] in HP.
        -- injection HP as <-. split; [reflexivity|]. split; [reflexivity|]. exists d. split; [reflexivity|lia].
        -- destruct (_ <? _) in HP; discriminate HP.
  - intros (-> & HO & d & -> & L).
    assert (TB : tell_byte c <= byte_len c).
    { pose proof (tell_bit_le c (proj1 H)) as T. unfold tell_byte, bit_len in *. lia. }
    unfold seek. cbn [seek_offset]. rewrite as_i64_small by lia. unfold add_i64.
    replace ((i64_min <=? Z.of_N (tell_byte c) + d)%Z && (Z.of_N (tell_byte c) + d <=? i64_max)%Z) with false by lia.
    rewrite HO. reflexivity.
Qed.

(** C08: groups beyond the 64th bit are or-ed in from bit 0 on. *)
Lemma acc_wrapped w ps : forall i result, acc_groups w ps result (i * (w - 1)) = N.lor result (wrapped_groups w i ps).
Proof.
  induction ps as [|p ps IH]; intros i result; cbn [acc_groups wrapped_groups]; [now rewrite N.lor_0_r|].
  replace (i * (w - 1) + (w - 1)) with ((i + 1) * (w - 1)) by lia. rewrite IH, <- N.lor_assoc. f_equal. f_equal.
  unfold shl64. now rewrite N.shiftl_mul_pow2.
Qed.

Lemma vbr_wrapped e c w ps last rest : reachable e c -> 2 <= w <= 32 ->
  Forall (fun p => N.of_nat (length p) = w - 1) ps -> N.of_nat (length last) = w - 1 ->
  skipn (N.to_nat (tell_bit c)) (content c) = vbr_text ps last ++ rest -> overflow_checks e = false ->
  exists c', read_vbr e cursor_ops w c = (Ok (wrapped_groups w 0 (ps ++ [last])), c') /\
    tell_bit c' = tell_bit c + N.of_nat (length (vbr_text ps last)) /\ content c' = content c.
Proof.
  intros HR Hw Hps Hl HC HO. pose proof (reachable_inv _ _ HR) as H.
  pose proof (read_vbr_sim _ _ _ (cursor_read_sim (inner c) (byte_len c)) e w c _ (tracks_self c H)) as S0.
  rewrite rem_content, HC in S0. unfold read_vbr in S0 at 2.
  replace ((2 <=? w) && (w <=? 32)) with true in S0 by lia.
  destruct (vbr_loop_text e w ps last rest (op_fuel list_ops (vbr_text ps last ++ rest)) 0 0 Hw Hps Hl) as (l' & E).
  { cbn. lia. }
  rewrite E, HO in S0. cbn [andb] in S0. apply sim_ok in S0. destruct S0 as (c' & Ec & T). exists c'.
  pose proof (acc_wrapped w (ps ++ [last]) 0 0) as A. rewrite N.lor_0_l in A. replace (0 * (w - 1)) with 0 in A by lia.
  rewrite A in Ec. split; [exact Ec|]. eapply tracks_end; eassumption.
Qed.

(** A text cut short. *)
Lemma vbr_cut e c w ps tail : reachable e c -> 2 <= w <= 32 ->
  Forall (fun p => N.of_nat (length p) = w - 1) ps -> N.of_nat (length tail) < w ->
  skipn (N.to_nat (tell_bit c)) (content c) = flat_map (fun p => p ++ [true]) ps ++ tail ->
  fst (read_vbr e cursor_ops w c) =
    if overflow_checks e && (64 + (w - 1) <=? N.of_nat (length ps) * (w - 1)) then Panic PShiftOverflow
    else Err (match tail with [] => Eof | _ => Short end).
Proof.
  intros HR Hw Hps Hl HC. pose proof (reachable_inv _ _ HR) as H.
  pose proof (read_vbr_sim _ _ _ (cursor_read_sim (inner c) (byte_len c)) e w c _ (tracks_self c H)) as S0.
  rewrite rem_content, HC in S0. unfold read_vbr in S0 at 2.
  replace ((2 <=? w) && (w <=? 32)) with true in S0 by lia.
  destruct (vbr_loop_trunc e w ps tail (op_fuel list_ops (flat_map (fun p => p ++ [true]) ps ++ tail)) 0 0 Hw Hps Hl) as (l' & E).
  { cbn. lia. }
  rewrite E in S0.
  match type of S0 with context [if ?b then (Panic _, _) else _] =>
    assert (B : b = overflow_checks e && (64 + (w - 1) <=? N.of_nat (length ps) * (w - 1))) end.
  { destruct (overflow_checks e); [|reflexivity]. cbn [andb]. rewrite !N.add_0_l. destruct ps as [|p ps]; cbn [length] in *.
    - cbn. lia.
    - nia. }
  rewrite B in S0. destruct (overflow_checks e && _); unfold sim_res in S0; cbn [fst] in S0;
    destruct (fst (read_vbr e cursor_ops w c)); try contradiction; congruence.
Qed.

(** Every input is one or the other. *)
Lemma vbr_cases w l : 2 <= w ->
  (exists ps last rest, l = vbr_text ps last ++ rest /\ Forall (fun p => N.of_nat (length p) = w - 1) ps /\ N.of_nat (length last) = w - 1) \/
  (exists ps tail, l = flat_map (fun p => p ++ [true]) ps ++ tail /\ Forall (fun p => N.of_nat (length p) = w - 1) ps /\ N.of_nat (length tail) < w).
Proof. exact (vbr_decompose w l). Qed.

(** C07: the value of any signed text. *)
Lemma svbr_value e c w v rest : reachable e c -> 2 <= w <= 32 -> v < two64 ->
  skipn (N.to_nat (tell_bit c)) (content c) = vbr_bits w v ++ rest ->
  exists c', read_svbr e cursor_ops w c = (Ok (if N.even v then Z.of_N (v / 2) else (- Z.of_N (v / 2))%Z), c') /\
    tell_bit c' = tell_bit c + N.of_nat (length (vbr_bits w v)) /\ content c' = content c.
Proof.
  intros HR Hw Hv HC. destruct (read_vbr_main e c w v rest HR Hw Hv HC) as (c' & E & T & K).
  exists c'. split; [|split; assumption]. unfold read_svbr, bind. rewrite E.
  assert (L : N.land v 1 = v mod 2) by (change 1 with (N.ones 1); rewrite N.land_ones; reflexivity).
  rewrite L, N.shiftr_div_pow2. change (2 ^ 1) with 2. destruct (N.even v) eqn:EV.
  - apply N.even_spec in EV as (k & ->). replace (2 * k mod 2 =? 0) with true by lia. reflexivity.
  - assert (OD : N.odd v = true) by (rewrite <- N.negb_even, EV; reflexivity).
    apply N.odd_spec in OD as (k & ->). replace ((2 * k + 1) mod 2 =? 0) with false by lia. reflexivity.
Qed.

(** C10: signed types. *)
Lemma read_exact_signed e c t : reachable e c -> ity_signed t = true -> 1 <= ity_bits t <= 63 ->
  tell_bit c + ity_bits t <= bit_len c ->
  let v := N_of_bits (sub_bits (tell_bit c) (ity_bits t) (content c)) in
  exists c', read_exact cursor_ops t c = ((if v <? 2 ^ (ity_bits t - 1) then Ok v else Err BadCast), c') /\
             tell_bit c' = tell_bit c + ity_bits t /\ content c' = content c.
Proof.
  intros HR HS Hb HL. cbv zeta. pose proof (read_as_main e c t (ity_bits t) HR Hb HL) as K. cbv zeta in K. rewrite HS in K. exact K.
Qed.

(** C09: every cursor. *)
Lemma align32_exact e c : reachable e c ->
  tell_bit c <= tell_bit (align32 c) < tell_bit c + 32 /\ tell_bit (align32 c) <= bit_len c /\ content (align32 c) = content c /\
  tell_bit (align32 c) mod 32 = 8 * (byte_pos c mod 4) /\
  (tell_bit (align32 c) = 32 * ((tell_bit c + 31) / 32) <-> byte_pos c mod 4 = 0).
Proof.
  intros HR. pose proof (reachable_inv e c HR) as I0. pose proof (align32_inv c I0) as (I' & S0 & _).
  pose proof (tell_bit_le _ (proj1 I')) as TL. destruct (same_data_bits _ _ S0) as [_ BL]. pose proof (same_content _ _ S0) as SC.
  destruct I0 as [[H1 H2 H3 H4 H5] I63].
  assert (X : tell_bit c <= tell_bit (align32 c) < tell_bit c + 32 /\ tell_bit (align32 c) mod 32 = 8 * (byte_pos c mod 4)).
  { unfold align32, tell_bit. destruct (32 <=? bit_index c) eqn:E; cbn [byte_pos bit_index clear_block_state]; lia. }
  destruct X as [X1 X2]. split; [exact X1|]. split; [congruence || lia|]. split; [exact SC|]. split; [exact X2|]. lia.
Qed.

(** C04: which error, and where the cursor is left. *)
Lemma seek_bit_fails e c p : reachable e c -> bit_len c < p ->
  exists c', seek_bit p c = (Err (if bit_len c <=? 64 * (p / 64) then Eof else Short), c') /\
    tell_bit c' = (if bit_len c <? 64 * (p / 64) then tell_bit c else 64 * (p / 64)) /\ content c' = content c.
Proof.
  intros HR Hp. pose proof (reachable_inv _ _ HR) as [I _]. unfold seek_bit. rewrite ldiff_7.
  replace (p / 8 / 8) with (p / 64) by (rewrite N.div_div by lia; reflexivity).
  unfold bit_len in Hp |- *.
  destruct (byte_len c <? 8 * (p / 64)) eqn:E0.
  { replace (byte_len c * 8 <=? 64 * (p / 64)) with true by lia. replace (byte_len c * 8 <? 64 * (p / 64)) with true by lia. eauto. }
  destruct (seek_bit_start c (8 * (p / 64)) I ltac:(lia)) as (I0 & T0 & S0 & P0).
  set (c0 := clear_block_state _) in *.
  replace (0 <? p mod 64) with true by lia. replace (byte_len c * 8 <? 64 * (p / 64)) with false by lia.
  assert (L0 : N.of_nat (length (rem c0)) = bit_len c0 - tell_bit c0) by (rewrite rem_length by exact (proj1 I0); lia).
  destruct (same_data_bits _ _ S0) as [D0 B0].
  destruct (read_fail63 (p mod 64) c0 I0 ltac:(lia)) as [[R ->]|[R (c' & -> & K)]].
  - rewrite L0, B0, T0. unfold bit_len. lia.
  - rewrite R in L0. rewrite B0, T0 in L0. unfold bit_len in L0. cbn [length] in L0. replace (byte_len c * 8 <=? 64 * (p / 64)) with true by lia.
    eexists. split; [reflexivity|]. split; [lia|]. now apply same_content.
  - destruct K as (_ & _ & T1 & S1). assert (L1 : N.of_nat (length (rem c0)) <> 0) by (destruct (rem c0); [congruence|cbn; lia]).
    rewrite L0, B0, T0 in L1. unfold bit_len in L1. replace (byte_len c * 8 <=? 64 * (p / 64)) with false by lia.
    exists c'. split; [reflexivity|]. split; [lia|]. apply same_content. exact (same_data_trans _ _ _ S0 S1).
Qed.

(** C05: which error. *)
Lemma seek_fails e c sf : reachable e c -> byte_len c < 9223372036854775808 -> seek_arg_ok sf ->
  ((seek_target c sf <= i64_max)%Z \/ overflow_checks e = false \/ (exists p, sf = SeekStart p)) ->
  ~ ((0 <= seek_target c sf <= Z.of_N (byte_len c))%Z /\ ~ seek_forward_from_end sf) ->
  seek e sf c = (Err (match sf with SeekEnd d => if (0 <=? d)%Z then SeekUnsupported else SeekInvalidInput | _ => SeekInvalidInput end), c).
Proof.
  intros HR HB HA HO K. destruct (proj2 (seek_main e c sf HR HB HA HO) K) as (x & E). rewrite E. f_equal. f_equal.
  unfold seek in E. destruct sf as [p|d|d]; cbn [seek_offset] in E.
  - destruct (byte_len c <? p); congruence.
  - destruct (0 <=? d)%Z; [congruence|]. destruct (add_i64 e _ d) as [s|y|q|] eqn:A; cbn [obind] in E; try discriminate E.
    + destruct (byte_len c <? as_u64 s); congruence.
    + unfold add_i64 in A. destruct (_ && _); [discriminate A|]. destruct (overflow_checks e); discriminate A.
  - destruct (add_i64 e _ d) as [s|y|q|] eqn:A; cbn [obind] in E; try discriminate E.
    + destruct (byte_len c <? as_u64 s); congruence.
    + unfold add_i64 in A. destruct (_ && _); [discriminate A|]. destruct (overflow_checks e); discriminate A.
Qed.
