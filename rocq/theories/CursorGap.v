(** Cursors that loaded their blocks from an arbitrary byte on, as lists of bits with
    alignments that depend on the position. *)
From Verif Require Import Base CursorModel CursorSpec CursorProofs CursorSim StreamModel StreamSpec StreamProofs StreamMain GrammarSpec.
From Coq Require Import Lia ZifyBool ZifyNat ZifyN.
Ltac Zify.zify_post_hook ::= Z.div_mod_to_equations.
Local Open Scope N_scope.
#[local] Arguments N.add : simpl never.
#[local] Arguments N.mul : simpl never.
#[local] Arguments N.div : simpl never.
#[local] Arguments N.modulo : simpl never.
#[local] Arguments N.sub : simpl never.
#[local] Arguments N.pow : simpl never.

(** Alignments of data of [tot] bits. *)
Record layout : Set := mkLayout { gap : N -> N; tot : N; inside : forall p, p <= tot -> gap p <= tot - p }.

Definition gap_align (y : layout) (l : list bool) : list bool :=
  skipn (N.to_nat (gap y (tot y - N.of_nat (length l)))) l.
Definition gap_ops (y : layout) : cops (list bool) :=
  mkCops (list bool) list_read (gap_align y) list_exhausted (fun l => S (length l)).

Lemma word_inside n : n mod 32 = 0 -> forall p, p <= n -> word_gap p <= n - p.
Proof. intros H p HP. unfold word_gap. lia. Qed.
Lemma block_inside s n : forall p, p <= n -> block_gap s n p <= n - p.
Proof.
  intros p HP. unfold block_gap. cbv zeta. destruct (_ =? 0) eqn:E1; [lia|]. destruct (_ <=? _) eqn:E2; [|destruct (_ <? _); lia].
  destruct (N.le_gt_cases s p) as [K|K]; [|replace (p - s) with 0 in E1 by lia; discriminate E1].
  remember (p - s) as k eqn:EK. assert (PK : p = s + k) by lia. clear EK. subst p. lia.
Qed.
Definition word_layout (n : N) (H : n mod 32 = 0) : layout := mkLayout word_gap n (word_inside n H).
Definition block_layout (s n : N) : layout := mkLayout (block_gap s n) n (block_inside s n).

Lemma block_word s n p : s mod 32 = 0 -> n mod 32 = 0 -> s <= p <= n -> block_gap s n p = word_gap p.
Proof.
  intros H1 H2 H3. unfold block_gap, word_gap. cbv zeta. remember (p - s) as k eqn:EK. assert (PK : p = s + k) by lia. clear EK. subst p.
  replace ((s + k) mod 32) with (k mod 32) by lia.
  destruct (k mod 64 =? 0) eqn:E1; [lia|]. destruct (_ <=? _) eqn:E2; [reflexivity|].
  destruct (_ <? _) eqn:E3; lia.
Qed.

(** ** Where the blocks start *)

(** Blocks start at [start] and every eight bytes; the last may be shorter. *)
Definition phase (start : N) (c : cursor) : Prop :=
  8 * start <= tell_bit c /\ start <= byte_pos c /\
  (byte_pos c mod 8 = start mod 8 \/ byte_pos c = byte_len c /\ bit_index c <= 8 * ((byte_len c - start) mod 8)).
(** No short block is loaded and untouched. *)
Definition begun (start : N) (c : cursor) : Prop :=
  8 * start <= tell_bit c /\ start <= byte_pos c /\
  (byte_pos c mod 8 = start mod 8 \/ byte_pos c = byte_len c /\ bit_index c < 8 * ((byte_len c - start) mod 8)).

Lemma begun_phase start c : begun start c -> phase start c.
Proof. intros (H1 & H2 & H3). split; [exact H1|]. split; [exact H2|]. destruct H3 as [H3|[H3 H4]]; [now left|right; lia]. Qed.

Lemma phase_drop (start len bp b M n : N) : 8 * start <= bp * 8 - b -> start <= bp -> b <= 8 * bp -> 1 <= n -> n <= b ->
  (bp mod 8 = start mod 8 \/ bp = len /\ b <= 8 * M) ->
  8 * start <= bp * 8 - (b - n) /\ start <= bp /\ (bp mod 8 = start mod 8 \/ bp = len /\ b - n < 8 * M).
Proof.
  intros H1 H2 H3 H4 H5 [H6|[H6 H7]].
  - split; [clear H6; lia|]. split; [exact H2|now left].
  - split; [lia|]. split; [exact H2|right; lia].
Qed.

Lemma read_phase start n c : inv63 c -> phase start c ->
  phase start (snd (read n c)) /\ (forall v, fst (read n c) = Ok v -> begun start (snd (read n c))).
Proof.
  intros [I I63] P. pose proof I as [H1 H2 H3 H4 _]. pose proof P as (P1 & P2 & P3).
  destruct ((n =? 0) || (64 <=? n)) eqn:EN.
  { rewrite read_invalid by lia. cbn [fst snd]. split; [exact P|discriminate]. }
  unfold read. rewrite EN. destruct (n <=? bit_index c) eqn:E.
  { cbn [fst snd]. assert (B : begun start (drop_bits n c)).
    { apply phase_drop with (len := byte_len c); try assumption; clear P3; lia. }
    split; [now apply begun_phase|intros; exact B]. }
  destruct (load_spec c I) as [LD L']. destruct (bit_len c =? tell_bit c) eqn:E2.
  { rewrite LD. cbn [fst snd]. split; [exact P|discriminate]. }
  specialize (L' ltac:(clear P3; lia)). cbv zeta in L'. rewrite LD. set (c1 := snd (load_current_block c)) in *.
  destruct L' as (I1 & T1 & R1 & BL1 & IN1 & BI1).
  pose proof I1 as [K1 K2 K3 K4 _]. clear I1 R1 IN1 LD.
  assert (BP1 : byte_pos c1 = byte_pos c + N.min 8 (byte_len c - byte_pos c)) by (clear P3 P; unfold tell_bit in T1; lia).
  assert (Q : byte_pos c1 mod 8 = start mod 8 \/ byte_pos c1 = byte_len c1 /\ bit_index c1 <= 8 * ((byte_len c1 - start) mod 8)).
  { rewrite BP1, BI1, BL1. destruct (N.le_gt_cases 8 (byte_len c - byte_pos c)) as [K|K].
    - destruct P3 as [P3|[P3 _]]; [left|clear - P3 K; lia]. rewrite N.min_l by exact K. clear - P3. lia.
    - right. rewrite N.min_r by (clear - K; lia). split; [clear - H2 H1; lia|]. clear H1 H3 H4 K1 K3 K4 BI1 BP1 T1. 
      destruct P3 as [P3|[P3 _]]; [|rewrite P3, N.sub_diag; clear; lia].
      assert (MM : (byte_len c - start) mod 8 = byte_len c - byte_pos c) by (clear - P3 K P2 H2; lia).
      rewrite MM. clear; lia. }
  assert (S1 : 8 * start <= tell_bit c1) by (rewrite T1; clear - P2; lia).
  assert (S2 : start <= byte_pos c1) by (rewrite BP1; clear - P2; lia).
  destruct (bit_index c1 <? n - bit_index c) eqn:E3; cbn [fst snd].
  - split; [|discriminate]. split; [exact S1|]. split; [exact S2|]. exact Q.
  - assert (B : begun start (drop_bits (n - bit_index c) c1)).
    { apply phase_drop with (len := byte_len c1); try assumption; clear Q P3 P; try lia. }
    split; [now apply begun_phase|intros; exact B].
Qed.

Lemma align_phase start c : inv63 c -> phase start c -> phase start (align32 c).
Proof.
  intros [[H1 H2 H3 H4 H5] I63] (P1 & P2 & P3). unfold phase, align32, tell_bit in *.
  destruct (32 <=? bit_index c) eqn:E; cbn [clear_block_state byte_pos byte_len bit_index];
    (split; [lia|]; split; [lia|]; destruct P3 as [P3|[P3 P4]]; [left; exact P3|right; lia]).
Qed.
Lemma align_begun start c : inv63 c -> begun start c -> begun start (align32 c).
Proof.
  intros [[H1 H2 H3 H4 H5] I63] (P1 & P2 & P3). unfold begun, align32, tell_bit in *.
  destruct (32 <=? bit_index c) eqn:E; cbn [clear_block_state byte_pos byte_len bit_index];
    (split; [lia|]; split; [lia|]; destruct P3 as [P3|[P3 P4]]; [left; exact P3|right; lia]).
Qed.
Lemma gap_cases (d b k : N) : 8 * d = k + b -> b <= 63 -> d mod 8 = 0 ->
  (if 32 <=? b then b - 32 else b) = if k mod 64 =? 0 then 0 else (32 - k mod 32) mod 32.
Proof. intros H1 H2 H3. destruct (32 <=? b) eqn:E1, (k mod 64 =? 0) eqn:E2; lia. Qed.

Lemma align_gap start c : inv63 c -> begun start c ->
  tell_bit (align32 c) = tell_bit c + block_gap (8 * start) (bit_len c) (tell_bit c).
Proof.
  intros [[H1 H2 H3 H4 _] I63] (P1 & P2 & P3).
  assert (A : tell_bit (align32 c) = tell_bit c + if 32 <=? bit_index c then bit_index c - 32 else bit_index c).
  { clear P3. unfold align32, tell_bit in *. destruct (32 <=? bit_index c) eqn:E; cbn [clear_block_state byte_pos byte_len bit_index]; lia. }
  rewrite A. f_equal. clear A. unfold block_gap. cbv zeta. unfold bit_len.
  remember (tell_bit c - 8 * start) as k eqn:EK. remember (byte_pos c - start) as d eqn:ED. remember (byte_len c - byte_pos c) as r eqn:ER.
  assert (PD : byte_pos c = start + d) by (clear - P2 ED; lia).
  assert (PL : byte_len c = start + d + r) by (clear - PD ER H2; lia).
  assert (KE : 8 * d = k + bit_index c) by (clear - EK P1 PD H3; unfold tell_bit in *; lia).
  assert (TE : tell_bit c = 8 * start + k) by (clear - EK P1; lia).
  rewrite TE, PL. set (b := bit_index c) in *. clearbody b.
  assert (Q : d mod 8 = 0 \/ r = 0 /\ b < 8 * (d mod 8)).
  { destruct P3 as [P3|[P3 P4]]; [left; clear - P3 PD; lia|right]. rewrite PL in P3, P4. split; [clear - P3 PD; lia|].
    replace (start + d + r - start) with d in P4 by (clear - P3 PD; lia). exact P4. }
  clear - KE I63 Q. destruct Q as [Q|[Q1 Q2]].
  - rewrite (gap_cases d b k KE I63 Q). destruct (k mod 64 =? 0) eqn:E1; [reflexivity|].
    replace (8 * start + 64 * (k / 64 + 1) <=? (start + d + r) * 8) with true; [reflexivity|]. clear - KE I63 Q E1. lia.
  - subst r. replace (k mod 64 =? 0) with false by lia.
    replace (8 * start + 64 * (k / 64 + 1) <=? (start + d + 0) * 8) with false by lia.
    replace ((start + d + 0) * 8 - (8 * start + k)) with b by lia.
    destruct (32 <=? b) eqn:E1, (b <? 32) eqn:E2; lia.
Qed.

(** ** Simulation *)

(** The alignments [y] are those of blocks from [start] on. *)
Definition fits (y : layout) (start len : N) : Prop :=
  tot y = 8 * len /\ forall p, 8 * start <= p <= 8 * len -> gap y p = block_gap (8 * start) (8 * len) p.

Definition tracks_from (start : N) (buf : list byte) (len : N) (c : cursor) (l : list bool) : Prop :=
  tracks buf len c l /\ begun start c.

Lemma gap_sim y start buf len : fits y start len -> ops_sim (tracks_from start buf len) cursor_ops (gap_ops y).
Proof.
  intros [F1 F2]. split; [split| |].
  - intros n c l [H B]. pose proof (rs_read _ _ _ (cursor_read_sim buf len) n c l H) as Q.
    pose proof (read_phase start n c (proj1 H) (begun_phase _ _ B)) as (_ & HA).
    change (op_read (gap_ops y) n l) with (op_read list_ops n l).
    unfold sim_res in *. cbn [op_read cursor_ops] in *.
    destruct (fst (read n c)), (fst (op_read list_ops n l)); try contradiction; try assumption.
    destruct Q as [-> Q]. split; [reflexivity|]. split; [exact Q|]. now apply (HA a0).
  - intros c l [H B]. apply (rs_fuel _ _ _ (cursor_read_sim buf len) c l H).
  - intros c l [(I & HB & HL & HR) B]. cbn [op_align32 cursor_ops gap_ops].
    pose proof (align32_inv c I) as (I' & [S1 S2] & _). pose proof (align_gap start c I B) as T.
    split; [|now apply align_begun]. split; [exact I'|]. split; [congruence|]. split; [congruence|].
    pose proof (rem_length c (proj1 I)) as RL. rewrite HR in RL. pose proof (tell_bit_le c (proj1 I)) as TL.
    destruct (same_data_bits c (align32 c) (conj S1 S2)) as [D _].
    unfold gap_align. rewrite F1.
    assert (TE : tell_bit c = 8 * len - N.of_nat (length l)) by (unfold bit_len in *; rewrite HL in *; lia).
    rewrite <- TE. rewrite F2 by (destruct B as (B1 & _); unfold bit_len in *; rewrite HL in *; lia).
    replace (8 * len) with (bit_len c) by (unfold bit_len; rewrite HL; lia).
    rewrite <- HR. unfold rem. rewrite D, T, skipn_skipn. f_equal. lia.
  - intros c l [(I & HB & HL & HR) B]. cbn [op_exhausted cursor_ops gap_ops].
    pose proof (exhausted_spec c (proj1 I)) as E. rewrite HR in E.
    destruct (exhausted c), l; cbn; try reflexivity; destruct E as [E1 E2];
      try (now specialize (E1 eq_refl)); now specialize (E2 eq_refl).
Qed.

Lemma get_scope_bind {C A} (k : scope -> M (sparser C) serr A) s :
  bind get_scope k s = match p_scopes s with [] => (Panic PNoScope, s) | sc :: _ => k sc s end.
Proof. unfold bind, get_scope. destruct (p_scopes s); reflexivity. Qed.

(** Every call starts with a read, so a short block that is loaded and untouched (after a read
    that failed) does no harm. *)
Lemma advance_gap_sim y start buf len e f (s : sparser cursor) (t : sparser (list bool)) : fits y start len ->
  tracks buf len (p_cur s) (p_cur t) -> phase start (p_cur s) -> p_scopes s = p_scopes t -> p_info s = p_info t ->
  sim_res (PR (tracks_from start buf len)) (advance_loop e cursor_ops (S f) s) (advance_loop e (gap_ops y) (S f) t).
Proof.
  intros F H P HC HI. pose proof (gap_sim y start buf len F) as HS. cbn [advance_loop].
  apply sim_bind.
  2:{ intros [x|] s1 t1 H1; [now apply sim_ret|]. now apply advance_loop_sim. }
  unfold step.
  assert (EX : op_exhausted cursor_ops (p_cur s) = op_exhausted (gap_ops y) (p_cur t)).
  { destruct H as (I & HB & HL & HR). cbn [op_exhausted cursor_ops gap_ops].
    pose proof (exhausted_spec (p_cur s) (proj1 I)) as E. rewrite HR in E.
    destruct (exhausted (p_cur s)), (p_cur t); cbn; try reflexivity; destruct E as [E1 E2];
      try (now specialize (E1 eq_refl)); now specialize (E2 eq_refl). }
  rewrite EX. destruct (op_exhausted (gap_ops y) (p_cur t)); [reflexivity|].
  rewrite !get_scope_bind, HC. destruct (p_scopes t) as [|sc scs] eqn:ES; [exact eq_refl|].
  apply sim_bind.
  2:{ intros v s1 t1 H1. destruct (abbrev_id_of _).
      - eapply exit_block_sim; eassumption.
      - eapply enter_block_sim; eassumption.
      - apply sim_bind; [eapply define_abbrev_sim; eassumption|]. intros. now apply sim_ret.
      - eapply parse_unabbrev_sim; eassumption.
      - eapply parse_with_abbrev_sim; eassumption. }
  pose proof (rs_read _ _ _ (cursor_read_sim buf len) (sc_width sc) _ _ H) as Q.
  pose proof (read_phase start (sc_width sc) _ (proj1 H) P) as (_ & HA).
  unfold on_cur, c_read, lift_err. change (op_read (gap_ops y) (sc_width sc) (p_cur t)) with (op_read list_ops (sc_width sc) (p_cur t)).
  unfold sim_res in *. cbn [op_read cursor_ops] in *.
  destruct (read (sc_width sc) (p_cur s)) as [[a|x|p|] c'], (op_read list_ops (sc_width sc) (p_cur t)) as [[a0|x0|p0|] l'];
    cbn [fst snd] in *; try contradiction; try congruence.
  destruct Q as [-> Q]. split; [reflexivity|]. split; [split; [exact Q|now apply (HA a0)]|]. cbn [p_scopes p_info]. split; congruence.
Qed.
Lemma next_gap_sim y start buf len e (s : sparser cursor) (t : sparser (list bool)) : fits y start len ->
  tracks buf len (p_cur s) (p_cur t) -> phase start (p_cur s) -> p_scopes s = p_scopes t -> p_info s = p_info t ->
  let (r1, s') := next e cursor_ops s in
  let (r2, t') := next e (gap_ops y) t in
  r1 = r2 /\ ((exists x, r1 = Some (Ok x)) -> PR (tracks_from start buf len) s' t').
Proof.
  intros F H P HC HI.
  assert (K : sim_res (PR (tracks_from start buf len)) (advance e cursor_ops s) (advance e (gap_ops y) t)).
  { unfold advance. rewrite (rs_fuel _ _ _ (cursor_read_sim buf len) _ _ H). change (op_fuel list_ops (p_cur t)) with (S (length (p_cur t))).
    change (op_fuel (gap_ops y) (p_cur t)) with (S (length (p_cur t))). now apply advance_gap_sim. }
  unfold next, sim_res in *.
  destruct (advance e cursor_ops s) as [[x|x|p|] s1], (advance e (gap_ops y) t) as [[z|z|q|] t1]; cbn [fst snd] in *; try contradiction.
  - destruct K as [-> K]. split; auto.
  - subst z. destruct x; (split; [reflexivity|]; intros [z Hz]; discriminate).
  - subst q. split; [reflexivity|]. intros [z Hz]; discriminate.
  - split; [reflexivity|]. intros [z Hz]; discriminate.
Qed.
