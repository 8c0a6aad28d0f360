(** Exactly when a call of the parser overflows a bounded stack. *)
From Verif Require Import Base Strings EnumModel CursorModel CursorSpec CursorHist CursorProofs CursorSim CursorGap StreamModel StreamSpec StreamHist
  StreamProofs StreamPres StreamEffect StreamRound StreamMain StreamEnd StreamAbb StreamBox GrammarSpec GrammarProofs GrammarStopSpec GrammarStops UnrollModel UnrollMain UnrollApi
  ResourceModel ResourceSpec.
From Coq Require Import Lia ZifyBool ZifyNat ZifyN.
Local Open Scope N_scope.

Lemma loop_mono {C} e (o : cops C) f : forall g s r s', advance_loop e o f s = (r, s') -> r <> OutOfFuel -> (f <= g)%nat ->
  advance_loop e o g s = (r, s').
Proof.
  induction f as [|f IH]; intros g s r s' H N L; [now injection H as <- _|]. destruct g as [|g]; [lia|].
  cbn [advance_loop] in *. unfold bind in *. destruct (step e o s) as [[[x|]|x|p|] s1]; try exact H. apply IH; [exact H|exact N|lia].
Qed.

Section Room.
  Context (e : env) (lay : layout).
  Notation o := (gap_ops lay).

  (** An overflow has the constructs, or is none. *)
  Lemma list_out f : forall pos l scs info, stack_ok (scs, info) -> stored_ok (mkParser l scs info) -> pos + blen l = tot lay ->
    fst (advance_loop e o f (mkParser l scs info)) = OutOfFuel ->
    (exists t rest, l = t ++ rest /\ silent_text e (gap lay) f pos (registered info) scs t) \/
    (forall g, fst (advance_loop e o g (mkParser l scs info)) = OutOfFuel).
  Proof.
    induction f as [|f IH]; intros pos l scs info HO HS HP H.
    - left. exists [], l. split; [reflexivity|constructor].
    - cbn [advance_loop] in H. unfold bind in H.
      destruct (step e o (mkParser l scs info)) as [[[x|]|x|p|] [l1 s1 i1]] eqn:E; try discriminate H.
      + destruct (step_inv e lay (mkParser l scs info) _ _ HO HS E) as [HO1 HS1]. pose proof E as E'.
        apply (step_sound e lay pos) in E; [|exact HO|apply HS|exact HP]. destruct E as (t1 & -> & T1).
        assert (HP1 : pos + blen t1 + blen l1 = tot lay) by (rewrite blen_app in HP; rewrite <- N.add_assoc; exact HP).
        destruct (IH (pos + blen t1) l1 s1 i1 HO1 HS1 HP1 H) as [(t & rest & -> & T)|K].
        * left. exists (t1 ++ t), rest. split; [now rewrite app_assoc|]. eapply SiMore; eassumption.
        * right. intros [|g]; [reflexivity|]. cbn [advance_loop]. unfold bind. rewrite E'. apply K.
      + right. intros [|g]; [reflexivity|]. cbn [advance_loop]. unfold bind. now rewrite E.
  Qed.

  Lemma list_silent n pos regs scs t : silent_text e (gap lay) n pos regs scs t ->
    forall l info rest, stack_ok (scs, info) -> stored_ok (mkParser l scs info) -> pos + blen l = tot lay ->
    (forall k, regs k = registered info k) -> l = t ++ rest -> fst (advance_loop e o n (mkParser l scs info)) = OutOfFuel.
  Proof.
    induction 1 as [pos regs scs|n pos regs scs t1 scs1 regs1 t2 HT HN IH]; intros l info rest HO HS HP HR HL; [reflexivity|].
    rewrite <- app_assoc in HL. cbn [advance_loop].
    destruct (step_complete e lay pos l scs info _ (t2 ++ rest) scs1 regs regs1 t1 (proj1 HS) HP HR HL HT) as (info1 & E & HR1).
    destruct (step_inv e lay (mkParser l scs info) _ _ HO HS E) as [HO1 HS1]. unfold bind. rewrite E.
    apply (IH (t2 ++ rest) info1 rest); auto. subst l. rewrite blen_app in HP. rewrite <- N.add_assoc. exact HP.
  Qed.
End Room.

Lemma opened_reachable e g s : opened e g s -> parser_reachable e s.
Proof.
  induction 1 as [buf b H|buf w b H HM|buf w b H|g s _ IH].
  - eapply from_raw_reachable, H.
  - eapply from_wrapped_reachable, H.
  - eapply from_wrapped_reachable, H.
  - now constructor.
Qed.

Lemma advance_fuel e s : parser_reachable e s -> fst (advance e cursor_ops s) <> OutOfFuel.
Proof.
  intros R. pose proof (reach_fuel e s R) as K. unfold next in K. destruct (advance e cursor_ops s) as [[x|[]|p|] s']; cbn in *; congruence.
Qed.

Lemma next_in_next e room s r : parser_reachable e s -> next_in e room s = Some r -> next e cursor_ops s = r.
Proof.
  intros R H. pose proof (advance_fuel e s R) as F. unfold next_in in H. unfold next, advance in *.
  destruct (advance_loop e cursor_ops room s) as [r1 s1] eqn:E1.
  destruct (advance_loop e cursor_ops (op_fuel cursor_ops (p_cur s)) s) as [r2 s2] eqn:E2. cbn [fst] in F.
  assert (N1 : r1 <> OutOfFuel) by (intros ->; discriminate H).
  assert (r1 = r2 /\ s1 = s2) as [<- <-].
  { destruct (Nat.le_ge_cases room (op_fuel cursor_ops (p_cur s))) as [L|L].
    - pose proof (loop_mono _ _ _ _ _ _ _ E1 N1 L) as K. rewrite K in E2. now injection E2.
    - pose proof (loop_mono _ _ _ _ _ _ _ E2 F L) as K. rewrite K in E1. now injection E1. }
  destruct r1 as [x|[]|p|]; try (now injection H); contradiction.
Qed.

Lemma next_in_none e g room s : opened e g s ->
  (next_in e room s = None <->
   exists t rest, unread s = t ++ rest /\ silent_text e g room (pos s) (registered (p_info s)) (p_scopes s) t).
Proof.
  intros HO. pose proof (opened_reachable e g s HO) as HR. destruct (opened_sound e g s HO) as (lay & -> & HS).
  pose proof (state_total lay s HS) as [HA HT]. pose proof HS as (I & (start & F & P) & SO & ST).
  set (t0 := mkParser (unread s) (p_scopes s) (p_info s)).
  assert (SIM : forall f, fst (advance_loop e cursor_ops f s) = OutOfFuel <-> fst (advance_loop e (gap_ops lay) f t0) = OutOfFuel).
  { intros [|f]; [split; reflexivity|].
    pose proof (advance_gap_sim lay start (inner (p_cur s)) (byte_len (p_cur s)) e f s t0 F (tracks_self _ I) P eq_refl eq_refl) as K.
    unfold sim_res in K.
    destruct (fst (advance_loop e cursor_ops (S f) s)), (fst (advance_loop e (gap_ops lay) (S f) t0)); try contradiction; split; congruence. }
  assert (NI : next_in e room s = None <-> fst (advance_loop e cursor_ops room s) = OutOfFuel).
  { unfold next_in. destruct (advance_loop e cursor_ops room s) as [[x|[]|p|] s']; cbn; split; congruence. }
  rewrite NI, SIM. split.
  - intros H. apply (list_out e lay room (pos s)) in H as [H|H]; [exact H| |exact SO|exact ST|exact HA].
    exfalso. apply (advance_fuel e s HR). unfold advance. now apply SIM.
  - intros (t & rest & U & T). eapply (list_silent e lay room (pos s)); eauto.
Qed.

(** [n] empty BLOCKINFO blocks of twelve bytes. *)
Definition mute_block : list byte := map b8 [1; 8; 0; 0; 1; 0; 0; 0; 0; 0; 0; 0].
Definition mute (n : nat) : list byte := map b8 [0x42; 0x43; 0xc0; 0xde] ++ concat (repeat mute_block n).
Definition mute_head : list bool := fixed_bits 2 1 ++ vbr_text [] (fixed_bits 7 0) ++ vbr_text [] (fixed_bits 3 2) ++ repeat false 18 ++ fixed_bits 32 1.
Definition mute_tail : list bool := fixed_bits 2 0 ++ repeat false 30.

Lemma short_vbr e w v : 2 <= w <= 32 -> v < 2 ^ (w - 1) -> vbr_means e w v (vbr_text [] (fixed_bits (w - 1) v)).
Proof.
  intros W V. assert (P : 2 ^ (w - 1) <= 2 ^ 31) by (apply N.pow_le_mono_r; lia). change (2 ^ 31) with 2147483648 in P.
  split; [exact W|]. exists [], (fixed_bits (w - 1) v). split; [constructor|]. split; [rewrite fixed_bits_length; lia|].
  split; [reflexivity|]. destruct (overflow_checks e).
  - split; [cbn; lia|]. cbn. rewrite N_of_fixed by exact V. rewrite N.mod_small; [|unfold two64; lia].
    change (2 ^ 0) with 1. rewrite ?N.mul_1_r, ?N.add_0_l, ?N.lor_0_l, ?N.add_0_r. rewrite ?N.mod_small; unfold two64; lia.
  - cbn [app wrapped_groups]. rewrite N_of_fixed by exact V. change (0 * (w - 1) mod 64) with 0. change (2 ^ 0) with 1.
    rewrite N.lor_0_r, N.mul_1_r, N.mod_small; [reflexivity|unfold two64; lia].
Qed.
Lemma mute_enters e pos regs : pos mod 32 = 0 -> (forall k, regs k = []) ->
  step_text e word_gap pos regs [ScInitial] mute_head None [ScBlock 2 0 None (regs 0); ScInitial] regs.
Proof.
  intros P R. unfold mute_head. apply (SEnter e word_gap pos regs ScInitial [] (fixed_bits 2 1) 0 _ 2 _ _ 1).
  - repeat split; cbn; lia.
  - now apply (short_vbr e 8 0).
  - now apply (short_vbr e 4 2).
  - lia.
  - unfold padding, word_gap. change (blen (repeat false 18)) with 18.
    change (blen (fixed_bits 2 1 ++ _ ++ _)) with 14. lia.
  - repeat split; cbn; lia.
  - reflexivity.
Qed.
Lemma mute_leaves e pos regs l : pos mod 32 = 0 ->
  step_text e word_gap pos regs [ScBlock 2 0 None l; ScInitial] mute_tail None [ScInitial] regs.
Proof.
  intros P. unfold mute_tail. apply (SEnd e word_gap pos regs 2 0 None l ScInitial [] (fixed_bits 2 0)).
  - repeat split; cbn; lia.
  - unfold padding, word_gap. change (blen (repeat false 30)) with 30. change (blen (fixed_bits 2 0)) with 2. lia.
  - reflexivity.
Qed.
Lemma mute_bits n : bits_of_bytes (concat (repeat mute_block n)) = concat (repeat (mute_head ++ mute_tail) n).
Proof. induction n as [|n IH]; [reflexivity|]. cbn [repeat concat]. rewrite <- IH. reflexivity. Qed.
Lemma mute_silent e n : forall pos regs, pos mod 32 = 0 -> (forall k, regs k = []) ->
  silent_text e word_gap (2 * n) pos regs [ScInitial] (concat (repeat (mute_head ++ mute_tail) n)) /\
  next_stops e word_gap pos regs [ScInitial] (concat (repeat (mute_head ++ mute_tail) n)) (Stop SExhausted).
Proof.
  induction n as [|n IH]; intros pos regs P R; [split; [constructor|repeat constructor]|].
  replace (2 * S n)%nat with (S (S (2 * n))) by lia. cbn [repeat concat]. rewrite <- app_assoc.
  assert (P1 : (pos + blen mute_head) mod 32 = 0) by (change (blen mute_head) with 64; lia).
  assert (P2 : (pos + blen mute_head + blen mute_tail) mod 32 = 0) by (change (blen mute_tail) with 32; lia).
  destruct (IH _ regs P2 R) as [I1 I2]. split.
  - eapply SiMore; [now apply mute_enters|]. eapply SiMore; [now apply mute_leaves|exact I1].
  - eapply NSilentStops; [now apply mute_enters|]. eapply NSilentStops; [now apply mute_leaves|exact I2].
Qed.
Lemma mute_overflows e room :
  exists buf b s', (length buf <= 6 * room + 16)%nat /\ from_raw buf = Ok b /\
    next e cursor_ops (bs_parser b) = (None, s') /\ next_in e room (bs_parser b) = None.
Proof.
  set (n := (room / 2 + 1)%nat). assert (LN : length (concat (repeat mute_block n)) = (12 * n)%nat).
  { clearbody n. induction n as [|n IH]; [reflexivity|]. cbn [repeat concat]. rewrite app_length, IH. cbn. lia. }
  assert (L : length (mute n) = (12 * n + 4)%nat) by (unfold mute; rewrite app_length, LN; cbn; lia).
  destruct (proj2 (proj2 (from_raw_cases (mute n))) (b8 0x42) (b8 0x43) (b8 0xc0) (b8 0xde) (concat (repeat mute_block n)) eq_refl) as (s & F & HP & HT & HC & HS & HI).
  { rewrite L. lia. }
  pose proof (OpRaw e _ _ F) as HO. cbn [bs_parser] in HO.
  assert (U : unread s = concat (repeat (mute_head ++ mute_tail) n)).
  { unfold unread. rewrite HC. unfold pos in HP. rewrite HP. unfold mute. rewrite <- mute_bits. reflexivity. }
  destruct (mute_silent e n 32 (registered (p_info s)) eq_refl) as [M1 M2]; [intros k; now rewrite HI|].
  exists (mute n), (mkBitstream (word32 (b8 0x42) (b8 0x43) (b8 0xc0) (b8 0xde)) s), (snd (next e cursor_ops s)). split; [|split; [exact F|split]].
  - rewrite L. unfold n. pose proof (Nat.div_mod room 2). lia.
  - cbn [bs_parser]. rewrite <- U, <- HS, <- HP in M2. apply (next_stops_exactly e word_gap s _ HO) in M2. cbn [told] in M2.
    destruct (next e cursor_ops s). cbn in *. now subst.
  - cbn [bs_parser]. apply (next_in_none e word_gap room s HO).
    assert (LE : (room <= 2 * n)%nat) by (unfold n; pose proof (Nat.div_mod room 2); lia).
    assert (PRE : forall k m pos regs scs t, silent_text e word_gap m pos regs scs t -> (k <= m)%nat ->
      exists t1 rest, t = t1 ++ rest /\ silent_text e word_gap k pos regs scs t1).
    { clear. intros k m pos regs scs t H. revert k. induction H as [pos regs scs|m pos regs scs t1 scs1 regs1 t2 T H IH]; intros k K.
      - replace k with 0%nat by lia. exists [], []. split; [reflexivity|constructor].
      - destruct k as [|k]; [exists [], (t1 ++ t2); split; [reflexivity|constructor]|].
        destruct (IH k ltac:(lia)) as (u & rest & -> & Q). exists (t1 ++ u), rest. split; [now rewrite app_assoc|]. eapply SiMore; eassumption. }
    rewrite U, HP, HS. eapply PRE; eassumption.
Qed.

Lemma silent_length e lay n pos regs scs t : silent_text e (gap lay) n pos regs scs t -> (n <= length t)%nat.
Proof.
  induction 1 as [|n pos regs scs t1 scs1 regs1 t2 T H IH]; [apply Nat.le_0_l|]. apply step_consumes in T. rewrite app_length.
  destruct t1; [congruence|cbn [length]; lia].
Qed.
Lemma next_in_bits e g room s : opened e g s -> (length (unread s) < room)%nat -> next_in e room s = Some (next e cursor_ops s).
Proof.
  intros HO L. destruct (next_in e room s) as [r|] eqn:E.
  - f_equal. symmetry. eapply next_in_next; [eapply opened_reachable, HO|exact E].
  - exfalso. apply (next_in_none e g room s HO) in E as (t & rest & U & T). destruct (opened_sound e g s HO) as (lay & -> & _).
    apply silent_length in T. rewrite U, app_length in L. lia.
Qed.
