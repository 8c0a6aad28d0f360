(** The list-of-bits cursor, the simulation between cursors, and VBR reading. *)
From Verif Require Import Base CursorModel CursorSpec CursorProofs.
From Coq Require Import Lia ZifyBool ZifyNat ZifyN.
Ltac Zify.zify_post_hook ::= Z.div_mod_to_equations.
Local Open Scope N_scope.
Arguments N.add : simpl never.
Arguments N.mul : simpl never.
Arguments N.div : simpl never.
Arguments N.modulo : simpl never.
Arguments N.shiftl : simpl never.
Arguments N.shiftr : simpl never.
Arguments N.pow : simpl never.
Arguments N.sub : simpl never.

(** ** A cursor that is just the list of bits still to be read *)

Definition list_read (n : N) : M (list bool) cerr N := fun l =>
  if (n =? 0) || (64 <=? n) then (Err InvalidReadSize, l)
  else if n <=? N.of_nat (length l)
  then (Ok (N_of_bits (firstn (N.to_nat n) l)), skipn (N.to_nat n) l)
  else match l with [] => (Err Eof, l) | _ => (Err Short, l) end.

(** Alignment, for streams whose total length is a multiple of 32 bits. *)
Definition list_align32 (l : list bool) : list bool := skipn (length l mod 32) l.

Definition list_exhausted (l : list bool) : bool :=
  match l with [] => true | _ => false end.

Definition list_ops : cops (list bool) :=
  mkCops (list bool) list_read list_align32 list_exhausted (fun l => S (length l)).

(** ** Simulation: equal results as long as no error has occurred *)

Definition sim_res {C D E A} (R : C -> D -> Prop) (x : outcome E A * C) (y : outcome E A * D) : Prop :=
  match fst x, fst y with
  | Ok a, Ok b => a = b /\ R (snd x) (snd y)
  | Err e, Err f => e = f
  | Panic p, Panic q => p = q
  | OutOfFuel, OutOfFuel => True
  | _, _ => False
  end.

Lemma sim_bind {C D E A B} (R : C -> D -> Prop) (m1 : M C E A) (m2 : M D E A)
      (k1 : A -> M C E B) (k2 : A -> M D E B) c d :
  sim_res R (m1 c) (m2 d) ->
  (forall a c' d', R c' d' -> sim_res R (k1 a c') (k2 a d')) ->
  sim_res R (bind m1 k1 c) (bind m2 k2 d).
Proof.
  intros H1 H2. unfold bind. unfold sim_res in H1.
  destruct (m1 c) as [[]]; destruct (m2 d) as [[]]; cbn [fst snd] in *; try contradiction.
  - destruct H1 as [-> H1]. apply H2, H1.
  - exact H1.
  - exact H1.
  - exact I.
Qed.

Lemma sim_lift {C D E F A} (R : C -> D -> Prop) (f : E -> F) (m1 : M C E A) (m2 : M D E A) c d :
  sim_res R (m1 c) (m2 d) -> sim_res R (lift_err f m1 c) (lift_err f m2 d).
Proof.
  intros H1. unfold lift_err. unfold sim_res in *.
  destruct (m1 c) as [[]]; destruct (m2 d) as [[]]; cbn [fst snd] in *; try contradiction; try congruence; auto.
Qed.

Record read_sim {C D} (R : C -> D -> Prop) (o1 : cops C) (o2 : cops D) : Prop := {
  rs_read : forall n c d, R c d -> sim_res R (op_read o1 n c) (op_read o2 n d);
  rs_fuel : forall c d, R c d -> op_fuel o1 c = op_fuel o2 d
}.

Record ops_sim {C D} (R : C -> D -> Prop) (o1 : cops C) (o2 : cops D) : Prop := {
  os_read : read_sim R o1 o2;
  os_align : forall c d, R c d -> R (op_align32 o1 c) (op_align32 o2 d);
  os_exhausted : forall c d, R c d -> op_exhausted o1 c = op_exhausted o2 d
}.

Section SimOps.
  Context {C D : Type} (R : C -> D -> Prop) (o1 : cops C) (o2 : cops D) (HS : read_sim R o1 o2) (e : env).

  Lemma vbr_loop_sim fuel width result shift c d :
    R c d -> sim_res R (vbr_loop e o1 fuel width result shift c) (vbr_loop e o2 fuel width result shift d).
  Proof.
    revert result shift c d. induction fuel as [|f IH]; intros result shift c d H; cbn [vbr_loop].
    - exact I.
    - apply sim_bind; [now apply (rs_read _ _ _ HS)|].
      intros b c' d' H'. destruct (_ && _); [reflexivity|].
      destruct (_ =? 0); [split; [reflexivity|exact H']|]. now apply IH.
  Qed.

  Lemma read_vbr_sim width c d :
    R c d -> sim_res R (read_vbr e o1 width c) (read_vbr e o2 width d).
  Proof.
    intros H. unfold read_vbr. destruct (_ && _); [|reflexivity].
    rewrite (rs_fuel _ _ _ HS _ _ H). now apply vbr_loop_sim.
  Qed.

  Lemma read_svbr_sim width c d :
    R c d -> sim_res R (read_svbr e o1 width c) (read_svbr e o2 width d).
  Proof.
    intros H. unfold read_svbr. apply sim_bind; [now apply read_vbr_sim|].
    intros r c' d' H'. destruct (_ =? 0); split; auto.
  Qed.

  Lemma read_as_sim t n c d :
    R c d -> sim_res R (read_as o1 t n c) (read_as o2 t n d).
  Proof.
    intros H. unfold read_as. apply sim_bind; [now apply (rs_read _ _ _ HS)|].
    intros v c' d' H'. destruct (num_cast t v); [split; auto|reflexivity].
  Qed.
End SimOps.

(** ** The real cursor simulates the list cursor *)

(** [c] is a coherent cursor over [buf] limited to [len], with bits [l] left. *)
Definition tracks (buf : list byte) (len : N) (c : cursor) (l : list bool) : Prop :=
  inv63 c /\ inner c = buf /\ byte_len c = len /\ rem c = l.

Lemma tracks_self c : inv63 c -> tracks (inner c) (byte_len c) c (rem c).
Proof. intros H. repeat split; apply H. Qed.

Lemma tracks_tell buf len c l : tracks buf len c l ->
  tell_bit c = 8 * len - N.of_nat (length l) /\ N.of_nat (length l) <= 8 * len /\
  l = skipn (N.to_nat (tell_bit c)) (bits_of_bytes (firstn (N.to_nat len) buf)).
Proof.
  intros (I & <- & <- & <-). pose proof (rem_length c (proj1 I)) as L.
  pose proof (tell_bit_le c (proj1 I)) as T. unfold bit_len in *.
  split; [lia|]. split; [lia|]. reflexivity.
Qed.

Lemma cursor_read_sim buf len : read_sim (tracks buf len) cursor_ops list_ops.
Proof.
  split.
  - intros n c l (I & HB & HL & HR). cbn [op_read cursor_ops list_ops]. unfold list_read.
    destruct ((n =? 0) || (64 <=? n)) eqn:E0.
    { rewrite read_invalid by lia. reflexivity. }
    destruct (n <=? N.of_nat (length l)) eqn:E1.
    + destruct (read_ok63 n c I ltac:(lia) ltac:(rewrite HR; lia)) as (c' & -> & I' & R' & T' & [S1 S2] & _).
      cbn [sim_res fst snd]. rewrite HR in *. split; [reflexivity|].
      split; [exact I'|]. split; [congruence|]. split; [congruence|]. exact R'.
    + destruct (read_fail63 n c I ltac:(lia) ltac:(rewrite HR; lia)) as [[Hr ->]|[Hr (c' & -> & _)]];
        rewrite HR in Hr; destruct l; cbn; congruence.
  - intros c l (I & HB & HL & HR). cbn [op_fuel cursor_ops list_ops]. f_equal.
    rewrite <- HR, rem_length by apply I. reflexivity.
Qed.

Definition tracks4 (buf : list byte) (len : N) (c : cursor) (l : list bool) : Prop :=
  tracks buf len c l /\ aligned4 c.

Lemma cursor_sim buf len : ops_sim (tracks4 buf len) cursor_ops list_ops.
Proof.
  split; [split| |].
  - intros n c l [H A]. pose proof (rs_read _ _ _ (cursor_read_sim buf len) n c l H) as S.
    pose proof (read_inv n c (proj1 H)) as (_ & _ & HA).
    unfold sim_res in *. cbn [op_read cursor_ops] in *.
    destruct (fst (read n c)), (fst (op_read list_ops n l)); try contradiction; try assumption.
    destruct S as [-> S]. split; [reflexivity|]. split; [exact S|]. now apply HA.
  - intros c l [H A]. apply (rs_fuel _ _ _ (cursor_read_sim buf len) c l H).
  - intros c l [(I & HB & HL & HR) A]. cbn [op_align32 cursor_ops list_ops].
    pose proof (align32_inv c I) as (I' & [S1 S2] & A').
    split; [|now apply A']. split; [exact I'|]. split; [congruence|]. split; [congruence|].
    rewrite align32_rem by assumption. rewrite HR. reflexivity.
  - intros c l [(I & HB & HL & HR) A]. cbn [op_exhausted cursor_ops list_ops].
    pose proof (exhausted_spec c (proj1 I)) as E. rewrite HR in E.
    destruct (exhausted c), l; cbn; try reflexivity; destruct E as [E1 E2];
      try (now specialize (E1 eq_refl)); now specialize (E2 eq_refl).
Qed.

(** ** VBR on the list cursor *)

Lemma land_pow2_eqb x k : (N.land x (2 ^ k) =? 0) = negb (N.testbit x k).
Proof.
  destruct (N.testbit x k) eqn:T; cbn [negb].
  - apply N.eqb_neq. intros K. assert (N.testbit (N.land x (2 ^ k)) k = false) as B by (rewrite K; apply N.bits_0).
    rewrite N.land_spec, T, N.pow2_bits_true in B. discriminate.
  - apply N.eqb_eq. apply N.bits_inj. intros i. rewrite N.land_spec, N.bits_0.
    destruct (N.eq_dec k i) as [<-|Hne]; [rewrite T; reflexivity|].
    rewrite N.pow2_bits_false by exact Hne. apply andb_false_r.
Qed.

Lemma ldiff_pow2 x k : x < 2 ^ (k + 1) -> N.ldiff x (2 ^ k) = x mod 2 ^ k.
Proof.
  intros H. apply N.bits_inj. intros i. rewrite N.ldiff_spec.
  destruct (N.lt_trichotomy i k) as [Hi|[->|Hi]].
  - rewrite N.pow2_bits_false by lia. rewrite N.mod_pow2_bits_low by exact Hi. apply andb_true_r.
  - rewrite N.pow2_bits_true, N.mod_pow2_bits_high by lia. apply andb_false_r.
  - rewrite N.mod_pow2_bits_high by lia.
    replace x with (x mod 2 ^ (k + 1)) by (now apply N.mod_small).
    rewrite N.mod_pow2_bits_high by lia. reflexivity.
Qed.

Lemma shl64_1 k : k < 64 -> shl64 1 k = 2 ^ k.
Proof.
  intros H. unfold shl64. rewrite N.shiftl_1_l. apply N.mod_small. rewrite two64_pow.
  apply N.pow_lt_mono_r; lia.
Qed.

(** One block of a VBR: payload bits [p] (w-1 of them) and continuation bit [k]. *)
Lemma block_decode (p : list bool) (k : bool) w :
  2 <= w <= 64 -> N.of_nat (length p) = w - 1 ->
  let block := N_of_bits (p ++ [k]) in
  N.ldiff block (shl64 1 (w - 1)) = N_of_bits p /\
  (N.land block (shl64 1 (w - 1)) =? 0) = negb k.
Proof.
  intros Hw Hp block. rewrite shl64_1 by lia.
  assert (Eb : block = N_of_bits p + 2 ^ (w - 1) * (if k then 1 else 0)).
  { unfold block. rewrite N_of_bits_app, Hp. cbn [N_of_bits]. destruct k; reflexivity. }
  pose proof (N_of_bits_bound p) as B. rewrite Hp in B.
  assert (P0 : 2 ^ (w - 1) <> 0) by (apply N.pow_nonzero; lia).
  split.
  - rewrite ldiff_pow2.
    + rewrite Eb, N.mul_comm, N.mod_add by exact P0. now apply N.mod_small.
    + rewrite N.add_1_r, N.pow_succ_r', Eb. destruct k; lia.
  - rewrite land_pow2_eqb. f_equal.
    rewrite N.testbit_odd, N.shiftr_div_pow2, Eb, N.mul_comm, N.div_add by exact P0.
    rewrite (N.div_small (N_of_bits p)) by exact B. destruct k; reflexivity.
Qed.

Lemma list_read_app n a b : 1 <= n <= 63 -> N.of_nat (length a) = n ->
  list_read n (a ++ b) = (Ok (N_of_bits a), b).
Proof.
  intros Hn Ha. unfold list_read.
  replace ((n =? 0) || (64 <=? n)) with false by lia.
  rewrite app_length. replace (n <=? N.of_nat (length a + length b)) with true by lia.
  replace (N.to_nat n) with (length a) by lia.
  rewrite firstn_app, firstn_all, Nat.sub_diag, firstn_O, app_nil_r.
  rewrite skipn_app, skipn_all, Nat.sub_diag, skipn_O. reflexivity.
Qed.

Lemma list_read_fixed n v rest : 1 <= n <= 63 -> v < 2 ^ n ->
  list_read n (fixed_bits n v ++ rest) = (Ok v, rest).
Proof.
  intros Hn Hv. rewrite list_read_app.
  - now rewrite N_of_fixed_bits.
  - exact Hn.
  - rewrite fixed_bits_length. lia.
Qed.

Lemma fixed_bits_snoc w v : fixed_bits (w + 1) v = fixed_bits w v ++ [N.testbit v w].
Proof.
  unfold fixed_bits. replace (N.to_nat (w + 1)) with (S (N.to_nat w)) by lia.
  rewrite <- (N2Nat.id w) at 3. generalize (N.to_nat w) as n. clear w.
  intros n. revert v. induction n as [|n IH]; intros v.
  - cbn. now rewrite N.bit0_odd.
  - rewrite Nat2N.inj_succ, N.testbit_succ_r_div2 by lia.
    cbn [bits_of_N app]. f_equal. rewrite N.div2_div. apply (IH (v / 2)).
Qed.

Lemma vbr_groups_unfold n w v : N.size v <= N.of_nat n -> 2 <= w ->
  vbr_groups n w v =
  if v <? 2 ^ (w - 1) then fixed_bits (w - 1) v ++ [false]
  else fixed_bits (w - 1) v ++ [true] ++ vbr_groups (n - 1) w (v / 2 ^ (w - 1)).
Proof.
  intros Hs Hw.
  assert (F : v < 2 ^ (w - 1) -> fixed_bits w v = fixed_bits (w - 1) v ++ [false]).
  { intros Hv. replace w with (w - 1 + 1) at 1 by lia. rewrite fixed_bits_snoc. do 2 f_equal.
    replace v with (v mod 2 ^ (w - 1)) by (now apply N.mod_small). now apply N.mod_pow2_bits_high. }
  destruct n as [|n].
  - assert (v = 0) as -> by (destruct v; cbn in Hs; lia).
    cbn [vbr_groups].
    assert (0 < 2 ^ (w - 1)) as P by (apply N.neq_0_lt_0, N.pow_nonzero; lia).
    replace (0 <? 2 ^ (w - 1)) with true by lia. now apply F.
  - cbn [vbr_groups]. destruct (v <? 2 ^ (w - 1)) eqn:E; [apply F; lia|].
    replace (S n - 1)%nat with n by lia. reflexivity.
Qed.

Lemma size_div v w : 2 <= w -> 2 ^ (w - 1) <= v -> N.size (v / 2 ^ (w - 1)) + 1 <= N.size v.
Proof.
  intros Hw Hv. assert (v <> 0) as V0.
  { intros ->. assert (2 ^ (w - 1) <> 0) by (apply N.pow_nonzero; lia). lia. }
  assert (v / 2 ^ (w - 1) <> 0) as Q0.
  { intros K. apply N.div_small_iff in K; [lia|]. apply N.pow_nonzero; lia. }
  rewrite !N.size_log2 by assumption.
  rewrite <- N.shiftr_div_pow2, N.log2_shiftr.
  assert (w - 1 <= N.log2 v) by (apply N.log2_le_pow2; lia). lia.
Qed.

Lemma vbr_loop_list e n w v rest fuel result shift :
  2 <= w <= 32 -> N.size v <= N.of_nat n -> result < 2 ^ shift -> shift < 64 ->
  2 ^ shift * v < two64 ->
  (length (vbr_groups n w v ++ rest) < fuel)%nat ->
  vbr_loop e list_ops fuel w result shift (vbr_groups n w v ++ rest) =
  (Ok (result + 2 ^ shift * v), rest).
Proof.
  intros Hw. revert v rest fuel result shift.
  induction n as [n IH] using lt_wf_ind.
  intros v rest fuel result shift Hs Hr Hsh Hv Hf.
  destruct fuel as [|f]; [lia|]. cbn [vbr_loop].
  rewrite vbr_groups_unfold in * by lia.
  assert (P0 : 2 ^ (w - 1) <> 0) by (apply N.pow_nonzero; lia).
  assert (LP : N.of_nat (length (fixed_bits (w - 1) v)) = w - 1) by (rewrite fixed_bits_length; lia).
  assert (NP : N_of_bits (fixed_bits (w - 1) v) = v mod 2 ^ (w - 1)).
  { unfold fixed_bits. rewrite N_of_bits_of_N, N2Nat.id. reflexivity. }
  assert (Low : forall m, m <= v -> N.lor result (shl64 m (shift mod 64)) = result + 2 ^ shift * m).
  { intros m Hm. rewrite (N.mod_small shift 64) by exact Hsh.
    unfold shl64. rewrite N.mod_small.
    - now apply lor_shiftl_add.
    - rewrite N.shiftl_mul_pow2. eapply N.le_lt_trans; [|exact Hv]. rewrite N.mul_comm.
      apply N.mul_le_mono_l. exact Hm. }
  destruct (v <? 2 ^ (w - 1)) eqn:E.
  - unfold bind at 1. cbn [op_read list_ops].
    rewrite list_read_app by (rewrite ?app_length; cbn [length]; lia).
    destruct (block_decode (fixed_bits (w - 1) v) false w ltac:(lia) LP) as [D1 D2].
    rewrite D1, D2, NP. cbn [negb].
    replace ((64 <=? shift) && overflow_checks e) with false by lia.
    unfold ret. rewrite N.mod_small by lia. rewrite Low by lia. reflexivity.
  - rewrite !app_assoc, <- (app_assoc (_ ++ [true])) in *.
    unfold bind at 1. cbn [op_read list_ops].
    rewrite list_read_app by (rewrite ?app_length; cbn [length]; lia).
    destruct (block_decode (fixed_bits (w - 1) v) true w ltac:(lia) LP) as [D1 D2].
    rewrite D1, D2, NP. cbn [negb].
    replace ((64 <=? shift) && overflow_checks e) with false by lia.
    pose proof (size_div v w ltac:(lia) ltac:(lia)) as SD.
    assert (M : 2 ^ (shift + (w - 1)) = 2 ^ shift * 2 ^ (w - 1)) by apply N.pow_add_r.
    assert (DM : v = 2 ^ (w - 1) * (v / 2 ^ (w - 1)) + v mod 2 ^ (w - 1)) by (now apply N.div_mod).
    assert (ML : v mod 2 ^ (w - 1) < 2 ^ (w - 1)) by (now apply N.mod_lt).
    assert (Q1 : 1 <= v / 2 ^ (w - 1)) by (apply N.div_le_lower_bound; lia).
    rewrite Low by lia.
    set (q := v / 2 ^ (w - 1)) in *. set (r := v mod 2 ^ (w - 1)) in *.
    rewrite app_assoc in Hf. rewrite <- app_assoc in Hf.
    rewrite IH.
    + f_equal. f_equal. rewrite M, <- N.add_assoc. f_equal.
      rewrite DM at 1. ring.
    + lia.
    + lia.
    + rewrite M. nia.
    + apply N.pow_lt_mono_r_iff with (a := 2); [lia|]. rewrite <- two64_pow, M.
      eapply N.le_lt_trans; [|exact Hv]. apply N.mul_le_mono_l. nia.
    + eapply N.le_lt_trans; [|exact Hv]. rewrite M, <- N.mul_assoc. apply N.mul_le_mono_l. nia.
    + rewrite !app_length in *. cbn [length] in *. lia.
Qed.

Lemma size_nat_size v : N.of_nat (N.size_nat v) = N.size v.
Proof.
  destruct v as [|p]; [reflexivity|]. cbn [N.size_nat N.size].
  induction p as [p IH|p IH|]; cbn [Pos.size_nat Pos.size]; rewrite ?Nat2N.inj_succ, ?IH; lia.
Qed.

Lemma vbr_groups_enough n m w v : 2 <= w -> N.size v <= N.of_nat n -> N.size v <= N.of_nat m ->
  vbr_groups n w v = vbr_groups m w v.
Proof.
  intros Hw. revert m v. induction n as [n IH] using lt_wf_ind. intros m v Hn Hm.
  rewrite (vbr_groups_unfold n), (vbr_groups_unfold m) by assumption.
  destruct (v <? 2 ^ (w - 1)) eqn:E; [reflexivity|].
  pose proof (size_div v w Hw ltac:(lia)) as SD.
  do 2 f_equal. apply IH; lia.
Qed.

(** The defining equation of the VBR encoding. *)
Lemma vbr_bits_unfold w v : 2 <= w ->
  vbr_bits w v =
  if v <? 2 ^ (w - 1) then fixed_bits w v
  else fixed_bits (w - 1) v ++ [true] ++ vbr_bits w (v / 2 ^ (w - 1)).
Proof.
  intros Hw. unfold vbr_bits at 1. rewrite vbr_groups_unfold by (rewrite ?size_nat_size; lia).
  destruct (v <? 2 ^ (w - 1)) eqn:E.
  - assert (F : fixed_bits w v = fixed_bits (w - 1 + 1) v) by (f_equal; lia).
    rewrite F, fixed_bits_snoc. do 2 f_equal.
    replace v with (v mod 2 ^ (w - 1)) by (apply N.mod_small; lia). symmetry. now apply N.mod_pow2_bits_high.
  - pose proof (size_div v w Hw ltac:(lia)) as SD. unfold vbr_bits. do 2 f_equal.
    apply vbr_groups_enough; rewrite ?size_nat_size; [lia| |lia].
    pose proof (size_nat_size v). lia.
Qed.

Lemma read_vbr_list e w v rest : 2 <= w <= 32 -> v < two64 ->
  read_vbr e list_ops w (vbr_bits w v ++ rest) = (Ok v, rest).
Proof.
  intros Hw Hv. unfold read_vbr. replace ((2 <=? w) && (w <=? 32)) with true by lia.
  unfold vbr_bits. rewrite vbr_loop_list; try (cbn [op_fuel list_ops]; lia).
  - f_equal. f_equal. rewrite N.pow_0_r. lia.
  - rewrite size_nat_size. lia.
Qed.
