(** VBR reading on arbitrary data. *)
From Verif Require Import Base CursorModel CursorSpec CursorHist CursorProofs CursorSim.
From Coq Require Import Lia ZifyBool ZifyNat ZifyN.
Ltac Zify.zify_post_hook ::= Z.div_mod_to_equations.
Local Open Scope N_scope.
Arguments N.add : simpl never.
Arguments N.mul : simpl never.
Arguments N.div : simpl never.
Arguments N.modulo : simpl never.
Arguments N.shiftl : simpl never.
Arguments N.shiftr : simpl never.
Arguments N.pow : simpl never.
Arguments N.sub : simpl never.

Definition group_len (w : N) (p : list bool) : Prop := N.of_nat (length p) = w - 1.

(** Accumulation of groups as the loop performs it. *)
Fixpoint acc_groups (w : N) (ps : list (list bool)) (result shift : N) : N :=
  match ps with
  | [] => result
  | p :: ps' => acc_groups w ps' (N.lor result (shl64 (N_of_bits p) (shift mod 64))) (shift + (w - 1))
  end.

Lemma vbr_loop_step e w p k rest f result shift :
  2 <= w <= 32 -> group_len w p ->
  vbr_loop e list_ops (S f) w result shift (p ++ k :: rest) =
  if (64 <=? shift) && overflow_checks e then (Panic PShiftOverflow, rest)
  else
    let r' := N.lor result (shl64 (N_of_bits p) (shift mod 64)) in
    if k then vbr_loop e list_ops f w r' (shift + (w - 1)) rest else (Ok r', rest).
Proof.
  intros Hw Hp. unfold group_len in Hp. cbn [vbr_loop].
  replace (p ++ k :: rest) with ((p ++ [k]) ++ rest) by (rewrite <- app_assoc; reflexivity).
  unfold bind. cbn [op_read list_ops].
  rewrite list_read_app by (rewrite ?app_length; cbn [length]; lia).
  destruct (block_decode p k w ltac:(lia) Hp) as [D1 D2]. rewrite D1, D2.
  destruct (_ && _); [reflexivity|]. cbv zeta. destruct k; reflexivity.
Qed.

Lemma vbr_loop_text e w ps last rest fuel result shift :
  2 <= w <= 32 -> Forall (group_len w) ps -> group_len w last ->
  (length (vbr_text ps last ++ rest) < fuel)%nat ->
  exists l',
  vbr_loop e list_ops fuel w result shift (vbr_text ps last ++ rest) =
  if overflow_checks e && (64 <=? shift + N.of_nat (length ps) * (w - 1))
  then (Panic PShiftOverflow, l')
  else (Ok (acc_groups w (ps ++ [last]) result shift), rest).
Proof.
  intros Hw Hps Hl. revert fuel result shift.
  induction Hps as [|p ps Hp Hps IH]; intros fuel result shift Hf; (destruct fuel as [|f]; [lia|]).
  - exists rest. unfold vbr_text. cbn [flat_map app length]. rewrite <- app_assoc. cbn [app].
    rewrite vbr_loop_step by assumption.
    replace (shift + N.of_nat 0 * (w - 1)) with shift by lia. rewrite andb_comm.
    destruct (_ && _); reflexivity.
  - unfold vbr_text in *. cbn [flat_map length] in *. rewrite <- !app_assoc in *. cbn [app] in *.
    rewrite vbr_loop_step by assumption.
    destruct (IH f (N.lor result (shl64 (N_of_bits p) (shift mod 64))) (shift + (w - 1))) as (l' & E).
    { rewrite !app_length in *. cbn [length] in *. rewrite !app_length in *. cbn [length] in *. lia. }
    destruct ((64 <=? shift) && overflow_checks e) eqn:B.
    + eexists. set (q := N.of_nat (S (length ps)) * (w - 1)).
      apply andb_true_iff in B. destruct B as [B1 B2]. rewrite B2.
      replace (64 <=? shift + q) with true by lia. reflexivity.
    + exists l'. cbv zeta. rewrite E. cbn [app acc_groups].
      replace (shift + (w - 1) + N.of_nat (length ps) * (w - 1))
        with (shift + N.of_nat (S (length ps)) * (w - 1)) by lia. reflexivity.
Qed.

Lemma vbr_loop_trunc e w ps tail fuel result shift :
  2 <= w <= 32 -> Forall (group_len w) ps -> N.of_nat (length tail) < w ->
  (length (flat_map (fun p => p ++ [true]) ps ++ tail) < fuel)%nat ->
  exists l',
  vbr_loop e list_ops fuel w result shift (flat_map (fun p => p ++ [true]) ps ++ tail) =
  if overflow_checks e && (64 <? shift + N.of_nat (length ps) * (w - 1)) && (64 <=? shift + (N.of_nat (length ps) - 1) * (w - 1)) && (1 <=? N.of_nat (length ps))
  then (Panic PShiftOverflow, l')
  else (Err (match tail with [] => Eof | _ => Short end), l').
Proof.
  intros Hw Hps Ht. revert fuel result shift.
  induction Hps as [|p ps Hp Hps IH]; intros fuel result shift Hf; (destruct fuel as [|f]; [lia|]).
  - exists tail. cbn [flat_map app length] in *. rewrite andb_comm. cbn [N.of_nat N.leb N.compare andb].
    replace (1 <=? 0) with false by reflexivity. cbn [andb].
    cbn [vbr_loop]. unfold bind. cbn [op_read list_ops]. unfold list_read.
    replace ((w =? 0) || (64 <=? w)) with false by lia.
    replace (w <=? N.of_nat (length tail)) with false by lia. destruct tail; reflexivity.
  - cbn [flat_map length] in *. rewrite <- !app_assoc in *. cbn [app] in *.
    rewrite vbr_loop_step by assumption.
    destruct (IH f (N.lor result (shl64 (N_of_bits p) (shift mod 64))) (shift + (w - 1))) as (l' & E).
    { rewrite !app_length in *. cbn [length] in *. rewrite !app_length in *. cbn [length] in *. lia. }
    destruct ((64 <=? shift) && overflow_checks e) eqn:B.
    + eexists. apply andb_true_iff in B. destruct B as [B1 B2]. rewrite B2. cbn [andb].
      match goal with |- _ = if ?b then _ else _ => assert (b = true) as -> end; [|reflexivity].
      rewrite !andb_true_iff. nia.
    + exists l'. cbv zeta. rewrite E.
      match goal with |- (if ?b then _ else _) = if ?c then _ else _ => replace b with c; [reflexivity|] end.
      destruct (overflow_checks e); [|reflexivity]. cbn [andb] in *.
      destruct ps as [|q ps]; cbn [length] in *.
      * rewrite !andb_false_r. cbn. lia.
      * nia.
Qed.

(** Every bit string either starts with a complete VBR text or runs out. *)
Lemma vbr_decompose w l : 2 <= w ->
  (exists ps last rest, l = vbr_text ps last ++ rest /\ Forall (group_len w) ps /\ group_len w last) \/
  (exists ps tail, l = flat_map (fun p => p ++ [true]) ps ++ tail /\ Forall (group_len w) ps /\
                   N.of_nat (length tail) < w).
Proof.
  intros Hw. remember (length l) as n eqn:Hn. revert l Hn.
  induction n as [n IH] using lt_wf_ind. intros l Hn.
  destruct (N.lt_ge_cases (N.of_nat (length l)) w) as [Hs|Hs].
  { right. exists [], l. cbn. auto. }
  set (p := firstn (N.to_nat (w - 1)) l). set (t := skipn (N.to_nat (w - 1)) l).
  assert (El : l = p ++ t) by (symmetry; apply firstn_skipn).
  assert (Lp : group_len w p) by (unfold group_len, p; rewrite firstn_length; lia).
  assert (Lt : length t = (length l - N.to_nat (w - 1))%nat) by (apply skipn_length).
  destruct t as [|k t]; [cbn in Lt; lia|]. cbn [length] in Lt.
  destruct k.
  - destruct (IH (length t) ltac:(lia) t eq_refl) as [(ps & last & rest & -> & H1 & H2)|(ps & tl & -> & H1 & H2)].
    + left. exists (p :: ps), last, rest. split; [|auto]. rewrite El. unfold vbr_text. cbn [flat_map].
      rewrite <- !app_assoc. reflexivity.
    + right. exists (p :: ps), tl. split; [|auto]. rewrite El. cbn [flat_map]. rewrite <- !app_assoc. reflexivity.
  - left. exists [], p, t. split; [|auto]. rewrite El. unfold vbr_text. cbn [flat_map app]. rewrite <- app_assoc. reflexivity.
Qed.

(** What the accumulation computes while the shifts stay below 64. *)
Lemma acc_groups_low w ps last result shift :
  2 <= w <= 32 -> Forall (group_len w) ps -> group_len w last ->
  result < 2 ^ shift -> shift + N.of_nat (length ps) * (w - 1) < 64 ->
  acc_groups w (ps ++ [last]) result shift =
  (result + 2 ^ shift * vbr_value ps last) mod two64.
Proof.
  intros Hw Hps Hl. revert result shift.
  assert (Step : forall p result shift, result < 2 ^ shift -> shift < 64 ->
      N.lor result (shl64 (N_of_bits p) (shift mod 64)) = (result + 2 ^ shift * N_of_bits p) mod two64).
  { intros p result shift Hr Hs. rewrite (N.mod_small shift) by exact Hs.
    assert (P0 : 2 ^ shift <> 0) by (apply N.pow_nonzero; lia).
    assert (Q0 : 2 ^ (64 - shift) <> 0) by (apply N.pow_nonzero; lia).
    assert (T : two64 = 2 ^ shift * 2 ^ (64 - shift)).
    { rewrite <- N.pow_add_r, two64_pow. f_equal. lia. }
    assert (Es : shl64 (N_of_bits p) shift = N.shiftl (N_of_bits p mod 2 ^ (64 - shift)) shift).
    { unfold shl64. rewrite !N.shiftl_mul_pow2, T, (N.mul_comm (2 ^ shift)).
      now rewrite N.mul_mod_distr_r. }
    rewrite Es, lor_shiftl_add by exact Hr.
    set (x := N_of_bits p) in *.
    assert (DM : x = 2 ^ (64 - shift) * (x / 2 ^ (64 - shift)) + x mod 2 ^ (64 - shift)) by (now apply N.div_mod).
    assert (ML : x mod 2 ^ (64 - shift) < 2 ^ (64 - shift)) by (now apply N.mod_lt).
    set (a := x / 2 ^ (64 - shift)) in *. set (b := x mod 2 ^ (64 - shift)) in *.
    assert (EX : result + 2 ^ shift * x = result + 2 ^ shift * b + a * two64).
    { rewrite T. clearbody a b. rewrite DM. ring. }
    rewrite EX. rewrite N.mod_add by discriminate. rewrite N.mod_small; [reflexivity|]. rewrite T.
    apply N.lt_le_trans with (2 ^ shift * (b + 1)); [rewrite N.mul_add_distr_l, N.mul_1_r; clear - Hr; lia|].
    apply N.mul_le_mono_l. clear - ML. lia. }
  induction Hps as [|p ps Hp Hps IH]; intros result shift Hr Hs.
  - unfold vbr_value. cbn [app acc_groups concat length] in *. apply Step; lia.
  - cbn [app acc_groups length] in *.
    rewrite Nat2N.inj_succ, N.mul_succ_l in Hs.
    set (q := N.of_nat (length ps) * (w - 1)) in *.
    rewrite Step by lia.
    unfold group_len in Hp.
    pose proof (N_of_bits_bound p) as B. rewrite Hp in B.
    assert (M : 2 ^ (shift + (w - 1)) = 2 ^ shift * 2 ^ (w - 1)) by apply N.pow_add_r.
    assert (S1 : result + 2 ^ shift * N_of_bits p < 2 ^ (shift + (w - 1))) by (rewrite M; nia).
    rewrite (N.mod_small (result + _)).
    2:{ eapply N.lt_trans; [exact S1|]. rewrite two64_pow. apply N.pow_lt_mono_r; lia. }
    rewrite IH by (try exact S1; lia). f_equal. rewrite <- N.add_assoc. f_equal.
    unfold vbr_value. cbn [concat].
    rewrite <- app_assoc, (N_of_bits_app p), Hp, M. ring.
Qed.

(** When the denoted number fits in 64 bits, accumulation is exact whatever the number
    of groups (wrapping shifts only ever add zero groups). *)
Lemma acc_groups_exact w ps result shift :
  2 <= w <= 32 -> Forall (group_len w) ps -> (result < 2 ^ shift) ->
  2 ^ shift * N_of_bits (concat ps) < two64 ->
  acc_groups w ps result shift = result + 2 ^ shift * N_of_bits (concat ps).
Proof.
  intros Hw Hps. revert result shift.
  induction Hps as [|p ps Hp Hps IH]; intros result shift Hr Hv; cbn [acc_groups concat] in *.
  - cbn [N_of_bits]. lia.
  - unfold group_len in Hp. rewrite N_of_bits_app, Hp in *.
    set (x := N_of_bits p) in *. set (y := N_of_bits (concat ps)) in *.
    pose proof (N_of_bits_bound p) as B. rewrite Hp in B. fold x in B.
    assert (M : 2 ^ (shift + (w - 1)) = 2 ^ shift * 2 ^ (w - 1)) by apply N.pow_add_r.
    assert (P0 : 2 ^ shift <> 0) by (apply N.pow_nonzero; lia).
    assert (Es : N.lor result (shl64 x (shift mod 64)) = result + 2 ^ shift * x).
    { destruct (N.eq_dec x 0) as [->|Hx].
      - unfold shl64. rewrite N.shiftl_0_l. cbn. rewrite N.lor_0_r. lia.
      - assert (shift < 64) as Hs.
        { apply N.pow_lt_mono_r_iff with (a := 2); [lia|]. rewrite <- two64_pow. nia. }
        rewrite (N.mod_small shift) by exact Hs. unfold shl64. rewrite N.mod_small.
        + now apply lor_shiftl_add.
        + rewrite N.shiftl_mul_pow2. nia. }
    rewrite Es, IH.
    + rewrite M. ring.
    + rewrite M. nia.
    + rewrite M. nia.
Qed.

Lemma read_vbr_list_total e w l : 2 <= w <= 32 ->
  fst (read_vbr e list_ops w l) <> OutOfFuel.
Proof.
  intros Hw. unfold read_vbr. replace ((2 <=? w) && (w <=? 32)) with true by lia.
  destruct (vbr_decompose w l ltac:(lia)) as [(ps & last & rest & -> & H1 & H2)|(ps & tl & -> & H1 & H2)].
  - destruct (vbr_loop_text e w ps last rest (op_fuel list_ops (vbr_text ps last ++ rest)) 0 0 Hw H1 H2) as (l' & ->).
    { cbn. lia. }
    destruct (_ && _); discriminate.
  - destruct (vbr_loop_trunc e w ps tl (op_fuel list_ops (flat_map (fun p => p ++ [true]) ps ++ tl)) 0 0 Hw H1 H2) as (l' & ->).
    { cbn. lia. }
    destruct (_ && _); discriminate.
Qed.
