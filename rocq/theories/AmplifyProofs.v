(** Proofs for C73. *)
From Verif Require Import Base Strings EnumModel CursorModel CursorSpec StreamModel StreamSpec StreamHist StreamEnd StreamSize StreamRound StreamMain
  UnrollModel UnrollSpec UnrollProofs UnrollMain UnrollApi ResourceProofs SourceWriter AmplifySpec.
From Coq Require Import Lia ZifyBool ZifyNat ZifyN.
Ltac Zify.zify_post_hook ::= Z.div_mod_to_equations.
Local Open Scope N_scope.

Lemma sum_cons x l : sum (x :: l) = x + sum l.
Proof. reflexivity. Qed.
Lemma sum_app a b : sum (a ++ b) = sum a + sum b.
Proof. induction a as [|x a IH]; [reflexivity|]. cbn [sum fold_right app] in *. fold (sum (a ++ b)) (sum a) in *. rewrite IH. lia. Qed.
Lemma sum_le k l : Forall (fun x => x <= k) l -> sum l <= k * N.of_nat (length l).
Proof. induction 1 as [|x l X _ IH]; [cbn; lia|]. cbn [sum fold_right length]. fold (sum l). lia. Qed.
Lemma operands_app a b : operands (a ++ b) = operands a + operands b.
Proof. unfold operands. now rewrite map_app, sum_app. Qed.
Lemma operands_cons x a : operands (x :: a) = operands [x] + operands a.
Proof. exact (operands_app [x] a). Qed.

Lemma both_length {A B} (R : A -> B -> Prop) l m : Forall2 R l m -> length l = length m.
Proof. induction 1; cbn; congruence. Qed.

(** *** Entries *)

Lemma leading_operands e n s k : parser_reachable e s -> total s = k ->
  Forall (fun x => match x with ERecord _ _ fields => N.of_nat (length fields) <= k | _ => True end) (leading (run e cursor_ops n s)).
Proof.
  revert s. induction n as [|n IH]; intros s R T; [constructor|]. cbn [run].
  pose proof (PRNext e s R) as R1. pose proof (next_total e s R) as T1.
  pose proof (fun a c f => fields_bounded e s a c f R) as B.
  destruct (next e cursor_ops s) as [[[x|x|p|]|] s1]; cbn [leading]; try constructor.
  - destruct x; try exact I. rewrite <- T. eapply B. reflexivity.
  - apply IH; [exact R1|]. cbn [snd] in T1. congruence.
Qed.
Lemma run_operands e n s : parser_reachable e s ->
  operands (leading (run e cursor_ops n s)) <= total s * (total s - pos s).
Proof.
  intros R. pose proof (run_leading e n s R) as L. pose proof (leading_operands e n s _ R eq_refl) as F.
  unfold operands. etransitivity; [apply (sum_le (total s))|].
  - apply Forall_map. eapply Forall_impl; [|exact F]. intros [| |]; cbn; intros; try assumption; lia.
  - rewrite map_length. apply N.mul_le_mono_l. exact L.
Qed.

(** *** Blocks *)

Lemma matches_fun v v' id : id_matches v id -> id_matches v' id -> v = v'.
Proof. destruct id as [r|i|u]; cbn; [congruence|congruence|]. intros [<- _] [<- _]. reflexivity. Qed.
Definition tops_operands (l : list tree) : N := operands (flat_map flat l).
Lemma tops_cons t l : tops_operands (t :: l) = operands (flat t) + tops_operands l.
Proof. apply operands_app. Qed.

(** The sub-blocks of some distinct ids have no more operands than all. *)
Definition is_child (v : N) (t : tree) : bool := match t with TBlk b _ _ => b =? v | _ => false end.
Definition child_of (vs : list N) (t : tree) : bool := existsb (fun v => is_child v t) vs.
Lemma children_split v vs body : ~ In v vs ->
  tops_operands (filter (is_child v) body) + tops_operands (filter (child_of vs) body) <= tops_operands (filter (child_of (v :: vs)) body).
Proof.
  intros N. induction body as [|t body IH]; [cbn; lia|]. cbn [filter]. change (child_of (v :: vs) t) with (is_child v t || child_of vs t)%bool.
  destruct (is_child v t) eqn:E.
  - replace (child_of vs t) with false; [cbn [orb]; rewrite !tops_cons; lia|].
    symmetry. apply not_true_is_false. intros K. apply existsb_exists in K as (v' & I & K). apply N. replace v with v'; [exact I|].
    destruct t as [|b len bd]; [discriminate E|]. unfold is_child in *. apply N.eqb_eq in E, K. congruence.
  - cbn [orb]. destruct (child_of vs t); rewrite ?tops_cons; lia.
Qed.
Lemma child_blocks vs body : NoDup vs ->
  sum (map (fun v => tops_operands (filter (is_child v) body)) vs) <= tops_operands (filter (child_of vs) body).
Proof.
  induction 1 as [|v vs N _ IH]; [cbn; lia|]. cbn [map sum fold_right]. fold (sum (map (fun v => tops_operands (filter (is_child v) body)) vs)).
  pose proof (children_split v vs body N). lia.
Qed.
Lemma body_split vs body :
  sum (map (fun r => N.of_nat (length (r_fields r))) (records_in body)) + tops_operands (filter (child_of vs) body) <= tops_operands body.
Proof.
  induction body as [|t body IH]; [cbn; lia|]. unfold records_in in *. cbn [flat_map filter]. rewrite map_app, sum_app.
  destruct t as [a c f|b len bd].
  - assert (Z : child_of vs (TRec a c f) = false) by (clear; induction vs as [|v vs IH]; [reflexivity|exact IH]). rewrite Z.
    rewrite tops_cons. cbn [flat]. change (operands [ERecord a c f]) with (N.of_nat (length f) + 0). cbn [map sum fold_right r_fields]. lia.
  - cbn [map sum fold_right]. destruct (child_of vs (TBlk b len bd)); rewrite !tops_cons; lia.
Qed.

Lemma under_sum m id l : NoDup (map fst m) -> In (id, l) m ->
  flat_map (fun p : block_id * list block => if block_id_dec (fst p) id then snd p else []) m = l.
Proof.
  induction m as [|[k x] m IH]; intros D I; [destruct I|]. cbn [map fst flat_map snd] in *. inversion D as [|? ? D1 D2]; subst.
  destruct (block_id_dec k id) as [->|NE].
  - destruct I as [[= ->]|I]; [|exfalso; apply D1; apply in_map_iff; now exists (id, l)].
    assert (Z : forall m : list (block_id * list block), ~ In id (map fst m) -> flat_map (fun p : block_id * list block => if block_id_dec (fst p) id then snd p else []) m = []).
    { clear. induction m as [|[k x] m IH]; intros N; [reflexivity|]. cbn [flat_map fst snd map] in *.
      destruct (block_id_dec k id) as [->|]; [exfalso; apply N; now left|]. apply IH. intros K. apply N. now right. }
    rewrite (Z m D1). apply app_nil_r.
  - destruct I as [[= -> ->]|I]; [congruence|]. apply IH; assumption.
Qed.
Lemma values_of (m : list (block_id * list block)) : NoDup (map fst m) -> (forall id l, In (id, l) m -> exists v, id_matches v id) ->
  exists vs, NoDup vs /\ Forall2 (fun v p => id_matches v (fst p)) vs m.
Proof.
  induction m as [|[k x] m IH]; intros D H; [exists []; split; constructor|]. cbn [map fst] in D. inversion D as [|? ? D1 D2]; subst.
  destruct IH as (vs & V & F); [exact D2|intros; eapply H; right; eassumption|].
  destruct (H k x (or_introl eq_refl)) as (v & M). exists (v :: vs). split; [|constructor; assumption].
  constructor; [|exact V]. intros I. apply D1. clear - F I M. induction F as [|v' [k' x'] vs m K F IH]; [destruct I|].
  destruct I as [->|I]; [|right; exact (IH I)]. left. cbn [fst map] in *. exact (id_matches_fun v _ _ K M).
Qed.

Lemma unrolled_operands t b : unrolled t b -> block_operands b <= operands (flat t).
Proof.
  revert b. induction t as [a c f|bid len body IH] using tree_ind'; intros b U; inversion U as [x1 x2 x3 x4 I1 R1 C1 K1 N1 E1 E2]; subst.
  destruct (values_of (b_blocks b) N1 K1) as (vs & V & F2).
  assert (S1 : sum (map (fun p => sum (map block_operands (snd p))) (b_blocks b)) <=
               sum (map (fun v => tops_operands (filter (is_child v) body)) vs)).
  { assert (G : forall m vs, Forall2 (fun v p => id_matches v (fst p)) vs m -> (forall p, In p m -> In p (b_blocks b)) ->
              sum (map (fun p => sum (map block_operands (snd p))) m) <= sum (map (fun v => tops_operands (filter (is_child v) body)) vs)).
    2:{ apply G; auto. }
    clear F2 V vs. intros m vs F. induction F as [|v [id l] vs m M F IHF]; intros S; [cbn; lia|].
    cbn [map]. rewrite !sum_cons. cbn [fst snd] in *.
    specialize (IHF (fun p I => S p (or_intror I))).
    pose proof (C1 v id M) as CH. unfold blocks_under in CH. rewrite (under_sum _ id l N1 (S _ (or_introl eq_refl))) in CH.
    enough (sum (map block_operands l) <= tops_operands (filter (is_child v) body)) by lia.
    change (children v body) with (filter (is_child v) body) in CH.
    assert (IN : forall x, In x (filter (is_child v) body) -> In x body) by (intros x X; now apply filter_In in X).
    clear S. revert CH IN. generalize (filter (is_child v) body) as ts. intros ts CH. induction CH as [|t1 b1 ts bs U1 _ IHC]; intros IN; [cbn; lia|].
    rewrite tops_cons. cbn [map sum fold_right]. fold (sum (map block_operands bs)).
    rewrite Forall_forall in IH. pose proof (IH t1 (IN _ (or_introl eq_refl)) b1 U1). specialize (IHC (fun x X => IN x (or_intror X))). lia. }
  pose proof (child_blocks vs body V) as S2. pose proof (body_split vs body) as S3.
  destruct b as [id rs bs]. cbn [block_operands b_records b_blocks] in *. rewrite R1.
  cbn [flat]. rewrite operands_cons, operands_app. fold (tops_operands body). lia.
Qed.

(** *** Modules *)

Definition opt_tree (o : option tree) : N := match o with Some t => operands (flat t) | None => 0 end.
Lemma find_operands p l : opt_tree (find p l) <= tops_operands l.
Proof.
  induction l as [|t l IH]; [cbn; lia|]. cbn [find]. rewrite tops_cons. destruct (p t); cbn [opt_tree]; lia.
Qed.
Lemma find_two v v' l : v <> v' -> opt_tree (find (is_top v) l) + opt_tree (find (is_top v') l) <= tops_operands l.
Proof.
  intros N. induction l as [|t l IH]; [cbn; lia|]. cbn [find]. rewrite tops_cons.
  pose proof (find_operands (is_top v) l). pose proof (find_operands (is_top v') l).
  destruct (is_top v t) eqn:E, (is_top v' t) eqn:E'; cbn [opt_tree]; try lia.
  destruct t; [discriminate E|]. cbn in E, E'. lia.
Qed.
Lemma own_operands l :
  sum (map (fun m => operands (flat (tm_identification m)) + opt_tree (tm_module m)) (modules_of l)) + tops_operands (segment l) <= tops_operands l.
Proof.
  induction l as [|t l IH]; [cbn; lia|]. cbn [modules_of segment]. destruct (is_top IDENTIFICATION t).
  - cbn [map sum fold_right tm_identification tm_module].
    fold (sum (map (fun m => operands (flat (tm_identification m)) + opt_tree (tm_module m)) (modules_of l))).
    rewrite tops_cons. pose proof (find_operands (is_top MODULE) (segment l)). change (tops_operands []) with 0. lia.
  - rewrite !tops_cons. lia.
Qed.
Lemma shared_operands l k : tops_operands l <= k ->
  sum (map (fun m => opt_tree (tm_strtab m) + opt_tree (tm_symtab m)) (modules_of l)) <= k * N.of_nat (length (modules_of l)).
Proof.
  intros K. rewrite <- (map_length (fun m => opt_tree (tm_strtab m) + opt_tree (tm_symtab m))). apply sum_le.
  induction l as [|t l IH]; [constructor|]. rewrite tops_cons in K. cbn [modules_of]. destruct (is_top IDENTIFICATION t); [|apply IH; lia].
  cbn [map tm_strtab tm_symtab]. constructor; [|apply IH; lia]. pose proof (find_two STRTAB SYMTAB l ltac:(discriminate)). lia.
Qed.
Lemma carries_operands m p : carries m p -> part_operands p <=
  (operands (flat (tm_identification m)) + opt_tree (tm_module m)) + (opt_tree (tm_strtab m) + opt_tree (tm_symtab m)).
Proof.
  assert (O : forall o o', option_rel unrolled o o' -> option_operands o' <= opt_tree o).
  { intros [t|] [b|] R; cbn in *; try contradiction; [now apply unrolled_operands|lia]. }
  intros (A & B & C & D). unfold part_operands. apply unrolled_operands in A. apply O in B, C, D. lia.
Qed.
Lemma modules_entries l : (2 * length (modules_of l) <= length (flat_map flat l))%nat.
Proof.
  induction l as [|t l IH]; [cbn; lia|]. cbn [modules_of flat_map]. rewrite app_length. destruct (is_top IDENTIFICATION t) eqn:E; [|lia].
  destruct t as [|b len bd]; [discriminate E|]. cbn [flat length]. rewrite app_length. cbn [length]. lia.
Qed.

Lemma parts_operands forest parts : Forall2 carries (modules_of forest) parts ->
  sum (map part_operands parts) <= (1 + N.of_nat (length parts)) * operands (flat_map flat forest).
Proof.
  intros F. pose proof (own_operands forest) as A. pose proof (shared_operands forest _ (N.le_refl _)) as B.
  fold (tops_operands forest). revert A B. generalize (tops_operands forest) as k. generalize (tops_operands (segment forest)) as j.
  intros j k A B. rewrite <- (both_length _ _ _ F).
  assert (G : sum (map part_operands parts) <=
    sum (map (fun m => operands (flat (tm_identification m)) + opt_tree (tm_module m)) (modules_of forest)) +
    sum (map (fun m => opt_tree (tm_strtab m) + opt_tree (tm_symtab m)) (modules_of forest))).
  { clear - F. induction F as [|m p ms ps C F IH]; [cbn; lia|]. apply carries_operands in C. cbn [map]. rewrite !sum_cons. lia. }
  lia.
Qed.
Lemma unroll_operands e s parts : parser_reachable e s -> unroll e s = Ok parts ->
  exists forest, stream_is e s forest /\
    sum (map part_operands parts) <= (1 + N.of_nat (length parts)) * operands (flat_map flat forest).
Proof.
  intros R U. destruct (unroll_ok e s parts R U) as (forest & ST & _ & C). exists forest. split; [exact ST|]. now apply parts_operands.
Qed.
Lemma unroll_cubic e s parts : parser_reachable e s -> unroll e s = Ok parts -> sum (map part_operands parts) <= total s ^ 3.
Proof.
  intros R U. destruct (unroll_ok e s parts R U) as (forest & [n ST] & _ & C). pose proof (parts_operands _ _ C) as P.
  pose proof (modules_entries forest) as M. rewrite (both_length _ _ _ C) in M.
  pose proof (run_leading e n s R) as L. pose proof (run_operands e n s R) as Q. rewrite ST, leading_map in L, Q. cbn [leading] in L, Q. rewrite app_nil_r in L, Q.
  destruct parts as [|p ps]; [apply N.le_0_l|]. cbn [length] in *.
  assert (K : operands (flat_map flat forest) <= total s * total s) by (etransitivity; [exact Q|]; apply N.mul_le_mono_l; lia).
  etransitivity; [exact P|]. replace (total s ^ 3) with (total s * (total s * total s)) by (change 3 with (N.succ (N.succ (N.succ 0))); rewrite !N.pow_succ_r', N.pow_0_r; lia).
  apply N.mul_le_mono; [lia|exact K].
Qed.

(** *** Streams with many operands *)

(** An abbreviation of [n] literal operands costs nine bits for each; a record written with it costs three bits. *)
Definition lits (m : nat) : list abbrev_op := repeat (OpLiteral 0) m.
Definition dense (n : nat) : list item := IDefine (lits (S n)) :: repeat (IAbbrev 4 0 (repeat 0 n)) n.

Lemma lits_def m : exists x, ops_def_bits (lits m) = Some x /\ blen x = 9 * N.of_nat m.
Proof.
  induction m as [|m (x & E & L)]; [now exists []|]. unfold lits in *. cbn [repeat ops_def_bits].
  change (vbr 8 0) with (Some (vbr_bits 8 0)). cbv iota. rewrite E. eexists. split; [reflexivity|].
  rewrite !blen_app, L. change (blen (vbr_bits 8 0)) with 8. change (blen [true]) with 1. lia.
Qed.
Lemma lits_count m : fold_right (fun op n => op_count op + n) 0 (lits m) = N.of_nat m.
Proof. induction m as [|m IH]; [reflexivity|]. unfold lits in *. cbn [repeat fold_right op_count]. rewrite IH. lia. Qed.
Lemma lits_rec m pos : rec_bits pos (lits m) (repeat 0 m) = Some [].
Proof. induction m as [|m IH]; [reflexivity|]. unfold lits in *. cbn [repeat rec_bits]. exact IH. Qed.
Lemma dense_records n k : forall pos st, nth_error (w_abbrevs st) 0 = Some (lits (S n)) ->
  exists x, write_items (InBlock 3 23) (repeat (IAbbrev 4 0 (repeat 0 n)) k) pos st = Some (x, st) /\ blen x = 3 * N.of_nat k.
Proof.
  induction k as [|k IH]; intros pos st E; [now exists []|]. cbn [repeat write_items write_item].
  change (4 <=? 4) with true. change (fixed 3 4) with (Some (fixed_bits 3 4)). change (N.to_nat (4 - 4)) with 0%nat. cbv iota beta.
  rewrite E. change (0 :: repeat 0 n) with (repeat 0 (S n)). rewrite lits_rec. cbv iota beta.
  destruct (IH (pos + blen (fixed_bits 3 4 ++ [])) st E) as (x & W & L). rewrite W. eexists. split; [reflexivity|].
  rewrite !blen_app, L. change (blen (fixed_bits 3 4)) with 3. change (blen []) with 0. lia.
Qed.
Lemma dense_body n pos st : N.of_nat n < 2 ^ 32 -> w_abbrevs st = [] ->
  exists x st', write_items (InBlock 3 23) (dense n) pos st = Some (x, st') /\ blen x <= 12 * N.of_nat n + 340.
Proof.
  intros B E. unfold dense. cbn [write_items write_item]. change (fixed 3 2) with (Some (fixed_bits 3 2)).
  unfold def_bits. rewrite lits_count. replace (length (lits (S n)) =? 0)%nat with false by reflexivity. cbn [negb]. cbv iota beta.
  rewrite vbr_ok by (change (2 ^ 64) with 18446744073709551616; change (2 ^ 32) with 4294967296 in B; lia). cbv iota beta.
  destruct (lits_def (S n)) as (y & D & LY). rewrite D. change (23 =? 0) with false. cbv iota beta.
  match goal with |- context [write_items _ _ ?q ?t] => destruct (dense_records n n q t) as (x & W & L) end.
  { cbn [w_abbrevs]. rewrite E. reflexivity. }
  rewrite W. eexists. eexists. split; [reflexivity|]. rewrite !blen_app, LY, L.
  pose proof (vbr_bits_blen 5 (N.of_nat (S n)) ltac:(lia) ltac:(change (2 ^ 64) with 18446744073709551616; change (2 ^ 32) with 4294967296 in B; lia)).
  change (blen (fixed_bits 3 2)) with 3. lia.
Qed.
Lemma dense_block n pos st : N.of_nat n < 2 ^ 32 -> w_info st 23 = [] -> pos mod 32 = 0 ->
  exists words x st', write_item (IBlock 23 3 words (dense n)) AtTop pos st = Some (x, st') /\ blen x <= 12 * N.of_nat n + 440.
Proof.
  change (2 ^ 32) with 4294967296. intros B E A.
  set (h := fixed_bits 2 1 ++ vbr_bits 8 23 ++ vbr_bits 4 3).
  set (start := pos + 64).
  destruct (dense_body n start (mkW (w_info st) None (w_info st 23)) B) as (x & st' & W & L); [exact E|].
  set (y := x ++ fixed_bits 3 0 ++ pad (start + blen x + blen (fixed_bits 3 0))).
  assert (LY : blen y <= 12 * N.of_nat n + 376 /\ blen y mod 32 = 0).
  { unfold y. rewrite !blen_app, pad_blen. change (blen (fixed_bits 3 0)) with 3. unfold start. lia. }
  exists (blen y / 32). rewrite write_block. change ((1 <=? 3) && (3 <=? 63)) with true. cbn [place_width].
  change (fixed 2 1) with (Some (fixed_bits 2 1)). change (vbr 8 23) with (Some (vbr_bits 8 23)). change (vbr 4 3) with (Some (vbr_bits 4 3)).
  rewrite fixed_ok by (change (2 ^ 32) with 4294967296; lia). cbv iota beta zeta. fold h.
  assert (LH : blen (h ++ pad (pos + blen h) ++ fixed_bits 32 (blen y / 32)) = 64).
  { rewrite !blen_app, pad_blen, fixed_blen. change (blen h) with 14. lia. }
  rewrite LH. fold start. rewrite W. cbv iota beta zeta. fold y.
  replace (blen y =? 32 * (blen y / 32)) with true by lia. eexists. eexists. split; [reflexivity|].
  rewrite blen_app, LH. lia.
Qed.

(** Identification blocks of 96 bits, and a string table for all of them. *)
Definition hollow : item := IBlock 13 3 1 [].
Lemma hollow_written pos st : pos mod 32 = 0 -> exists x, write_item hollow AtTop pos st = Some (x, st) /\ blen x = 96.
Proof.
  intros A. unfold hollow. rewrite write_block. change ((1 <=? 3) && (3 <=? 63)) with true. cbn [place_width].
  change (fixed 2 1) with (Some (fixed_bits 2 1)). change (vbr 8 13) with (Some (vbr_bits 8 13)). change (vbr 4 3) with (Some (vbr_bits 4 3)).
  change (fixed 32 1) with (Some (fixed_bits 32 1)). cbv iota beta zeta. set (h := fixed_bits 2 1 ++ vbr_bits 8 13 ++ vbr_bits 4 3).
  assert (LH : blen (h ++ pad (pos + blen h) ++ fixed_bits 32 1) = 64).
  { rewrite !blen_app, pad_blen, fixed_blen. change (blen h) with 14. lia. }
  rewrite LH. cbn [write_items]. cbv iota beta zeta. cbn [app].
  assert (LY : blen (fixed_bits 3 0 ++ pad (pos + 64 + blen [] + blen (fixed_bits 3 0))) = 32).
  { rewrite !blen_app, pad_blen. change (blen (fixed_bits 3 0)) with 3. change (blen []) with 0. lia. }
  rewrite LY. change (32 =? 32 * 1) with true. cbv iota. cbn [w_info]. destruct st. eexists. split; [reflexivity|]. rewrite blen_app, LH, LY. reflexivity.
Qed.
Lemma hollows k : forall pos st, pos mod 32 = 0 -> exists x, blen x = 96 * N.of_nat k /\
  forall l, write_items AtTop (repeat hollow k ++ l) pos st =
    match write_items AtTop l (pos + 96 * N.of_nat k) st with Some (y, s2) => Some (x ++ y, s2) | None => None end.
Proof.
  induction k as [|k IH]; intros pos st A.
  - exists []. split; [reflexivity|]. intros l. cbn [repeat app]. change (96 * N.of_nat 0) with 0. rewrite N.add_0_r. now destruct (write_items AtTop l pos st) as [[y s2]|].
  - destruct (hollow_written pos st A) as (x & W & L). destruct (IH (pos + 96) st ltac:(lia)) as (z & LZ & WZ).
    exists (x ++ z). split; [rewrite blen_app; lia|]. intros l. cbn [repeat app write_items]. rewrite W, L, WZ.
    replace (pos + 96 + 96 * N.of_nat k) with (pos + 96 * N.of_nat (S k)) by lia.
    destruct (write_items AtTop l _ st) as [[y s2]|]; [|reflexivity]. now rewrite app_assoc.
Qed.

Definition rich (k n : nat) (words : N) : list item := repeat hollow k ++ [IBlock 23 3 words (dense n)].
Lemma rich_written k n : N.of_nat n < 2 ^ 32 ->
  exists words bits, write_stream 0xdec04342 (rich k n words) = Some bits /\ blen bits <= 96 * N.of_nat k + 12 * N.of_nat n + 472.
Proof.
  intros B. set (st := mkW (fun _ => []) None []). destruct (hollows k 32 st eq_refl) as (x & LX & WX).
  destruct (dense_block n (32 + 96 * N.of_nat k) st B eq_refl) as (words & y & st' & W & L); [lia|].
  exists words, (fixed_bits 32 0xdec04342 ++ x ++ y). split.
  - unfold write_stream. change (fixed 32 0xdec04342) with (Some (fixed_bits 32 0xdec04342)). cbv iota beta. fold st. unfold rich.
    rewrite WX. cbn [write_items]. rewrite W. rewrite app_nil_r. reflexivity.
  - rewrite !blen_app. change (blen (fixed_bits 32 0xdec04342)) with 32. lia.
Qed.

Definition dense_tree (n : nat) (words : N) : tree := TBlk 23 (4 * words) (repeat (TRec (Some 4) 0 (repeat 0 n)) n).
Definition hollow_tree : tree := TBlk 13 4 [].
Lemma rich_trees k n words : trees (rich k n words) = repeat hollow_tree k ++ [dense_tree n words].
Proof.
  unfold trees, rich. rewrite flat_map_app. f_equal.
  - induction k as [|k IH]; [reflexivity|]. cbn [repeat flat_map]. rewrite IH. reflexivity.
  - cbn [flat_map item_trees]. change (23 =? 0) with false. cbv iota. rewrite app_nil_r. unfold dense_tree, dense. cbn [flat_map item_trees app]. do 2 f_equal.
    generalize (repeat 0 n) as f. intros f. generalize n at 1 2 as m. induction m as [|m IH]; [reflexivity|]. cbn [repeat flat_map item_trees app]. now rewrite IH.
Qed.
Lemma rich_small k n words lim : N.of_nat n < lim -> forallb (item_small lim) (rich k n words) = true.
Proof.
  intros L. unfold rich. rewrite forallb_app. apply andb_true_iff. split.
  - apply forallb_forall. intros x X. apply repeat_spec in X. now subst.
  - cbn [forallb item_small dense]. rewrite andb_true_r. cbn [andb]. apply forallb_forall. intros x X. apply repeat_spec in X. subst. cbn [item_small].
    rewrite repeat_length. lia.
Qed.
Lemma dense_operands n words : operands (flat (dense_tree n words)) = N.of_nat n * N.of_nat n.
Proof.
  unfold dense_tree. cbn [flat]. rewrite operands_cons, operands_app. change (operands [ESubBlock 23 (4 * words)]) with 0.
  change (operands [EEndBlock]) with 0. rewrite N.add_0_r, N.add_0_l.
  assert (G : forall m, operands (flat_map flat (repeat (TRec (Some 4) 0 (repeat 0 n)) m)) = N.of_nat m * N.of_nat n).
  { induction m as [|m IH]; [reflexivity|]. cbn [repeat flat_map flat app]. rewrite operands_cons, IH. unfold operands. cbn [map sum fold_right]. rewrite repeat_length. lia. }
  apply G.
Qed.
Lemma rich_modules k n words : modules_of (repeat hollow_tree k ++ [dense_tree n words]) = repeat (mkTmodule hollow_tree None (Some (dense_tree n words)) None) k.
Proof.
  induction k as [|k IH]; [reflexivity|]. cbn [repeat app modules_of]. change (is_top IDENTIFICATION hollow_tree) with true. cbv iota. rewrite IH. f_equal. f_equal.
  - clear IH. destruct k; reflexivity.
  - clear IH. induction k as [|k IH]; [reflexivity|exact IH].
  - clear IH. induction k as [|k IH]; [reflexivity|exact IH].
Qed.
Lemma rich_grouped k n words : well_grouped (trees (rich k n words)).
Proof.
  rewrite rich_trees. split; [|split].
  - apply Forall_app. split; [apply Forall_forall; intros t T; apply repeat_spec in T; subst|repeat constructor].
    + exists IDENTIFICATION. split; [reflexivity|now left].
    + exists STRTAB. split; [reflexivity|]. right. right. now left.
  - intros t T. destruct k as [|k]; [|destruct T]. cbn in T. destruct T as [<-|[]]. reflexivity.
  - intros l1 i l2 E I. replace (filter (is_top MODULE) (segment l2)) with (@nil tree); [cbn; lia|]. symmetry.
    assert (Z : forall t, In t (segment l2) -> In t l2).
    { clear. induction l2 as [|t l2 IH]; intros x X; [exact X|]. cbn [segment] in X. destruct (is_top IDENTIFICATION t); [destruct X|].
      destruct X as [->|X]; [now left|right; now apply IH]. }
    assert (Y : forall t, In t (segment l2) -> is_top MODULE t = false).
    { intros t T. apply Z in T. assert (J : In t (l1 ++ i :: l2)) by (apply in_app_iff; right; now right). rewrite <- E in J.
      apply in_app_iff in J as [J|[<-|[]]]; [apply repeat_spec in J; now subst|reflexivity]. }
    revert Y. generalize (segment l2). clear. induction l as [|t l IH]; intros Y; [reflexivity|]. cbn [filter]. rewrite (Y t (or_introl eq_refl)).
    apply IH. intros x X. apply Y. now right.
Qed.

Lemma rich_unrolled e k n : N.of_nat n < 2 ^ 32 -> N.of_nat n < alloc_limit e ->
  exists buf b parts, 8 * N.of_nat (length buf) <= 96 * N.of_nat k + 12 * N.of_nat n + 472 /\ from_raw buf = Ok b /\
    (exists forest, stream_is e (bs_parser b) forest /\ operands (flat_map flat forest) = N.of_nat n * N.of_nat n) /\
    unroll e (bs_parser b) = Ok parts /\ N.of_nat k * (N.of_nat n * N.of_nat n) <= sum (map part_operands parts).
Proof.
  intros B A. destruct (rich_written k n B) as (words & bits & W & L).
  destruct (written_raw e _ _ _ W (rich_small _ _ _ _ A)) as (s & HF & HRun).
  assert (ST : stream_is e s (trees (rich k n words))).
  { exists (length (entries (rich k n words)) + 1)%nat. rewrite flat_trees, HRun. reflexivity. }
  pose proof (from_raw_reachable e _ _ HF) as HR. cbn [bs_parser] in HR.
  destruct (unroll_accepts e s _ HR ST (rich_grouped _ _ _)) as [parts P].
  exists (bytes_of_bits bits), (mkBitstream 0xdec04342 s), parts. split; [|split; [exact HF|split; [|split; [exact P|]]]].
  - assert (M : forall m (l : list bool), (length l <= m)%nat -> (8 * length (bytes_of_bits l) <= length l)%nat).
    { clear. induction m as [|m IH]; intros l H; [destruct l; cbn in *; lia|].
      destruct l as [|b0 [|b1 [|b2 [|b3 [|b4 [|b5 [|b6 [|b7 l]]]]]]]]; try (cbn; lia). cbn [bytes_of_bits length] in *. specialize (IH l ltac:(lia)). lia. }
    specialize (M _ bits (Nat.le_refl _)). unfold blen in L. lia.
  - exists (trees (rich k n words)). split; [exact ST|]. rewrite rich_trees, flat_map_app, operands_app. cbn [flat_map]. rewrite app_nil_r, dense_operands.
    replace (operands (flat_map flat (repeat hollow_tree k))) with 0; [reflexivity|]. clear. induction k as [|k IH]; [reflexivity|]. cbn [repeat flat_map].
    rewrite operands_app, <- IH. reflexivity.
  - destruct (unroll_ok e s parts HR P) as (f & ST' & _ & C). rewrite <- (stream_unique e s _ _ ST ST'), rich_trees, rich_modules in C. clear - C.
    revert parts C. induction k as [|k IH]; intros parts C; [cbn; lia|]. cbn [repeat] in C. inversion C as [|m p ms ps C1 C2]; subst.
    cbn [map]. rewrite sum_cons. specialize (IH _ C2). enough (N.of_nat n * N.of_nat n <= part_operands p) by lia.
    destruct C1 as (_ & _ & C1 & _). cbn [tm_strtab] in C1. destruct (pt_strtab p) as [b|] eqn:E; [|destruct C1]. cbn in C1.
    unfold part_operands. rewrite E. cbn [option_operands]. enough (N.of_nat n * N.of_nat n <= block_operands b) by lia.
    inversion C1 as [x1 x2 x3 x4 I1 R1 Ch K1 N1 E1 E2]; subst. destruct b as [id rs bs]. cbn [block_operands b_records] in *. rewrite R1.
    rewrite <- (dense_operands n words). unfold dense_tree. cbn [flat]. rewrite operands_cons, operands_app. change (operands [ESubBlock 23 (4 * words)]) with 0.
    change (operands [EEndBlock]) with 0. clear. match goal with |- _ <= ?x + _ => enough (operands (flat_map flat (repeat (TRec (Some 4) 0 (repeat 0 n)) n)) = x) by lia end.
    generalize (repeat 0 n) as f. intros f. generalize n as m. induction m as [|m IH]; [reflexivity|]. unfold records_in in *. cbn [repeat flat_map flat app map].
    rewrite operands_cons, IH. cbn [r_fields]. rewrite sum_cons. unfold operands at 1. cbn [map sum fold_right]. lia.
Qed.

Lemma operands_disproportionate e c : c <= 10000 -> 2 ^ 32 <= alloc_limit e ->
  exists buf b forest parts, from_raw buf = Ok b /\ stream_is e (bs_parser b) forest /\ unroll e (bs_parser b) = Ok parts /\
    c * (8 * N.of_nat (length buf)) < operands (flat_map flat forest) /\
    c * (8 * N.of_nat (length buf)) ^ 2 < sum (map part_operands parts).
Proof.
  change (2 ^ 32) with 4294967296. intros C A. set (n := 336400 * c + 1).
  destruct (rich_unrolled e (N.to_nat n) (N.to_nat n)) as (buf & b & parts & L & HF & (forest & ST & Q) & U & P); try (subst n; change (2 ^ 32) with 4294967296; lia).
  rewrite !N2Nat.id in *. exists buf, b, forest, parts. split; [exact HF|split; [exact ST|split; [exact U|]]].
  set (len := 8 * N.of_nat (length buf)) in *. assert (L' : len <= 580 * n) by (subst n; lia).
  split.
  - rewrite Q. apply N.le_lt_trans with (c * (580 * n)); [now apply N.mul_le_mono_l|]. subst n. clear. nia.
  - eapply N.lt_le_trans; [|exact P]. apply N.le_lt_trans with (c * ((580 * n) * (580 * n))).
    + rewrite N.pow_2_r. apply N.mul_le_mono_l, N.mul_le_mono; exact L'.
    + replace (c * (580 * n * (580 * n))) with ((336400 * c) * (n * n)) by lia. apply N.mul_lt_mono_pos_r; [|subst n; clear; lia].
      subst n. clear. nia.
Qed.
