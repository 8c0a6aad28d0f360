(** Proofs about the example program and the alignment traits. *)
From Verif Require Import Base CursorModel CursorSpec CursorHist CursorProofs CursorSim CursorVbr CursorMain
  StreamModel StreamSpec StreamHist StreamProofs StreamPres StreamEffect StreamMain StreamEnd StreamApi StreamAbb StreamExact
  Strings SupportModel SupportProofs UnrollApi PipelineProofs PipelinePanics ExtraModel ExtraSpec.
From Coq Require Import Lia ZifyBool ZifyNat ZifyN.
Ltac Zify.zify_post_hook ::= Z.div_mod_to_equations.
Local Open Scope N_scope.
#[local] Arguments N.add : simpl never.
#[local] Arguments N.sub : simpl never.
#[local] Arguments N.modulo : simpl never.
#[local] Arguments N.pow : simpl never.

(** The lines of a list of entries from scope [d]. *)
Fixpoint lines (d : N) (l : list entry) : list line :=
  match l with
  | [] => []
  | ESubBlock bid _ :: l' => LBlock d bid :: lines (d + 1) l'
  | EEndBlock :: l' => LEnd (d - 1) :: lines (d - 1) l'
  | ERecord _ code fields :: l' => LRecord d code fields :: lines d l'
  end.

(** No end without a start, from [d] open blocks. *)
Fixpoint covered (d : N) (l : list entry) : Prop :=
  match l with
  | [] => True
  | ESubBlock _ _ :: l' => covered (d + 1) l'
  | EEndBlock :: l' => 1 <= d /\ covered (d - 1) l'
  | ERecord _ _ _ :: l' => covered d l'
  end.

Lemma dump_loop_spec e s : parser_reachable e s -> forall f d,
  (N.to_nat (total s - pos s) < f)%nat ->
  covered d (leading (run e cursor_ops f s)) ->
  exists n, (n < f)%nat /\ is_entry (fst (next e cursor_ops (after e cursor_ops n s))) = false /\
    length (leading (run e cursor_ops f s)) = n /\
    run e cursor_ops n s = map (fun x => Some (Ok x)) (leading (run e cursor_ops f s)) /\
    dump_loop f e d s = (lines d (leading (run e cursor_ops f s)), ending (fst (next e cursor_ops (after e cursor_ops n s)))).
Proof.
  intros H f. revert s H. induction f as [|f IH]; intros s H d HF HC; [lia|].
  cbn [run dump_loop] in *. pose proof (advance_main e s H) as (A & _). pose proof (next_total e s H) as T.
  pose proof (PRNext e s H) as R.
  destruct (next e cursor_ops s) as [[[x|x|p|]|] s'] eqn:E; cbn [fst snd] in *.
  2-5: exists O; cbn [after]; rewrite E; repeat split; try reflexivity; lia.
  assert (pos s < pos s' <= total s) as P.
  { apply (A x). unfold next in E. destruct (advance e cursor_ops s) as [[y|[]|p|] s1]; try discriminate E; now injection E as <- <-. }
  cbn [leading] in *.
  assert (G : forall d', covered d' (leading (run e cursor_ops f s')) -> exists n, (n < f)%nat /\
     is_entry (fst (next e cursor_ops (after e cursor_ops n s'))) = false /\
     length (leading (run e cursor_ops f s')) = n /\
     run e cursor_ops n s' = map (fun x => Some (Ok x)) (leading (run e cursor_ops f s')) /\
     dump_loop f e d' s' = (lines d' (leading (run e cursor_ops f s')), ending (fst (next e cursor_ops (after e cursor_ops n s'))))).
  { intros d' HC'. apply IH; [exact R|lia|exact HC']. }
  destruct x as [|bid len|a code fields]; cbn [covered lines] in *.
  - destruct HC as [H1 HC]. destruct (G _ HC) as (n & L & N0 & LN & RN & D). exists (S n). cbn [after length map run].
    unfold scope_dec. replace (1 <=? d) with true by lia. rewrite E, D. cbn [snd].
    repeat split; [lia|exact N0|lia|]. now rewrite RN.
  - destruct (G _ HC) as (n & L & N0 & LN & RN & D). exists (S n). cbn [after length map run]. rewrite E, D. cbn [snd].
    repeat split; [lia|exact N0|lia|]. now rewrite RN.
  - destruct (G _ HC) as (n & L & N0 & LN & RN & D). exists (S n). cbn [after length map run]. rewrite E, D. cbn [snd].
    repeat split; [lia|exact N0|lia|]. now rewrite RN.
Qed.

Lemma count_cons {A} (f : A -> bool) x l : count f (x :: l) = ((if f x then 1 else 0) + count f l)%nat.
Proof. unfold count. cbn [filter]. destruct (f x); reflexivity. Qed.

Lemma covered_counts l : forall d,
  (forall i, (i <= length l)%nat ->
     (count is_end (firstn i (map (fun x => Some (Ok x)) l)) <=
      N.to_nat d + count is_start (firstn i (map (fun x => Some (Ok x)) l)))%nat) -> covered d l.
Proof.
  induction l as [|x l IH]; intros d H; [exact I|].
  assert (K : forall i, (i <= length l)%nat -> _) by exact (fun i Hi => H (S i) (le_n_S _ _ Hi)).
  cbn [firstn map] in K.
  destruct x as [|bid len|a code fields]; cbn [covered].
  - pose proof (K O ltac:(lia)) as K0. rewrite !count_cons in K0. cbn in K0. split; [lia|].
    apply IH. intros i Hi. specialize (K i Hi). rewrite !count_cons in K. cbn [is_end is_start] in K. lia.
  - apply IH. intros i Hi. specialize (K i Hi). rewrite !count_cons in K. cbn [is_end is_start] in K. lia.
  - apply IH. intros i Hi. specialize (K i Hi). rewrite !count_cons in K. cbn [is_end is_start] in K. lia.
Qed.

Lemma lines_length l : forall d, length (lines d l) = length l.
Proof. induction l as [|[|bid len|a code fields] l IH]; intros d; cbn [lines length]; [reflexivity|rewrite IH; reflexivity ..]. Qed.

Lemma lines_nth l : forall d i x, covered d l -> nth_error l i = Some x ->
  let l' := map (fun x => Some (Ok x)) l in
  (count is_end (firstn (S i) l') <= N.to_nat d + count is_start (firstn i l'))%nat /\
  nth_error (lines d l) i =
    Some (shown (d + N.of_nat (count is_start (firstn i l')) - N.of_nat (count is_end (firstn (S i) l'))) x).
Proof.
  induction l as [|y l IH]; intros d i x C H; [now destruct i|]. destruct i as [|i].
  - injection H as ->. cbn [map firstn]. rewrite count_cons. unfold count. cbn [filter length].
    destruct x as [|bid len|a code fields]; cbn [lines nth_error shown is_end is_start covered] in *; split; try lia; do 2 f_equal; lia.
  - cbn [nth_error] in H. cbn zeta. cbn [map]. rewrite (firstn_cons (S i)), (firstn_cons i), !count_cons.
    destruct y as [|bid len|a code fields]; cbn [lines nth_error is_end is_start covered] in *.
    + destruct C as [C0 C]. destruct (IH _ _ _ C H) as [K1 K2]. rewrite K2. split; [lia|]. do 2 f_equal; lia.
    + destruct (IH _ _ _ C H) as [K1 K2]. rewrite K2. split; [lia|]. do 2 f_equal; lia.
    + destruct (IH _ _ _ C H) as [K1 K2]. rewrite K2. split; [lia|]. do 2 f_equal; lia.
Qed.

Lemma from_cursor_new c b : from_cursor c = Ok b -> exists c', bs_parser b = parser_new c'.
Proof.
  unfold from_cursor. destruct (negb _); [discriminate|].
  destruct (read_exact cursor_ops u32t c) as [[m|x|p|] c']; try discriminate. intros [= <-]. now exists c'.
Qed.
Lemma from_new e buf w b : from e buf = Ok (w, b) -> exists c, bs_parser b = parser_new c.
Proof.
  unfold from. destruct (omap_err SCursor (fst (read_exact cursor_ops u32t (cur_new buf)))) as [m|x|p|]; try discriminate.
  cbn [obind]. destruct (m =? BITCODE_WRAPPER_MAGIC).
  - unfold from_wrapped. destruct (omap_err SCursor (fst (read_wrapper (cur_new buf)))) as [w2|x|p|]; try discriminate.
    cbn [obind]. destruct (cur_new_with_len buf (wr_size w2 + 20)) as [c|x|p|]; try discriminate. cbn [omap_err obind].
    destruct (seek e (SeekStart (wr_offset w2)) c) as [[o|x|p|] c']; try discriminate.
    destruct (from_cursor c') as [b2|x|p|] eqn:E; try discriminate. cbn [obind snd]. intros [= _ <-]. exact (from_cursor_new _ _ E).
  - unfold from_raw. destruct (from_cursor (cur_new buf)) as [b2|x|p|] eqn:E; try discriminate. cbn [obind]. intros [= _ <-].
    exact (from_cursor_new _ _ E).
Qed.

Lemma run_snoc {C} e (o : cops C) n s : run e o (S n) s = run e o n s ++ [fst (next e o (after e o n s))].
Proof.
  revert s. induction n as [|n IH]; intros s.
  - cbn. now destruct (next e o s).
  - change (run e o (S (S n)) s) with (let (r, s') := next e o s in r :: run e o (S n) s').
    cbn [after]. destruct (next e o s) as [r s'] eqn:E. rewrite IH. cbn [snd run]. rewrite E. reflexivity.
Qed.
Lemma run_firstn {C} e (o : cops C) i : forall n s, (i <= n)%nat -> firstn i (run e o n s) = run e o i s.
Proof.
  induction i as [|i IH]; intros n s L; [reflexivity|]. destruct n as [|n]; [lia|]. cbn [run].
  destruct (next e o s) as [r s']. cbn [firstn]. now rewrite IH by lia.
Qed.
Lemma run_length {C} e (o : cops C) n : forall s, length (run e o n s) = n.
Proof. induction n as [|n IH]; intros s; [reflexivity|]. cbn [run]. destruct (next e o s). cbn. now rewrite IH. Qed.

Lemma leading_prefix l : exists l2, l = map (fun x => Some (Ok x)) (leading l) ++ l2.
Proof.
  induction l as [|r l [l2 IH]]; [now exists []|].
  destruct r as [[x|x|p|]|]; try (eexists; reflexivity). exists l2. cbn [leading map app]. congruence.
Qed.
Lemma run_covered e c n : covered 0 (leading (run e cursor_ops n (parser_new c))).
Proof.
  apply covered_counts. intros i Hi. destruct (leading_prefix (run e cursor_ops n (parser_new c))) as [l2 K].
  assert (F : firstn i (map (fun x => Some (Ok x)) (leading (run e cursor_ops n (parser_new c)))) =
              firstn i (run e cursor_ops n (parser_new c))).
  { rewrite K at 2. rewrite firstn_app, map_length. replace (i - _)%nat with O by lia. cbn. now rewrite app_nil_r. }
  rewrite F. pose proof (f_equal (@length _) K) as L. rewrite run_length, app_length, map_length in L.
  pose proof (run_nested e c n i ltac:(lia)) as [R _]. lia.
Qed.

Definition header (w : option wrapper) (magic : N) : list line :=
  match w with Some w => [LWrapper w] | None => [] end ++ [LMagic magic].

Lemma dump_from e buf w b : from e buf = Ok (w, b) ->
  exists n, let l := run e cursor_ops (S n) (bs_parser b) in
    let r := fst (next e cursor_ops (after e cursor_ops n (bs_parser b))) in
    l = map (fun x => Some (Ok x)) (leading l) ++ [r] /\ is_entry r = false /\ length (leading l) = n /\
    covered 0 (leading l) /\ dump e buf = (header w (bs_magic b) ++ lines 0 (leading l), ending r).
Proof.
  intros F. pose proof (from_reachable e buf w b F) as R. pose proof (from_total e buf w b F) as T.
  destruct (from_new e buf w b F) as [c HC].
  assert (CV : forall f, covered 0 (leading (run e cursor_ops f (bs_parser b)))) by (intros f; rewrite HC; apply run_covered).
  destruct (dump_loop_spec e (bs_parser b) R (S (8 * length buf)) 0 ltac:(lia) (CV _)) as (n & L & N0 & LN & RN & D).
  exists n. cbn zeta. rewrite run_snoc.
  assert (LE : leading (run e cursor_ops n (bs_parser b) ++ [fst (next e cursor_ops (after e cursor_ops n (bs_parser b)))]) =
               leading (run e cursor_ops (S (8 * length buf)) (bs_parser b))).
  { rewrite RN. generalize (leading (run e cursor_ops (S (8 * length buf)) (bs_parser b))). intros l. induction l as [|x l IH].
    - cbn [map app leading]. destruct (fst _) as [[x|x|p|]|]; [discriminate N0|reflexivity..].
    - cbn [map app leading]. now rewrite IH. }
  rewrite LE. split; [now rewrite <- RN|]. split; [exact N0|]. split; [exact LN|]. split; [apply CV|].
  unfold dump. rewrite F, D. reflexivity.
Qed.

Lemma dump_main e buf :
  match from e buf with
  | Ok (w, b) => exists n body r, let l := run e cursor_ops (S n) (bs_parser b) in
      dump e buf = (header w (bs_magic b) ++ body, ending r) /\ length body = n /\
      nth_error l n = Some r /\ is_entry r = false /\
      forall i, (i < n)%nat -> exists x, nth_error l i = Some (Some (Ok x)) /\
        nth_error body i = Some (shown (depth_at l i) x) /\
        (count is_end (firstn (S i) l) <= count is_start (firstn i l))%nat
  | Err x => dump e buf = ([], Err x)
  | _ => False
  end.
Proof.
  destruct (from_settled e buf) as [[[w b] F]|[x F]]; rewrite F; [|unfold dump; now rewrite F].
  destruct (dump_from e buf w b F) as (n & D). cbn zeta in D. set (l := run e cursor_ops (S n) (bs_parser b)) in *.
  set (r := fst (next e cursor_ops (after e cursor_ops n (bs_parser b)))) in *.
  destruct D as (D1 & D2 & D3 & D4 & D5). exists n, (lines 0 (leading l)), r. cbn zeta. fold l.
  split; [exact D5|]. split; [now rewrite lines_length|].
  split; [rewrite D1; rewrite nth_error_app2 by (rewrite map_length; lia); rewrite map_length; now replace (n - _)%nat with O by lia|].
  split; [exact D2|]. intros i Hi. destruct (nth_error (leading l) i) as [x|] eqn:EX; [|apply nth_error_None in EX; lia].
  exists x. assert (A : forall j, (j <= n)%nat -> firstn j l = firstn j (map (fun x => Some (Ok x)) (leading l))).
  { intros j Hj. rewrite D1 at 1. rewrite firstn_app, map_length. replace (j - _)%nat with O by lia. cbn. now rewrite app_nil_r. }
  split. { rewrite D1. rewrite nth_error_app1 by (rewrite map_length; lia). apply (map_nth_error (fun x => Some (@Ok serr entry x)) _ _ EX). }
  destruct (lines_nth (leading l) 0 i x D4 EX) as [K1 K2]. unfold depth_at. rewrite (A i), (A (S i)) by lia.
  split; [rewrite K2; do 2 f_equal; lia|lia].
Qed.

Lemma dump_ends e buf : snd (dump e buf) <> OutOfFuel /\
  (forall p, snd (dump e buf) = Panic p -> input_panic e p).
Proof.
  destruct (from_settled e buf) as [[[w b] F]|[x F]]; [|unfold dump; rewrite F; split; discriminate].
  destruct (dump_from e buf w b F) as (n & _ & D2 & _ & _ & D5). cbn zeta in *. rewrite D5. cbn [snd].
  pose proof (after_reachable e n _ (from_reachable e buf w b F)) as R.
  pose proof (advance_main e _ R) as (_ & _ & A & B). unfold next in *.
  destruct (advance e cursor_ops (after e cursor_ops n (bs_parser b))) as [[x|[]|p|] s1]; cbn [fst ending] in *; try (split; discriminate).
  - split; [discriminate|]. intros q [= <-]. now apply B.
  - now destruct A.
Qed.

(** Written streams. *)
Lemma lines_app l1 l2 d : lines d (l1 ++ l2) = lines d l1 ++ lines (fold_left (fun d x => match x with ESubBlock _ _ => d + 1 | EEndBlock => d - 1 | _ => d end) l1 d) l2.
Proof. revert d. induction l1 as [|[|b n|a c f] l1 IH]; intros d; cbn [app lines fold_left]; [reflexivity|rewrite IH; reflexivity ..]. Qed.
Lemma lines_bare l : forall d, lines d (map bare l) = lines d l.
Proof. induction l as [|[|b n|a c f] l IH]; intros d; cbn [map bare lines]; [reflexivity|rewrite IH; reflexivity ..]. Qed.

Fixpoint node_ind2 (P : node -> Prop) (HR : forall c f, P (NRecord c f))
  (HB : forall b l, Forall P l -> P (NBlock b l)) (x : node) : P x :=
  match x with
  | NRecord c f => HR c f
  | NBlock b l => HB b l ((fix go (l : list node) : Forall P l := match l with
                                                                | [] => Forall_nil P
                                                                | y :: l' => Forall_cons y (node_ind2 P HR HB y) (go l')
                                                                end) l)
  end.
Lemma lines_node x : forall d l, lines d (node_entries x ++ l) = render d x ++ lines d l.
Proof.
  induction x as [c f|b body IH] using node_ind2; intros d l; [reflexivity|].
  assert (K : forall d l, lines d (flat_map node_entries body ++ l) = flat_map (render d) body ++ lines d l).
  { clear d l. induction IH as [|y body Hy _ IHb]; intros d l; [reflexivity|]. cbn [flat_map]. now rewrite <- !app_assoc, Hy, IHb. }
  cbn [node_entries app lines render]. rewrite <- app_assoc, K. cbn [app lines]. rewrite <- app_assoc.
  replace (d + 1 - 1) with d by lia. reflexivity.
Qed.
Lemma lines_nodes l d : lines d (flat_map node_entries l) = flat_map (render d) l.
Proof. 
  induction l as [|x l IH]; [reflexivity|]. cbn [flat_map]. now rewrite lines_node, IH.
Qed.
Lemma leading_entries xs l : leading (map (fun x => Some (Ok x)) xs ++ None :: l) = xs.
Proof. induction xs as [|x xs IH]; [reflexivity|]. cbn [map app leading]. now rewrite IH. Qed.

Lemma dump_written e magic l bits : write_stream magic l = Some bits ->
  forallb (item_small (alloc_limit e)) l = true -> magic <> BITCODE_WRAPPER_MAGIC ->
  dump e (bytes_of_bits bits) = (LMagic magic :: flat_map (render 0) (meaning l), Ok tt).
Proof.
  intros H HS NM. destruct (written_raw e magic l bits H HS) as (s & HF & HR).
  pose proof (from_raw_from e _ _ HF NM) as F. destruct (dump_from e _ _ _ F) as (n & D). cbn [bs_parser bs_magic] in D. cbn zeta in D.
  destruct D as (D1 & D2 & D3 & _ & D5). rewrite D5. cbn [header app].
  set (r := fst (next e cursor_ops (after e cursor_ops n s))) in *. set (l1 := run e cursor_ops (S n) s) in *.
  assert (length (entries l) = n /\ leading l1 = entries l /\ r = None) as (_ & LE & RN).
  { assert (X : exists k, run e cursor_ops (S n + k) s = map (fun x => Some (Ok x)) (entries l) ++ None :: repeat None (n + S n)
                /\ (S n <= S n + k)%nat \/ (S n > length (entries l) + S (n + S n))%nat).
    { destruct (Nat.le_gt_cases (S n) (length (entries l) + S (n + S n))) as [L|L]; [|exists O; right; lia].
      exists (length (entries l) + S (n + S n) - S n)%nat. left. split; [|lia].
      replace (S n + _)%nat with (length (entries l) + S (n + S n))%nat by lia. rewrite HR. reflexivity. }
    destruct X as (k & [[X _]|X]); [|lia].
    pose proof (run_firstn e cursor_ops (S n) (S n + k) s ltac:(lia)) as Y. fold l1 in Y. rewrite X in Y.
    rewrite D1 in Y at 1. clearbody r l1. revert Y D3 D2. clear. generalize (leading l1) as xs. generalize (entries l) as ys.
    generalize (repeat (@None (outcome serr entry)) (n + S n)) as zs.
    intros zs ys xs Y L N0. revert n xs Y L. induction ys as [|y ys IH]; intros n xs Y L.
    - destruct xs as [|x xs]; cbn in Y; [|discriminate Y]. injection Y as Y1 Y2. cbn in L. subst. repeat split.
    - destruct xs as [|x xs].
      + cbn in Y. injection Y as Y1 Y2. subst r. discriminate N0.
      + cbn [length] in L. subst n. cbn [map app] in Y. rewrite firstn_cons in Y. injection Y as Y1 Y2. subst y.
        destruct (IH (length xs) xs Y2 eq_refl) as (I1 & I2 & I3). subst. now repeat split. }
  rewrite LE, RN, <- lines_bare, entries_bare, lines_nodes. reflexivity.
Qed.

(** ** Orders *)

Lemma N_order {A} (f : A -> N) : order_laws (fun x y => f x ?= f y).
Proof.
  repeat split; intros.
  - apply N.compare_antisym.
  - rewrite N.compare_le_iff in *. lia.
  - rewrite N.compare_le_iff, N.compare_lt_iff in *. lia.
  - rewrite N.compare_le_iff, N.compare_lt_iff in *. lia.
Qed.
(** Kinds first, then widths. *)
Definition at_rank (x : aligned_type) : N * N :=
  match x with AtAggregate => (0, 0) | AtFloat w => (1, w) | AtInteger w => (2, w) | AtVector w => (3, w) end.
Definition pair_cmp (x y : N * N) : comparison :=
  match fst x ?= fst y with Eq => snd x ?= snd y | c => c end.
Lemma at_cmp_rank x y : at_cmp x y = pair_cmp (at_rank x) (at_rank y).
Proof. destruct x, y; reflexivity. Qed.
Lemma pair_cases x y : (pair_cmp x y = Lt <-> fst x < fst y \/ fst x = fst y /\ snd x < snd y) /\
  (pair_cmp x y <> Gt <-> fst x < fst y \/ fst x = fst y /\ snd x <= snd y) /\
  (pair_cmp x y = Eq <-> fst x = fst y /\ snd x = snd y).
Proof.
  unfold pair_cmp. destruct (N.compare_spec (fst x) (fst y)); [destruct (N.compare_spec (snd x) (snd y))|..];
    repeat split; intros; try discriminate; try congruence; try lia.
Qed.
Lemma pair_order {A} (f : A -> N * N) : order_laws (fun x y => pair_cmp (f x) (f y)).
Proof.
  repeat split; intros.
  - unfold pair_cmp. rewrite (N.compare_antisym (fst (f x))), (N.compare_antisym (snd (f x))).
    destruct (fst (f x) ?= fst (f y)); reflexivity.
  - apply pair_cases in H, H0. apply pair_cases. lia.
  - apply pair_cases in H, H0. apply pair_cases. lia.
  - apply pair_cases in H, H0. apply pair_cases. lia.
Qed.
Lemma order_ext {A} (c1 c2 : A -> A -> comparison) : (forall x y, c1 x y = c2 x y) -> order_laws c2 -> order_laws c1.
Proof. intros H (A1 & A2 & A3 & A4). repeat split; intros *; rewrite ?H; auto; rewrite ?H; eauto. Qed.

Lemma at_order : order_laws at_cmp.
Proof. apply (order_ext _ _ at_cmp_rank), pair_order. Qed.
Lemma at_agrees : agrees at_cmp at_eqb.
Proof.
  intros x y. rewrite at_cmp_rank. rewrite (proj2 (proj2 (pair_cases (at_rank x) (at_rank y)))).
  destruct x, y; cbn [at_eqb at_rank fst snd]; lia.
Qed.
Lemma at_eqb_true x y : at_eqb x y = true <-> x = y.
Proof. destruct x, y; cbn [at_eqb]; split; intros H; try discriminate H; try reflexivity; rewrite ?N.eqb_eq in *; congruence. Qed.
Lemma ts_order : order_laws ts_cmp.
Proof. apply (order_ext _ _ (fun x y => at_cmp_rank (ts_type x) (ts_type y)) (pair_order (fun x => at_rank (ts_type x)))). Qed.
Lemma ts_agrees : agrees ts_cmp ts_eqb.
Proof. intros x y. apply at_agrees. Qed.
Lemma ps_order : order_laws ps_cmp.
Proof. exact (N_order ps_space). Qed.
Lemma align_order : order_laws align_cmp.
Proof. exact (N_order a_shift). Qed.
Lemma align_agrees : agrees align_cmp align_eqb.
Proof. intros x y. unfold align_cmp, align_eqb. now rewrite N.compare_eq_iff, N.eqb_eq. Qed.

(** ** Display *)

Definition is_digit (c : N) : bool := (48 <=? c) && (c <=? 57).
Lemma digits_app max s : forall acc t, parse_digits max acc (s ++ t) = (let? v := parse_digits max acc s in parse_digits max v t).
Proof.
  induction s as [|c s IH]; intros acc t; [reflexivity|]. cbn [app parse_digits].
  destruct (_ && _); [|reflexivity]. destruct (_ <? _); [reflexivity|]. destruct (_ <? _); [reflexivity|]. apply IH.
Qed.

Lemma decimal_loop_acc f : forall v acc, decimal_loop f v acc = decimal_loop f v [] ++ acc.
Proof.
  induction f as [|f IH]; intros v acc; [reflexivity|]. cbn [decimal_loop]. destruct (_ =? 0); [reflexivity|].
  rewrite (IH (v / 10) (_ :: acc)), (IH (v / 10) [_]), <- app_assoc. reflexivity.
Qed.
Lemma decimal_loop_parse f : forall v max, v < 10 ^ N.of_nat f -> v <= max -> parse_digits max 0 (decimal_loop f v []) = Ok v.
Proof.
  induction f as [|f IH]; intros v max H L.
  - change (10 ^ N.of_nat 0) with 1 in H. replace v with 0 by lia. reflexivity.
  - cbn [decimal_loop]. change (ch "0") with 48.
    assert (D : forall acc, acc * 10 + v mod 10 <= max -> parse_digits max acc [48 + v mod 10] = Ok (acc * 10 + v mod 10)).
    { intros acc HA. cbn [parse_digits]. replace (_ && _) with true by lia. replace (max <? acc * 10) with false by lia.
      replace (48 + v mod 10 - 48) with (v mod 10) by lia. replace (max <? _) with false by lia. reflexivity. }
    destruct (v / 10 =? 0) eqn:EZ.
    + rewrite D by lia. f_equal. lia.
    + rewrite decimal_loop_acc, digits_app, IH.
      * cbn [obind]. rewrite D by lia. f_equal. lia.
      * replace (N.of_nat (S f)) with (N.succ (N.of_nat f)) in H by lia. rewrite N.pow_succ_r' in H. lia.
      * lia.
Qed.
Lemma decimal_loop_digits f : forall v, Forall (fun c => is_digit c = true) (decimal_loop f v []).
Proof.
  induction f as [|f IH]; intros v; [constructor|]. cbn [decimal_loop]. change (ch "0") with 48.
  assert (is_digit (48 + v mod 10) = true) as D by (unfold is_digit; lia).
  destruct (_ =? 0); [now repeat constructor|]. rewrite decimal_loop_acc. apply Forall_app. split; [apply IH|]. now repeat constructor.
Qed.
(** No leading zero, and never empty. *)
Lemma decimal_loop_head f : forall v, exists c s, decimal_loop (S f) v [] = c :: s /\ (c = 48 -> v < 10 ^ N.of_nat (S f) -> v = 0 /\ s = []).
Proof.
  induction f as [|f IH]; intros v.
  - cbn [decimal_loop]. change (ch "0") with 48. exists (48 + v mod 10), []. split.
    + destruct (_ =? 0); reflexivity.
    + intros K L. change (10 ^ N.of_nat 1) with 10 in L. split; [lia|reflexivity].
  - change (decimal_loop (S (S f)) v []) with (let acc := [ch "0" + v mod 10] in if v / 10 =? 0 then acc else decimal_loop (S f) (v / 10) acc).
    cbn zeta. change (ch "0") with 48. destruct (v / 10 =? 0) eqn:EZ.
    + exists (48 + v mod 10), []. split; [reflexivity|]. intros K L. split; [lia|reflexivity].
    + destruct (IH (v / 10)) as (c & s & E & K). rewrite decimal_loop_acc, E. exists c, (s ++ [48 + v mod 10]).
      split; [reflexivity|]. intros HC L. replace (N.of_nat (S (S f))) with (N.succ (N.of_nat (S f))) in L by lia.
      rewrite N.pow_succ_r' in L. destruct (K HC ltac:(lia)). lia.
Qed.

Lemma decimal_enough v : v < 10 ^ N.of_nat (S (N.to_nat (N.log2 v))).
Proof.
  rewrite Nat2N.inj_succ, N2Nat.id. destruct (N.eq_dec v 0) as [->|Z]; [reflexivity|].
  destruct (N.log2_spec v) as [_ H]; [lia|]. eapply N.lt_le_trans; [exact H|]. apply N.pow_le_mono_l. lia.
Qed.
Lemma decimal_parse v : v < 2 ^ 64 -> parse_u64 (decimal v) = Ok v.
Proof.
  intros H. unfold parse_u64, decimal. pose proof (decimal_loop_parse (S (N.to_nat (N.log2 v))) v u64_max (decimal_enough v)) as P.
  pose proof (decimal_loop_digits (S (N.to_nat (N.log2 v))) v) as D. destruct (decimal_loop_head (N.to_nat (N.log2 v)) v) as (c & s & E & _).
  unfold parse_uint. rewrite E in *. inversion D as [|? ? D1 D2]; subst. unfold is_digit in D1. change (ch "+") with 43.
  replace (c =? 43) with false by lia. change (2 ^ 64) with 18446744073709551616 in H.
  apply P. unfold u64_max. lia.
Qed.

Lemma display_main e a : a_shift a <= 63 ->
  exists s, align_display e a = Ok s /\ parse_u64 s = Ok (2 ^ a_shift a) /\
    Forall (fun c => 48 <= c <= 57) s /\ s <> [] /\ hd 0 s <> 48 /\
    (let? v := omap_err SeBadInt (parse_u64 s) in omap_err SeParseAlign (from_byte_align v)) = Ok a.
Proof.
  intros H. unfold align_display, byte_align. replace (a_shift a <? 64) with true by lia. cbn [obind].
  assert (L : 2 ^ a_shift a < 2 ^ 64) by (apply N.pow_lt_mono_r; lia).
  assert (L1 : 2 ^ a_shift a <> 0) by (apply N.pow_nonzero; lia).
  exists (decimal (2 ^ a_shift a)). split; [reflexivity|]. rewrite decimal_parse by exact L.
  split; [reflexivity|]. split.
  { unfold decimal. eapply Forall_impl; [|apply decimal_loop_digits]. cbn. unfold is_digit. intros; lia. }
  destruct (decimal_loop_head (N.to_nat (N.log2 (2 ^ a_shift a))) (2 ^ a_shift a)) as (c & s & E & K). unfold decimal. rewrite E. split; [discriminate|].
  split.
  { cbn [hd]. intros HC. apply L1, K; [exact HC|]. apply decimal_enough. }
  cbn [omap_err obind]. rewrite from_byte_align_pow by lia. destruct a; reflexivity.
Qed.
