(** Proofs about unrolling. *)
From Verif Require Import Base Strings EnumModel CursorModel StreamModel StreamSpec UnrollModel UnrollSpec.
From Coq Require Import Lia ZifyBool ZifyNat ZifyN.
Local Open Scope N_scope.

(** *** Block ids *)

Lemma block_id_matches v : id_matches v (block_id_of v).
Proof.
  unfold block_id_of. destruct (reserved_block_id_of v) as [r|] eqn:R.
  - unfold reserved_block_id_of in R. cbn.
    repeat match type of R with context [match ?x with _ => _ end] => destruct x; try discriminate R end;
      injection R as <-; reflexivity.
  - destruct (ir_block_id_of v) as [i|] eqn:I.
    + unfold ir_block_id_of in I. cbn.
      repeat match type of I with context [match ?x with _ => _ end] => destruct x; try discriminate I end;
        injection I as <-; reflexivity.
    + cbn. split; [reflexivity|]. destruct (N.le_gt_cases v 26) as [L|L]; [exfalso|exact L].
      assert (v = 0 \/ v = 1 \/ v = 2 \/ v = 3 \/ v = 4 \/ v = 5 \/ v = 6 \/ v = 7 \/ v = 8 \/ v = 9 \/
              v = 10 \/ v = 11 \/ v = 12 \/ v = 13 \/ v = 14 \/ v = 15 \/ v = 16 \/ v = 17 \/ v = 18 \/
              v = 19 \/ v = 20 \/ v = 21 \/ v = 22 \/ v = 23 \/ v = 24 \/ v = 25 \/ v = 26) as K by lia.
      repeat destruct K as [-> | K]; try (cbn in R; discriminate R); try (cbn in I; discriminate I).
      subst v. cbn in I; discriminate I.
Qed.

Lemma reserved_range r : reserved_block_id_num r < 8.
Proof. destruct r; cbn; lia. Qed.
Lemma ir_range i : 8 <= ir_block_id_num i <= 26.
Proof. destruct i; cbn; lia. Qed.
Lemma reserved_inj r r' : reserved_block_id_num r = reserved_block_id_num r' -> r = r'.
Proof. destruct r, r'; cbn; try reflexivity; discriminate. Qed.
Lemma ir_inj i i' : ir_block_id_num i = ir_block_id_num i' -> i = i'.
Proof. destruct i, i'; cbn; try reflexivity; discriminate. Qed.

Lemma id_matches_fun v id id' : id_matches v id -> id_matches v id' -> id = id'.
Proof.
  destruct id as [r|i|u], id' as [r'|i'|u']; cbn; intros H H';
    try (pose proof (reserved_range r)); try (pose proof (ir_range i));
    try (pose proof (reserved_range r')); try (pose proof (ir_range i')); try lia.
  - f_equal. apply reserved_inj. congruence.
  - f_equal. apply ir_inj. congruence.
  - destruct H, H'. congruence.
Qed.
Lemma id_matches_inj v v' id : id_matches v id -> id_matches v' id -> v = v'.
Proof. destruct id; cbn; intros; intuition congruence. Qed.
Lemma block_id_inj v v' : block_id_of v = block_id_of v' -> v = v'.
Proof. intros H. apply (id_matches_inj v v' (block_id_of v)); [|rewrite H]; apply block_id_matches. Qed.

(** *** Trees to blocks *)

Fixpoint build (t : tree) : block :=
  match t with
  | TRec _ _ _ => block_new 0
  | TBlk bid _ body =>
      (fix go (b : block) (l : list tree) : block :=
         match l with
         | [] => b
         | TRec a c f :: l' => go (push_record (mkRecord a c f) b) l'
         | (TBlk _ _ _ as t') :: l' => go (push_block (build t') b) l'
         end) (block_new bid) body
  end.
Definition step (b : block) (t : tree) : block :=
  match t with TRec a c f => push_record (mkRecord a c f) b | TBlk _ _ _ => push_block (build t) b end.

Lemma build_blk bid len body : build (TBlk bid len body) = fold_left step body (block_new bid).
Proof.
  cbn [build]. generalize (block_new bid). induction body as [|t body IH]; intros b; [reflexivity|].
  destruct t; cbn [fold_left]; apply IH.
Qed.

Fixpoint tree_ind' (P : tree -> Prop) (HR : forall a c f, P (TRec a c f))
  (HB : forall b len body, Forall P body -> P (TBlk b len body)) (t : tree) : P t :=
  match t with
  | TRec a c f => HR a c f
  | TBlk b len body =>
      HB b len body ((fix go l : Forall P l :=
        match l with [] => Forall_nil P | t :: l' => Forall_cons t (tree_ind' P HR HB t) (go l') end) body)
  end.

Lemma step_id b t : b_id (step b t) = b_id b.
Proof. now destruct t. Qed.
Lemma steps_id l b : b_id (fold_left step l b) = b_id b.
Proof. revert b. induction l as [|t l IH]; intros b; [reflexivity|]. cbn [fold_left]. now rewrite IH, step_id. Qed.
Lemma steps_records l b : b_records (fold_left step l b) = b_records b ++ records_in l.
Proof.
  revert b. induction l as [|t l IH]; intros b; [cbn; now rewrite app_nil_r|]. cbn [fold_left]. rewrite IH.
  destruct t; cbn [step push_record push_block b_records]; unfold records_in; cbn [flat_map]; [|reflexivity].
  now rewrite <- app_assoc.
Qed.

Definition under (id : block_id) (m : list (block_id * list block)) : list block :=
  flat_map (fun p => if block_id_dec (fst p) id then snd p else []) m.

Lemma under_absent id m : ~ In id (map fst m) -> under id m = [].
Proof.
  induction m as [|[k vs] m IH]; intros H; [reflexivity|]. unfold under in *. cbn [flat_map map fst snd In] in *.
  destruct (block_id_dec k id) as [->|_]; [exfalso; apply H; now left|]. cbn. apply IH. tauto.
Qed.

Lemma push_keys k (c : block) m : forall x, In x (map fst (map_push k c m)) <-> x = k \/ In x (map fst m).
Proof.
  induction m as [|[k' vs] m IH]; intros x; cbn [map_push]; [cbn; intuition|].
  destruct (block_id_dec k' k) as [->|n]; cbn [map fst In]; [intuition congruence|]. rewrite IH. intuition congruence.
Qed.
Lemma push_nodup k c m : NoDup (map fst m) -> NoDup (map fst (map_push (A := block) k c m)).
Proof.
  induction m as [|[k' vs] m IH]; intros H; cbn [map_push]; [cbn; constructor; [tauto|constructor]|].
  inversion H as [|? ? N D]; subst. destruct (block_id_dec k' k) as [->|n]; cbn [map fst]; constructor; auto.
  rewrite push_keys. intros [->|I]; [now apply n|now apply N].
Qed.
Lemma push_under k c m id : NoDup (map fst m) ->
  under id (map_push k c m) = under id m ++ (if block_id_dec k id then [c] else []).
Proof.
  induction m as [|[k' vs] m IH]; intros H.
  - cbn [map_push]. unfold under. cbn [flat_map fst snd]. now rewrite app_nil_r.
  - inversion H as [|? ? N D]; subst. cbn [map_push].
    destruct (block_id_dec k' k) as [->|n].
    + unfold under. cbn [flat_map fst snd]. destruct (block_id_dec k id) as [->|n'].
      * fold (under id m). rewrite (under_absent id m) by exact N. now rewrite !app_nil_r.
      * fold (under id m). now rewrite app_nil_r.
    + unfold under in *. cbn [flat_map fst snd]. rewrite IH by exact D. now rewrite app_assoc.
Qed.

Definition keyed (b : block) : Prop :=
  NoDup (map fst (b_blocks b)) /\ forall id, In id (map fst (b_blocks b)) -> exists v, id_matches v id.

Lemma step_keyed b t : keyed b -> keyed (step b t).
Proof.
  intros [H1 H2]. destruct t as [a c f|bid len body]; [exact (conj H1 H2)|]. split; cbn [step push_block b_blocks].
  - now apply push_nodup.
  - intros id. rewrite push_keys. intros [->|I]; [|now apply H2].
    rewrite build_blk, steps_id. exists bid. apply block_id_matches.
Qed.

Lemma steps_under l b : keyed b -> keyed (fold_left step l b) /\
  forall v id, id_matches v id -> blocks_under id (fold_left step l b) = blocks_under id b ++ map build (children v l).
Proof.
  revert b. induction l as [|t l IH]; intros b K; [split; [exact K|]; intros; cbn; now rewrite app_nil_r|].
  cbn [fold_left]. destruct (IH _ (step_keyed b t K)) as [K' U]. split; [exact K'|]. intros v id M. rewrite (U v id M).
  destruct t as [a c f|bid len body]; [reflexivity|]. unfold children. cbn [filter].
  change (blocks_under id (step b (TBlk bid len body)))
    with (under id (map_push (b_id (build (TBlk bid len body))) (build (TBlk bid len body)) (b_blocks b))).
  rewrite push_under by apply K.
  change (under id (b_blocks b)) with (blocks_under id b). rewrite <- app_assoc. f_equal.
  assert (E : b_id (build (TBlk bid len body)) = block_id_of bid) by (rewrite build_blk, steps_id; reflexivity).
  rewrite E. destruct (block_id_dec (block_id_of bid) id) as [Q|Q].
  - subst id. rewrite <- (id_matches_inj _ _ _ (block_id_matches bid) M). rewrite N.eqb_refl. reflexivity.
  - destruct (bid =? v) eqn:E'; [|reflexivity]. apply N.eqb_eq in E'. subst v. exfalso. apply Q.
    now apply (id_matches_fun bid); [apply block_id_matches|].
Qed.

Lemma build_unrolled t : is_top (match t with TBlk b _ _ => b | _ => 0 end) t = true -> unrolled t (build t).
Proof.
  induction t as [a c f|bid len body IH] using tree_ind'; intros H; [discriminate H|].
  rewrite build_blk.
  assert (K0 : keyed (block_new bid)) by (split; cbn; [constructor|tauto]).
  destruct (steps_under body _ K0) as [[K1 K2] U].
  constructor.
  - rewrite steps_id. apply block_id_matches.
  - rewrite steps_records. reflexivity.
  - intros v id M. rewrite (U v id M). cbn. clear - IH. induction body as [|t body IHb]; [constructor|].
    inversion IH as [|? ? Ht Hb]; subst. specialize (IHb Hb). unfold children in *. cbn [filter].
    destruct t as [a c f|b l' bd]; [exact IHb|]. destruct (b =? v); [|exact IHb]. constructor; [|exact IHb].
    apply Ht. cbn. apply N.eqb_refl.
  - intros id l I. apply K2. apply in_map_iff. now exists (id, l).
  - exact K1.
Qed.

(** *** Entries *)

Section Yields.
  Context {S : Type} (nxt : S -> option (outcome serr entry) * S).

  Fixpoint yields (s : S) (l : list entry) (s' : S) : Prop :=
    match l with
    | [] => s' = s
    | x :: l' => exists s1, nxt s = (Some (Ok x), s1) /\ yields s1 l' s'
    end.

  Lemma yields_app l1 l2 s s' : yields s (l1 ++ l2) s' <-> exists s1, yields s l1 s1 /\ yields s1 l2 s'.
  Proof.
    revert s. induction l1 as [|x l1 IH]; intros s; cbn [app yields].
    - split; [intros H; exists s; auto|intros (s1 & -> & H); exact H].
    - split.
      + intros (s1 & H & K). apply IH in K as (s2 & K1 & K2). exists s2. split; [|exact K2]. now exists s1.
      + intros (s2 & (s1 & H & K1) & K2). exists s1. split; [exact H|]. apply IH. now exists s2.
  Qed.

  Lemma enter_sound f b s b' s' : enter nxt f b s = Ok (b', s') ->
    exists body, yields s (flat_map flat body ++ [EEndBlock]) s' /\ b' = fold_left step body b.
  Proof.
    revert b s b' s'. induction f as [|f IH]; intros b s b' s' H; [discriminate H|]. cbn [enter] in H.
    destruct (nxt s) as [[r|] s1] eqn:E; [|discriminate H].
    destruct r as [[|bid len|a c fs]|x|p|]; cbn [omap_err obind] in H; try discriminate H.
    - injection H as <- <-. exists []. split; [|reflexivity]. cbn. now exists s1.
    - destruct (enter nxt f (block_new bid) s1) as [[child s2]|x|p|] eqn:E1; try discriminate H. cbn [obind] in H.
      apply IH in E1 as (cbody & Y1 & ->). apply IH in H as (body & Y2 & ->).
      exists (TBlk bid len cbody :: body). split; [|cbn [fold_left step]; now rewrite build_blk].
      cbn [flat_map flat app yields]. exists s1. split; [exact E|].
      rewrite <- app_assoc. apply yields_app. now exists s2.
    - apply IH in H as (body & Y & ->). exists (TRec a c fs :: body). split; [|reflexivity].
      cbn [flat_map flat app yields]. now exists s1.
  Qed.

  Lemma enter_complete f body b s s' : yields s (flat_map flat body ++ [EEndBlock]) s' ->
    (length (flat_map flat body ++ [EEndBlock]) <= f)%nat ->
    enter nxt f b s = Ok (fold_left step body b, s').
  Proof.
    revert body b s s'. induction f as [|f IH]; intros body b s s' Y L.
    { rewrite app_length in L. cbn in L. lia. }
    cbn [enter]. destruct body as [|[a c fs|bid len cbody] body].
    - cbn in Y. destruct Y as (s1 & E & ->). rewrite E. reflexivity.
    - cbn [flat_map flat app yields length] in Y, L. destruct Y as (s1 & E & Y). rewrite E. cbn [omap_err obind].
      rewrite (IH body _ s1 s'); [reflexivity|exact Y|lia].
    - cbn [flat_map flat app yields] in Y. destruct Y as (s1 & E & Y). rewrite E. cbn [omap_err obind].
      cbn [flat_map flat app length] in L. rewrite !app_length in L.
      rewrite <- app_assoc in Y. apply yields_app in Y as (s2 & Y1 & Y2).
      rewrite (IH cbody _ s1 s2 Y1) by (rewrite ?app_length; lia). cbn [obind].
      rewrite (IH body _ s2 s' Y2) by (rewrite ?app_length; lia). cbn [fold_left step]. now rewrite build_blk.
  Qed.

  Fixpoint groups (l : list block) (rp : list partial) : outcome unroll_err (list partial) :=
    match l with [] => Ok rp | t :: l' => let? rp' := group t rp in groups l' rp' end.

  Definition is_blk (t : tree) : Prop := match t with TBlk _ _ _ => True | TRec _ _ _ => False end.

  Lemma tops_sound f rp s rp' : tops nxt f rp s = Ok rp' ->
    exists forest s', yields s (flat_map flat forest) s' /\ fst (nxt s') = None /\
                      Forall is_blk forest /\ groups (map build forest) rp = Ok rp'.
  Proof.
    revert rp s rp'. induction f as [|f IH]; intros rp s rp' H; [discriminate H|]. cbn [tops] in H.
    destruct (nxt s) as [[r|] s1] eqn:E.
    2:{ injection H as <-. exists [], s. rewrite E. cbn. auto. }
    destruct r as [[|bid len|a c fs]|x|p|]; cbn [omap_err obind] in H; try discriminate H.
    destruct (enter nxt f (block_new bid) s1) as [[child s2]|x|p|] eqn:E1; try discriminate H. cbn [obind] in H.
    destruct (group child rp) as [rp1|x|p|] eqn:E2; try discriminate H. cbn [obind] in H.
    apply enter_sound in E1 as (cbody & Y1 & ->). apply IH in H as (forest & s' & Y2 & N & B & G).
    exists (TBlk bid len cbody :: forest), s'. split; [|split; [exact N|split; [constructor; [exact I|exact B]|]]].
    - cbn [flat_map flat app yields]. exists s1. split; [exact E|]. apply yields_app. now exists s2.
    - cbn [map groups]. rewrite build_blk, E2. exact G.
  Qed.

  Lemma tops_complete f forest rp s s' : yields s (flat_map flat forest) s' -> fst (nxt s') = None ->
    Forall is_blk forest -> (length (flat_map flat forest) < f)%nat ->
    tops nxt f rp s = groups (map build forest) rp.
  Proof.
    revert f rp s. induction forest as [|[a c fs|bid len body] forest IH]; intros f rp s Y N B L;
      inversion B as [|? ? Bt Bf]; subst.
    - destruct f as [|f]; [cbn in L; lia|]. cbn in Y. subst s'. cbn [tops map groups].
      destruct (nxt s) as [r s1]. cbn in N. now subst r.
    - destruct Bt.
    - destruct f as [|f]; [cbn in L; lia|]. cbn [flat_map flat app yields] in Y. destruct Y as (s1 & E & Y).
      cbn [tops]. rewrite E. cbn [omap_err obind]. apply yields_app in Y as (s2 & Y1 & Y2).
      cbn [flat_map flat app length] in L. rewrite !app_length in L. cbn [length] in L.
      rewrite (enter_complete f body _ s1 s2 Y1) by (rewrite app_length; cbn [length]; lia). cbn [obind map groups].
      rewrite build_blk. destruct (group _ rp) as [rp1|x|p|]; cbn [obind]; try reflexivity.
      apply IH; try assumption. lia.
  Qed.

  (** What the parser must have said when the unroll fails in it. *)
  Definition said (s : S) (r : option (outcome serr entry)) : Prop :=
    exists l s', yields s l s' /\ fst (nxt s') = r.

  Lemma said_later l s s' r : yields s l s' -> said s' r -> said s r.
  Proof. intros Y (l2 & s2 & Y2 & H). exists (l ++ l2), s2. split; [apply yields_app; now exists s'|exact H]. Qed.

  Definition enter_fails (s : S) (r : outcome unroll_err (block * S)) : Prop :=
    match r with
    | Ok _ => True
    | Err (UParse x) => said s (Some (Err x))
    | Err UStreamEnd => said s None
    | Err _ => False
    | Panic p => said s (Some (Panic p))
    | OutOfFuel => True
    end.
  Lemma enter_fails_later l s s' r : yields s l s' -> enter_fails s' r -> enter_fails s r.
  Proof. intros Y. destruct r as [|[]| |]; cbn; eauto using said_later. Qed.
  Lemma enter_err f b s : enter_fails s (enter nxt f b s).
  Proof.
    revert b s. induction f as [|f IH]; intros b s; [exact I|]. cbn [enter].
    destruct (nxt s) as [[r|] s1] eqn:E.
    2:{ exists [], s. split; [reflexivity|]. now rewrite E. }
    assert (here : said s (Some r)) by (exists [], s; split; [reflexivity|]; now rewrite E).
    destruct r as [[|bid len|a c fs]|x|p|]; cbn [omap_err obind]; try exact I; try exact here.
    - assert (Y : yields s [ESubBlock bid len] s1) by (exists s1; now split).
      pose proof (IH (block_new bid) s1) as H1.
      destruct (enter nxt f (block_new bid) s1) as [[child s2]|x|p|] eqn:E1; cbn [obind];
        try (exact (enter_fails_later _ _ _ _ Y H1)).
      apply enter_sound in E1 as (cb & Y1 & _).
        apply (enter_fails_later _ _ _ _ Y), (enter_fails_later _ _ _ _ Y1), IH.
    - assert (Y : yields s [ERecord a c fs] s1) by (exists s1; now split).
      apply (enter_fails_later _ _ _ _ Y), IH.
  Qed.

  Definition tops_fails (s : S) (r : outcome unroll_err (list partial)) : Prop :=
    match r with
    | Err (UParse x) => said s (Some (Err x))
    | Err UStreamEnd => said s None
    | Err UTopLevel => said s (Some (Ok EEndBlock)) \/ exists a c f, said s (Some (Ok (ERecord a c f)))
    | Panic p => said s (Some (Panic p))
    | _ => True
    end.
  Lemma tops_fails_later l s s' r : yields s l s' -> tops_fails s' r -> tops_fails s r.
  Proof.
    intros Y. destruct r as [|[]| |]; cbn; eauto using said_later.
    intros [H|(a & c & f & H)]; eauto using said_later. right. exists a, c, f. eauto using said_later.
  Qed.
  Lemma tops_err f rp s : tops_fails s (tops nxt f rp s).
  Proof.
    revert rp s. induction f as [|f IH]; intros rp s; [exact I|]. cbn [tops].
    destruct (nxt s) as [[r|] s1] eqn:E; [|exact I].
    assert (here : said s (Some r)) by (exists [], s; split; [reflexivity|]; now rewrite E).
    destruct r as [[|bid len|a c fs]|x|p|]; cbn [omap_err obind]; try exact I; try exact here.
    - now left.
    - assert (Y : yields s [ESubBlock bid len] s1) by (exists s1; now split).
      pose proof (enter_err f (block_new bid) s1) as H1.
      destruct (enter nxt f (block_new bid) s1) as [[child s2]|x|p|] eqn:E1; cbn [obind].
      + apply enter_sound in E1 as (cb & Y1 & _).
        destruct (group child rp) as [rp1|x|p|] eqn:G; cbn [obind].
        * apply (tops_fails_later _ _ _ _ Y), (tops_fails_later _ _ _ _ Y1), IH.
        * unfold group in G. destruct (b_id child) as [|[]|]; try discriminate G; try (injection G as <-; exact I).
          destruct rp as [|q rp]; [injection G as <-; exact I|]. destruct (pt_module q); [|discriminate G].
          injection G as <-; exact I.
        * unfold group in G. destruct (b_id child) as [|[]|]; try discriminate G.
          destruct rp as [|q rp]; [discriminate G|]. destruct (pt_module q); discriminate G.
        * exact I.
      + destruct x; cbn in H1 |- *; try contradiction; eapply said_later; eauto.
      + cbn in H1 |- *. eapply said_later; eauto.
      + exact I.
    - right. exists a, c, fs. exact here.
  Qed.

  (** Fuel. *)
  Context (P : S -> Prop) (P_next : forall s, P s -> P (snd (nxt s)))
          (P_fuel : forall s, P s -> fst (nxt s) <> Some OutOfFuel).
  Definition bounded (s : S) (k : nat) : Prop := forall l s', yields s l s' -> (length l <= k)%nat.

  Lemma yields_P l s s' : P s -> yields s l s' -> P s'.
  Proof.
    revert s. induction l as [|x l IH]; intros s H Y; [now cbn in Y; subst|].
    destruct Y as (s1 & E & Y). apply (IH s1); [|exact Y]. pose proof (P_next s H) as K. now rewrite E in K.
  Qed.
  Lemma bounded_later l s s' k : bounded s k -> yields s l s' -> bounded s' (k - length l).
  Proof.
    intros B Y l2 s2 Y2. specialize (B (l ++ l2) s2). rewrite app_length in B.
    assert (length l + length l2 <= k)%nat; [|lia]. apply B. apply yields_app. now exists s'.
  Qed.
  Lemma bounded_weaken s k k' : bounded s k -> (k <= k')%nat -> bounded s k'.
  Proof. intros B L l s' Y. specialize (B l s' Y). lia. Qed.

  Lemma enter_fuel f b s k : P s -> bounded s k -> (k < f)%nat -> enter nxt f b s <> OutOfFuel.
  Proof.
    revert b s k. induction f as [|f IH]; intros b s k HP B L; [lia|]. cbn [enter].
    pose proof (P_fuel s HP) as HF. pose proof (P_next s HP) as HN.
    destruct (nxt s) as [[r|] s1] eqn:E; [|discriminate]. cbn [fst snd] in *.
    destruct r as [x|x|p|]; cbn [omap_err obind]; try discriminate; [|now contradiction HF].
    assert (Y : yields s [x] s1) by (exists s1; now split).
    pose proof (B _ _ Y) as K1. cbn in K1. pose proof (bounded_later _ _ _ _ B Y) as B1. cbn [length] in B1.
    destruct x as [|bid len|a c fs]; [discriminate| |].
    - destruct (enter nxt f (block_new bid) s1) as [[child s2]|x|p|] eqn:E1; cbn [obind]; try discriminate.
      + apply enter_sound in E1 as (cb & Y1 & _). apply (IH _ _ (k - 1)%nat); [eapply yields_P; eauto| |lia].
        eapply bounded_weaken; [eapply bounded_later; eauto|lia].
      + exfalso. revert E1. apply (IH _ _ (k - 1)%nat); auto. lia.
    - apply (IH _ _ (k - 1)%nat); auto. lia.
  Qed.
  Lemma tops_fuel f rp s k : P s -> bounded s k -> (k < f)%nat -> tops nxt f rp s <> OutOfFuel.
  Proof.
    revert rp s k. induction f as [|f IH]; intros rp s k HP B L; [lia|]. cbn [tops].
    pose proof (P_fuel s HP) as HF. pose proof (P_next s HP) as HN.
    destruct (nxt s) as [[r|] s1] eqn:E; [|discriminate]. cbn [fst snd] in *.
    destruct r as [x|x|p|]; cbn [omap_err obind]; try discriminate; [|now contradiction HF].
    assert (Y : yields s [x] s1) by (exists s1; now split).
    pose proof (B _ _ Y) as K1. cbn in K1. pose proof (bounded_later _ _ _ _ B Y) as B1. cbn [length] in B1.
    destruct x as [|bid len|a c fs]; try discriminate.
    destruct (enter nxt f (block_new bid) s1) as [[child s2]|x|p|] eqn:E1; cbn [obind]; try discriminate.
    - destruct (group child rp) as [rp1|x|p|] eqn:G; cbn [obind]; try discriminate.
      + apply enter_sound in E1 as (cb & Y1 & _). apply (IH _ _ (k - 1)%nat); [eapply yields_P; eauto| |lia].
        eapply bounded_weaken; [eapply bounded_later; eauto|lia].
      + exfalso. unfold group in G. destruct (b_id child) as [|[]|]; try discriminate G.
        destruct rp as [|q rp]; [discriminate G|]. destruct (pt_module q); discriminate G.
    - exfalso. revert E1. apply (enter_fuel _ _ _ (k - 1)%nat); auto. lia.
  Qed.
End Yields.
