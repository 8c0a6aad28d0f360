(** Exactly which inputs the unrolling rejects. *)
From Verif Require Import Base Strings EnumModel CursorModel StreamModel StreamSpec StreamHist StreamMain StreamEnd
  UnrollModel UnrollSpec UnrollProofs UnrollMain UnrollStopSpec.
From Coq Require Import Lia ZifyBool ZifyNat ZifyN.
Local Open Scope N_scope.

(** What a stop of the parser becomes. *)
Definition told_up {A} (r : option (outcome serr entry)) (o : outcome unroll_err A) : Prop :=
  (r = None /\ o = Err UStreamEnd) \/ (exists x, r = Some (Err x) /\ o = Err (UParse x)) \/ (exists p, r = Some (Panic p) /\ o = Panic p).
Lemma told_up_not_ok {A} r (o : outcome unroll_err A) : told_up r o -> (forall a, o <> Ok a) /\ o <> OutOfFuel.
Proof. intros [[_ ->]|[(x & _ & ->)|(p & _ & ->)]]; split; discriminate. Qed.

(** Contents of a block that goes on: complete trees, and maybe an unclosed block. *)
Definition contents (l : list entry) : Prop := exists body open, l = flat_map flat body ++ open /\ (open = [] \/ unclosed open).
Lemma contents_unclosed bid len l : contents l -> unclosed (ESubBlock bid len :: l).
Proof.
  intros (body & open & -> & [->|U]); [rewrite app_nil_r; constructor|now constructor].
Qed.
Lemma unclosed_contents l : unclosed l -> exists bid len l', l = ESubBlock bid len :: l' /\ contents l'.
Proof.
  intros [bid len body|bid len body l' U].
  - exists bid, len, (flat_map flat body). split; [reflexivity|]. exists body, []. rewrite app_nil_r. auto.
  - exists bid, len, (flat_map flat body ++ l'). split; [reflexivity|]. exists body, l'. auto.
Qed.
Lemma contents_cons t l : contents l -> contents (flat t ++ l).
Proof. intros (body & open & -> & H). exists (t :: body), open. split; [|exact H]. cbn [flat_map]. now rewrite app_assoc. Qed.

Section Stops.
  Context {S : Type} (nxt : S -> option (outcome serr entry) * S).

  Lemma enter_stop f b s o : enter nxt f b s = o -> (forall a, o <> Ok a) -> o <> OutOfFuel ->
    exists l s', yields nxt s l s' /\ contents l /\ told_up (fst (nxt s')) o.
  Proof.
    revert b s o. induction f as [|f IH]; intros b s o H NO NF; [now subst|]. cbn [enter] in H.
    assert (STOP : told_up (fst (nxt s)) o -> exists l s', yields nxt s l s' /\ contents l /\ told_up (fst (nxt s')) o).
    { intros T. exists [], s. split; [reflexivity|]. split; [|exact T]. exists [], []. auto. }
    destruct (nxt s) as [[r|] s1] eqn:E.
    2:{ apply STOP. left. auto. }
    destruct r as [[|bid len|a c fs]|x|p|]; cbn [omap_err obind] in H.
    - exfalso. apply (NO (b, s1)). now subst.
    - destruct (enter nxt f (block_new bid) s1) as [[child s2]|x|p|] eqn:E1; cbn [obind] in H.
      + apply enter_sound in E1 as (cbody & Y1 & _). destruct (IH _ _ _ H NO NF) as (l & s' & Y & C & T).
        exists (flat (TBlk bid len cbody) ++ l), s'. split; [|split; [now apply contents_cons|exact T]].
        cbn [flat app yields]. exists s1. split; [exact E|]. apply yields_app. now exists s2.
      + destruct (IH _ _ _ E1) as (l & s' & Y & C & T); [discriminate|discriminate|]. exists (ESubBlock bid len :: l), s'.
        split; [now exists s1|]. split; [exists [], (ESubBlock bid len :: l); split; [reflexivity|right; now apply contents_unclosed]|].
        subst o. destruct T as [[A B]|[(y & A & B)|(y & A & B)]]; inversion B; subst; [left; auto|right; left; eauto].
      + destruct (IH _ _ _ E1) as (l & s' & Y & C & T); [discriminate|discriminate|]. exists (ESubBlock bid len :: l), s'.
        split; [now exists s1|]. split; [exists [], (ESubBlock bid len :: l); split; [reflexivity|right; now apply contents_unclosed]|].
        subst o. destruct T as [[A B]|[(y & A & B)|(y & A & B)]]; inversion B; subst. right; right; eauto.
      + now subst.
    - destruct (IH _ _ _ H NO NF) as (l & s' & Y & C & T). exists (flat (TRec a c fs) ++ l), s'.
      split; [now exists s1|]. split; [now apply contents_cons|exact T].
    - subst o. apply STOP. right; left. exists x. now split.
    - subst o. apply STOP. right; right. exists p. now split.
    - now subst.
  Qed.

  Lemma enter_along body f b s s1 : yields nxt s (flat_map flat body) s1 -> (length (flat_map flat body) <= f)%nat ->
    exists f', (f <= f' + length (flat_map flat body))%nat /\ enter nxt f b s = enter nxt f' (fold_left step body b) s1.
  Proof.
    revert f b s. induction body as [|[a c fs|bid len cbody] body IH]; intros f b s Y L.
    - cbn in Y. subst s1. exists f. cbn. split; [lia|reflexivity].
    - cbn [flat_map flat app yields length] in *. destruct Y as (s2 & E & Y). destruct f as [|f]; [lia|].
      destruct (IH f (push_record (mkRecord a c fs) b) s2 Y) as (f' & L' & H); [lia|]. exists f'. split; [lia|].
      cbn [enter]. rewrite E. cbn [omap_err obind]. exact H.
    - cbn [flat_map flat app yields length] in *. destruct Y as (s2 & E & Y). apply yields_app in Y as (s3 & Y1 & Y2). destruct f as [|f]; [lia|].
      rewrite !app_length in L. cbn [length] in L.
      destruct (IH f (push_block (build (TBlk bid len cbody)) b) s3 Y2) as (f' & L' & H); [lia|]. exists f'. rewrite !app_length. split; [cbn [length]; lia|].
      cbn [enter]. rewrite E. cbn [omap_err obind]. rewrite (enter_complete nxt f cbody _ s2 s3 Y1) by (rewrite app_length; cbn [length]; lia).
      cbn [obind]. rewrite <- build_blk with (len := len). exact H.
  Qed.
  Lemma enter_stops n l : (length l <= n)%nat -> forall f b s s' o, yields nxt s l s' -> contents l -> told_up (fst (nxt s')) o -> (length l < f)%nat ->
    enter nxt f b s = o.
  Proof.
    revert l. induction n as [|n IH]; intros l Ln f b s s' o Y C T L.
    - destruct l; [|cbn in Ln; lia]. cbn in Y. subst s'. destruct f as [|f]; [cbn in L; lia|]. cbn [enter].
      destruct (nxt s) as [r s1]. cbn [fst] in T. destruct T as [[-> ->]|[(x & -> & ->)|(p & -> & ->)]]; reflexivity.
    - destruct C as (body & open & -> & [->|U]).
      + rewrite app_nil_r in *. destruct (enter_along body f b s s' Y) as (f' & L' & ->); [lia|]. destruct f' as [|f']; [lia|]. cbn [enter].
        destruct (nxt s') as [r s1]. cbn [fst] in T. destruct T as [[-> ->]|[(x & -> & ->)|(p & -> & ->)]]; reflexivity.
      + apply yields_app in Y as (s1 & Y1 & Y2). rewrite app_length in *.
        destruct (enter_along body f b s s1 Y1) as (f' & L' & ->); [lia|].
        apply unclosed_contents in U as (bid & len & l & -> & C). cbn [yields length] in *. destruct Y2 as (s2 & E & Y2).
        destruct f' as [|f']; [lia|]. cbn [enter]. rewrite E. cbn [omap_err obind].
        assert (T' : exists o' : outcome unroll_err (block * S), told_up (fst (nxt s')) o' /\ (forall k, obind o' k = o)).
        { destruct T as [[A ->]|[(x & A & ->)|(p & A & ->)]].
          - exists (Err UStreamEnd). split; [left; auto|reflexivity].
          - exists (Err (UParse x)). split; [right; left; eauto|reflexivity].
          - exists (Panic p). split; [right; right; eauto|reflexivity]. }
        destruct T' as (o' & T' & K). rewrite (IH l ltac:(lia) f' (block_new bid) s2 s' o' Y2 C T') by lia. apply K.
  Qed.

  (** The loop over the top-level blocks. *)
  Lemma tops_stop f rp s o : tops nxt f rp s = o -> (forall a, o <> Ok a) -> o <> OutOfFuel ->
    exists forest rp' s1, yields nxt s (flat_map flat forest) s1 /\ Forall is_blk forest /\ groups (map build forest) rp = Ok rp' /\
      ((exists bid len body s2 x, yields nxt s1 (flat (TBlk bid len body)) s2 /\ group (build (TBlk bid len body)) rp' = Err x /\ o = Err x) \/
       (exists x s2, yields nxt s1 [x] s2 /\ (forall bid len, x <> ESubBlock bid len) /\ o = Err UTopLevel) \/
       (exists open s2, yields nxt s1 open s2 /\ (unclosed open \/ open = [] /\ fst (nxt s1) <> None) /\ told_up (fst (nxt s2)) o)).
  Proof.
    revert rp s o. induction f as [|f IH]; intros rp s o H NO NF; [now subst|]. cbn [tops] in H.
    destruct (nxt s) as [[r|] s1] eqn:E.
    2:{ exfalso. apply (NO rp). now subst. }
    destruct r as [[|bid len|a c fs]|x|p|]; cbn [omap_err obind] in H.
    - exists [], rp, s. split; [reflexivity|]. split; [constructor|]. split; [reflexivity|]. right; left. exists EEndBlock, s1.
      split; [now exists s1|]. split; [discriminate|now symmetry].
    - destruct (enter nxt f (block_new bid) s1) as [[child s2]|x|p|] eqn:E1; cbn [obind] in H.
      + apply enter_sound in E1 as (cbody & Y1 & ->). rewrite <- build_blk with (len := len) in H.
        assert (Y0 : yields nxt s (flat (TBlk bid len cbody)) s2) by (cbn [flat yields]; exists s1; now split).
        destruct (group (build (TBlk bid len cbody)) rp) as [rp1|x|p|] eqn:G; cbn [obind] in H.
        * destruct (IH _ _ _ H NO NF) as (forest & rp' & s3 & Y & B & GS & K).
          exists (TBlk bid len cbody :: forest), rp', s3. split; [cbn [flat_map]; apply yields_app; now exists s2|].
          split; [constructor; [exact I|exact B]|]. split; [|exact K]. cbn [map groups]. rewrite G. exact GS.
        * exists [], rp, s. split; [reflexivity|]. split; [constructor|]. split; [reflexivity|]. left. exists bid, len, cbody, s2, x.
          split; [exact Y0|]. split; [exact G|now symmetry].
        * exfalso. unfold group in G. destruct (b_id _) as [|[]|]; try discriminate G.
          destruct rp as [|q rp]; [discriminate G|]. destruct (pt_module q); discriminate G.
        * now subst.
      + destruct (enter_stop _ _ _ _ E1) as (l & s' & Y & C & T); [discriminate|discriminate|].
        exists [], rp, s. split; [reflexivity|]. split; [constructor|]. split; [reflexivity|]. right; right. exists (ESubBlock bid len :: l), s'.
        split; [now exists s1|]. split; [left; now apply contents_unclosed|]. subst o.
        destruct T as [[A B]|[(y & A & B)|(y & A & B)]]; inversion B; subst; [left; auto|right; left; eauto].
      + destruct (enter_stop _ _ _ _ E1) as (l & s' & Y & C & T); [discriminate|discriminate|].
        exists [], rp, s. split; [reflexivity|]. split; [constructor|]. split; [reflexivity|]. right; right. exists (ESubBlock bid len :: l), s'.
        split; [now exists s1|]. split; [left; now apply contents_unclosed|]. subst o.
        destruct T as [[A B]|[(y & A & B)|(y & A & B)]]; inversion B; subst. right; right; eauto.
      + now subst.
    - exists [], rp, s. split; [reflexivity|]. split; [constructor|]. split; [reflexivity|]. right; left. exists (ERecord a c fs), s1.
      split; [now exists s1|]. split; [discriminate|now symmetry].
    - exists [], rp, s. split; [reflexivity|]. split; [constructor|]. split; [reflexivity|]. right; right. exists [], s.
      split; [reflexivity|]. rewrite E. split; [right; split; [reflexivity|discriminate]|]. subst o. right; left. exists x. now split.
    - exists [], rp, s. split; [reflexivity|]. split; [constructor|]. split; [reflexivity|]. right; right. exists [], s.
      split; [reflexivity|]. rewrite E. split; [right; split; [reflexivity|discriminate]|]. subst o. right; right. exists p. now split.
    - now subst.
  Qed.
  Lemma tops_along forest f rp rp' s s1 : yields nxt s (flat_map flat forest) s1 -> Forall is_blk forest ->
    groups (map build forest) rp = Ok rp' -> (length (flat_map flat forest) <= f)%nat ->
    exists f', (f <= f' + length (flat_map flat forest))%nat /\ tops nxt f rp s = tops nxt f' rp' s1.
  Proof.
    revert f rp s. induction forest as [|[a c fs|bid len cbody] forest IH]; intros f rp s Y B G L; inversion B as [|? ? Bt Bf]; subst.
    - cbn in Y, G. injection G as <-. subst s1. exists f. cbn. split; [lia|reflexivity].
    - destruct Bt.
    - cbn [flat_map flat app yields length] in *. destruct Y as (s2 & E & Y). apply yields_app in Y as (s3 & Y1 & Y2). destruct f as [|f]; [lia|].
      rewrite !app_length in L. cbn [length] in L. cbn [map groups] in G.
      destruct (group (build (TBlk bid len cbody)) rp) as [rp1|x|p|] eqn:G1; try discriminate G. cbn [obind] in G.
      destruct (IH f rp1 s3 Y2 Bf G) as (f' & L' & H); [lia|]. exists f'. rewrite !app_length. split; [cbn [length]; lia|].
      cbn [tops]. rewrite E. cbn [omap_err obind]. rewrite (enter_complete nxt f cbody _ s2 s3 Y1) by (rewrite app_length; cbn [length]; lia).
      cbn [obind]. rewrite <- build_blk with (len := len), G1. exact H.
  Qed.
End Stops.

(** *** Grouping *)

Lemma group_err t rp x : is_blk t -> group (build t) rp = Err x <->
  (is_top MODULE t = true /\ rp = [] /\ x = UNoIdentification) \/
  (is_top MODULE t = true /\ room_of rp = false /\ rp <> [] /\ x = UAdjacentModules) \/
  (~ known t /\ x = UUnexpectedBlock (b_id (build t))).
Proof.
  intros B. pose proof (build_top t B) as T. rewrite known_iff.
  pose proof (T IbIdentification) as T1. pose proof (T IbModule) as T2. pose proof (T IbStrtab) as T3. pose proof (T IbSymtab) as T4.
  clear T. cbn [ir_block_id_num] in *. fold IDENTIFICATION MODULE STRTAB SYMTAB in *. unfold group.
  change 13 with IDENTIFICATION in T1. change 8 with MODULE in T2. change 23 with STRTAB in T3. change 25 with SYMTAB in T4.
  rewrite T1, T2, T3, T4. clear T1 T2 T3 T4. 
  assert (UN : forall id, b_id (build t) = id -> id <> BIr IbIdentification -> id <> BIr IbModule -> id <> BIr IbStrtab -> id <> BIr IbSymtab ->
    (Err (UUnexpectedBlock id) = Err (A := list partial) x <->
     (id = BIr IbModule /\ rp = [] /\ x = UNoIdentification) \/
     (id = BIr IbModule /\ room_of rp = false /\ rp <> [] /\ x = UAdjacentModules) \/
     (~ (id = BIr IbIdentification \/ id = BIr IbModule \/ id = BIr IbStrtab \/ id = BIr IbSymtab) /\ x = UUnexpectedBlock id))).
  { intros id _ N1 N2 N3 N4. split; [intros [= <-]; right; right; tauto|]. intros [[H _]|[[H _]|[_ ->]]]; [contradiction..|reflexivity]. }
  destruct (b_id (build t)) as [r|i|v] eqn:ID; [apply UN; [reflexivity|discriminate..]| |apply UN; [reflexivity|discriminate..]].
  destruct i; try (apply UN; [reflexivity|discriminate..]).
  - destruct rp as [|p ps]; cbn [room_of].
    + split; [intros [= <-]; left; auto|]. intros [(_ & _ & ->)|[(_ & _ & N & _)|[N _]]]; [reflexivity|now contradiction N|tauto].
    + destruct (pt_module p) as [m|]; cbn [is_none].
      * split; [intros [= <-]; right; left; repeat split; discriminate|].
        intros [(_ & [=] & _)|[(_ & _ & _ & ->)|[N _]]]; [reflexivity|tauto].
      * split; [discriminate|]. intros [(_ & [=] & _)|[(_ & [=] & _)|[N _]]]. tauto.
  - split; [discriminate|]. intros [([=] & _)|[([=] & _)|[N _]]]. tauto.
  - split; [discriminate|]. intros [([=] & _)|[([=] & _)|[N _]]]. tauto.
  - split; [discriminate|]. intros [([=] & _)|[([=] & _)|[N _]]]. tauto.
Qed.

Lemma no_ident l : modules_of l = [] <-> Forall (fun t => is_top IDENTIFICATION t = false) l.
Proof.
  induction l as [|t l IH]; [split; [constructor|reflexivity]|]. cbn [modules_of]. rewrite Forall_cons_iff, <- IH.
  destruct (is_top IDENTIFICATION t); split; try discriminate; [intros [H _]; discriminate H|auto|intros [_ H]; exact H].
Qed.
Lemma segment_all l : Forall (fun t => is_top IDENTIFICATION t = false) l -> segment l = l.
Proof. induction 1 as [|t l H F IH]; [reflexivity|]. cbn [segment]. now rewrite H, IH. Qed.
Lemma modules_last l : modules_of l <> [] -> exists l1 i l2, l = l1 ++ i :: l2 /\ is_top IDENTIFICATION i = true /\
  Forall (fun t => is_top IDENTIFICATION t = false) l2 /\
  exists ms, modules_of l = ms ++ [mkTmodule i (find (is_top MODULE) l2) (find (is_top STRTAB) l2) (find (is_top SYMTAB) l2)].
Proof.
  induction l as [|t l IH]; intros H; [now contradiction H|].
  destruct (modules_of l) as [|m ms] eqn:M.
  - apply no_ident in M. cbn [modules_of] in H |- *. destruct (is_top IDENTIFICATION t) eqn:E.
    + exists [], t, l. split; [reflexivity|]. split; [exact E|]. split; [exact M|]. exists []. rewrite (segment_all l M).
      apply no_ident in M. now rewrite M.
    + exfalso. apply H. now apply no_ident.
  - destruct IH as (l1 & i & l2 & -> & A & B & ms' & K); [discriminate|]. exists (t :: l1), i, l2. split; [reflexivity|]. split; [exact A|].
    split; [exact B|]. cbn [modules_of]. rewrite M, K. destruct (is_top IDENTIFICATION t); [|now exists ms'].
    exists (mkTmodule t (find (is_top MODULE) (segment (l1 ++ i :: l2))) (find (is_top STRTAB) (l1 ++ i :: l2)) (find (is_top SYMTAB) (l1 ++ i :: l2)) :: ms').
    reflexivity.
Qed.
Lemma room_last l1 i l2 : is_top IDENTIFICATION i = true -> Forall (fun t => is_top IDENTIFICATION t = false) l2 ->
  (room_of (rev (map bm (modules_of (l1 ++ i :: l2)))) = false <-> exists m, In m l2 /\ is_top MODULE m = true) /\ modules_of (l1 ++ i :: l2) <> [].
Proof.
  intros A B.
  assert (K : exists ms, modules_of (l1 ++ i :: l2) = ms ++ [mkTmodule i (find (is_top MODULE) l2) (find (is_top STRTAB) l2) (find (is_top SYMTAB) l2)]).
  { induction l1 as [|t l1 (ms & IH)]; cbn [app modules_of].
    - rewrite A, (segment_all l2 B). exists []. apply no_ident in B. now rewrite B.
    - rewrite IH. destruct (is_top IDENTIFICATION t); [|now exists ms].
      exists (mkTmodule t (find (is_top MODULE) (segment (l1 ++ i :: l2))) (find (is_top STRTAB) (l1 ++ i :: l2)) (find (is_top SYMTAB) (l1 ++ i :: l2)) :: ms).
      reflexivity. }
  destruct K as (ms & K). rewrite K. split; [|intros X; now apply app_eq_nil in X as [_ X]].
  rewrite map_app, rev_app_distr. cbn [map rev app room_of bm pt_module tm_module].
  destruct (find (is_top MODULE) l2) as [m|] eqn:F; cbn [option_map is_none].
  - apply find_some in F. split; [intros _; now exists m|reflexivity].
  - split; [discriminate|]. intros (m & I1 & T). pose proof (find_none _ _ F m I1). congruence.
Qed.

Lemma misplaced_iff forest t x : is_blk t ->
  (group (build t) (rev (map bm (modules_of forest))) = Err x <-> misplaced forest t x).
Proof.
  intros B. rewrite (group_err t _ x B). destruct t as [|bid len body]; [destruct B|]. split.
  - intros [(T & R & ->)|[(T & R & N & ->)|(K & ->)]].
    + cbn in T. apply N.eqb_eq in T. subst bid. apply MiFirst. apply no_ident.
      destruct (modules_of forest) as [|m ms]; [reflexivity|]. cbn in R. now apply app_eq_nil in R as [_ R].
    + cbn in T. apply N.eqb_eq in T. subst bid.
      destruct (modules_last forest) as (l1 & i & l2 & -> & A & F & _).
      { intros M. rewrite M in N. now contradiction N. }
      apply (proj1 (room_last l1 i l2 A F)) in R as (m & I1 & T). apply in_split in I1 as (l3 & l4 & ->).
      exact (MiSecond _ l1 i l3 m l4 len body eq_refl A T F).
    + apply MiUnknown.
      * intros I1. apply K. exists bid. split; [cbn; apply N.eqb_refl|exact I1].
      * rewrite build_blk, steps_id. apply block_id_matches.
  - intros M. inversion M; subst.
    + right; right. split.
      * intros (v & T & I1). cbn in T. apply N.eqb_eq in T. subst v. contradiction.
      * f_equal. rewrite build_blk, steps_id. apply (id_matches_fun bid); [assumption|apply block_id_matches].
    + left. split; [reflexivity|]. split; [|reflexivity]. match goal with F : Forall _ forest |- _ => apply no_ident in F; now rewrite F end.
    + destruct (room_last l1 i (l2 ++ m :: l3)) as [R N]; [assumption|assumption|].
      right; left. split; [reflexivity|]. split; [apply R; exists m; split; [apply in_elt|assumption]|]. split; [|reflexivity].
      intros Z. apply N. destruct (modules_of (l1 ++ i :: l2 ++ m :: l3)) as [|y ys]; [reflexivity|]. cbn in Z. now apply app_eq_nil in Z as [_ Z].
Qed.

(** *** The parser *)

Lemma begins_iff e s l : begins e s l <-> exists s', yields (next e cursor_ops) s l s'.
Proof.
  split.
  - intros [n H]. revert s n H. induction l as [|x l IH]; intros s n H; [now exists s|].
    destruct n as [|n]; [discriminate H|]. cbn [run map] in H. destruct (next e cursor_ops s) as [r s1] eqn:E.
    injection H as -> H. apply IH in H as (s' & Y). exists s', s1. auto.
  - intros (s' & Y). exists (length l + 0)%nat. rewrite (yields_run e s l s' 0 Y). cbn [run]. apply app_nil_r.
Qed.
Lemma says_iff e s l r : says e s l r <-> exists s', yields (next e cursor_ops) s l s' /\ fst (next e cursor_ops s') = r.
Proof.
  split.
  - intros [n H]. exact (run_yields e s l n r H).
  - intros (s' & Y & H). exists (length l + 1)%nat. rewrite (yields_run e s l s' 1 Y). cbn [run].
    destruct (next e cursor_ops s') as [r' s2]. cbn in H. now subst r'.
Qed.

Lemma unroll_stops_sound e s o : parser_reachable e s -> unroll e s = o -> (forall a, o <> Ok a) -> unroll_stops e s o.
Proof.
  intros HR H NO. assert (NF : o <> OutOfFuel) by (rewrite <- H; now apply unroll_terminates).
  unfold unroll in H. set (f := (N.to_nat (bit_len (p_cur s)) + 2)%nat) in H.
  assert (H' : exists o', tops (next e cursor_ops) f [] s = o' /\ (forall a, o' <> Ok a) /\ o' <> OutOfFuel /\ o' = o).
  { exists (tops (next e cursor_ops) f [] s). split; [reflexivity|].
    destruct (tops (next e cursor_ops) f [] s) as [rp|x|p|]; cbn [obind] in H; subst o; repeat split; try discriminate.
    - exfalso. now apply (NO (rev rp)).
    - exfalso. now apply (NO (rev rp)).
    - contradiction. }
  destruct H' as (o' & H' & NO' & NF' & ->). clear H.
  destruct (tops_stop _ _ _ _ _ H' NO' NF') as (forest & rp' & s1 & Y & B & G & K).
  apply groups_spec in G as [G ->]; [|exact I|exact I|exact B]. cbn [room_of] in G. apply well_grouped_okay in G.
  unfold finish in K. cbn [map] in K. rewrite app_nil_r in K.
  destruct K as [(bid & len & body & s2 & x & Y2 & GE & ->)|[(x & s2 & Y2 & NS & ->)|(open & s2 & Y2 & OP & T)]].
  - apply (UsMisplaced e s forest (TBlk bid len body) x).
    + apply begins_iff. exists s2. rewrite flat_map_app. apply yields_app. exists s1. split; [exact Y|]. cbn [flat_map]. now rewrite app_nil_r.
    + exact G.
    + now apply misplaced_iff.
  - apply (UsTopLevel e s forest x); [|exact G|exact NS]. apply begins_iff. exists s2. apply yields_app. now exists s1.
  - assert (OP' : open = [] \/ unclosed open) by (destruct OP as [U|[-> _]]; auto).
    assert (SY : says e s (flat_map flat forest ++ open) (fst (next e cursor_ops s2))).
    { apply says_iff. exists s2. split; [|reflexivity]. apply yields_app. now exists s1. }
    destruct T as [[R ->]|[(x & R & ->)|(p & R & ->)]]; rewrite R in SY.
    + apply (UsEnd e s forest open SY G). destruct OP as [U|[-> N]]; [exact U|]. cbn in Y2. subst s2. contradiction.
    + exact (UsError e s forest open x SY G OP').
    + exact (UsPanic e s forest open p SY G OP').
Qed.

Lemma unroll_stops_complete e s o : parser_reachable e s -> unroll_stops e s o -> unroll e s = o.
Proof.
  intros HR H.
  assert (GR : forall forest, well_grouped forest -> groups (map build forest) [] = Ok (rev (map bm (modules_of forest)))).
  { intros forest W. rewrite (proj2 (groups_spec forest [] (rev (map bm (modules_of forest)) ++ finish forest []) I I (grouped_blk _ W))).
    - unfold finish. cbn [map]. now rewrite app_nil_r.
    - split; [now apply well_grouped_okay|reflexivity]. }
  assert (LEN : forall l s', yields (next e cursor_ops) s l s' -> (length l < N.to_nat (bit_len (p_cur s)) + 2)%nat).
  { intros l s' Y. pose proof (reach_bounded e s HR _ _ Y) as L. unfold total in L. lia. }
  unfold unroll. set (f := (N.to_nat (bit_len (p_cur s)) + 2)%nat) in *.
  assert (STOP : forall forest open r (o' : outcome unroll_err (list partial)), says e s (flat_map flat forest ++ open) r -> well_grouped forest ->
    unclosed open -> told_up r o' -> tops (next e cursor_ops) f [] s = o').
  { intros forest open r o' SY W U T. apply says_iff in SY as (s2 & Y & R). pose proof (LEN _ _ Y) as L. apply yields_app in Y as (s1 & Y1 & Y2).
    rewrite app_length in L.
    destruct (tops_along _ forest f [] _ s s1 Y1 (grouped_blk _ W) (GR _ W)) as (f' & L' & ->); [lia|].
    apply unclosed_contents in U as (bid & len & l & -> & C). cbn [yields length] in *. destruct Y2 as (s3 & E & Y2).
    destruct f' as [|f']; [lia|]. cbn [tops]. rewrite E. cbn [omap_err obind].
    assert (T' : exists o2 : outcome unroll_err (block * sparser cursor), told_up (fst (next e cursor_ops s2)) o2 /\ (forall k, obind o2 k = o')).
    { rewrite R. destruct T as [[A ->]|[(x & A & ->)|(p & A & ->)]]; subst r.
      - exists (Err UStreamEnd). split; [left; auto|reflexivity].
      - exists (Err (UParse x)). split; [right; left; eauto|reflexivity].
      - exists (Panic p). split; [right; right; eauto|reflexivity]. }
    destruct T' as (o2 & T' & K). rewrite (enter_stops _ (length l) l (le_n _) f' (block_new bid) s3 s2 o2 Y2 C T') by lia. apply K. }
  destruct H as [forest t x BG W M|forest x BG W NS|forest open x SY W OP|forest open x SY W OP|forest open SY W OP].
  - apply begins_iff in BG as (s2 & Y). rewrite flat_map_app in Y. pose proof (LEN _ _ Y) as L. apply yields_app in Y as (s1 & Y1 & Y2).
    cbn [flat_map] in Y2, L. rewrite app_nil_r in Y2. rewrite !app_length in L.
    destruct (tops_along _ forest f [] _ s s1 Y1 (grouped_blk _ W) (GR _ W)) as (f' & L' & ->); [lia|].
    assert (B : is_blk t) by (now inversion M; subst).
    apply misplaced_iff in M; [|exact B]. destruct t as [|bid len body]; [destruct B|]. cbn [flat yields length] in *. destruct Y2 as (s3 & E & Y2).
    destruct f' as [|f']; [lia|]. cbn [tops]. rewrite E. cbn [omap_err obind].
    rewrite (enter_complete _ f' body _ s3 s2 Y2) by lia. cbn [obind]. rewrite <- build_blk with (len := len), M. reflexivity.
  - apply begins_iff in BG as (s2 & Y). pose proof (LEN _ _ Y) as L. apply yields_app in Y as (s1 & Y1 & Y2).
    rewrite !app_length in L. destruct (tops_along _ forest f [] _ s s1 Y1 (grouped_blk _ W) (GR _ W)) as (f' & L' & ->); [cbn in L; lia|].
    cbn [yields length] in *. destruct Y2 as (s3 & E & _). destruct f' as [|f']; [lia|]. cbn [tops]. rewrite E. cbn [omap_err obind].
    destruct x as [|bid len|a c fs]; [reflexivity|now contradiction (NS bid len)|reflexivity].
  - destruct OP as [->|U].
    + rewrite app_nil_r in SY. apply says_iff in SY as (s1 & Y & R). pose proof (LEN _ _ Y) as L.
      destruct (tops_along _ forest f [] _ s s1 Y (grouped_blk _ W) (GR _ W)) as (f' & L' & ->); [lia|].
      destruct f' as [|f']; [lia|]. cbn [tops]. destruct (next e cursor_ops s1) as [r s3]. cbn in R. subst r. reflexivity.
    + rewrite (STOP forest open _ (Err (UParse x)) SY W U); [reflexivity|]. right; left. eauto.
  - destruct OP as [->|U].
    + rewrite app_nil_r in SY. apply says_iff in SY as (s1 & Y & R). pose proof (LEN _ _ Y) as L.
      destruct (tops_along _ forest f [] _ s s1 Y (grouped_blk _ W) (GR _ W)) as (f' & L' & ->); [lia|].
      destruct f' as [|f']; [lia|]. cbn [tops]. destruct (next e cursor_ops s1) as [r s3]. cbn in R. subst r. reflexivity.
    + rewrite (STOP forest open _ (Panic x) SY W U); [reflexivity|]. right; right. eauto.
  - rewrite (STOP forest open _ (Err UStreamEnd) SY W OP); [reflexivity|]. left. auto.
Qed.

Lemma unroll_stops_exactly e s o : parser_reachable e s -> (forall parts, o <> Ok parts) -> (unroll e s = o <-> unroll_stops e s o).
Proof.
  intros HR NO. split; [intros H; exact (unroll_stops_sound e s o HR H NO)|exact (unroll_stops_complete e s o HR)].
Qed.
