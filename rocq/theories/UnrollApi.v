(** Uniqueness of trees, written streams, records and accessors. *)
From Verif Require Import Base Strings StringsProofs Utf8Proofs EnumModel CursorModel CursorHist CursorMain StreamModel StreamSpec StreamHist StreamMain
  StreamEnd LayoutMain UnrollModel UnrollSpec UnrollProofs UnrollMain.
From Coq Require Import Lia ZifyBool ZifyNat ZifyN Sorted.
Local Open Scope N_scope.

(** *** Uniqueness *)

Definition closes (r : list entry) : Prop := match r with [] => True | x :: _ => x = EEndBlock end.

Lemma flat_inj n : forall f1 f2 r1 r2, (length (flat_map flat f1) <= n)%nat -> closes r1 -> closes r2 ->
  flat_map flat f1 ++ r1 = flat_map flat f2 ++ r2 -> f1 = f2 /\ r1 = r2.
Proof.
  induction n as [n IH] using lt_wf_ind. intros f1 f2 r1 r2 L C1 C2 H.
  destruct f1 as [|[a c f|bid len body] f1]; cbn [flat_map flat app] in *.
  - destruct f2 as [|[a' c' f'|bid' len' body'] f2]; cbn [flat_map flat app] in *; [auto| |];
      subst r1; discriminate C1.
  - destruct f2 as [|[a' c' f'|bid' len' body'] f2]; cbn [flat_map flat app] in *.
    + subst r2. discriminate C2.
    + injection H as -> -> -> H. cbn [length] in L.
      destruct (IH (length (flat_map flat f1)) ltac:(lia) f1 f2 r1 r2) as [-> ->]; auto.
    + discriminate H.
  - destruct f2 as [|[a' c' f'|bid' len' body'] f2]; cbn [flat_map flat app] in *.
    + subst r2. discriminate C2.
    + discriminate H.
    + injection H as -> -> H. cbn [length] in L. rewrite !app_length in L. cbn [length] in L.
      rewrite <- !app_assoc in H. cbn [app] in H.
      assert (L1 : (length (flat_map flat body) < n)%nat) by lia.
      destruct (IH (length (flat_map flat body)) L1 body body' (EEndBlock :: _) (EEndBlock :: _) (le_n _) eq_refl eq_refl H) as [-> H'].
      injection H' as H'. assert (L2 : (length (flat_map flat f1) < n)%nat) by lia.
      destruct (IH (length (flat_map flat f1)) L2 f1 f2 r1 r2 (le_n _) C1 C2 H') as [-> ->]. auto.
Qed.

Lemma map_ok_split (l1 l2 : list entry) (r1 r2 : list (option (outcome serr entry))) :
  map (fun x => Some (Ok x)) l1 ++ None :: r1 = map (fun x => Some (Ok x)) l2 ++ None :: r2 -> l1 = l2.
Proof.
  revert l2. induction l1 as [|x l1 IH]; intros [|y l2] H; cbn in *; try discriminate; [reflexivity|].
  injection H as -> H. f_equal. eauto.
Qed.

Lemma run_prefix e n m s : (n <= m)%nat -> exists r, run e cursor_ops m s = run e cursor_ops n s ++ r.
Proof.
  revert m s. induction n as [|n IH]; intros m s L; [now exists (run e cursor_ops m s)|].
  destruct m as [|m]; [lia|]. cbn [run]. destruct (next e cursor_ops s) as [r s'].
  destruct (IH m s' ltac:(lia)) as [t ->]. now exists t.
Qed.

Lemma stream_unique e s f1 f2 : stream_is e s f1 -> stream_is e s f2 -> f1 = f2.
Proof.
  intros [n1 H1] [n2 H2]. 
  assert (E : flat_map flat f1 = flat_map flat f2).
  { destruct (Nat.le_ge_cases n1 n2) as [L|L]; destruct (run_prefix e _ _ s L) as [r R]; rewrite H1, H2, <- app_assoc in R;
      cbn [app] in R; apply map_ok_split in R; congruence. }
  destruct (flat_inj _ f1 f2 [] [] (le_n _) I I) as [-> _]; [now rewrite E|reflexivity].
Qed.

(** What follows the first result that is not an entry does not matter. *)
Lemma run_stop_unique e s n1 n2 l1 l2 r1 r2 :
  run e cursor_ops n1 s = map (fun x => Some (Ok x)) l1 ++ [r1] ->
  run e cursor_ops n2 s = map (fun x => Some (Ok x)) l2 ++ [r2] ->
  (forall x, r1 <> Some (Ok x)) -> (forall x, r2 <> Some (Ok x)) -> l1 = l2 /\ r1 = r2.
Proof.
  revert s n1 n2 l2. induction l1 as [|x l1 IH]; intros s n1 n2 l2 H1 H2 N1 N2;
    (destruct n1 as [|n1]; [discriminate H1|]); (destruct n2 as [|n2]; [now destruct l2|]);
    cbn [run] in *; destruct (next e cursor_ops s) as [r s']; destruct l2 as [|y l2]; cbn [map app] in *.
  - split; [reflexivity|]. injection H1 as H1 _. injection H2 as H2 _. congruence.
  - injection H1 as H1 _. injection H2 as H2 _. exfalso. apply (N1 y). congruence.
  - injection H1 as H1 _. injection H2 as H2 _. exfalso. apply (N2 x). congruence.
  - injection H1 as H1 K1. injection H2 as H2 K2. rewrite H1 in H2. injection H2 as <-.
    destruct (IH s' n1 n2 l2 K1 K2 N1 N2) as [-> ->]. auto.
Qed.

Lemma unroll_rejects e s forest : parser_reachable e s -> stream_is e s forest -> ~ well_grouped forest ->
  exists x, unroll e s = Err x.
Proof.
  intros HR HS NW. destruct (unroll e s) as [parts|x|p|] eqn:E.
  - exfalso. destruct (unroll_ok e s parts HR E) as (f & HS' & W & _). apply NW.
    now rewrite (stream_unique e s forest f HS HS').
  - now exists x.
  - exfalso. pose proof (unroll_fails e s) as K. rewrite E in K. cbn in K. apply said_run in K as (n & l & K).
    destruct HS as [m HS]. destruct (run_stop_unique e s _ _ _ _ _ _ HS K) as [_ D]; discriminate.
  - exfalso. now apply (unroll_terminates e s HR).
Qed.

(** C50 *)
Lemma unroll_error e s n l r : parser_reachable e s ->
  run e cursor_ops n s = map (fun x => Some (Ok x)) l ++ [r] -> r <> None -> (forall x, r <> Some (Ok x)) ->
  forall parts, unroll e s <> Ok parts.
Proof.
  intros HR H N1 N2 parts E. destruct (unroll_ok e s parts HR E) as (f & [m HS] & _).
  destruct (run_stop_unique e s _ _ _ _ _ _ HS H) as [_ D]; [discriminate|exact N2|]. now subst r.
Qed.

(** *** Written streams *)

Fixpoint item_ind' (P : item -> Prop) (H1 : forall a, P (IDefine a)) (H2 : forall c f, P (IUnabbrev c f))
  (H3 : forall i c f, P (IAbbrev i c f))
  (H4 : forall b w n body, Forall P body -> P (IBlock b w n body)) (t : item) : P t :=
  match t with
  | IDefine a => H1 a
  | IUnabbrev c f => H2 c f
  | IAbbrev i c f => H3 i c f
  | IBlock b w n body =>
      H4 b w n body ((fix go l : Forall P l :=
        match l with [] => Forall_nil P | t :: l' => Forall_cons t (item_ind' P H1 H2 H3 H4 t) (go l') end) body)
  end.

Lemma flat_map_app' {A B} (f : A -> list B) l m : flat_map f (l ++ m) = flat_map f l ++ flat_map f m.
Proof. induction l as [|a l IH]; [reflexivity|]. cbn. now rewrite IH, app_assoc. Qed.

Lemma flat_item it : forall b, flat_map flat (item_trees b it) = item_entries b it.
Proof.
  induction it as [a|c f|i c f|bid w n body IH] using item_ind'; intros b; cbn [item_trees item_entries];
    try (destruct b; reflexivity).
  assert (G : forall b0, flat_map flat (flat_map (item_trees b0) body) = flat_map (item_entries b0) body).
  { intros b0. induction body as [|t body IHb]; [reflexivity|]. inversion IH as [|? ? Ht Hb]; subst.
    cbn [flat_map]. now rewrite flat_map_app', Ht, IHb. }
  destruct (bid =? 0); [apply G|]. cbn [flat_map flat]. now rewrite G, app_nil_r.
Qed.
Lemma flat_trees l : flat_map flat (trees l) = entries l.
Proof.
  unfold trees, entries. induction l as [|t l IH]; [reflexivity|]. cbn [flat_map]. now rewrite flat_map_app', flat_item, IH.
Qed.

Lemma from_cursor_reachable e c b : reachable e c -> from_cursor c = Ok b -> parser_reachable e (bs_parser b).
Proof.
  intros HR H. unfold from_cursor in H. destruct (negb _); [discriminate H|].
  pose proof (reachable_step e c (OReadExact u32t) HR) as K. cbn [apply_op] in K.
  destruct (read_exact cursor_ops u32t c) as [[m|x|p|] c']; try discriminate H. injection H as <-. now constructor.
Qed.
Lemma new_reachable e buf : reachable e (cur_new buf).
Proof. exists (cur_new buf), []. split; [left; now exists buf|reflexivity]. Qed.
Lemma from_wrapped_reachable e buf w b : from_wrapped e buf = Ok (w, b) -> parser_reachable e (bs_parser b).
Proof.
  intros E. unfold from_wrapped in E. destruct (omap_err SCursor (fst (read_wrapper (cur_new buf)))) as [w2|x|p|]; try discriminate E.
  cbn [obind] in E. destruct (cur_new_with_len buf (wr_size w2 + 20)) as [c|x|p|] eqn:EC; try discriminate E.
  cbn [omap_err obind] in E.
  assert (HR : reachable e c). { exists c, []. split; [right; eauto|reflexivity]. }
  pose proof (reachable_step e c (OSeek (SeekStart (wr_offset w2))) HR) as K. cbn [apply_op] in K.
  destruct (seek e (SeekStart (wr_offset w2)) c) as [[o|x|p|] c']; try discriminate E.
  destruct (from_cursor c') as [b2|x|p|] eqn:EB; try discriminate E. injection E as <- <-.
  now apply (from_cursor_reachable e c').
Qed.
Lemma from_reachable e buf w b : from e buf = Ok (w, b) -> parser_reachable e (bs_parser b).
Proof.
  unfold from. destruct (omap_err SCursor (fst (read_exact cursor_ops u32t (cur_new buf)))) as [m|x|p|]; try discriminate.
  cbn [obind]. destruct (m =? BITCODE_WRAPPER_MAGIC).
  - destruct (from_wrapped e buf) as [[w' b']|x|p|] eqn:E; try discriminate. intros [= <- <-]. eapply from_wrapped_reachable, E.
  - destruct (from_raw buf) as [b'|x|p|] eqn:E; try discriminate. intros [= <- <-].
    apply (from_cursor_reachable e (cur_new buf)); [apply new_reachable|exact E].
Qed.
Lemma from_raw_reachable e buf b : from_raw buf = Ok b -> parser_reachable e (bs_parser b).
Proof. apply from_cursor_reachable, new_reachable. Qed.

Lemma written_unrolled e magic l bits : write_stream magic l = Some bits ->
  forallb (item_small (alloc_limit e)) l = true -> well_grouped (trees l) ->
  exists b parts, from_raw (bytes_of_bits bits) = Ok b /\ unroll e (bs_parser b) = Ok parts /\
                  Forall2 carries (modules_of (trees l)) parts.
Proof.
  intros H HS W. destruct (written_raw e magic l bits H HS) as (s & HF & HRun).
  pose proof (from_raw_reachable e _ _ HF) as HR. cbn [bs_parser] in HR.
  assert (ST : stream_is e s (trees l)).
  { exists (length (entries l) + 1)%nat. rewrite flat_trees, HRun. reflexivity. }
  destruct (unroll_accepts e s _ HR ST W) as [parts E].
  exists (mkBitstream magic s), parts. split; [exact HF|]. split; [exact E|].
  destruct (unroll_ok e s parts HR E) as (f & ST' & _ & C). now rewrite (stream_unique e s _ _ ST ST').
Qed.

(** *** Strings and blobs (C29) *)

Lemma collect_u8 {E} (bad : E) l raw : collect (u8_of bad) l = Ok raw <-> raw = l /\ Forall (fun f => f < 256) l.
Proof.
  rewrite collect_iff. unfold u8_of. split.
  - intros H. induction H as [|a b l m Hab _ [IH1 IH2]]; [split; constructor|].
    destruct (a <? 256) eqn:Q; [|discriminate Hab]. injection Hab as <-. subst m. split; [reflexivity|].
    constructor; [lia|exact IH2].
  - intros [-> H]. induction H as [|a l Ha _ IH]; constructor; [|exact IH]. destruct (a <? 256) eqn:Q; [reflexivity|lia].
Qed.
Lemma collect_u8_err {E} (bad : E) l : ~ Forall (fun f => f < 256) l -> collect (u8_of bad) l = Err bad.
Proof.
  induction l as [|a l IH]; intros H; [now exfalso; apply H|]. cbn [collect]. unfold u8_of at 1.
  destruct (a <? 256) eqn:Q; [|reflexivity]. cbn [obind]. rewrite IH; [reflexivity|].
  intros K. apply H. constructor; [lia|exact K].
Qed.
Lemma bytes_dec l : Forall (fun f => f < 256) l \/ ~ Forall (fun f => f < 256) l.
Proof.
  induction l as [|a l [H|H]]; [left; constructor| |right; intros K; now inversion K].
  destruct (N.lt_ge_cases a 256) as [L|L]; [left; now constructor|right; intros K; inversion K; lia].
Qed.

Lemma fields_from_in {E} e (bad : N -> N -> E) r idx : idx + 1 < N.of_nat (length (r_fields r)) ->
  fields_from e bad r idx = Ok (skipn (N.to_nat idx) (r_fields r)).
Proof.
  intros H. unfold fields_from. destruct (N.of_nat (length (r_fields r)) =? 0) eqn:E0; [lia|]. cbn [obind].
  destruct (N.of_nat (length (r_fields r)) - 1 <=? idx) eqn:E1; [lia|].
  destruct (N.of_nat (length (r_fields r)) <? idx) eqn:E2; [lia|]. reflexivity.
Qed.
Lemma fields_from_out {E} e (bad : N -> N -> E) r idx : r_fields r <> [] -> N.of_nat (length (r_fields r)) <= idx + 1 ->
  fields_from e bad r idx = Err (bad idx (N.of_nat (length (r_fields r)))).
Proof.
  intros Hn H. unfold fields_from. destruct (N.of_nat (length (r_fields r)) =? 0) eqn:E0.
  { destruct (r_fields r); [contradiction|cbn in E0; lia]. }
  cbn [obind]. destruct (N.of_nat (length (r_fields r)) - 1 <=? idx) eqn:E1; [reflexivity|lia].
Qed.
Lemma fields_from_empty {E} e (bad : N -> N -> E) r idx : r_fields r = [] -> idx < u64_max ->
  fields_from e bad r idx =
    if overflow_checks e then Panic PSubOverflow else if idx =? 0 then Ok [] else Panic PSliceRange.
Proof.
  intros H L. unfold fields_from. rewrite H. cbn [length N.of_nat N.eqb].
  destruct (overflow_checks e); [reflexivity|]. cbn [obind].
  destruct (u64_max <=? idx) eqn:E1; [lia|]. destruct (idx =? 0) eqn:E0; destruct (0 <? idx) eqn:E2; try lia; [|reflexivity].
  now rewrite skipn_nil.
Qed.

Lemma try_string_in e r idx s : idx + 1 < N.of_nat (length (r_fields r)) ->
  let fs := skipn (N.to_nat idx) (r_fields r) in
  (try_string e r idx = Ok s <->
     Forall (fun f => f < 256) fs /\ forallb is_scalar_value s = true /\ utf8_encode s = fs) /\
  (try_string e r idx = Err StBadCharacter <-> ~ Forall (fun f => f < 256) fs) /\
  ((forall raw x, try_string e r idx = Err (StBadEncoding raw x) <-> Forall (fun f => f < 256) fs /\ raw = fs /\ utf8_fault fs x) /\
   ((exists raw x, try_string e r idx = Err (StBadEncoding raw x)) <->
      Forall (fun f => f < 256) fs /\ ~ exists s, forallb is_scalar_value s = true /\ utf8_encode s = fs)) /\
  (forall p, try_string e r idx <> Panic p) /\ try_string e r idx <> OutOfFuel.
Proof.
  intros H fs. unfold try_string. rewrite fields_from_in by exact H. cbn [obind]. fold fs.
  destruct (bytes_dec fs) as [B|B].
  - rewrite (proj2 (collect_u8 StBadCharacter fs fs)) by auto. cbn [obind]. unfold ok_or.
    destruct (utf8_decode fs) as [t|] eqn:D.
    + apply utf8_exact in D as [D1 D2]. split; [|split; [|split; [|split]]]; try discriminate.
      * split; [intros [= <-]; auto|]. intros (_ & S1 & S2). f_equal.
        assert (X : utf8_decode fs = Some s) by now apply utf8_exact.
        assert (Y : utf8_decode fs = Some t) by now apply utf8_exact. congruence.
      * split; [discriminate|tauto].
      * assert (Y : utf8_decode fs = Some t) by now apply utf8_exact.
        split; [|split; [intros (? & ? & [=])|]].
        -- intros raw x. split; [discriminate|]. intros (_ & _ & F). apply utf8_fault_no_string in F. congruence.
        -- intros [_ K]. exfalso. apply K. eauto.
    + assert (N : ~ exists s, forallb is_scalar_value s = true /\ utf8_encode s = fs).
      { intros (t & T). apply utf8_exact in T. congruence. }
      split; [|split; [|split; [|split]]]; try discriminate.
      * split; [discriminate|]. intros (_ & S1 & S2). exfalso. eauto.
      * split; [discriminate|tauto].
      * split; [|split; [tauto|eauto]]. intros raw x. rewrite utf8_error_iff. split.
        -- intros [= <- <-]. auto.
        -- intros (_ & -> & _ & ->). reflexivity.
  - rewrite collect_u8_err by exact B. cbn [obind].
    split; [|split; [|split; [|split]]]; try discriminate; try (split; [discriminate|tauto]); [tauto|].
    split; [intros raw x; split; [discriminate|tauto]|]. split; [intros (? & ? & [=])|tauto].
Qed.

Lemma try_blob_in e r idx : idx + 1 < N.of_nat (length (r_fields r)) ->
  let fs := skipn (N.to_nat idx) (r_fields r) in
  (forall l, try_blob e r idx = Ok l <-> Forall (fun f => f < 256) fs /\ l = fs) /\
  (try_blob e r idx = Err BlBadByte <-> ~ Forall (fun f => f < 256) fs) /\
  (forall p, try_blob e r idx <> Panic p) /\ try_blob e r idx <> OutOfFuel.
Proof.
  intros H fs. unfold try_blob. rewrite fields_from_in by exact H. cbn [obind]. fold fs.
  destruct (bytes_dec fs) as [B|B].
  - rewrite (proj2 (collect_u8 BlBadByte fs fs)) by auto. split; [|split; [|split]]; try discriminate.
    + intros l. split; [intros [= <-]; auto|intros [_ ->]; reflexivity].
    + split; [discriminate|tauto].
  - rewrite collect_u8_err by exact B. split; [|split; [|split]]; try discriminate; [|tauto].
    intros l. split; [discriminate|tauto].
Qed.

Lemma strings_out e r idx : r_fields r <> [] -> N.of_nat (length (r_fields r)) <= idx + 1 ->
  try_string e r idx = Err (StBadIndex idx (N.of_nat (length (r_fields r)))) /\
  try_blob e r idx = Err (BlBadIndex idx (N.of_nat (length (r_fields r)))).
Proof. intros H L. unfold try_string, try_blob. now rewrite !fields_from_out. Qed.

Lemma strings_empty e r idx : r_fields r = [] -> idx < u64_max ->
  try_string e r idx = (if overflow_checks e then Panic PSubOverflow else if idx =? 0 then Ok [] else Panic PSliceRange) /\
  try_blob e r idx = (if overflow_checks e then Panic PSubOverflow else if idx =? 0 then Ok [] else Panic PSliceRange).
Proof.
  intros H L. unfold try_string, try_blob. rewrite !fields_from_empty by assumption.
  destruct (overflow_checks e); [auto|]. destruct (idx =? 0); auto.
Qed.
Lemma strings_empty_last e r : r_fields r = [] ->
  try_string e r u64_max = (if overflow_checks e then Panic PSubOverflow else Err (StBadIndex u64_max 0)) /\
  try_blob e r u64_max = (if overflow_checks e then Panic PSubOverflow else Err (BlBadIndex u64_max 0)).
Proof.
  intros H. unfold try_string, try_blob, fields_from. rewrite H. cbn [length]. destruct (overflow_checks e); auto.
Qed.

(** *** Accessors (C30) *)

Lemma selected_filter {A} (f : A -> bool) (P : A -> Prop) : (forall a, f a = true <-> P a) ->
  forall l, selected P l (filter f l).
Proof.
  intros HP. induction l as [|a l IH].
  - exists []. split; [constructor|]. split; [constructor|]. intros j. cbn. split; [tauto|]. intros (a & H & _). now destruct j.
  - destruct IH as (js & F & S & M).
    assert (SS : StronglySorted lt (map Datatypes.S js)).
    { clear - S. induction S as [|j js S IH L]; [constructor|]. cbn. constructor; [exact IH|].
      apply Forall_map. eapply Forall_impl; [|exact L]. cbn. intros. lia. }
    assert (FF : Forall2 (fun j x => nth_error (a :: l) j = Some x) (map Datatypes.S js) (filter f l)).
    { clear - F. induction F; [constructor|]. cbn. constructor; assumption. }
    assert (MM : forall j, In j (map Datatypes.S js) <-> exists k x, j = Datatypes.S k /\ nth_error l k = Some x /\ P x).
    { intros j. rewrite in_map_iff. split.
      - intros (k & <- & K). apply M in K as (x & K). now exists k, x.
      - intros (k & x & -> & K). exists k. split; [reflexivity|]. apply M. now exists x. }
    cbn [filter]. destruct (f a) eqn:E.
    + exists (O :: map Datatypes.S js). split; [constructor; [reflexivity|exact FF]|]. split.
      * constructor; [exact SS|]. apply Forall_map, Forall_forall. intros. lia.
      * intros j. cbn [In]. rewrite MM. split.
        -- intros [<-|(k & x & -> & K)]; [exists a; split; [reflexivity|now apply HP]|now exists x].
        -- intros (x & N & K). destruct j as [|j]; [now left|right; now exists j, x].
    + exists (map Datatypes.S js). split; [exact FF|]. split; [exact SS|]. intros j. rewrite MM. split.
      * intros (k & x & -> & K). now exists x.
      * intros (x & N & K). destruct j as [|j]; [|now exists j, x]. injection N as <-. apply HP in K. congruence.
Qed.

Lemma by_code_selected code l : selected (fun r => r_code r = code) l (by_code code l).
Proof. apply selected_filter. intros a. apply N.eqb_eq. Qed.

Lemma selected_nil {A} (P : A -> Prop) l : selected P l [] <-> Forall (fun a => ~ P a) l.
Proof.
  split.
  - intros (js & F & _ & M). inversion F; subst. apply Forall_forall. intros a I K.
    apply In_nth_error in I as [j J]. assert (In j []) as []. apply M. eauto.
  - intros H. exists []. split; [constructor|]. split; [constructor|]. intros j. split; [intros []|].
    intros (a & N & K). apply nth_error_In in N. rewrite Forall_forall in H. now apply (H a).
Qed.

Lemma filter_one {A} (f : A -> bool) l a : filter f l = [a] <->
  exists l1 l2, l = l1 ++ a :: l2 /\ f a = true /\ Forall (fun x => f x = false) l1 /\ Forall (fun x => f x = false) l2.
Proof.
  assert (NIL : forall l, filter f l = [] <-> Forall (fun x => f x = false) l).
  { intros l0. induction l0 as [|x l0 IH]; [cbn; intuition constructor|]. cbn. rewrite Forall_cons_iff, <- IH.
    destruct (f x); intuition congruence. }
  split.
  - induction l as [|x l IH]; [discriminate|]. cbn. destruct (f x) eqn:E.
    + intros [= -> H]. exists [], l. split; [reflexivity|]. split; [exact E|]. split; [constructor|now apply NIL].
    + intros H. apply IH in H as (l1 & l2 & -> & H1 & H2 & H3). exists (x :: l1), l2. auto.
  - intros (l1 & l2 & -> & H1 & H2 & H3). rewrite filter_app. cbn. rewrite H1.
    now rewrite (proj2 (NIL l1) H2), (proj2 (NIL l2) H3).
Qed.
Lemma filter_none {A} (f : A -> bool) l : filter f l = [] <-> Forall (fun x => f x = false) l.
Proof.
  induction l as [|x l IH]; [cbn; intuition constructor|]. cbn. rewrite Forall_cons_iff, <- IH.
  destruct (f x); intuition congruence.
Qed.

Lemma neqb_ne code l : Forall (fun r : record => (r_code r =? code) = false) l <-> Forall (fun r => r_code r <> code) l.
Proof. split; intros H; (eapply Forall_impl; [|exact H]); intros r K; cbn in *; now apply N.eqb_neq. Qed.

Lemma by_code_once code l r : by_code code l = [r] <-> once (fun r => r_code r = code) l r.
Proof.
  unfold by_code, once. rewrite filter_one. split; intros (l1 & l2 & -> & H1 & H2 & H3); exists l1, l2;
    (split; [reflexivity|]); (split; [now apply N.eqb_eq|]); split; now apply neqb_ne.
Qed.
Lemma by_code_none code l : by_code code l = [] <-> Forall (fun r => r_code r <> code) l.
Proof. unfold by_code. now rewrite filter_none, neqb_ne. Qed.

Lemma record_accessors code l :
  (forall r, exactly_one code l = Ok r <-> once (fun r => r_code r = code) l r) /\
  (exactly_one code l = Err (CeMissingRecord code) <-> Forall (fun r => r_code r <> code) l) /\
  (forall r, one_or_none code l = Ok (Some r) <-> once (fun r => r_code r = code) l r) /\
  (one_or_none code l = Ok None <-> Forall (fun r => r_code r <> code) l) /\
  ((exactly_one code l = Err (CeTooManyRecords code) <-> (2 <= length (by_code code l))%nat) /\
   (one_or_none code l = Err (CeTooManyRecords code) <-> (2 <= length (by_code code l))%nat)).
Proof.
  unfold exactly_one, one_or_none.
  split; [|split; [|split; [|split; [|split]]]]; intros;
    try rewrite <- by_code_once; try rewrite <- by_code_none; destruct (by_code code l) as [|a [|b m]]; cbn;
    (split; [intros H; try discriminate H; try injection H as H; subst; try reflexivity; lia|
             intros H; try discriminate H; try injection H as H; subst; try reflexivity; lia]).
Qed.

Lemma map_get_under id b : NoDup (map fst (b_blocks b)) -> by_id id b = blocks_under id b.
Proof.
  unfold by_id, blocks_under. induction (b_blocks b) as [|[k vs] m IH]; intros H; [reflexivity|].
  inversion H as [|? ? N D]; subst. cbn [map_get flat_map fst snd]. destruct (block_id_dec k id) as [->|n].
  - pose proof (under_absent id m N) as U. unfold under in U. now rewrite U, app_nil_r.
  - exact (IH D).
Qed.

Lemma by_id_children bid len body b v id : unrolled (TBlk bid len body) b -> id_matches v id ->
  Forall2 unrolled (children v body) (by_id id b).
Proof. intros H M. inversion H; subst. rewrite map_get_under by assumption. auto. Qed.

Lemma block_accessors bid len body b v id : unrolled (TBlk bid len body) b -> id_matches v id ->
  (forall c, exactly_one_block id b = Ok c <-> by_id id b = [c]) /\
  ((exists c, exactly_one_block id b = Ok c) <-> exists t, once (fun t => is_top v t = true) body t) /\
  (forall c, exactly_one_block id b = Ok c -> exists t, once (fun t => is_top v t = true) body t /\ unrolled t c) /\
  (exactly_one_block id b = Err (CeMissingBlock id) <-> Forall (fun t => is_top v t = false) body) /\
  (one_or_none_block id b = Ok None <-> Forall (fun t => is_top v t = false) body) /\
  (forall c, one_or_none_block id b = Ok (Some c) <-> exactly_one_block id b = Ok c) /\
  (one_or_none_block id b = Err (CeTooManyBlocks id) <-> (2 <= length (children v body))%nat) /\
  (exactly_one_block id b = Err (CeTooManyBlocks id) <-> (2 <= length (children v body))%nat).
Proof.
  intros H M. pose proof (by_id_children _ _ _ _ _ _ H M) as F. unfold exactly_one_block, one_or_none_block.
  assert (CE : children v body = filter (is_top v) body).
  { unfold children, is_top. apply filter_ext. now intros []. }
  rewrite CE in *.
  assert (ON : forall t, filter (is_top v) body = [t] <-> once (fun t => is_top v t = true) body t).
  { intros t. rewrite filter_one. unfold once.
    split; intros (l1 & l2 & E & K & K1 & K2); exists l1, l2; (split; [exact E|]); (split; [exact K|]);
      (split; (eapply Forall_impl; [|eassumption]); cbn; intros x Hx; destruct (is_top v x); congruence). }
  assert (NO : filter (is_top v) body = [] <-> Forall (fun t => is_top v t = false) body) by apply filter_none.
  destruct F as [|t c ts cs HTC [|t2 c2 ts2 cs2 HTC2 F]]; cbn [exactly_one_of one_or_none_of length].
  - split; [intros c; split; discriminate|]. split.
    { split; [intros [c K]; discriminate K|intros [t K]; apply ON in K; discriminate K]. }
    split; [discriminate|]. split; [tauto|]. split; [tauto|]. split; [intros c; split; discriminate|].
    split; (split; [discriminate|lia]).
  - split; [intros c'; split; intros [= <-]; reflexivity|]. split.
    { split; [intros _; exists t; now apply ON|intros _; eauto]. }
    split; [intros c' [= <-]; exists t; split; [now apply ON|assumption]|].
    split; [rewrite <- NO; split; discriminate|]. split; [rewrite <- NO; split; discriminate|].
    split; [intros c'; split; intros [= <-]; reflexivity|]. split; (split; [discriminate|lia]).
  - split; [intros c'; split; discriminate|]. split.
    { split; [intros [x K]; discriminate K|intros [x K]; apply ON in K; discriminate K]. }
    split; [discriminate|]. split; [rewrite <- NO; split; discriminate|]. split; [rewrite <- NO; split; discriminate|].
    split; [intros c'; split; discriminate|]. split; (split; [intros _; lia|reflexivity]).
Qed.

Lemma one_first code l r :
  one code l = Some r <-> exists l1 l2, l = l1 ++ r :: l2 /\ r_code r = code /\ Forall (fun x => r_code x <> code) l1.
Proof.
  unfold one, by_code. split.
  - induction l as [|x l IH]; [discriminate|]. cbn. destruct (r_code x =? code) eqn:E.
    + intros [= ->]. exists [], l. split; [reflexivity|]. split; [now apply N.eqb_eq|constructor].
    + intros H. apply IH in H as (l1 & l2 & -> & H1 & H2). exists (x :: l1), l2. split; [reflexivity|].
      split; [exact H1|]. constructor; [now apply N.eqb_neq|exact H2].
  - intros (l1 & l2 & -> & H1 & H2). rewrite filter_app. apply neqb_ne in H2.
    rewrite (proj2 (filter_none _ l1) H2). cbn. now rewrite (proj2 (N.eqb_eq _ _) H1).
Qed.

Lemma unroll_decides e s forest : parser_reachable e s -> stream_is e s forest ->
  (well_grouped forest -> exists parts, unroll e s = Ok parts /\ Forall2 carries (modules_of forest) parts) /\
  (~ well_grouped forest -> exists x, unroll e s = Err x).
Proof.
  intros HR HS. split; [|now apply unroll_rejects]. intros W. destruct (unroll_accepts e s forest HR HS W) as [parts E].
  exists parts. split; [exact E|]. destruct (unroll_ok e s parts HR E) as (f & HS' & _ & C).
  now rewrite (stream_unique e s forest f HS HS').
Qed.

Lemma find_first v l t : find (is_top v) l = Some t <->
  exists a b, l = a ++ t :: b /\ is_top v t = true /\ Forall (fun x => is_top v x = false) a.
Proof.
  split.
  - induction l as [|x l IH]; [discriminate|]. cbn. destruct (is_top v x) eqn:E.
    + intros [= ->]. exists [], l. auto.
    + intros H. apply IH in H as (a & b & -> & H1 & H2). exists (x :: a), b. auto.
  - intros (a & b & -> & H1 & H2). induction H2 as [|x a Hx _ IH]; cbn; [now rewrite H1|now rewrite Hx].
Qed.
Lemma find_segment v l t : v <> IDENTIFICATION -> (find (is_top v) (segment l) = Some t <->
  exists a b, l = a ++ t :: b /\ is_top v t = true /\ Forall (fun x => is_top v x = false /\ is_top IDENTIFICATION x = false) a).
Proof.
  intros NV. split.
  - induction l as [|x l IH]; [discriminate|]. cbn [segment]. destruct (is_top IDENTIFICATION x) eqn:E0; [discriminate|].
    cbn [find]. destruct (is_top v x) eqn:E.
    + intros [= ->]. exists [], l. auto.
    + intros H. apply IH in H as (a & b & -> & H1 & H2). exists (x :: a), b. auto.
  - intros (a & b & -> & H1 & H2). induction H2 as [|x a [Hx Hy] _ IH]; cbn [app segment].
    + rewrite (is_top_excl v IDENTIFICATION t H1 NV). cbn. now rewrite H1.
    + rewrite Hy. cbn [find]. now rewrite Hx.
Qed.
Lemma module_at l1 i l2 : is_top IDENTIFICATION i = true ->
  exists m, nth_error (modules_of (l1 ++ i :: l2)) (length (filter (is_top IDENTIFICATION) l1)) = Some m /\
    tm_identification m = i /\
    (forall t, tm_strtab m = Some t <->
       exists a b, l2 = a ++ t :: b /\ is_top STRTAB t = true /\ Forall (fun x => is_top STRTAB x = false) a) /\
    (forall t, tm_symtab m = Some t <->
       exists a b, l2 = a ++ t :: b /\ is_top SYMTAB t = true /\ Forall (fun x => is_top SYMTAB x = false) a) /\
    (forall t, tm_module m = Some t <->
       exists a b, l2 = a ++ t :: b /\ is_top MODULE t = true /\
                   Forall (fun x => is_top MODULE x = false /\ is_top IDENTIFICATION x = false) a).
Proof.
  intros H. exists (mkTmodule i (find (is_top MODULE) (segment l2)) (find (is_top STRTAB) l2) (find (is_top SYMTAB) l2)).
  split.
  - induction l1 as [|x l1 IH]; cbn [app modules_of filter]; [now rewrite H|].
    destruct (is_top IDENTIFICATION x); [exact IH|exact IH].
  - split; [reflexivity|]. split; [intros t; apply find_first|]. split; [intros t; apply find_first|].
    intros t. now apply find_segment.
Qed.
Lemma modules_count l : length (modules_of l) = length (filter (is_top IDENTIFICATION) l).
Proof. induction l as [|x l IH]; [reflexivity|]. cbn. destruct (is_top IDENTIFICATION x); cbn; now rewrite IH. Qed.

Lemma one_character : exists r,
  (0 < length (r_fields r))%nat /\ Forall (fun f => f < 256) (r_fields r) /\
  utf8_encode [120] = r_fields r /\
  forall e, try_string e r 0 = Err (StBadIndex 0 1) /\ try_blob e r 0 = Err (BlBadIndex 0 1).
Proof.
  exists (mkRecord None 5 [120]). split; [cbn; lia|]. split; [repeat constructor|]. split; [reflexivity|].
  intros e. split; reflexivity.
Qed.
Lemma empty_panics : exists r, forall e, exists idx p,
  try_string e r idx = Panic p /\ try_blob e r idx = Panic p.
Proof.
  exists (mkRecord None 5 []). intros e. exists 1. destruct (strings_empty e (mkRecord None 5 []) 1 eq_refl eq_refl) as [-> ->].
  destruct (overflow_checks e); eexists; split; reflexivity.
Qed.

Lemma block_id_total v :
  (v < 8 -> exists r, block_id_of v = BReserved r /\ reserved_block_id_num r = v) /\
  (8 <= v <= 26 -> exists i, block_id_of v = BIr i /\ ir_block_id_num i = v) /\
  (26 < v -> block_id_of v = BUnknown v).
Proof.
  pose proof (block_id_matches v) as M. destruct (block_id_of v) as [r|i|u]; cbn in M.
  - pose proof (reserved_range r). split; [eauto|]. split; intros; lia.
  - pose proof (ir_range i). split; [intros; lia|]. split; [eauto|intros; lia].
  - destruct M as [-> M]. split; [intros; lia|]. split; [intros; lia|reflexivity].
Qed.

Lemma unroll_failures e s :
  (forall x, unroll e s = Err (UParse x) ->
     exists n l, run e cursor_ops n s = map (fun x => Some (Ok x)) l ++ [Some (Err x)]) /\
  (forall p, unroll e s = Panic p ->
     exists n l, run e cursor_ops n s = map (fun x => Some (Ok x)) l ++ [Some (Panic p)]).
Proof.
  pose proof (unroll_fails e s) as F. split; intros x E; rewrite E in F; now apply said_run.
Qed.
