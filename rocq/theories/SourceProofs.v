(** The round trip. *)
From Verif Require Import Base Strings StringsProofs EnumModel SupportModel SupportSpec LayoutModel LayoutSpec LayoutMain CursorModel StreamModel StreamSpec
  StreamHist UnrollModel UnrollSpec UnrollProofs UnrollMain UnrollApi AttributeModel AttributeSpec AttributeProofs AttributeMain TablesModel TablesSpec
  TypeTableModel TypeTableSpec TypeTableProofs TypeTableMain RecordModel RecordSpec RecordProofs ModuleModel ModuleSpec ModuleProofs PipelineSpec
  PipelineProofs SourceSpec.
From Coq Require Import Lia ZifyBool ZifyNat ZifyN.
Local Open Scope N_scope.

(** *** Trees without encoding details *)

Lemma erase_item it : forall b, map erase (item_trees b it) = nodes_of b it.
Proof.
  induction it as [a|c f|i c f|bid w n body IH] using item_ind'; intros b; cbn [item_trees nodes_of]; [reflexivity|now destruct b..|].
  assert (G : forall b0, map erase (flat_map (item_trees b0) body) = flat_map (nodes_of b0) body).
  { intros b0. induction IH as [|x l Hx Hl IHl]; [reflexivity|]. cbn [flat_map]. now rewrite map_app, Hx, IHl. }
  destruct (bid =? 0); [apply G|]. cbn [map erase]. now rewrite G.
Qed.
Lemma erase_trees l : map erase (trees l) = meaning l.
Proof. unfold trees, meaning. induction l as [|x l IH]; [reflexivity|]. cbn [flat_map]. now rewrite map_app, erase_item, IH. Qed.

(** The fields of the records with a code, and the bodies of the blocks with an id. *)
Definition pick (c : N) (ns : list node) : list (list N) :=
  flat_map (fun n => match n with NRecord c' f => if c' =? c then [f] else [] | _ => [] end) ns.
Definition kids (v : N) (ns : list node) : list (list node) :=
  flat_map (fun n => match n with NBlock b body => if b =? v then [body] else [] | _ => [] end) ns.
Definition all_records (ns : list node) : list (N * list N) :=
  flat_map (fun n => match n with NRecord c f => [(c, f)] | _ => [] end) ns.
Definition pair_of (r : record) : N * list N := (r_code r, r_fields r).

Lemma records_erase body : map pair_of (records_in body) = all_records (map erase body).
Proof. induction body as [|[a c f|b n l] body IH]; [reflexivity| |exact IH]. cbn. f_equal. exact IH. Qed.
Lemma pick_erase c body : map r_fields (by_code c (records_in body)) = pick c (map erase body).
Proof.
  induction body as [|[a c' f|b n l] body IH]; [reflexivity| |exact IH]. cbn [records_in flat_map map erase pick app]. fold (records_in body).
  unfold by_code in *. cbn [filter r_code]. destruct (c' =? c); cbn [map app r_fields]; [f_equal|]; exact IH.
Qed.
Lemma children_erase v body : map erase (children v body) = map (NBlock v) (kids v (map erase body)).
Proof.
  induction body as [|[a c' f|b n l] body IH]; [reflexivity|exact IH|]. cbn [children filter map erase kids flat_map]. fold (children v body).
  destruct (b =? v) eqn:E; [|exact IH]. apply N.eqb_eq in E as ->. cbn [map erase app]. f_equal. exact IH.
Qed.
Lemma pick_app c l m : pick c (l ++ m) = pick c l ++ pick c m.
Proof. apply flat_map_app. Qed.
Lemma kids_app c l m : kids c (l ++ m) = kids c l ++ kids c m.
Proof. apply flat_map_app. Qed.
Lemma pick_looked c l : existsb (N.eqb c) [1; 2; 3; 4; 5; 6; 8; 11; 12; 14] = true -> pick c (filter looked_at l) = pick c l.
Proof.
  intros H. induction l as [|[c' f|b x] l IH]; [reflexivity| |].
  - cbn [filter]. change (looked_at (NRecord c' f)) with (existsb (N.eqb c') [1; 2; 3; 4; 5; 6; 8; 11; 12; 14]).
    cbn [pick flat_map]. destruct (c' =? c) eqn:E.
    + apply N.eqb_eq in E as ->. rewrite H. cbn [pick flat_map]. rewrite N.eqb_refl. f_equal. exact IH.
    + destruct (existsb (N.eqb c') _); [|exact IH]. cbn [pick flat_map]. rewrite E. exact IH.
  - cbn [filter pick flat_map app]. destruct (looked_at _); exact IH.
Qed.
Lemma kids_looked c l : existsb (N.eqb c) [9; 10; 12; 14; 17] = true -> kids c (filter looked_at l) = kids c l.
Proof.
  intros H. induction l as [|[c' f|b x] l IH]; [reflexivity| |].
  - cbn [filter kids flat_map app]. destruct (looked_at _); exact IH.
  - cbn [filter]. change (looked_at (NBlock b x)) with (existsb (N.eqb b) [9; 10; 12; 14; 17]).
    cbn [kids flat_map]. destruct (b =? c) eqn:E.
    + apply N.eqb_eq in E as ->. rewrite H. cbn [kids flat_map]. rewrite N.eqb_refl. f_equal. exact IH.
    + destruct (existsb (N.eqb b) _); [|exact IH]. cbn [kids flat_map]. rewrite E. exact IH.
Qed.
Lemma pick_map {A} c k (g : A -> list N) l : pick c (map (fun a => NRecord k (g a)) l) = if k =? c then map g l else [].
Proof.
  induction l as [|a l IH]; [now destruct (k =? c)|].
  change (pick c (map (fun a => NRecord k (g a)) (a :: l))) with ((if k =? c then [g a] else []) ++ pick c (map (fun a => NRecord k (g a)) l)).
  rewrite IH. now destruct (k =? c).
Qed.
Lemma kids_map {A} c k (g : A -> list N) l : kids c (map (fun a => NRecord k (g a)) l) = [].
Proof. induction l as [|a l IH]; [reflexivity|exact IH]. Qed.

(** The blocks of an unrolled block. *)
Definition shows (b : block) (n : node) : Prop := exists t, unrolled t b /\ erase t = n.
Lemma shows_records b v ns : shows b (NBlock v ns) -> map pair_of (b_records b) = all_records ns /\
  (forall c, map r_fields (by_code c (b_records b)) = pick c ns).
Proof.
  intros (t & U & E). destruct U as [bid len body b' _ R _ _ _]. cbn in E. injection E as _ <-. rewrite R. split; [apply records_erase|intros; apply pick_erase].
Qed.
Lemma shows_kids b v ns w id : shows b (NBlock v ns) -> id_matches w id ->
  Forall2 (fun body c => shows c (NBlock w body)) (kids w ns) (blocks_under id b).
Proof.
  intros (t & U & E) M. destruct U as [bid len body b' _ _ K _ _]. cbn in E. injection E as _ <-. specialize (K w id M).
  pose proof (children_erase w body) as C. revert C K. generalize (kids w (map erase body)) (children w body) (blocks_under id b').
  intros ks ts bs E K. revert ks E. induction K as [|t c ts bs U K IH]; intros [|k ks] E; cbn in E; try discriminate; [constructor|].
  injection E as E1 E2. constructor; [now exists t|now apply IH].
Qed.
Lemma shows_nodup b v ns : shows b (NBlock v ns) -> NoDup (map fst (b_blocks b)).
Proof. intros (t & U & _). now destruct U. Qed.

(** *** Reading by code *)

Lemma picked_none c b : map r_fields (by_code c (b_records b)) = [] -> absent c b.
Proof.
  intros H. apply map_eq_nil in H. unfold absent. apply Forall_forall. intros r I E.
  assert (In r (by_code c (b_records b))) as K by (apply filter_In; split; [exact I|now apply N.eqb_eq]). now rewrite H in K.
Qed.
Lemma picked_sole c b f : map r_fields (by_code c (b_records b)) = [f] -> exists r, sole c b r /\ r_fields r = f.
Proof.
  intros H. destruct (by_code c (b_records b)) as [|r [|? ?]] eqn:B; try discriminate. injection H as <-. exists r. split; [|reflexivity].
  apply sole_iff. unfold exactly_one. now rewrite B.
Qed.
Lemma long_text_of e r s : long_text s -> r_fields r = utf8_encode s -> text_of e r s.
Proof. intros [H1 H2] E. left. rewrite E. auto. Qed.
Lemma picked_texts e c b l : Forall long_text l -> map r_fields (by_code c (b_records b)) = map utf8_encode l -> texts e c b l.
Proof.
  intros H E. unfold texts. apply all_with_forall2. revert l H E. induction (by_code c (b_records b)) as [|r rs IH]; intros [|s l] H E; try discriminate; [constructor|].
  inversion H as [|? ? H1 H2]; subst. cbn in E. injection E as E1 E2. constructor; [now apply long_text_of|now apply IH].
Qed.
Lemma picked_forall2 {B C : Set} (R : record -> B -> Prop) (g : C -> list N) (P : C -> B -> Prop) c b (cs : list C) (bs : list B) :
  (forall r x y, r_fields r = g x -> P x y -> R r y) -> Forall2 P cs bs -> map r_fields (by_code c (b_records b)) = map g cs ->
  exists rs, all_with c b rs /\ Forall2 R rs bs.
Proof.
  intros H F E. apply all_with_forall2. revert E. generalize (by_code c (b_records b)). induction F as [|x y cs bs HP F IH]; intros [|r rs] E; try discriminate; [constructor|].
  cbn in E. injection E as E1 E2. constructor; [now apply (H r x)|now apply IH].
Qed.

Lemma every_iff {A B} (f : A -> option B) l m : every f l = Some m <-> Forall2 (fun a b => f a = Some b) l m.
Proof.
  revert m. induction l as [|a l IH]; intros m; cbn [every].
  - split; [intros [= <-]; constructor|]. intros H. now inversion H.
  - destruct (f a) as [b|] eqn:Fa.
    + destruct (every f l) as [k|] eqn:K.
      * split; [intros [= <-]; constructor; [exact Fa|now apply IH]|]. intros H. inversion H as [|? b' ? k' H1 H2]; subst.
        apply IH in H2. congruence.
      * split; [discriminate|]. intros H. inversion H as [|? b' ? k' H1 H2]; subst. apply IH in H2. discriminate.
    + split; [discriminate|]. intros H. inversion H; congruence.
Qed.

(** *** Types *)

Lemma part_more {A} (T U : list A) i t : part T i = Some t -> part (T ++ U) i = Some t.
Proof. unfold part. intros H. rewrite nth_error_app1; [exact H|]. apply nth_error_Some. congruence. Qed.
Lemma parts_more {A} (T U : list A) l m : every (part T) l = Some m -> Forall2 (fun i t => nth_error (T ++ U) (N.to_nat i) = Some t) l m.
Proof. intros H. apply every_iff in H. eapply Forall2_weaken; [|exact H]. intros i t. apply part_more. Qed.
Lemma stypes_grow l : forall T F, stypes_mean T l = Some F -> exists U, F = T ++ U.
Proof.
  induction l as [|x l IH]; intros T F; cbn [stypes_mean].
  - intros [= <-]. exists []. now rewrite app_nil_r.
  - destruct (stype_means T x) as [t|]; [|discriminate]. intros H. apply IH in H as (U & ->). exists (t :: U). now rewrite <- app_assoc.
Qed.
Lemma stypes_length l : forall T F, stypes_mean T l = Some F -> length F = (length T + length l)%nat.
Proof.
  induction l as [|x l IH]; intros T F; cbn [stypes_mean].
  - intros [= <-]. cbn. lia.
  - destruct (stype_means T x) as [t|]; [|discriminate]. intros H. apply IH in H. rewrite H, app_length. cbn. lia.
Qed.
Lemma flag_back b : negb (flag b =? 0) = b.
Proof. now destruct b. Qed.

(** Records with the codes and fields of [ps]. *)
Definition says (rs : list record) (ps : list (N * list N)) : Prop := map pair_of rs = ps.

Lemma spells_of r name : long_text name -> pair_of r = (19, utf8_encode name) -> spells r name.
Proof. intros [H1 H2] E. injection E as E1 E2. unfold spells. rewrite E1, E2. auto. Qed.

Lemma stype_lists T F U x t rs rest ts :
  stype_means T x = Some t -> F = (T ++ [t]) ++ U -> well_built t -> (forall name, stype_name x = Some name -> long_text name) ->
  says rs (stype_records x) -> lists F [] rest ts -> lists F [] (rs ++ rest) (t :: ts).
Proof.
  intros M E W NM S0 L. rewrite <- app_assoc in E.
  assert (PM : forall i u, part T i = Some u -> at_index F i u) by (intros i u P; subst F; now apply part_more).
  assert (PS : forall l m, every (part T) l = Some m -> Forall2 (at_index F) l m) by (intros l m P; subst F; now apply parts_more).
  assert (NT : forall r c f, pair_of r = (c, f) -> c <> 6 -> c <> 20 -> ~ takes_name r).
  { intros r c f Q N1 N2 [K|[K|[]]]; injection Q as Q1 _; congruence. }
  assert (TN : forall r c f, pair_of r = (c, f) -> c = 6 \/ c = 20 -> takes_name r).
  { intros r c f Q [->| ->]; injection Q as Q1 _; unfold takes_name; rewrite Q1; cbn; auto. }
  assert (PLAIN : forall c f, c <> 6 -> c <> 20 -> stype_records x = [(c, f)] ->
    (forall r, pair_of r = (c, f) -> describes F [] r t) -> lists F [] (rs ++ rest) (t :: ts)).
  { intros c f N1 N2 R D. rewrite R in S0. unfold says in S0. destruct rs as [|r [|? ?]]; try discriminate. cbn [map] in S0.
    assert (Q : pair_of r = (c, f)) by congruence. cbn [app]. apply LI_plain; [now apply (NT r c f)|now apply D|exact L]. }
  assert (NAMED : forall name c f, c = 6 \/ c = 20 -> long_text name -> stype_records x = [(19, utf8_encode name); (c, f)] ->
    (forall r, pair_of r = (c, f) -> describes F name r t) -> lists F [] (rs ++ rest) (t :: ts)).
  { intros name c f C LT R D. rewrite R in S0. unfold says in S0. destruct rs as [|r1 [|r2 [|? ?]]]; try discriminate. cbn [map] in S0.
    assert (Q1 : pair_of r1 = (19, utf8_encode name)) by congruence. assert (Q2 : pair_of r2 = (c, f)) by congruence.
    cbn [app]. apply (LI_name F [] r1 name); [now apply spells_of|]. cbn [app]. apply LI_named; [now apply (TN r2 c f)|now apply D|exact L]. }
  destruct x as [c|w|i a|a|va i ps|[name|] pk fs|name|n i|n i|n i]; cbn [stype_means] in M.
  - destruct (find _ _) as [[c' u]|] eqn:Fi; [|discriminate]. cbn in M. injection M as <-. apply find_some in Fi as [I Q].
    cbn in Q. apply N.eqb_eq in Q as ->. apply (PLAIN c []); [| |reflexivity|].
    + intros ->. cbn in I. intuition discriminate.
    + intros ->. cbn in I. intuition discriminate.
    + intros r Q. injection Q as Q1 _. apply D_simple. now rewrite Q1.
  - injection M as <-. apply (PLAIN 7 [w]); try discriminate; [reflexivity|]. intros r Q. injection Q as Q1 Q2.
    assert (WR : width_rule w) by (inversion W; subst; [cbn in *; intuition discriminate|assumption]).
    rewrite <- (N.mod_small w (2 ^ 32)) at 1 by (unfold width_rule in WR; change (2 ^ 24) with 16777216 in WR; change (2 ^ 32) with 4294967296; lia).
    apply (D_integer F [] r w []); [exact Q1|exact Q2|]. rewrite N.mod_small; [exact WR|].
    unfold width_rule in WR; change (2 ^ 24) with 16777216 in WR; change (2 ^ 32) with 4294967296; lia.
  - destruct (part T i) as [u|] eqn:P; [|discriminate]. injection M as <-. apply (PLAIN 8 [i; a]); try discriminate; [reflexivity|].
    intros r Q. injection Q as Q1 Q2. inversion W; subst; [cbn in *; intuition discriminate|]. now apply (D_pointer _ [] r i a []); auto.
  - injection M as <-. apply (PLAIN 25 [a]); try discriminate; [reflexivity|].
    intros r Q. injection Q as Q1 Q2. inversion W; subst; [cbn in *; intuition discriminate|]. now apply (D_opaque_pointer _ [] r a []).
  - destruct (part T i) as [u|] eqn:P; [|discriminate]. destruct (every (part T) ps) as [us|] eqn:PP; [|discriminate]. injection M as <-.
    apply (PLAIN 21 (flag va :: i :: ps)); try discriminate; [reflexivity|]. intros r Q. injection Q as Q1 Q2.
    rewrite <- (flag_back va). inversion W; subst; [cbn in *; intuition discriminate|]. apply (D_function _ [] r (flag va) i ps); auto.
  - destruct (every (part T) fs) as [us|] eqn:PP; [|discriminate]. injection M as <-.
    apply (NAMED name 20 (flag pk :: fs)); [now right|now apply NM|reflexivity|]. intros r Q. injection Q as Q1 Q2.
    rewrite <- (flag_back pk). inversion W; subst; [cbn in *; intuition discriminate|]. now apply (D_named _ name r (flag pk) fs); auto.
  - destruct (every (part T) fs) as [us|] eqn:PP; [|discriminate]. injection M as <-.
    apply (PLAIN 18 (flag pk :: fs)); try discriminate; [reflexivity|]. intros r Q. injection Q as Q1 Q2.
    rewrite <- (flag_back pk). inversion W; subst; [cbn in *; intuition discriminate|]. now apply (D_struct _ [] r (flag pk) fs); auto.
  - injection M as <-. pose proof (NM name eq_refl) as LT. apply (NAMED name 6 [0]); [now left|exact LT|reflexivity|].
    intros r Q. injection Q as Q1 Q2. apply D_opaque; [exact Q1|]. intros ->. destruct LT as [_ LT]. cbn in LT. lia.
  - destruct (part T i) as [u|] eqn:P; [|discriminate]. injection M as <-. apply (PLAIN 11 [n; i]); try discriminate; [reflexivity|].
    intros r Q. injection Q as Q1 Q2. inversion W; subst; [cbn in *; intuition discriminate|]. now apply (D_array _ [] r n i []); auto.
  - destruct (part T i) as [u|] eqn:P; [|discriminate]. injection M as <-. apply (PLAIN 12 [n; i]); try discriminate; [reflexivity|].
    intros r Q. injection Q as Q1 Q2. inversion W; subst; [cbn in *; intuition discriminate|]. now apply (D_vector _ [] r n i []); auto.
  - destruct (part T i) as [u|] eqn:P; [|discriminate]. injection M as <-. apply (PLAIN 12 [n; i; 1]); try discriminate; [reflexivity|].
    intros r Q. injection Q as Q1 Q2. inversion W; subst; [cbn in *; intuition discriminate|].
    apply (D_scalable _ [] r n i [1]); auto. discriminate.
Qed.

Lemma says_app rs ps qs : says rs (ps ++ qs) -> exists r1 r2, rs = r1 ++ r2 /\ says r1 ps /\ says r2 qs.
Proof. intros H. apply map_eq_app in H as (r1 & r2 & -> & H1 & H2). exists r1, r2. auto. Qed.

Lemma stypes_lists l : forall T F rs, stypes_mean T l = Some F -> Forall well_built F ->
  (forall x name, In x l -> stype_name x = Some name -> long_text name) -> says rs (flat_map stype_records l) ->
  lists F [] rs (skipn (length T) F).
Proof.
  induction l as [|x l IH]; intros T F rs; cbn [stypes_mean flat_map].
  - intros [= <-] _ _ E. apply map_eq_nil in E as ->. rewrite skipn_all. constructor.
  - destruct (stype_means T x) as [t|] eqn:M; [|discriminate]. intros H W NM S0. apply says_app in S0 as (r1 & r2 & -> & S1 & S2).
    destruct (stypes_grow _ _ _ H) as (U & E).
    assert (K : skipn (length T) F = t :: skipn (length (T ++ [t])) F).
    { subst F. rewrite app_length, <- app_assoc, !skipn_app, skipn_all. rewrite (skipn_all2 T) by (cbn; lia).
      replace (length T - length T)%nat with 0%nat by lia. replace (length T + length [t] - length T)%nat with 1%nat by (cbn; lia). reflexivity. }
    rewrite K. apply (stype_lists T F U x t); [exact M|exact E| |intros name; apply NM; now left|exact S1|].
    + rewrite Forall_forall in W. apply W. subst F. rewrite !in_app_iff. left. right. now left.
    + apply IH; [exact H|exact W| |exact S2]. intros y name I. apply NM. now right.
Qed.

Lemma stypes_apart l : forall a rs, (forall x c, In x l -> x = SSimple c -> In c (map fst simple_types)) -> spaced a l ->
  says rs (flat_map stype_records l) -> apart a rs.
Proof.
  induction l as [|x l IH]; intros a rs SI SP S0; cbn [flat_map] in S0.
  - apply map_eq_nil in S0 as ->. exact I.
  - apply says_app in S0 as (r1 & r2 & -> & S1 & S2). destruct SP as [SP1 SP2].
    assert (K : apart (is_struct x) r2) by (apply IH; [intros y c Iy; apply SI; now right|exact SP2|exact S2]).
    assert (ONE : forall c f, stype_records x = [(c, f)] -> (c =? 1) || (c =? 19) = false -> (c =? 6) || (c =? 20) = false ->
      is_struct x = (c =? 18) -> apart a (r1 ++ r2)).
    { intros c f R C1 C2 C3. rewrite R in S1. destruct r1 as [|r [|? ?]]; try discriminate. cbn [says map] in S1.
      assert (Q : r_code r = c) by (unfold says, pair_of in S1; cbn in S1; congruence). cbn [app apart]. rewrite Q, C1, C2, <- C3. exact K. }
    assert (TWO : forall name c f, stype_records x = [(19, utf8_encode name); (c, f)] -> (c =? 1) || (c =? 19) = false -> (c =? 6) || (c =? 20) = true ->
      is_struct x = true -> stype_name x <> None -> apart a (r1 ++ r2)).
    { intros name c f R C1 C2 C3 C4. rewrite R in S1. destruct r1 as [|r [|r' [|? ?]]]; try discriminate.
      unfold says, pair_of in S1. cbn [map] in S1.
      assert (Q1 : r_code r = 19) by congruence. assert (Q2 : r_code r' = c) by congruence.
      cbn [app apart]. rewrite Q1, Q2, C1, C2. change ((19 =? 1) || (19 =? 19)) with true. cbv iota. rewrite C3 in K. auto. }
    destruct x as [c|w|i b|b|va i ps|[name|] pk fs|name|n i|n i|n i].
    + assert (I : In c (map fst simple_types)) by (apply (SI (SSimple c)); [now left|reflexivity]).
      apply (ONE c []); [reflexivity| | |]; cbn in I; intuition (subst; reflexivity).
    + now apply (ONE 7 [w]).
    + now apply (ONE 8 [i; b]).
    + now apply (ONE 25 [b]).
    + now apply (ONE 21 (flag va :: i :: ps)).
    + now apply (TWO name 20 (flag pk :: fs)).
    + now apply (ONE 18 (flag pk :: fs)).
    + now apply (TWO name 6 [0]).
    + now apply (ONE 11 [n; i]).
    + now apply (ONE 12 [n; i]).
    + now apply (ONE 12 [n; i; 1]).
Qed.
Lemma stypes_simple l : forall T F, stypes_mean T l = Some F -> forall x c, In x l -> x = SSimple c -> In c (map fst simple_types).
Proof.
  induction l as [|y l IH]; intros T F; cbn [stypes_mean]; [intros _ x c []|].
  destruct (stype_means T y) as [t|] eqn:M; [|discriminate]. intros H x c [<-|I] E; [|now apply (IH _ _ H x)].
  subst y. cbn [stype_means] in M. destruct (find _ _) as [[c' u]|] eqn:Fi; [|discriminate]. apply find_some in Fi as [I Q]. cbn in Q. apply N.eqb_eq in Q as ->.
  now apply (in_map fst) in I.
Qed.

Lemma names_named l rs : (forall x name, In x l -> stype_name x = Some name -> long_text name) -> 
  (forall x c, In x l -> x = SSimple c -> In c (map fst simple_types)) -> says rs (flat_map stype_records l) -> Forall named_fields rs.
Proof.
  intros NM SI S0. apply Forall_forall. intros r I C E.
  assert (J : In (pair_of r) (flat_map stype_records l)) by (rewrite <- S0; now apply in_map).
  unfold pair_of in J. rewrite C, E in J. apply in_flat_map in J as (x & Ix & J).
  assert (LT : forall name, stype_name x = Some name -> utf8_encode name = [] -> False).
  { intros name N0 U. destruct (NM x name Ix N0) as [_ L]. rewrite U in L. cbn in L. lia. }
  destruct x as [c|w|i b|b|va i ps|[name|] pk fs|name|n i|n i|n i]; cbn in J; try (intuition discriminate).
  - destruct J as [J|[]]. injection J as ->. pose proof (SI _ _ Ix eq_refl) as K. cbn in K. intuition discriminate.
  - destruct J as [J|[J|[]]]; [|discriminate]. injection J as J. now apply (LT name).
  - destruct J as [J|[J|[]]]; [|discriminate]. injection J as J. now apply (LT name).
Qed.

Lemma types_written e l T tb : stypes_mean [] l = Some T -> Forall well_built T ->
  (forall x name, In x l -> stype_name x = Some name -> long_text name) -> spaced false l -> N.of_nat (length l) <= alloc_limit e ->
  shows tb (NBlock 17 (NRecord 1 [N.of_nat (length l)] :: map rec_of (flat_map stype_records l))) -> type_table_of e tb = Ok T.
Proof.
  intros M W NM SP AL SH. destruct (shows_records _ _ _ SH) as [R _].
  assert (AR : forall ps, all_records (map rec_of ps) = ps) by (induction ps as [|[c f] ps IH]; [reflexivity|cbn; f_equal; exact IH]).
  cbn [all_records flat_map app] in R. fold (all_records (map rec_of (flat_map stype_records l))) in R. rewrite AR in R.
  destruct (b_records tb) as [|r rs] eqn:B; [discriminate|]. cbn [map] in R.
  assert (Q1 : r_code r = 1) by (unfold pair_of in R; congruence). assert (Q2 : r_fields r = [N.of_nat (length l)]) by (unfold pair_of in R; congruence).
  assert (S0 : says rs (flat_map stype_records l)) by (unfold says; congruence).
  pose proof (stypes_simple _ _ _ M) as SI. pose proof (stypes_length _ _ _ M) as LE. cbn in LE.
  apply type_table_lists.
  - rewrite B. constructor; [intros C; congruence|]. now apply (names_named l).
  - rewrite B. cbn [apart]. rewrite Q1. change ((1 =? 1) || (1 =? 19)) with true. cbv iota. now apply (stypes_apart l).
  - rewrite B. split.
    + exists r, []. rewrite LE. split; [|auto]. exists [], rs. rewrite B. auto.
    + apply LI_num; [exact Q1|]. exact (stypes_lists l [] T rs M W NM S0).
Qed.

(** *** Attributes *)

Lemma attribute_denotes a : attribute_ok a -> denotes (llvm_attribute a) a.
Proof.
  destruct a as [x|[o|o|v|v|elt [num|]|x y|v|v|v]|s|k v]; cbn [attribute_ok llvm_attribute denotes]; try contradiction.
  - auto.
  - intros _. constructor.
  - intros _. constructor.
  - intros (H1 & H2 & H3). now constructor.
  - intros H. now constructor.
  - intros _. destruct v; constructor; cbn; auto.
  - intros _. constructor.
  - intros _. constructor.
  - auto.
  - tauto.
Qed.
Lemma text_scalars s : text s -> forallb is_scalar_value s = true.
Proof. intros [_ H]. apply forallb_forall. intros c I. rewrite Forall_forall in H. now apply H. Qed.
Lemma small64 l : Forall (fun x => x < 256) l -> Forall (fun x => x < two64) l.
Proof. intros H. eapply Forall_impl; [|exact H]. cbn. unfold two64. intros; lia. Qed.
Lemma ids64 x : attribute_id_num x < two64.
Proof. destruct x; reflexivity. Qed.
Lemma attribute_fields64 a : attribute_ok a -> Forall (fun f => f < two64) (wattr_fields (llvm_attribute a)).
Proof.
  assert (B : forall s, text s -> Forall (fun f => f < two64) (utf8_encode s)).
  { intros s H. now apply small64, encode_bytes, text_scalars. }
  assert (Z : forall x, x < 256 -> x < two64) by (unfold two64; intros; lia).
  destruct a as [x|[o|o|v|v|elt [num|]|x y|v|v|v]|s|k v]; cbn [attribute_ok llvm_attribute wattr_fields]; try contradiction;
    change (2 ^ 64) with two64; change (2 ^ 32) with 4294967296.
  - intros _. repeat constructor. apply ids64.
  - intros H. repeat constructor. exact H.
  - intros H. repeat constructor. exact H.
  - intros (H1 & H2 & _). repeat constructor. unfold two64. lia.
  - intros H. repeat constructor. unfold two64. lia.
  - intros _. repeat constructor. now destruct v.
  - intros H. repeat constructor. exact H.
  - intros H. repeat constructor. exact H.
  - intros H. constructor; [reflexivity|]. apply Forall_app. split; [now apply B|repeat constructor].
  - intros [H1 H2]. constructor; [reflexivity|]. apply Forall_app. split; [now apply B|]. constructor; [reflexivity|].
    apply Forall_app. split; [now apply B|repeat constructor].
Qed.

Definition group_fields (g : N * attr_group) : list N :=
  fst g :: llvm_place (ag_disposition (snd g)) :: flat_map (fun a => wattr_fields (llvm_attribute a)) (ag_attributes (snd g)).
Definition group_ok (g : N * attr_group) : Prop :=
  fst g < 2 ^ 32 /\ place_ok (ag_disposition (snd g)) /\ ag_attributes (snd g) <> [] /\ Forall attribute_ok (ag_attributes (snd g)).

Lemma place_back d : place_ok d -> llvm_place d < 2 ^ 32 /\ place (llvm_place d mod 2 ^ 32) d.
Proof.
  unfold place. change (2 ^ 32) with 4294967296. destruct d as [|i|]; cbn [llvm_place place_ok]; change (2 ^ 32) with 4294967296.
  - intros _. split; [lia|]. right. left. split; reflexivity.
  - intros H. split; [lia|]. right. right. rewrite N.mod_small by lia. split; [lia|]. split; [lia|reflexivity].
  - intros _. split; [lia|]. left. split; reflexivity.
Qed.
Lemma group_written r g : group_ok g -> r_code r = 3 -> r_fields r = group_fields g -> group_of_record r = Ok g.
Proof.
  intros (G1 & G2 & G3 & G4) C F. destruct g as [id g]. cbn [fst snd] in *. destruct (place_back _ G2) as [P1 P2].
  assert (FM : flat_map (fun a => wattr_fields (llvm_attribute a)) (ag_attributes g) = flat_map wattr_fields (map llvm_attribute (ag_attributes g))).
  { generalize (ag_attributes g). induction l as [|a l IH]; [reflexivity|]. cbn. now rewrite IH. }
  apply group_exact.
  - unfold fields64. rewrite F. unfold group_fields. cbn [fst snd]. constructor; [unfold two64; change (2 ^ 32) with 4294967296 in G1; lia|].
    constructor; [unfold two64; change (2 ^ 32) with 4294967296 in P1; lia|]. clear - G4.
    induction G4 as [|a l H _ IH]; [constructor|]. cbn. apply Forall_app. split; [now apply attribute_fields64|exact IH].
  - exists id, (llvm_place (ag_disposition g)), (map llvm_attribute (ag_attributes g)). split; [exact C|].
    split; [rewrite F; unfold group_fields; cbn [fst snd]; now rewrite FM|]. split; [intros E; apply map_eq_nil in E; contradiction|].
    split; [symmetry; now apply N.mod_small|]. split; [exact P2|]. clear - G4.
    induction G4 as [|a l H _ IH]; cbn; constructor; [now apply attribute_denotes|exact IH].
Qed.
Lemma find_rev {A} (l : list (N * A)) id : NoDup (map fst l) -> find (fun x => fst x =? id) (rev l) = find (fun x => fst x =? id) l.
Proof.
  induction l as [|(k & a) l IH]; intros ND; [reflexivity|]. inversion ND as [|? ? NI ND']; subst. cbn [rev find fst]. 
  assert (FA : forall m m', find (fun x : N * A => fst x =? id) (m ++ m') =
    match find (fun x => fst x =? id) m with Some x => Some x | None => find (fun x => fst x =? id) m' end).
  { induction m as [|x m IHm]; intros m'; [reflexivity|]. cbn. destruct (fst x =? id); [reflexivity|apply IHm]. }
  rewrite FA, IH by exact ND'. cbn [find fst]. destruct (k =? id) eqn:E.
  - apply N.eqb_eq in E as ->. destruct (find _ l) as [(k' & a')|] eqn:F; [|reflexivity]. apply find_some in F as [F Q]. cbn in Q.
    apply N.eqb_eq in Q as ->. destruct NI. now apply (in_map fst) in F.
  - now destruct (find _ l).
Qed.
Lemma all_records_map {A} k (g : A -> list N) l : all_records (map (fun a => NRecord k (g a)) l) = map (fun a => (k, g a)) l.
Proof. induction l as [|a l IH]; [reflexivity|]. cbn. f_equal. exact IH. Qed.
Lemma groups_written gs gb : Forall group_ok gs -> shows gb (NBlock 10 (map (fun g => NRecord 3 (group_fields g)) gs)) -> attr_groups_of gb = Ok (rev gs).
Proof.
  intros H SH. destruct (shows_records _ _ _ SH) as [R _]. rewrite all_records_map in R. clear SH. unfold attr_groups_of. apply groups_loop_ok. exists gs.
  split; [|now rewrite app_nil_r]. revert R. generalize (b_records gb). induction H as [|g gs G H IH]; intros [|r rs] R; try discriminate; [constructor|].
  cbn [map] in R. assert (Q : pair_of r = (3, group_fields g)) by congruence. injection Q as Q1 Q2. constructor; [now apply group_written|]. apply IH. exact (f_equal (@tl _) R).
Qed.
Lemma lists_written s m ab L : (forall id, groups_get m id = sgroup s id) -> Forall (fun g => fst g < 2 ^ 32) (so_groups s) ->
  every (every (sgroup s)) (so_lists s) = Some L ->
  shows ab (NBlock 9 (map (NRecord 2) (so_lists s))) -> attributes_of m ab = Ok L.
Proof.
  intros G SM E SH. destruct (shows_records _ _ _ SH) as [R _]. change (map (NRecord 2) (so_lists s)) with (map (fun x => NRecord 2 ((fun y => y) x)) (so_lists s)) in R.
  rewrite (all_records_map 2 (fun y => y)) in R. apply every_iff in E. clear SH. apply attributes_exact.
  revert R. generalize (b_records ab). induction E as [|x y xs ys H E IH]; intros [|r rs] R; try discriminate; [constructor|].
  cbn [map] in R. assert (Q : pair_of r = (2, x)) by congruence. injection Q as Q1 Q2. constructor; [|apply IH; exact (f_equal (@tl _) R)].
  split; [exact Q1|]. rewrite Q2. apply every_iff in H. eapply Forall2_weaken; [|exact H]. intros f g K. cbn in K.
  rewrite N.mod_small, G; [exact K|]. unfold sgroup in K. destruct (find _ _) as [p|] eqn:F; [|discriminate]. apply find_some in F as [F Q].
  apply N.eqb_eq in Q. rewrite <- Q. rewrite Forall_forall in SM. now apply SM.
Qed.

(** *** Functions *)

Lemma cc_back c : In (c, llvm_cc c) calling_convention_table.
Proof. destruct c; cbn; repeat (first [left; reflexivity|right]). Qed.
Lemma linkage_back l : decodes linkage_table LkExternal (llvm_linkage l) l.
Proof. left. destruct l; eexists; (split; [cbn; repeat (first [left; reflexivity|right])|cbn; auto]). Qed.
Lemma visibility_back v : In (v, llvm_visibility v) visibility_table.
Proof. destruct v; cbn; auto. Qed.
Lemma unnamed_back u : decodes unnamed_addr_table UaNone (llvm_unnamed_addr u) u.
Proof. left. destruct u; eexists; (split; [cbn; repeat (first [left; reflexivity|right])|cbn; auto]). Qed.
Lemma storage_back v : In (v, llvm_storage v) dll_storage_class_table.
Proof. destruct v; cbn; auto. Qed.
Lemma lookup_back {A} (l : list A) o x : lookup l o = Some x -> one_based l (plus_one o) x.
Proof.
  destruct o as [i|]; cbn [lookup plus_one].
  - unfold part. destruct (nth_error l (N.to_nat i)) as [a|] eqn:E; [|discriminate]. intros [= <-]. right. exists i, a. auto.
  - intros [= <-]. left. auto.
Qed.
Lemma function_written c s T L t f r fn :
  cx_sections c = so_sections s /\ cx_gcs c = so_gcs s /\ cx_strtab c = t /\ cx_attributes c = L /\ cx_types c = T ->
  sfunction_means T L s f = Some fn -> function_type (fn_ty fn) -> sf_name f <> [] ->
  stored t (sf_offset f) (N.of_nat (length (utf8_encode (sf_name f)))) (sf_name f) -> (forall k, sf_alignment f = Some k -> k <= 63) ->
  r_fields r = function_fields f -> function_described c r fn.
Proof.
  intros (C1 & C2 & C3 & C4 & C5) M FT NE ST AL F. unfold sfunction_means in M.
  destruct (part T (sf_type f)) as [u|] eqn:PT; [|discriminate]. destruct (lookup L (sf_attributes f)) as [at_|] eqn:LA; [|discriminate].
  destruct (lookup (so_sections s) (sf_section f)) as [sec|] eqn:LS; [|discriminate]. destruct (lookup (so_gcs s) (sf_gc f)) as [gc|] eqn:LG; [|discriminate].
  injection M as <-. cbn [fn_ty] in FT.
  assert (FI : forall i v, nth_error (function_fields f) i = Some v -> field r i v) by (intros i v K; unfold field; now rewrite F).
  constructor; cbn [fn_name fn_ty fn_cc fn_declaration fn_linkage fn_attributes fn_alignment fn_section fn_visibility fn_gc fn_unnamed_addr fn_storage].
  - rewrite C3. exists (sf_offset f), (N.of_nat (length (utf8_encode (sf_name f)))). split; [now apply FI|]. split; [now apply FI|]. split; [|exact ST].
    destruct (sf_name f) as [|x l] eqn:SN; [contradiction|]. unfold utf8_encode. cbn [flat_map]. rewrite app_length. 
    assert (1 <= length (utf8_char x))%nat; [|lia]. unfold utf8_char. repeat destruct (_ <? _); cbn; lia.
  - exists (sf_type f). split; [now apply FI|]. rewrite C5. split; [exact PT|exact FT].
  - exists (llvm_cc (sf_cc f)). split; [now apply FI|apply cc_back].
  - exists 1. split; [now apply FI|]. split; [discriminate|reflexivity].
  - exists (llvm_linkage (sf_linkage f)). split; [now apply FI|apply linkage_back].
  - exists (plus_one (sf_attributes f)). split; [now apply FI|]. rewrite C4. now apply lookup_back.
  - exists (plus_one (sf_alignment f)). split; [now apply FI|]. unfold aligned_to. destruct (sf_alignment f) as [k|] eqn:SA; cbn [plus_one option_map].
    + pose proof (AL k eq_refl). right. exists k. rewrite N.mod_small by lia. auto.
    + left. auto.
  - exists (plus_one (sf_section f)). split; [now apply FI|]. rewrite C1. now apply lookup_back.
  - exists (llvm_visibility (sf_visibility f)). split; [now apply FI|apply visibility_back].
  - left. exists (plus_one (sf_gc f)). split; [now apply FI|]. rewrite C2. now apply lookup_back.
  - left. exists (llvm_unnamed_addr (sf_unnamed_addr f)). split; [now apply FI|apply unnamed_back].
  - left. exists (llvm_storage (sf_storage f)). split; [now apply FI|apply storage_back].
Qed.

(** *** Modules *)

Lemma pick_texts c k l : pick c (text_records k l) = if k =? c then map utf8_encode l else [].
Proof. apply pick_map. Qed.
Lemma kids_texts v k l : kids v (text_records k l) = [].
Proof. apply kids_map. Qed.
Ltac picks := repeat (rewrite pick_app || rewrite kids_app || rewrite pick_texts || rewrite kids_texts || rewrite pick_map || rewrite kids_map).

Definition asm_nodes (l : list str) : list node := match l with [] => [] | ls => [NRecord 4 (utf8_encode (join 10 ls))] end.
Definition groups_nodes (l : list (N * attr_group)) : list node :=
  match l with [] => [] | gs => [NBlock 10 (map (fun g => NRecord 3 (group_fields g)) gs)] end.
Definition lists_nodes (l : list (list N)) : list node := match l with [] => [] | ls => [NBlock 9 (map (NRecord 2) ls)] end.
Definition types_node (l : list stype) : node := NBlock 17 (NRecord 1 [N.of_nat (length l)] :: map rec_of (flat_map stype_records l)).
Lemma module_nodes_eq s : module_nodes s = [NRecord 1 [2]] ++ [types_node (so_types s)] ++ groups_nodes (so_groups s) ++ lists_nodes (so_lists s) ++
  text_records 2 (opt_list (so_triple s)) ++ text_records 3 (opt_list (so_layout s)) ++ asm_nodes (so_asm s) ++
  text_records 5 (so_sections s) ++ text_records 6 (so_deplibs s) ++ text_records 11 (so_gcs s) ++
  map (fun f => NRecord 8 (function_fields f)) (so_functions s) ++ [NBlock 14 (so_symbols s)].
Proof.
  unfold module_nodes, types_node, groups_nodes, lists_nodes, asm_nodes, group_fields.
  destruct (so_groups s), (so_lists s), (so_asm s); reflexivity.
Qed.
Lemma pick_module s c : pick c (module_nodes s) = (if 1 =? c then [[2]] else []) ++ (if 2 =? c then map utf8_encode (opt_list (so_triple s)) else []) ++
  (if 3 =? c then map utf8_encode (opt_list (so_layout s)) else []) ++ pick c (asm_nodes (so_asm s)) ++
  (if 5 =? c then map utf8_encode (so_sections s) else []) ++ (if 6 =? c then map utf8_encode (so_deplibs s) else []) ++
  (if 11 =? c then map utf8_encode (so_gcs s) else []) ++ (if 8 =? c then map function_fields (so_functions s) else []).
Proof.
  rewrite module_nodes_eq. picks.
  assert (G : pick c (groups_nodes (so_groups s)) = []) by (unfold groups_nodes; destruct (so_groups s); reflexivity).
  assert (L : pick c (lists_nodes (so_lists s)) = []) by (unfold lists_nodes; destruct (so_lists s); reflexivity).
  rewrite G, L. cbn [pick flat_map types_node app]. rewrite !app_nil_r. reflexivity.
Qed.
Lemma kids_module s v : kids v (module_nodes s) = kids v [types_node (so_types s)] ++ kids v (groups_nodes (so_groups s)) ++ kids v (lists_nodes (so_lists s)) ++
  (if 14 =? v then [so_symbols s] else []).
Proof.
  rewrite module_nodes_eq. picks.
  assert (G : kids v (asm_nodes (so_asm s)) = []) by (unfold asm_nodes; destruct (so_asm s); reflexivity).
  rewrite G. cbn [kids flat_map app]. rewrite !app_nil_r. reflexivity.
Qed.
Lemma kids_types v l : kids v [types_node l] = if 17 =? v then [NRecord 1 [N.of_nat (length l)] :: map rec_of (flat_map stype_records l)] else [].
Proof. unfold types_node. cbn [kids flat_map]. now rewrite app_nil_r. Qed.
Lemma kids_groups v l : kids v (groups_nodes l) = if 10 =? v then match l with [] => [] | _ => [map (fun g => NRecord 3 (group_fields g)) l] end else [].
Proof. destruct l as [|g l]; [now destruct (10 =? v)|]. unfold groups_nodes. cbn [kids flat_map]. now rewrite app_nil_r. Qed.
Lemma kids_lists v l : kids v (lists_nodes l) = if 9 =? v then match l with [] => [] | _ => [map (NRecord 2) l] end else [].
Proof. destruct l as [|g l]; [now destruct (9 =? v)|]. unfold lists_nodes. cbn [kids flat_map]. now rewrite app_nil_r. Qed.

Lemma module_written e host t s settings T L fns b body :
  source_ok e t s settings -> source_means s = Some (T, L, fns) -> module_body s body -> shows b (NBlock 8 body) ->
  exists c, module_described e host t b
    (mkModule (match so_triple s with Some x => x | None => host end) (so_asm s) (so_deplibs s)) c fns [] /\ tables_of t s settings T L c.
Proof.
  intros OK SM MB SH. unfold module_body in MB. pose proof OK as [_ OT OL OA OX ON OSP OTY OCN OID OG OF OFT].
  pose proof (OFT _ _ _ SM) as FT. unfold source_means in SM.
  destruct (stypes_mean [] (so_types s)) as [T'|] eqn:TM; [|discriminate].
  destruct (every (every (sgroup s)) (so_lists s)) as [L'|] eqn:LM; [|discriminate].
  destruct (every (sfunction_means T' L' s) (so_functions s)) as [fns'|] eqn:FM; [|discriminate]. injection SM as -> -> ->.
  destruct (shows_records _ _ _ SH) as [_ PK].
  assert (P : forall c, existsb (N.eqb c) [1; 2; 3; 4; 5; 6; 8; 11; 12; 14] = true -> map r_fields (by_code c (b_records b)) = pick c (module_nodes s)).
  { intros c H. rewrite PK, <- MB. symmetry. now apply pick_looked. }
  assert (K : forall v id, existsb (N.eqb v) [9; 10; 12; 14; 17] = true -> id_matches v id ->
    Forall2 (fun body c => shows c (NBlock v body)) (kids v (module_nodes s)) (blocks_under id b)).
  { intros v id H I. rewrite <- MB, kids_looked by exact H. exact (shows_kids _ _ _ _ _ SH I). }
  (* layout *)
  assert (LY : exists d, ((absent 3 b /\ d = layout_default) \/ (exists r x, sole 3 b r /\ text_of e r x /\ layout_from_str x = Ok d)) /\ holds d settings).
  { specialize (P 3 eq_refl). rewrite pick_module in P. cbn [N.eqb Pos.eqb app] in P. destruct (so_layout s) as [x|].
    - destruct OL as (LT & AS & ME). destruct (layout_accepts x settings AS ME) as (d & D & Hd). exists d. split; [|exact Hd]. right.
      assert (Q : map r_fields (by_code 3 (b_records b)) = [utf8_encode x]) by (rewrite P; destruct (so_asm s); reflexivity).
      destruct (picked_sole _ _ _ Q) as (r & S0 & F). exists r, x. split; [exact S0|]. split; [now apply long_text_of|exact D].
    - exists layout_default. subst settings. split; [|exact (fold_holds [])]. left. split; [|reflexivity]. apply picked_none. rewrite P. destruct (so_asm s); reflexivity. }
  destruct LY as (d & LY & Hd).
  (* attribute groups *)
  assert (GR : exists m, ((blocks_under (BIr IbParamAttrGroup) b = [] /\ m = []) \/
      (exists gb, blocks_under (BIr IbParamAttrGroup) b = [gb] /\ attr_groups_of gb = Ok m)) /\ forall id, groups_get m id = sgroup s id).
  { specialize (K 10 (BIr IbParamAttrGroup) eq_refl eq_refl). rewrite kids_module, kids_types, kids_groups, kids_lists in K. cbn [N.eqb Pos.eqb app] in K. rewrite app_nil_r in K.
    destruct (so_groups s) as [|g gs] eqn:G.
    - inversion K. exists []. split; [now left|]. intros id. unfold sgroup. now rewrite G.
    - inversion K as [|? gb ? l SB K']; subst. inversion K'; subst. exists (rev (g :: gs)). split.
      + right. exists gb. split; [reflexivity|]. now apply groups_written.
      + intros id. rewrite groups_get_find, find_rev by exact OID. unfold sgroup. now rewrite G. }
  destruct GR as (m & GR & GG).
  assert (AT : (blocks_under (BIr IbParamAttr) b = [] /\ L = []) \/ (exists ab, blocks_under (BIr IbParamAttr) b = [ab] /\ attributes_of m ab = Ok L)).
  { specialize (K 9 (BIr IbParamAttr) eq_refl eq_refl). rewrite kids_module, kids_types, kids_groups, kids_lists in K. cbn [N.eqb Pos.eqb app] in K. rewrite app_nil_r in K.
    destruct (so_lists s) as [|x ls] eqn:E.
    - inversion K. cbn in LM. injection LM as <-. now left.
    - inversion K as [|? ab ? l SB K']; subst. inversion K'; subst. right. exists ab. split; [reflexivity|].
      apply (lists_written s); [exact GG| |now rewrite E|now rewrite E]. eapply Forall_impl; [|exact OG]. now intros g [H _]. }
  (* types *)
  assert (TT : exists tb, blocks_under (BIr IbType) b = [tb] /\ type_table_of e tb = Ok T).
  { specialize (K 17 (BIr IbType) eq_refl eq_refl). rewrite kids_module, kids_types, kids_groups, kids_lists in K. cbn [N.eqb Pos.eqb app] in K.
    inversion K as [|? tb ? l SB K']; subst. inversion K'; subst. exists tb. split; [reflexivity|]. now apply (types_written e (so_types s)); auto. }
  assert (VB : exists vb, blocks_under (BIr IbValueSymtab) b = [vb]).
  { specialize (K 14 (BIr IbValueSymtab) eq_refl eq_refl). rewrite kids_module, kids_types, kids_groups, kids_lists in K. cbn [N.eqb Pos.eqb app] in K.
    inversion K as [|? vb ? l SB K']; subst. inversion K'; subst. now exists vb. }
  assert (FB : blocks_under (BIr IbFunction) b = []).
  { specialize (K 12 (BIr IbFunction) eq_refl eq_refl). rewrite kids_module, kids_types, kids_groups, kids_lists in K. cbn [N.eqb Pos.eqb app] in K. now inversion K. }
  assert (NA : forall c l, c <> 4 -> pick c (asm_nodes l) = []).
  { intros c l H. unfold asm_nodes. destruct l; [reflexivity|]. cbn [pick flat_map]. rewrite (proj2 (N.eqb_neq 4 c)) by congruence. reflexivity. }
  assert (TX : Forall long_text (so_deplibs s) /\ Forall long_text (so_sections s) /\ Forall long_text (so_gcs s)).
  { rewrite !Forall_app in OX. tauto. }
  destruct TX as (TX1 & TX2 & TX3).
  set (c := mkCtx 2 d (so_sections s) (so_gcs s) t m L T []).
  exists c. split; [|now constructor].
  assert (E1 := P 1 eq_refl). assert (E2 := P 2 eq_refl). assert (E4 := P 4 eq_refl). assert (E5 := P 5 eq_refl). assert (E6 := P 6 eq_refl).
  assert (E8 := P 8 eq_refl). assert (E11 := P 11 eq_refl). assert (E12 := P 12 eq_refl). assert (E14 := P 14 eq_refl).
  rewrite pick_module in E1, E2, E4, E5, E6, E8, E11, E12, E14.
  rewrite NA in E1, E2, E5, E6, E8, E11, E12, E14 by discriminate.
  cbn [N.eqb Pos.eqb app] in E1, E2, E4, E5, E6, E8, E11, E12, E14. rewrite !app_nil_r in E2, E4, E5, E6, E11.
  constructor; cbn [md_triple md_asm md_deplibs].
  - constructor; cbn [c cx_version cx_layout cx_sections cx_gcs cx_strtab cx_groups cx_attributes cx_types cx_comdats].
    + destruct (picked_sole _ _ _ E1) as (r & S0 & F). exists r, []. auto.
    + exact LY.
    + now apply picked_texts.
    + now apply picked_texts.
    + reflexivity.
    + exact TT.
    + exact VB.
    + exact GR.
    + exact AT.
    + exists []. split; [|constructor]. apply all_with_iff. symmetry. now apply map_eq_nil in E12.
  - destruct (so_triple s) as [x|]; cbn [opt_list map] in E2.
    + right. destruct (picked_sole _ _ _ E2) as (r & S0 & F). exists r. split; [exact S0|]. apply long_text_of; [now apply OT|exact F].
    + left. split; [now apply picked_none|reflexivity].
  - destruct (so_asm s) as [|x l] eqn:A; cbn [asm_nodes pick flat_map N.eqb Pos.eqb app] in E4.
    + left. split; [now apply picked_none|reflexivity].
    + right. destruct OA as [OA|[OA1 OA2]]; [discriminate|]. destruct (picked_sole _ _ _ E4) as (r & S0 & F). exists r, (join 10 (x :: l)).
      split; [exact S0|]. split; [now apply long_text_of|]. split; [discriminate|]. split; [reflexivity|exact OA2].
  - now apply picked_texts.
  - apply every_iff in FM.
    assert (FM' : Forall2 (fun f fn => sfunction_means T L s f = Some fn /\ function_type (fn_ty fn) /\ sf_name f <> [] /\
      stored t (sf_offset f) (N.of_nat (length (utf8_encode (sf_name f)))) (sf_name f) /\ (forall k, sf_alignment f = Some k -> k <= 63)) (so_functions s) fns).
    { clear - FM FT OF. induction FM as [|f fn fs fns M FM IH]; [constructor|]. inversion OF as [|? ? (O1 & O2 & O3) OF']; subst.
      inversion FT as [|? ? F1 FT']; subst. constructor; [auto|now apply IH]. }
    refine (picked_forall2 _ function_fields _ 8 b _ _ _ FM' E8). intros r f fn F (M & FTY & NE & ST & AL). split; [cbn; lia|]. now apply (function_written c s T L t f).
  - exact FB.
  - exists []. split; [|constructor]. apply all_with_iff. symmetry. now apply map_eq_nil in E14.
Qed.

Lemma module_round_trip e host t s settings T L fns tree b body :
  source_ok e t s settings -> source_means s = Some (T, L, fns) -> module_body s body ->
  unrolled tree b -> erase tree = NBlock 8 body -> Forall fields64 (b_records b) -> N.of_nat (length t) < two64 ->
  exists c, module_map e host t b =
    Ok (mkModule (match so_triple s with Some x => x | None => host end) (so_asm s) (so_deplibs s), c, fns, []) /\ tables_of t s settings T L c.
Proof.
  intros OK SM MB U E F64 LT. assert (SH : shows b (NBlock 8 body)) by now exists tree.
  destruct (module_written e host t s settings T L fns b body OK SM MB SH) as (c & D & TO). exists c. split; [|exact TO].
  apply module_exact; [exact (shows_nodup _ _ _ SH)|exact F64|exact LT|exact D].
Qed.

(** *** Files *)

Definition top_node (v : N) (n : node) : bool := match n with NBlock b _ => b =? v | _ => false end.
Lemma top_erase v t : is_top v t = top_node v (erase t).
Proof. now destruct t. Qed.
Lemma find_erase v ts : option_map erase (find (is_top v) ts) = find (top_node v) (map erase ts).
Proof. induction ts as [|t ts IH]; [reflexivity|]. cbn [map find]. rewrite top_erase. now destruct (top_node v (erase t)). Qed.
Lemma find_file v ms y t : v <> 13 -> v <> 8 -> find (top_node v) (file_nodes ms y t) = find (top_node v) (file_nodes [] y t).
Proof.
  intros H1 H2. induction ms as [|p ms IH]; [reflexivity|]. unfold file_nodes in *. cbn [flat_map module_file app find top_node].
  rewrite (proj2 (N.eqb_neq 13 v)), (proj2 (N.eqb_neq 8 v)) by congruence. exact IH.
Qed.
Lemma find_tops v ts ms y t : v <> 13 -> v <> 8 -> map erase ts = file_nodes ms y t ->
  option_map erase (find (is_top v) ts) = find (top_node v) (file_nodes [] y t).
Proof. intros H1 H2 E. rewrite find_erase, E. now apply find_file. Qed.

Lemma file_okay ms y t : forall ts room, map erase ts = file_nodes ms y t -> okay room ts.
Proof.
  induction ms as [|p ms IH]; intros ts room E.
  - unfold file_nodes in E. cbn [flat_map app] in E. destruct y as [y|]; cbn [opt_list map app] in E.
    + destruct ts as [|t1 [|t2 [|? ?]]]; try discriminate. cbn [map] in E. assert (E1 : erase t1 = NBlock 25 [NRecord 1 y]) by congruence.
      assert (E2 : erase t2 = NBlock 23 [NRecord 1 t]) by congruence. cbn [okay]. rewrite !top_erase, E1, E2. cbn. exact I.
    + destruct ts as [|t2 [|? ?]]; try discriminate. cbn [map] in E. assert (E2 : erase t2 = NBlock 23 [NRecord 1 t]) by congruence.
      cbn [okay]. rewrite !top_erase, E2. cbn. exact I.
  - unfold file_nodes in E. cbn [flat_map module_file app] in E. destruct ts as [|t1 [|t2 ts]]; try discriminate. cbn [map] in E.
    injection E as E1 E2 E3. cbn [okay]. rewrite !top_erase, E1, E2. cbn [top_node]. change (13 =? IDENTIFICATION) with true.
    change (8 =? IDENTIFICATION) with false. change (8 =? MODULE) with true. cbv iota. split; [reflexivity|]. exact (IH ts false E3).
Qed.

(** What is read for a file. *)
Definition read_file (host : str) (ms : list (source * list node)) (y : option (list N)) (t : list N) : list bitcode_module :=
  map (fun p => mkBitcodeModule (mkIdentification (so_producer (fst p)) (so_epoch (fst p)))
    (mkModule (match so_triple (fst p) with Some x => x | None => host end) (so_asm (fst p)) (so_deplibs (fst p))) t y) ms.

Lemma shows_build t n v : erase t = n -> top_node v n = true -> shows (build t) n.
Proof. intros E K. exists t. split; [|exact E]. apply build_unrolled. destruct t as [|b k body]; [subst n; discriminate|]. cbn. apply N.eqb_refl. Qed.
Lemma shown_blob e b v t : long_blob t -> shows b (NBlock v [NRecord 1 t]) -> holds_blob e b t.
Proof.
  intros [L1 L2] SH. destruct (shows_records _ _ _ SH) as [R _]. destruct (b_records b) as [|r [|? ?]] eqn:B; try discriminate.
  cbn in R. unfold pair_of in R. injection R as R1 R2. exists r. split.
  - exists [], []. rewrite B. auto.
  - left. rewrite R2. auto.
Qed.
Lemma shown_identification e b x n : long_text x -> shows b (NBlock 13 [NRecord 1 (utf8_encode x); NRecord 2 [n]]) -> identifies e b (mkIdentification x n).
Proof.
  intros LT SH. destruct (shows_records _ _ _ SH) as [R _]. destruct (b_records b) as [|r [|r' [|? ?]]] eqn:B; try discriminate.
  cbn in R. unfold pair_of in R. injection R as R1 R2 R3 R4. exists r, r', []. cbn [id_producer id_epoch]. split; [|split; [|split]].
  - exists [], [r']. rewrite B. auto.
  - now apply long_text_of.
  - exists [r], []. rewrite B. split; [reflexivity|]. split; [exact R3|]. repeat constructor. rewrite R1. discriminate.
  - exact R4.
Qed.

Lemma file_described e host ms y t : long_blob t -> (forall x, y = Some x -> long_blob x) ->
  Forall (fun p => module_body (fst p) (snd p) /\ source_means (fst p) <> None /\ exists settings, source_ok e t (fst p) settings) ms ->
  forall ts, map erase ts = file_nodes ms y t -> Forall2 (tree_described e host) (modules_of ts) (read_file host ms y t).
Proof.
  intros LT LY. induction ms as [|(s & body) ms IH]; intros OKS ts E.
  - assert (N : Forall (fun t => is_top IDENTIFICATION t = false) ts).
    { apply Forall_forall. intros x I. rewrite top_erase. apply (in_map erase) in I. rewrite E in I. unfold file_nodes in I.
      apply in_app_iff in I as [[]|I]. apply in_app_iff in I as [I|[<-|[]]]; [|reflexivity]. apply in_map_iff in I as (z & <- & _). reflexivity. }
    assert (M : modules_of ts = []); [|rewrite M; constructor]. clear - N. induction N as [|x ts H _ IH]; [reflexivity|]. cbn [modules_of]. now rewrite H.
  - inversion OKS as [|? ? (MB & SM & settings & OK) OKS']; subst. cbn [fst snd] in MB, SM, OK.
    unfold file_nodes in E. cbn [flat_map module_file app fst snd] in E. destruct ts as [|t1 [|t2 ts]]; try discriminate. cbn [map] in E.
    injection E as E1 E2 E3. change (map erase ts = file_nodes ms y t) in E3.
    assert (T1 : is_top IDENTIFICATION t1 = true) by (rewrite top_erase, E1; reflexivity).
    assert (T2 : is_top IDENTIFICATION t2 = false) by (rewrite top_erase, E2; reflexivity).
    assert (T3 : is_top MODULE t2 = true) by (rewrite top_erase, E2; reflexivity).
    assert (T4 : is_top STRTAB t2 = false) by (rewrite top_erase, E2; reflexivity).
    assert (T5 : is_top SYMTAB t2 = false) by (rewrite top_erase, E2; reflexivity).
    cbn [modules_of]. rewrite T1, T2. cbn [segment find]. rewrite T2. cbn [find]. rewrite T3, T4, T5.
    unfold read_file. cbn [map fst snd]. constructor; [|exact (IH OKS' ts E3)].
    set (tm := mkTmodule t1 (Some t2) (find (is_top STRTAB) ts) (find (is_top SYMTAB) ts)).
    assert (FS : exists st, find (is_top STRTAB) ts = Some st /\ erase st = NBlock 23 [NRecord 1 t]).
    { pose proof (find_tops STRTAB ts ms y t ltac:(discriminate) ltac:(discriminate) E3) as F.
      assert (Q : find (top_node STRTAB) (file_nodes [] y t) = Some (NBlock 23 [NRecord 1 t])) by (destruct y; reflexivity).
      rewrite Q in F. destruct (find (is_top STRTAB) ts) as [st|]; [|discriminate]. exists st. cbn in F. split; [reflexivity|congruence]. }
    assert (FY : option_map erase (find (is_top SYMTAB) ts) = option_map (fun x => NBlock 25 [NRecord 1 x]) y).
    { rewrite (find_tops SYMTAB ts ms y t ltac:(discriminate) ltac:(discriminate) E3). destruct y; reflexivity. }
    destruct FS as (st & FS & ES). exists (bm tm). split.
    + assert (C : Forall2 carries (modules_of (t1 :: t2 :: ts)) (map bm (modules_of (t1 :: t2 :: ts)))) by apply carries_bm.
      cbn [modules_of segment find] in C. rewrite T1, T2 in C. cbn [find] in C. rewrite T3, T4, T5 in C. cbn [map] in C. now inversion C.
    + assert (SH1 := shows_build t1 _ 13 E1 eq_refl). assert (SH2 := shows_build t2 _ 8 E2 eq_refl). assert (SH3 := shows_build st _ 23 ES eq_refl).
      pose proof OK as [OP _ _ _ _ _ _ _ _ _ _ _ _].
      destruct (source_means s) as [((T, L) & fns)|] eqn:SM'; [|contradiction].
      destruct (module_written e host t s settings T L fns (build t2) body OK SM' MB SH2) as (c & D & _).
      constructor; cbn [bm tm pt_identification pt_module pt_strtab pt_symtab tm_identification tm_module tm_strtab tm_symtab
        bm_identification bm_module bm_strtab bm_symtab option_map].
      * now apply shown_identification.
      * rewrite FS. exists (build st). split; [reflexivity|]. exact (shown_blob e _ 23 t LT SH3).
      * exists (build t2), c, fns, []. auto.
      * destruct y as [x|]; destruct (find (is_top SYMTAB) ts) as [sy|]; cbn [option_map] in FY; try discriminate; [right|now left].
        exists (build sy), x. split; [reflexivity|]. split; [reflexivity|]. assert (EY : erase sy = NBlock 25 [NRecord 1 x]) by congruence.
        apply (shown_blob e _ 25); [now apply LY|]. exact (shows_build sy _ 25 EY eq_refl).
Qed.

Lemma file_round_trip e host magic l bits ms y t :
  write_stream magic l = Some bits -> forallb (item_small (alloc_limit e)) l = true -> magic <> BITCODE_WRAPPER_MAGIC -> N.of_nat (length bits) < 2 ^ 64 ->
  meaning l = file_nodes ms y t -> long_blob t -> (forall x, y = Some x -> long_blob x) ->
  Forall (fun p => module_body (fst p) (snd p) /\ source_means (fst p) <> None /\ exists settings, source_ok e t (fst p) settings) ms ->
  bitcode_of e host (bytes_of_bits bits) = Ok (read_file host ms y t).
Proof.
  intros W S0 NM LB M LT LY OK. rewrite <- erase_trees in M. apply (written_bitcode e host magic l bits).
  - exact W.
  - exact S0.
  - apply well_grouped_okay. exact (file_okay ms y t _ _ M).
  - exact NM.
  - exact LB.
  - exact (file_described e host ms y t LT LY OK _ M).
Qed.
