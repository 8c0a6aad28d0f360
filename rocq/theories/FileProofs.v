(** Lemmas for C82. *)
From Verif Require Import Base Strings EnumModel SupportModel CursorModel StreamModel StreamSpec StreamHist UnrollModel UnrollSpec UnrollProofs UnrollMain UnrollApi
  AttributeModel TablesModel TablesSpec TypeTableModel RecordModel ModuleModel PipelineSpec PipelineProofs FileSpec.
From Coq Require Import Lia ZifyBool ZifyNat ZifyN.
Local Open Scope N_scope.

Definition has_id (m : found) : Prop := f_identification m <> None.

Lemma hand_out_ids t rm : map f_identification (hand_out t rm) = map f_identification rm.
Proof. induction rm as [|m rm IH]; cbn; [reflexivity|]. destruct (f_strtab m); cbn; [|reflexivity]. now rewrite IH. Qed.
Lemma ids_forall a b : map f_identification a = map f_identification b -> Forall has_id a -> Forall has_id b.
Proof.
  revert b. induction a as [|x a IH]; intros [|y b] E F; try discriminate E; [constructor|]. cbn in E. injection E as E1 E2.
  inversion F; subst. constructor; [unfold has_id in *; now rewrite <- E1|now apply IH].
Qed.

(** Induction over a list, two elements at a time if need be. *)
Lemma list_two {A} (P : list A -> Prop) : P [] -> (forall t l, P l -> (forall m l', l = m :: l' -> P l') -> P (t :: l)) -> forall l, P l.
Proof.
  intros Z H l. enough (P l /\ forall m l', l = m :: l' -> P l') as [X _] by exact X.
  induction l as [|t l [I1 I2]]; split; [exact Z|discriminate|now apply H|]. intros m l' [= <- <-]. exact I1.
Qed.

Ltac tops t := destruct (is_top IDENTIFICATION t) eqn:E1; [|destruct (is_top MODULE t) eqn:E2; [|
  destruct (is_top STRTAB t) eqn:E3; [|destruct (is_top SYMTAB t) eqn:E4]]].

Lemma loop_keeps l : forall rm st mods st', llvm_loop l rm st = Some (mods, st') -> Forall has_id mods -> Forall has_id rm.
Proof.
  induction l as [|t l IH IH2] using list_two; intros rm st mods st' H F; cbn [llvm_loop] in H.
  - injection H as <- <-. apply Forall_rev in F. now rewrite rev_involutive in F.
  - tops t.
    + destruct l as [|m l]; [discriminate|]. destruct (is_top MODULE m); [|discriminate].
      apply (IH2 m l eq_refl) in H; [|exact F]. now inversion H.
    + apply IH in H; [|exact F]. now inversion H.
    + apply IH in H; [|exact F]. eapply ids_forall; [|exact H]. apply hand_out_ids.
    + eapply IH; [exact H|exact F].
    + eapply IH; [exact H|exact F].
Qed.

Lemma loop_okay l : forall rm st mods st', llvm_loop l rm st = Some (mods, st') -> Forall has_id rm ->
  (okay false l <-> Forall known l /\ Forall has_id mods).
Proof.
  induction l as [|t l IH IH2] using list_two; intros rm st mods st' H F; cbn [llvm_loop okay] in *.
  - injection H as <- <-. split; [|trivial]. intros _. split; [constructor|now apply Forall_rev].
  - rewrite Forall_cons_iff, known_iff. tops t.
    + destruct l as [|m l]; [discriminate|]. destruct (is_top MODULE m) eqn:M; [|discriminate]. cbn [okay].
      rewrite (is_top_excl MODULE IDENTIFICATION m M) by discriminate. rewrite M.
      rewrite (IH2 m l eq_refl _ _ _ _ H); [|constructor; [discriminate|exact F]]. rewrite Forall_cons_iff, known_iff. intuition.
    + split; [intros [X _]; discriminate X|]. intros [_ G]. apply (loop_keeps _ _ _ _ _ H) in G. inversion G; subst. now elim H2.
    + cbn [orb]. rewrite (IH _ _ _ _ H); [intuition|]. eapply ids_forall; [|exact F]. symmetry. apply hand_out_ids.
    + cbn [orb]. rewrite (IH _ _ _ _ H F). intuition.
    + cbn [orb]. split; [intros []|]. intuition discriminate.
Qed.

Theorem file_grouped l mods st : llvm_file l = Some (mods, st) ->
  (well_grouped l <-> Forall known_top l /\ Forall (fun m => f_identification m <> None) mods).
Proof. intros H. rewrite well_grouped_okay. exact (loop_okay l [] [] mods st H (Forall_nil _)). Qed.

(** When LLVM finds modules at all. *)
Theorem file_accepts l : (exists f, llvm_file l = Some f) <->
  forall l1 i l2, l = l1 ++ i :: l2 -> is_top IDENTIFICATION i = true -> exists m l3, l2 = m :: l3 /\ is_top MODULE m = true.
Proof.
  unfold llvm_file. generalize (@nil found) as rm, (@nil N) as st.
  induction l as [|t l IH IH2] using list_two; intros rm st; cbn [llvm_loop].
  - split; [intros _ [|] ? ? ?; discriminate|]. eauto.
  - assert (T : (forall l1 i l2, t :: l = l1 ++ i :: l2 -> is_top IDENTIFICATION i = true -> exists m l3, l2 = m :: l3 /\ is_top MODULE m = true) <->
      (is_top IDENTIFICATION t = true -> exists m l3, l = m :: l3 /\ is_top MODULE m = true) /\
      (forall l1 i l2, l = l1 ++ i :: l2 -> is_top IDENTIFICATION i = true -> exists m l3, l2 = m :: l3 /\ is_top MODULE m = true)).
    { split.
      - intros H. split; [apply (H [] t l eq_refl)|]. intros l1 i l2 -> . apply (H (t :: l1) i l2 eq_refl).
      - intros [H1 H2] [|t' l1] i l2 [= -> E]; [now subst|now apply (H2 l1)]. }
    rewrite T. clear T. tops t; try (rewrite IH; intuition discriminate).
    destruct l as [|m l]; [split; [intros [f F]; discriminate|intros [H _]; destruct (H eq_refl) as (m & l3 & X & _); discriminate]|].
    destruct (is_top MODULE m) eqn:M.
    + rewrite (IH2 m l eq_refl). split.
      * intros H. split; [eauto|]. intros [|x l1] i l2 [= -> E] I; [|now apply (H l1 i l2)].
        rewrite (is_top_excl MODULE IDENTIFICATION i M) in I by discriminate. discriminate.
      * intros [_ H] l1 i l2 -> . apply (H (m :: l1) i l2 eq_refl).
    + split; [intros [f F]; discriminate|]. intros [H _]. destruct (H eq_refl) as (x & l3 & [= <- <-] & X). now rewrite X in M.
Qed.

(** Those without a string table come first (in reverse order). *)
Fixpoint lacking (rm : list found) : Prop :=
  match rm with
  | [] => True
  | m :: rm' => (f_strtab m = [] /\ lacking rm') \/ Forall (fun x => f_strtab x <> []) rm
  end.
Definition or_else (a b : list N) : list N := match a with [] => b | _ => a end.
Definition first_table (v : N) (l : list tree) : list N := match find (is_top v) l with Some t => table_of t | None => [] end.
Definition completed (l : list tree) (m : found) : found :=
  mkFound (f_identification m) (f_module m) (or_else (f_strtab m) (first_table STRTAB l)).

Lemma blob_skip l : forall acc, Forall (fun r => r_code r <> 1) (records_in l) -> blob_in l acc = acc.
Proof.
  induction l as [|[a c f|b n y] l IH]; intros acc F; cbn in *; [reflexivity| |now apply IH]. inversion F; subst. cbn in H1.
  apply N.eqb_neq in H1. rewrite H1. now apply IH.
Qed.
Lemma blob_found body l1 a fs l2 : records_in body = l1 ++ mkRecord (Some a) 1 fs :: l2 -> Forall (fun r => r_code r <> 1) (l1 ++ l2) ->
  forall acc, blob_in body acc = fs.
Proof.
  revert l1. induction body as [|[a' c f|b n y] body IH]; intros l1 R F acc; cbn in *.
  - destruct l1; discriminate.
  - destruct l1 as [|r l1]; cbn in R.
    + injection R as -> -> -> R2. rewrite N.eqb_refl. apply blob_skip. unfold records_in. now rewrite R2.
    + injection R as <- R2. inversion F; subst. eapply (IH l1); [exact R2|assumption].
  - exact (IH l1 R F acc).
Qed.
Lemma proper_nonempty t : one_blob t -> table_of t <> [].
Proof.
  destruct t as [|b n body]; cbn; [intros []|]. intros (a & fs & l1 & l2 & N & R & F). now rewrite (blob_found body l1 a fs l2 R F).
Qed.

Lemma hand_out_lacking t rm : t <> [] -> lacking rm ->
  hand_out t rm = map (fun m => mkFound (f_identification m) (f_module m) (or_else (f_strtab m) t)) rm /\
  Forall (fun x => f_strtab x <> []) (hand_out t rm).
Proof.
  intros T. induction rm as [|m rm IH]; cbn; [split; [reflexivity|constructor]|].
  intros [[E L]|F].
  - rewrite E. destruct (IH L) as [-> G]. split; [now rewrite ?E|]. constructor; [exact T|]. destruct (IH L) as [<- _]. exact (proj2 (IH L)).
  - assert (X : map (fun m => mkFound (f_identification m) (f_module m) (or_else (f_strtab m) t)) (m :: rm) = m :: rm).
    { rewrite <- (map_id (m :: rm)) at 2. apply map_ext_in. intros x I. rewrite Forall_forall in F. specialize (F x I).
      destruct x as [i o s]. cbn in *. destruct s; [now elim F|reflexivity]. }
    cbn in X. rewrite X. inversion F; subst. destruct (f_strtab m) eqn:Q; [now elim H1|]. now split.
Qed.
Lemma all_lacking rm : Forall (fun x => f_strtab x <> []) rm -> lacking rm.
Proof. destruct rm; cbn; [trivial|now right]. Qed.

Theorem file_loop l : forall rm st mods st', llvm_loop l rm st = Some (mods, st') -> proper_tables l -> lacking rm ->
  Forall known l -> Forall has_id mods ->
  (exists new, mods = rev (map (completed l) rm) ++ new /\ Forall2 same_module new (modules_of l)) /\
  st' = or_else st (first_table SYMTAB l).
Proof.
  induction l as [|t l IH IH2] using list_two; intros rm st mods st' H P L K F; cbn [llvm_loop modules_of] in *.
  - injection H as <- <-. split; [|now destruct st]. exists []. split; [|constructor]. rewrite app_nil_r. f_equal.
    rewrite <- (map_id rm) at 1. apply map_ext. intros [i m s]. cbn. now destruct s.
  - inversion P as [|? ? P1 P2]; subst. inversion K as [|? ? K1 K2]; subst. tops t.
    + destruct l as [|m l]; [discriminate|]. destruct (is_top MODULE m) eqn:M; [|discriminate].
      inversion P2; subst. inversion K2; subst.
      destruct (IH2 m l eq_refl _ _ _ _ H) as ((new & -> & S) & ->); [assumption|left; split; [reflexivity|exact L]|assumption|exact F|].
      assert (N3 : is_top STRTAB t = false) by (apply (is_top_excl _ _ _ E1); discriminate).
      assert (N4 : is_top SYMTAB t = false) by (apply (is_top_excl _ _ _ E1); discriminate).
      assert (M1 : is_top IDENTIFICATION m = false) by (apply (is_top_excl _ _ _ M); discriminate).
      assert (M3 : is_top STRTAB m = false) by (apply (is_top_excl _ _ _ M); discriminate).
      assert (M4 : is_top SYMTAB m = false) by (apply (is_top_excl _ _ _ M); discriminate).
      split.
      * exists (completed l (mkFound (Some t) m []) :: new). cbn [map rev]. split.
        -- rewrite <- app_assoc. cbn [app]. f_equal. f_equal. apply map_ext. intros x. unfold completed, first_table. cbn [find]. now rewrite N3, M3.
        -- constructor; [|cbn [modules_of]; now rewrite M1]. cbn [segment]. rewrite M1. unfold same_module, completed, first_table. cbn. rewrite M, M3. now repeat split.
      * unfold first_table. cbn [find]. now rewrite N4, M4.
    + apply (loop_keeps _ _ _ _ _ H) in F. inversion F; subst. now elim H2.
    + destruct (hand_out_lacking (table_of t) rm (proper_nonempty t (P1 (or_introl eq_refl))) L) as [HE HF].
      destruct (IH _ _ _ _ H) as ((new & -> & S) & ->); [assumption|now apply all_lacking|assumption|exact F|]. split.
      * exists new. split; [|exact S]. f_equal. f_equal. rewrite HE, map_map. apply map_ext. intros x. unfold completed, first_table. cbn [find]. rewrite E3. cbn.
        f_equal. destruct (f_strtab x); cbn; [|reflexivity]. destruct (table_of t) eqn:Q; [|reflexivity].
        elim (proper_nonempty t (P1 (or_introl eq_refl)) Q).
      * unfold first_table. cbn [find]. now rewrite (is_top_excl _ SYMTAB _ E3) by discriminate.
    + destruct (IH _ _ _ _ H) as ((new & -> & S) & ->); [assumption|exact L|assumption|exact F|]. split.
      * exists new. split; [|exact S]. f_equal. f_equal. apply map_ext. intros x. unfold completed, first_table. cbn [find]. now rewrite E3.
      * unfold first_table. cbn [find]. rewrite E4. pose proof (proper_nonempty t (P1 (or_intror eq_refl))) as Q.
        destruct st; cbn; [|reflexivity]. destruct (table_of t); [now elim Q|reflexivity].
    + apply known_iff in K1. rewrite E1, E2, E3, E4 in K1. intuition discriminate.
Qed.

Theorem file_modules l mods st : llvm_file l = Some (mods, st) -> well_grouped l -> proper_tables l ->
  Forall2 same_module mods (modules_of l) /\ st = first_table SYMTAB l.
Proof.
  intros H W P. apply (file_grouped l mods st H) in W. destruct W as [K F].
  destruct (file_loop l [] [] mods st H P I K F) as ((new & -> & S) & ->). now split.
Qed.

Theorem file_unrolled e s l mods st : parser_reachable e s -> stream_is e s l -> llvm_file l = Some (mods, st) ->
  ((exists parts, unroll e s = Ok parts) <-> Forall known_top l /\ Forall (fun m => f_identification m <> None) mods).
Proof.
  intros R S L. rewrite <- (file_grouped l mods st L). destruct (unroll_decides e s l R S) as [A B]. split.
  - intros [parts U]. destruct (unroll_ok e s parts R U) as (f & S' & W & _). now rewrite (stream_unique e s _ _ S S').
  - intros W. destruct (A W) as (parts & U & _). eauto.
Qed.

(** What was loaded. *)
Lemma table_held e t b x : one_blob t -> unrolled t b -> holds_blob e b x -> table_of t = x.
Proof.
  intros O U (r & (l1 & l2 & E & C & F) & B). destruct U as [bid len body b _ R _ _ _]. cbn in O. destruct O as (a & fs & k1 & k2 & N & Q & G).
  cbn [table_of]. rewrite (blob_found body k1 a fs k2 Q G). rewrite R, Q in E.
  assert (X : r = mkRecord (Some a) 1 fs).
  { apply Forall_app in G. destruct G as [G1 G2]. clear Q. revert k1 G1 E. clear - C F G2.
    induction l1 as [|y l1 IH]; intros [|z k1] G1 E; cbn in E; injection E as E1 E2.
    - now symmetry.
    - subst z. inversion G1; subst. now elim H1.
    - subst y. inversion F; subst. now elim H1.
    - subst z. inversion F; subst. inversion G1; subst. exact (IH H2 k1 H4 E2). }
  subst r. destruct B as [(_ & B & _)|(_ & B & _)]; cbn in B; [exact B|now elim N].
Qed.

Lemma in_find v l t : find (is_top v) l = Some t -> In t l /\ is_top v t = true.
Proof. intros H. now apply find_some in H. Qed.
Lemma modules_tables l tm : In tm (modules_of l) ->
  (forall t, tm_strtab tm = Some t -> In t l /\ is_top STRTAB t = true) /\ (forall t, tm_symtab tm = Some t -> In t l /\ is_top SYMTAB t = true).
Proof.
  induction l as [|x l IH]; cbn; [intros []|]. destruct (is_top IDENTIFICATION x).
  - intros [<-|I]; cbn.
    + split; intros t H; apply in_find in H; intuition.
    + destruct (IH I) as [A B]. split; intros t H; [apply A in H|apply B in H]; intuition.
  - intros I. destruct (IH I) as [A B]. split; intros t H; [apply A in H|apply B in H]; intuition.
Qed.

(** The bytes of the symbol table of a loaded module. *)
Definition symbols_of (d : bitcode_module) : list N := match bm_symtab d with Some t => t | None => [] end.

Lemma described_tables e host l tm d : proper_tables l -> In tm (modules_of l) -> tree_described e host tm d ->
  match tm_strtab tm with Some t => table_of t | None => [] end = bm_strtab d /\
  match tm_symtab tm with Some t => table_of t | None => [] end = symbols_of d.
Proof.
  intros P I (p & (_ & _ & C3 & C4) & [_ S _ Y]). destruct (modules_tables l tm I) as [T1 T2]. unfold proper_tables in P. rewrite Forall_forall in P. split.
  - destruct S as (b & E & H). rewrite E in C3. destruct (tm_strtab tm) as [t|]; [|elim C3]. destruct (T1 t eq_refl) as [J K].
    exact (table_held e t b _ (P t J (or_introl K)) C3 H).
  - unfold symbols_of. destruct Y as [[E ->]|(b & x & E & -> & H)]; rewrite E in C4.
    + destruct (tm_symtab tm); [elim C4|reflexivity].
    + destruct (tm_symtab tm) as [t|]; [|elim C4]. destruct (T2 t eq_refl) as [J K]. exact (table_held e t b _ (P t J (or_intror K)) C4 H).
Qed.

Lemma forall2_through {A B C} (P : A -> B -> Prop) (Q : B -> C -> Prop) (R : A -> C -> Prop) a b c :
  (forall x y z, In y b -> P x y -> Q y z -> R x z) -> Forall2 P a b -> Forall2 Q b c -> Forall2 R a c.
Proof.
  intros H F. revert c H. induction F as [|x y a b X F IH]; intros c K G; inversion G; subst; constructor.
  - eapply K; [now left|eassumption|assumption].
  - apply IH; [|assumption]. intros. eapply K; [right|..]; eassumption.
Qed.

Theorem loaded_like_llvm e host buf ms w b l mods st : N.of_nat (length buf) < 2 ^ 61 -> bitcode_of e host buf = Ok ms ->
  from e buf = Ok (w, b) -> stream_is e (bs_parser b) l -> proper_tables l -> llvm_file l = Some (mods, st) ->
  Forall2 (fun m d => f_strtab m = bm_strtab d /\
             exists i s y, f_identification m = Some i /\ tree_described e host (mkTmodule i (Some (f_module m)) s y) d) mods ms /\
  (forall i l', l = i :: l' -> is_top IDENTIFICATION i = true -> exists d ms', ms = d :: ms' /\ st = symbols_of d).
Proof.
  intros B H F S P L. apply bitcode_exact in H; [|exact B]. destruct H as (w' & b' & l' & F' & S' & W & D).
  rewrite F in F'. injection F' as <- <-. rewrite <- (stream_unique e _ _ _ S S') in *. clear S' l'.
  destruct (file_modules l mods st L W P) as [M ->]. split.
  - refine (forall2_through _ _ _ _ _ _ _ M D). intros m tm d I (E1 & E2 & E3) T.
    destruct (described_tables e host l tm d P I T) as [X _]. split; [now rewrite E3|].
    exists (tm_identification tm), (tm_strtab tm), (tm_symtab tm). split; [exact E1|]. rewrite <- E2. now destruct tm.
  - intros i l' -> T. cbn [modules_of] in D. rewrite T in D. inversion D as [|tm d tms ms' D1 D2]; subst. exists d, ms'. split; [reflexivity|].
    assert (I : In (mkTmodule i (find (is_top MODULE) (segment l')) (find (is_top STRTAB) l') (find (is_top SYMTAB) l')) (modules_of (i :: l')))
      by (cbn [modules_of]; rewrite T; now left).
    destruct (described_tables e host (i :: l') _ d P I D1) as [_ X]. cbn [tm_symtab] in X. rewrite <- X.
    unfold first_table. cbn [find]. now rewrite (is_top_excl _ SYMTAB _ T) by discriminate.
Qed.
