(** Grouping of top-level blocks into modules, and the unroll of a parser. *)
From Verif Require Import Base Strings EnumModel CursorModel StreamModel StreamSpec StreamHist StreamMain StreamEnd
  UnrollModel UnrollSpec UnrollProofs.
From Coq Require Import Lia ZifyBool ZifyNat ZifyN.
Local Open Scope N_scope.

(** *** Grouping *)

Fixpoint okay (room : bool) (l : list tree) : Prop :=
  match l with
  | [] => True
  | t :: l' =>
      if is_top IDENTIFICATION t then okay true l'
      else if is_top MODULE t then room = true /\ okay false l'
      else if is_top STRTAB t || is_top SYMTAB t then okay room l'
      else False
  end.

Definition known (t : tree) : Prop :=
  exists v, is_top v t = true /\ In v [IDENTIFICATION; MODULE; STRTAB; SYMTAB].

Lemma known_iff t : known t <->
  is_top IDENTIFICATION t = true \/ is_top MODULE t = true \/ is_top STRTAB t = true \/ is_top SYMTAB t = true.
Proof.
  unfold known. cbn [In]. split.
  - intros (v & H & [<- | [<- | [<- | [<- | []]]]]); tauto.
  - intros [H|[H|[H|H]]]; eexists; (split; [exact H|tauto]).
Qed.

Lemma is_top_excl v w t : is_top v t = true -> v <> w -> is_top w t = false.
Proof. destruct t; cbn; [discriminate|]. intros H N. apply N.eqb_eq in H. subst. now apply N.eqb_neq. Qed.

Lemma okay_iff l room : okay room l <->
  Forall known l /\
  (length (filter (is_top MODULE) (segment l)) <= (if room then 1 else 0))%nat /\
  (forall l1 i l2, l = l1 ++ i :: l2 -> is_top IDENTIFICATION i = true ->
     (length (filter (is_top MODULE) (segment l2)) <= 1)%nat).
Proof.
  revert room. induction l as [|t l IH]; intros room.
  - cbn. split; [|tauto]. intros _. split; [constructor|]. split; [lia|]. intros [|] ? ? ?; discriminate.
  - cbn [okay segment].
    assert (TAIL : (forall l1 i l2, t :: l = l1 ++ i :: l2 -> is_top IDENTIFICATION i = true ->
                     (length (filter (is_top MODULE) (segment l2)) <= 1)%nat) <->
                   (is_top IDENTIFICATION t = true -> (length (filter (is_top MODULE) (segment l)) <= 1)%nat) /\
                   (forall l1 i l2, l = l1 ++ i :: l2 -> is_top IDENTIFICATION i = true ->
                     (length (filter (is_top MODULE) (segment l2)) <= 1)%nat)).
    { split.
      - intros H. split; [apply (H [] t l eq_refl)|]. intros l1 i l2 -> . apply (H (t :: l1) i l2 eq_refl).
      - intros [H1 H2] [|t' l1] i l2 [= -> E]; [now subst|now apply (H2 l1)]. }
    rewrite TAIL. clear TAIL. rewrite Forall_cons_iff, known_iff.
    destruct (is_top IDENTIFICATION t) eqn:E1.
    { rewrite (IH true). cbn [filter length].
      assert ((0 <= (if room then 1 else 0))%nat) by lia. intuition. }
    destruct (is_top MODULE t) eqn:E2.
    { rewrite (IH false). cbn [filter]. rewrite E2. cbn [length]. destruct room; intuition (try discriminate; try lia). }
    cbn [filter]. rewrite E2. destruct (is_top STRTAB t) eqn:E3; destruct (is_top SYMTAB t) eqn:E4; cbn [orb];
      try rewrite (IH room); intuition (try discriminate; try lia).
Qed.

Lemma well_grouped_okay l : well_grouped l <-> okay false l.
Proof.
  rewrite okay_iff. unfold well_grouped. fold known.
  assert ((forall t, In t (segment l) -> is_top MODULE t = false) <->
          (length (filter (is_top MODULE) (segment l)) <= 0)%nat) as ->; [|reflexivity].
  induction (segment l) as [|t s IH]; cbn [filter In]; [cbn; intuition|].
  split.
  - intros H. rewrite (H t) by auto. apply IH. auto.
  - destruct (is_top MODULE t) eqn:E; cbn [length]; [lia|]. intros L t' [<-|I]; [exact E|]. now apply IH.
Qed.

(** A partial module made from trees. *)
Definition bm (m : tmodule) : partial :=
  mkPartial (build (tm_identification m)) (option_map build (tm_module m))
    (option_map build (tm_strtab m)) (option_map build (tm_symtab m)).

Definition orelse {A} (x y : option A) : option A := match x with Some _ => x | None => y end.
Definition fill (l : list tree) (p : partial) : partial :=
  mkPartial (pt_identification p) (pt_module p)
    (orelse (pt_strtab p) (option_map build (find (is_top STRTAB) l)))
    (orelse (pt_symtab p) (option_map build (find (is_top SYMTAB) l))).
Definition fill_module (l : list tree) (p : partial) : partial :=
  mkPartial (pt_identification p) (orelse (pt_module p) (option_map build (find (is_top MODULE) (segment l))))
    (pt_strtab p) (pt_symtab p).
Definition finish (l : list tree) (rp : list partial) : list partial :=
  match map (fill l) rp with [] => [] | p :: ps => fill_module l p :: ps end.

Definition room_of (rp : list partial) : bool :=
  match rp with [] => false | p :: _ => is_none (pt_module p) end.

(** Those without come first (in reverse order). *)
Fixpoint first_none {A} (g : partial -> option A) (rp : list partial) : Prop :=
  match rp with
  | [] => True
  | p :: rp' => (g p = None /\ first_none g rp') \/ Forall (fun q => g q <> None) rp
  end.

Lemma update_while_map {A} (g : partial -> option A) (f : partial -> partial) rp : first_none g rp ->
  update_while (fun p => is_none (g p)) f rp = map (fun p => if is_none (g p) then f p else p) rp.
Proof.
  induction rp as [|p rp IH]; [reflexivity|]. cbn [first_none update_while map]. intros [[H K]|H].
  - rewrite H. cbn [is_none]. now rewrite IH.
  - inversion H as [|? ? Hp Hr]; subst. destruct (g p) eqn:E; [|contradiction]. cbn [is_none]. f_equal.
    clear - Hr. induction rp as [|q rp IH]; [reflexivity|]. inversion Hr as [|? ? Hq Hr']; subst. cbn [map].
    destruct (g q); [|contradiction]. cbn [is_none]. f_equal. now apply IH.
Qed.

Lemma first_none_map {A B} (g : partial -> option A) (g' : partial -> option B) (f : partial -> partial) rp :
  (forall p, g (f p) = None <-> g' p = None) -> first_none g' rp -> first_none g (map f rp).
Proof.
  intros E. induction rp as [|p rp IH]; [trivial|]. cbn [first_none map]. intros [[H K]|H].
  - left. split; [now apply E|now apply IH].
  - right. change (f p :: map f rp) with (map f (p :: rp)). apply Forall_map. eapply Forall_impl; [|exact H].
    intros q Hq. cbn. now rewrite E.
Qed.
Lemma first_none_all {A} (g : partial -> option A) rp : (forall p, In p rp -> g p <> None) -> first_none g rp.
Proof. destruct rp as [|p rp]; intros H; [exact I|]. right. apply Forall_forall. exact H. Qed.

Lemma build_top t : is_blk t -> forall i, is_top (ir_block_id_num i) t = true <-> b_id (build t) = BIr i.
Proof.
  destruct t as [|bid len body]; [intros []|]. intros _ i. rewrite build_blk, steps_id. cbn [is_top block_new b_id].
  split.
  - intros H. apply N.eqb_eq in H. subst bid.
    apply (id_matches_fun (ir_block_id_num i)); [apply block_id_matches|reflexivity].
  - intros H. apply N.eqb_eq. apply (id_matches_inj _ _ (BIr i)); [rewrite <- H; apply block_id_matches|reflexivity].
Qed.

Lemma fill_id rp : map (fill []) rp = rp.
Proof. induction rp as [|[i m st sy] rp IH]; [reflexivity|]. cbn [map]. rewrite IH. f_equal. destruct st, sy; reflexivity. Qed.

Lemma finish_eq l l' rp rp' : map (fill l) rp = map (fill l') rp' ->
  (forall p ps, map (fill l) rp = p :: ps -> fill_module l p = fill_module l' p) ->
  finish l rp = finish l' rp'.
Proof. unfold finish. intros <- H. destruct (map (fill l) rp) as [|p ps]; [reflexivity|]. now rewrite (H p ps). Qed.

Lemma groups_spec l rp rp' : first_none pt_strtab rp -> first_none pt_symtab rp -> Forall is_blk l ->
  groups (map build l) rp = Ok rp' <-> okay (room_of rp) l /\ rp' = rev (map bm (modules_of l)) ++ finish l rp.
Proof.
  revert rp. induction l as [|t l IH]; intros rp F1 F2 B.
  - cbn [map groups okay modules_of rev app]. unfold finish. rewrite fill_id.
    assert (E : match rp with [] => [] | p :: ps => fill_module [] p :: ps end = rp).
    { destruct rp as [|[i m st sy] rp]; [reflexivity|]. unfold fill_module. cbn. now destruct m. }
    rewrite E. split; [intros [= ->]; auto|intros [_ ->]; reflexivity].
  - inversion B as [|? ? Bt Bl]; subst. pose proof (build_top t Bt) as T.
    pose proof (T IbIdentification) as T1. pose proof (T IbModule) as T2.
    pose proof (T IbStrtab) as T3. pose proof (T IbSymtab) as T4. clear T. cbn [ir_block_id_num] in *.
    change 13 with IDENTIFICATION in T1. change 8 with MODULE in T2.
    change 23 with STRTAB in T3. change 25 with SYMTAB in T4.
    cbn [map groups okay modules_of]. unfold group.
    destruct (is_top IDENTIFICATION t) eqn:E1.
    { assert (E2 : is_top MODULE t = false) by (apply (is_top_excl _ _ _ E1); discriminate).
      assert (E3 : is_top STRTAB t = false) by (apply (is_top_excl _ _ _ E1); discriminate).
      assert (E4 : is_top SYMTAB t = false) by (apply (is_top_excl _ _ _ E1); discriminate).
      rewrite (proj1 T1 eq_refl). cbn [obind]. rewrite (IH (partial_new (build t) :: rp)); [|left; auto|left; auto|exact Bl].
      cbn [room_of partial_new pt_module is_none].
      assert (EQ : rev (map bm (modules_of l)) ++ finish l (partial_new (build t) :: rp) =
              rev (map bm (mkTmodule t (find (is_top MODULE) (segment l)) (find (is_top STRTAB) l) (find (is_top SYMTAB) l)
                         :: modules_of l)) ++ finish (t :: l) rp); [|now rewrite EQ].
      cbn [map rev]. rewrite <- app_assoc. f_equal. unfold finish. cbn [map app].
      cbn [fill partial_new pt_identification pt_module pt_strtab pt_symtab orelse].
      unfold fill_module at 1. cbn [pt_identification pt_module pt_strtab pt_symtab orelse]. unfold bm. cbn [tm_identification tm_module tm_strtab tm_symtab].
      f_equal.
      assert (map (fill (t :: l)) rp = map (fill l) rp) as ->.
      { apply map_ext. intros p. unfold fill. cbn [find]. now rewrite E3, E4. }
      destruct (map (fill l) rp) as [|p ps]; [reflexivity|]. f_equal. unfold fill_module. cbn [segment]. rewrite E1. cbn.
      destruct p as [? m ? ?]; now destruct m. }
    destruct (is_top MODULE t) eqn:E2.
    { assert (E3 : is_top STRTAB t = false) by (apply (is_top_excl _ _ _ E2); discriminate).
      assert (E4 : is_top SYMTAB t = false) by (apply (is_top_excl _ _ _ E2); discriminate).
      rewrite (proj1 T2 eq_refl). destruct rp as [|p rp]; [cbn; split; [discriminate|intros [[K _] _]; discriminate K]|].
      cbn [room_of]. destruct (pt_module p) as [m|] eqn:M; cbn [is_none obind].
      { split; [discriminate|intros [[K _] _]; discriminate K]. }
      rewrite (IH (set_module (build t) p :: rp)); [| | |exact Bl].
      2:{ destruct F1 as [[H K]|H]; [left; auto|]. right. inversion H; subst. constructor; auto. }
      2:{ destruct F2 as [[H K]|H]; [left; auto|]. right. inversion H; subst. constructor; auto. }
      cbn [room_of set_module pt_module is_none].
      assert (EQ : finish l (set_module (build t) p :: rp) = finish (t :: l) (p :: rp)); [|rewrite EQ; tauto].
      unfold finish. cbn [map].
      assert (map (fill (t :: l)) rp = map (fill l) rp) as ->.
      { apply map_ext. intros q. unfold fill. cbn [find]. now rewrite E3, E4. }
      f_equal. unfold fill_module, fill, set_module. cbn [pt_identification pt_module pt_strtab pt_symtab segment find].
      rewrite E1, E3, E4, M. cbn [find]. rewrite E2. reflexivity. }
    destruct (is_top STRTAB t) eqn:E3.
    { assert (E4 : is_top SYMTAB t = false) by (apply (is_top_excl _ _ _ E3); discriminate).
      rewrite (proj1 T3 eq_refl). cbn [obind orb]. rewrite (update_while_map pt_strtab) by exact F1.
      rewrite IH; [| | |exact Bl].
      2:{ apply first_none_all. intros p I. apply in_map_iff in I as (q & <- & _). destruct (pt_strtab q) eqn:Q; cbn; [now rewrite Q|discriminate]. }
      2:{ apply (first_none_map pt_symtab pt_symtab); [|exact F2]. intros p. now destruct (is_none (pt_strtab p)). }
      assert (R : room_of (map (fun p => if is_none (pt_strtab p) then set_strtab (build t) p else p) rp) = room_of rp).
      { destruct rp as [|p rp]; [reflexivity|]. cbn. now destruct (is_none (pt_strtab p)). }
      rewrite R.
      assert (EQ : finish l (map (fun p => if is_none (pt_strtab p) then set_strtab (build t) p else p) rp) = finish (t :: l) rp).
      { apply finish_eq.
        - rewrite map_map. apply map_ext. intros p. unfold fill. cbn [find]. rewrite E3, E4.
          destruct p as [i m [st|] sy]; reflexivity.
        - intros p ps _. unfold fill_module. cbn [segment]. rewrite E1. cbn [find]. now rewrite E2. }
      rewrite EQ. tauto. }
    destruct (is_top SYMTAB t) eqn:E4.
    { rewrite (proj1 T4 eq_refl). cbn [obind orb]. rewrite (update_while_map pt_symtab) by exact F2.
      rewrite IH; [| | |exact Bl].
      3:{ apply first_none_all. intros p I. apply in_map_iff in I as (q & <- & _). destruct (pt_symtab q) eqn:Q; cbn; [now rewrite Q|discriminate]. }
      2:{ apply (first_none_map pt_strtab pt_strtab); [|exact F1]. intros p. now destruct (is_none (pt_symtab p)). }
      assert (R : room_of (map (fun p => if is_none (pt_symtab p) then set_symtab (build t) p else p) rp) = room_of rp).
      { destruct rp as [|p rp]; [reflexivity|]. cbn. now destruct (is_none (pt_symtab p)). }
      rewrite R.
      assert (EQ : finish l (map (fun p => if is_none (pt_symtab p) then set_symtab (build t) p else p) rp) = finish (t :: l) rp).
      { apply finish_eq.
        - rewrite map_map. apply map_ext. intros p. unfold fill. cbn [find]. rewrite E3, E4.
          destruct p as [i m st [sy|]]; reflexivity.
        - intros p ps _. unfold fill_module. cbn [segment]. rewrite E1. cbn [find]. now rewrite E2. }
      rewrite EQ. tauto. }
    cbn [orb]. split; [|intros [[] _]].
    destruct (b_id (build t)) as [|i|]; try discriminate. destruct i; try discriminate; intros _; exfalso;
      (discriminate (proj2 T1 eq_refl) || discriminate (proj2 T2 eq_refl) || discriminate (proj2 T3 eq_refl) || discriminate (proj2 T4 eq_refl)).
Qed.

Lemma find_blk l v t : find (is_top v) l = Some t -> is_top (match t with TBlk b _ _ => b | _ => 0 end) t = true.
Proof.
  intros H. apply find_some in H as [_ H]. destruct t; [discriminate H|]. cbn. apply N.eqb_refl.
Qed.

Lemma carries_bm l : Forall2 carries (modules_of l) (map bm (modules_of l)).
Proof.
  induction l as [|t l IH]; [constructor|]. cbn [modules_of]. destruct (is_top IDENTIFICATION t) eqn:E; [|exact IH].
  cbn [map]. constructor; [|exact IH]. unfold carries, bm. cbn.
  split; [apply build_unrolled; destruct t; [discriminate E|cbn; apply N.eqb_refl]|].
  assert (G : forall v l0, option_rel unrolled (find (is_top v) l0) (option_map build (find (is_top v) l0))).
  { intros v l0. destruct (find (is_top v) l0) as [t'|] eqn:F; cbn; [|trivial]. eapply build_unrolled, find_blk, F. }
  auto.
Qed.

(** *** The parser *)

Lemma yields_run e s l s' n : yields (next e cursor_ops) s l s' -> 
  run e cursor_ops (length l + n) s = map (fun x => Some (Ok x)) l ++ run e cursor_ops n s'.
Proof.
  revert s. induction l as [|x l IH]; intros s Y; [cbn in Y; now subst|]. destruct Y as (s1 & E & Y).
  cbn [length Nat.add run map app]. rewrite E. f_equal. now apply IH.
Qed.
Lemma run_yields e s l n r : run e cursor_ops n s = map (fun x => Some (Ok x)) l ++ [r] ->
  exists s', yields (next e cursor_ops) s l s' /\ fst (next e cursor_ops s') = r.
Proof.
  revert s n. induction l as [|x l IH]; intros s n H.
  - exists s. split; [reflexivity|]. destruct n as [|n]; [discriminate H|]. cbn [run map app] in H.
    destruct (next e cursor_ops s) as [r' s']. now injection H.
  - destruct n as [|n]; [discriminate H|]. cbn [run map app] in H. destruct (next e cursor_ops s) as [r' s1] eqn:E.
    injection H as -> H. apply IH in H as (s' & Y & K). exists s'. split; [|exact K]. now exists s1.
Qed.
Lemma yields_reach e s l s' : parser_reachable e s -> yields (next e cursor_ops) s l s' -> parser_reachable e s'.
Proof. intros H Y. apply (yields_P (next e cursor_ops) (parser_reachable e) (fun s => PRNext e s) l s s' H Y). Qed.

Lemma reach_fuel e s : parser_reachable e s -> fst (next e cursor_ops s) <> Some OutOfFuel.
Proof.
  intros H. pose proof (advance_main e s H) as (_ & _ & K & _). unfold next.
  destruct (advance e cursor_ops s) as [[x|[]|p|] s']; cbn in *; try discriminate. contradiction.
Qed.
Lemma leading_map l r : leading (map (fun x => Some (Ok x)) l ++ r) = l ++ leading r.
Proof. induction l as [|x l IH]; [reflexivity|]. cbn. now rewrite IH. Qed.
Lemma reach_bounded e s : parser_reachable e s -> bounded (next e cursor_ops) s (N.to_nat (total s)).
Proof.
  intros H l s' Y. pose proof (yields_run e s l s' 0 Y) as R. cbn [run] in R.
  pose proof (run_leading e (length l + 0) s H) as K. rewrite R, leading_map, app_nil_r in K. lia.
Qed.

Lemma unroll_ok e s parts : parser_reachable e s -> unroll e s = Ok parts ->
  exists forest, stream_is e s forest /\ well_grouped forest /\ Forall2 carries (modules_of forest) parts.
Proof.
  intros HR H. unfold unroll in H.
  destruct (tops (next e cursor_ops) (N.to_nat (bit_len (p_cur s)) + 2) [] s) as [rp|x|p|] eqn:E; try discriminate H.
  injection H as <-. apply tops_sound in E as (forest & s' & Y & N & B & G). exists forest.
  apply groups_spec in G as [G ->]; [|exact I|exact I|exact B].
  split; [|split].
  - exists (length (flat_map flat forest) + 1)%nat. rewrite (yields_run e s _ s' 1 Y). cbn [run].
    destruct (next e cursor_ops s') as [r s2]. cbn in N. now subst r.
  - now apply well_grouped_okay.
  - unfold finish. cbn [map]. rewrite app_nil_r, rev_involutive. apply carries_bm.
Qed.

Lemma grouped_blk l : well_grouped l -> Forall is_blk l.
Proof.
  intros [H _]. eapply Forall_impl; [|exact H]. intros t (v & K & _). destruct t; [discriminate K|exact I].
Qed.

Lemma unroll_accepts e s forest : parser_reachable e s -> stream_is e s forest -> well_grouped forest ->
  exists parts, unroll e s = Ok parts.
Proof.
  intros HR [n HS] W. apply run_yields in HS as (s' & Y & N). pose proof (grouped_blk _ W) as B.
  pose proof (reach_bounded e s HR _ _ Y) as L. unfold total in L.
  unfold unroll. rewrite (tops_complete _ _ forest [] s s' Y N B) by lia.
  rewrite (proj2 (groups_spec forest [] (rev (map bm (modules_of forest)) ++ finish forest []) I I B)).
  - eexists. reflexivity.
  - split; [now apply well_grouped_okay|reflexivity].
Qed.

Lemma unroll_terminates e s : parser_reachable e s -> unroll e s <> OutOfFuel.
Proof.
  intros HR. unfold unroll.
  pose proof (tops_fuel (next e cursor_ops) (parser_reachable e) (fun s => PRNext e s) (reach_fuel e)
    (N.to_nat (bit_len (p_cur s)) + 2) [] s _ HR (reach_bounded e s HR)) as K.
  unfold total in K. destruct (tops _ _ _ _); cbn; try discriminate. intros _. apply K; [lia|reflexivity].
Qed.

(** The failures of [unroll] that come from the parser. *)
Lemma unroll_fails e s : tops_fails (next e cursor_ops) s (unroll e s).
Proof.
  unfold unroll. pose proof (tops_err (next e cursor_ops) (N.to_nat (bit_len (p_cur s)) + 2) [] s) as H.
  destruct (tops _ _ _ _) as [x|x|p|]; cbn in *; auto.
Qed.

Lemma said_run e s r : said (next e cursor_ops) s r -> exists n l, run e cursor_ops n s = map (fun x => Some (Ok x)) l ++ [r].
Proof.
  intros (l & s' & Y & H). exists (length l + 1)%nat, l. rewrite (yields_run e s l s' 1 Y). cbn [run].
  destruct (next e cursor_ops s') as [r' s2]. cbn in H. now subst r'.
Qed.
