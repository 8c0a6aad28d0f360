(** How large the types of a type table can be. *)
From Verif Require Import Base Strings EnumModel SupportModel UnrollModel AttributeModel LayoutMain TypeTableModel TypeTableSpec TypeTableProofs
  TypeTableMain RecursionSpec ResourceSpec.
From Coq Require Import Lia ZifyBool ZifyNat ZifyN.
Local Open Scope N_scope.

Lemma nodes_pos t : 1 <= type_nodes t.
Proof. destruct t; cbn [type_nodes]; lia. Qed.
Lemma sum_app l1 l2 : sum (l1 ++ l2) = sum l1 + sum l2.
Proof. unfold sum. induction l1 as [|x l1 IH]; cbn [app fold_right]; lia. Qed.
Lemma sum_le l k : Forall (fun x => x <= k) l -> sum l <= N.of_nat (length l) * k.
Proof. unfold sum. induction 1 as [|x l H F IH]; cbn [fold_right length]; [lia|]. nia. Qed.
Lemma list_max_le' l k : Forall (fun x => (x <= k)%nat) l -> (list_max l <= k)%nat.
Proof. apply list_max_le. Qed.

(** *** Upper bounds *)

Lemma simple_leaf c t : In (c, t) simple_types -> type_nodes t = 1 /\ type_depth t = 1%nat.
Proof. intros H. cbn in H. repeat (destruct H as [[= _ <-]|H]; [now split|]). destruct H. Qed.

Lemma Forall2_right {A B} (R : A -> B -> Prop) (Q : B -> Prop) l m : (forall a b, R a b -> Q b) -> Forall2 R l m -> Forall Q m.
Proof. intros H. induction 1; constructor; eauto. Qed.

Lemma Forall2_same_length {A B} (R : A -> B -> Prop) l m : Forall2 R l m -> length l = length m.
Proof. induction 1; cbn; congruence. Qed.

Section Bounds.
  Variable P : list ptype.
  Hypothesis PO : Forall pt_ok P.

  Lemma rref_in f i t : rref_of f P i = Ok t -> exists p, In p P /\ resolve f P p = Ok t.
  Proof.
    unfold rref_of. destruct (nth_error P (N.to_nat i)) as [p|] eqn:E; cbn; [|discriminate].
    intros H. exists p. split; [eapply nth_error_In, E|exact H].
  Qed.

  Lemma resolve_depth f : forall p t, pt_ok p -> resolve f P p = Ok t -> (type_depth t <= f)%nat.
  Proof.
    induction f as [|f IH]; intros p t O H; [discriminate H|]. rewrite resolve_S in H. apply body_exact in H.
    assert (R : forall i x, rref_of f P i = Ok x -> (type_depth x <= f)%nat).
    { intros i x E. apply rref_in in E as (q & I1 & E). rewrite Forall_forall in PO. eauto. }
    assert (RS : forall js xs, Forall2 (fun i x => rref_of f P i = Ok x) js xs -> (list_max (map type_depth xs) <= f)%nat).
    { intros js xs F. apply list_max_le', Forall_map. revert F. apply Forall2_right. exact R. }
    destruct p; cbn [pdesc pt_ok] in H, O.
    - subst t. destruct O as (c & O). apply simple_leaf in O as [_ ->]. lia.
    - destruct H as [_ ->]. cbn. lia.
    - destruct H as (x & xs & X & XS & _ & _ & ->). apply R in X. apply RS in XS. cbn [type_depth]. lia.
    - destruct H as (x & X & _ & ->). apply R in X. cbn [type_depth]. lia.
    - subst t. cbn. lia.
    - destruct H as (xs & XS & _ & ->). apply RS in XS. cbn [type_depth]. lia.
    - destruct H as (x & X & _ & ->). apply R in X. cbn [type_depth]. lia.
    - destruct H as (x & X & _ & ->). apply R in X. cbn [type_depth]. lia.
    - destruct H as (x & X & _ & ->). apply R in X. cbn [type_depth]. lia.
  Qed.

  Variable m : N.
  Hypothesis PM : Forall (fun p => N.of_nat (length (prefs p)) <= m) P.

  Lemma resolve_nodes f : forall p t, In p P -> resolve f P p = Ok t -> type_nodes t <= (m + 1) ^ N.of_nat f.
  Proof.
    induction f as [|f IH]; intros p t IN H; [discriminate H|]. rewrite resolve_S in H. apply body_exact in H.
    assert (O : pt_ok p) by (rewrite Forall_forall in PO; auto).
    assert (M : N.of_nat (length (prefs p)) <= m) by (rewrite Forall_forall in PM; auto).
    set (k := (m + 1) ^ N.of_nat f) in *.
    assert (K : 1 <= k). { pose proof (N.pow_nonzero (m + 1) (N.of_nat f)). unfold k. lia. }
    assert (E : (m + 1) ^ N.of_nat (S f) = k + m * k).
    { rewrite Nat2N.inj_succ, N.pow_succ_r'. unfold k. lia. }
    rewrite E. clear E.
    assert (R : forall i x, rref_of f P i = Ok x -> type_nodes x <= k).
    { intros i x E. apply rref_in in E as (q & I1 & E). eauto. }
    assert (RS : forall js xs, Forall2 (fun i x => rref_of f P i = Ok x) js xs -> sum (map type_nodes xs) <= N.of_nat (length js) * k).
    { intros js xs F. rewrite (Forall2_same_length _ _ _ F), <- (map_length type_nodes xs). apply sum_le, Forall_map. revert F. apply Forall2_right. exact R. }
    clearbody k. destruct p; cbn [pdesc pt_ok prefs length] in H, O, M.
    - subst t. destruct O as (c & O). apply simple_leaf in O as [-> _]. nia.
    - destruct H as [_ ->]. cbn. nia.
    - destruct H as (x & xs & X & XS & _ & _ & ->). apply R in X. apply RS in XS. cbn [type_nodes]. nia.
    - destruct H as (x & X & _ & ->). apply R in X. cbn [type_nodes]. nia.
    - subst t. cbn. nia.
    - destruct H as (xs & XS & _ & ->). apply RS in XS. cbn [type_nodes]. nia.
    - destruct H as (x & X & _ & ->). apply R in X. cbn [type_nodes]. nia.
    - destruct H as (x & X & _ & ->). apply R in X. cbn [type_nodes]. nia.
    - destruct H as (x & X & _ & ->). apply R in X. cbn [type_nodes]. nia.
  Qed.
End Bounds.

(** The references of an entry are among the fields of a record. *)
Lemma step_refs e P name r P' name' m : N.of_nat (length (r_fields r)) <= m ->
  Forall (fun p => N.of_nat (length (prefs p)) <= m) P -> type_step e (P, name) r = Ok (P', name') ->
  Forall (fun p => N.of_nat (length (prefs p)) <= m) P'.
Proof.
  intros L O H. cbn [type_step] in H. apply obind_iff in H as (c & C & H).
  set (Q := fun p => N.of_nat (length (prefs p)) <= m) in *.
  assert (A : forall p, Q p -> @Ok tt_err _ (P ++ [p], name) = Ok (P', name') -> Forall Q P').
  { intros p K [= <- <-]. apply Forall_app. auto. }
  assert (Q0 : forall p, prefs p = [] -> Q p) by (intros p K; unfold Q; rewrite K; cbn; lia).
  assert (F : forall k x, type_field r k = Ok x -> (k < length (r_fields r))%nat).
  { intros k x K. unfold type_field in K. apply nth_error_Some. destruct (nth_error (r_fields r) k); discriminate. }
  destruct c; try discriminate;
    try (apply A in H; [exact H|apply Q0; reflexivity]);
    repeat match goal with
      | H : obind (type_field _ _) _ = Ok _ |- _ => let K := fresh "K" in apply obind_iff in H as (? & K & H); apply F in K
      | H : obind (omap_err _ (address_space_of _)) _ = Ok _ |- _ => let K := fresh "K" in apply obind_iff in H as (? & K & H)
      | H : obind (omap_err _ (try_string _ _ _)) _ = Ok _ |- _ => apply obind_iff in H as (? & ? & H)
      end;
    try (injection H as <- <-; exact O);
    try (apply A in H; [exact H|unfold Q; cbn [prefs length]; rewrite ?skipn_length; lia]).
  - destruct name; [discriminate|]. destruct (split_last P) as [[f x]|] eqn:S.
    + apply split_last_some in S as ->. apply Forall_app in O as [O1 O2].
      destruct x as [| | | | |[] fs pk| | |]; try discriminate; injection H as <- <-; rewrite ?Forall_app; repeat split; auto; constructor; auto; now inversion O2.
    + injection H as <- <-. apply Forall_app. split; [exact O|]. constructor; auto.
  - destruct (match nth_error (r_fields r) 2 with None => false | Some f => 0 <? f end); (apply A in H; [exact H|unfold Q; cbn; lia]).
  - assert (QS : forall n pk, Q (PtStruct n (skipn 1 (r_fields r)) pk)) by (intros n pk; unfold Q; cbn [prefs]; rewrite skipn_length; lia).
    destruct (split_last P) as [[f y]|] eqn:S.
    + apply split_last_some in S as ->. apply Forall_app in O as [O1 O2].
      destruct y as [| | | | |[] [] pk| | |]; try discriminate; injection H as <- <-; rewrite ?Forall_app; repeat split; auto; constructor; auto; now inversion O2.
    + injection H as <- <-. apply Forall_app. split; [exact O|]. constructor; auto.
Qed.
Lemma loop_refs e l P name P' name' m : Forall (fun r => N.of_nat (length (r_fields r)) <= m) l ->
  Forall (fun p => N.of_nat (length (prefs p)) <= m) P -> type_loop e l (P, name) = Ok (P', name') ->
  Forall (fun p => N.of_nat (length (prefs p)) <= m) P'.
Proof.
  intros L. revert P name. induction L as [|r l R L IH]; intros P name O H; cbn [type_loop] in H; [injection H as <- <-; exact O|].
  apply obind_iff in H as ([P1 n1] & S & H). eapply step_refs in S; eauto.
Qed.

Lemma table_entries e b T : type_table_of e b = Ok T -> exists P name, type_loop e (b_records b) ([], []) = Ok (P, name) /\
  Forall pt_ok P /\ length P = length T /\ Forall2 (fun p t => resolve (length P) P p = Ok t) P T.
Proof.
  unfold type_table_of. intros H. apply obind_iff in H as (r & _ & H). apply obind_iff in H as (n & _ & H).
  destruct (alloc_limit e <? n); [discriminate H|]. apply obind_iff in H as ([P name] & E & H). exists P, name. split; [exact E|].
  pose proof (loop_ok _ _ _ _ _ _ (Forall_nil _) E) as PO. split; [exact PO|].
  unfold reify, reify_with in H. destruct (_ =? n); [|discriminate H]. apply collect_iff in H. split; [exact (Forall2_same_length _ _ _ H)|].
  assert (W : forall l l', Forall (fun p => In p P) l -> Forall2 (fun p t => resolve (S (length P)) P p = Ok t) l l' ->
    Forall2 (fun p t => resolve (length P) P p = Ok t) l l').
  { intros l l' I1 F. revert I1. induction F as [|p t l l' X F IH]; intros I1; constructor.
    - inversion I1; subst. rewrite (resolve_enough (S (length P)) P p); [exact X|assumption|congruence].
    - apply IH. now inversion I1. }
  apply W; [|exact H]. apply Forall_forall. auto.
Qed.

Lemma table_depth e b T : type_table_of e b = Ok T -> Forall (fun t => (type_depth t <= length T)%nat) T.
Proof.
  intros H. apply table_entries in H as (P & name & _ & PO & <- & F).
  assert (W : forall l l', Forall pt_ok l -> Forall2 (fun p t => resolve (length P) P p = Ok t) l l' ->
    Forall (fun t => (type_depth t <= length P)%nat) l').
  { intros l l' I1 F'. revert I1. induction F' as [|p t l l' X F' IH]; intros I1; constructor.
    - inversion I1; subst. now apply (resolve_depth P PO _ p).
    - apply IH. now inversion I1. }
  now apply (W P).
Qed.
Lemma table_size e b T m : type_table_of e b = Ok T -> Forall (fun r => N.of_nat (length (r_fields r)) <= m) (b_records b) ->
  Forall (fun t => type_nodes t <= (m + 1) ^ N.of_nat (length T)) T.
Proof.
  intros H M. apply table_entries in H as (P & name & E & PO & <- & F).
  pose proof (loop_refs _ _ _ _ _ _ _ M (Forall_nil _) E) as PM.
  assert (W : forall l l', Forall (fun p => In p P) l -> Forall2 (fun p t => resolve (length P) P p = Ok t) l l' ->
    Forall (fun t => type_nodes t <= (m + 1) ^ N.of_nat (length P)) l').
  { intros l l' I1 F'. revert I1. induction F' as [|p t l l' X F' IH]; intros I1; constructor.
    - inversion I1; subst. now apply (resolve_nodes P PO m PM _ p).
    - apply IH. now inversion I1. }
  apply (W P); [apply Forall_forall; auto|exact F].
Qed.

(** *** Lower bound *)

Fixpoint doubled (n : nat) : ty :=
  match n with
  | O => TInteger 32
  | S k => TStruct None [doubled k; doubled k] false
  end.
Lemma doubled_nodes n : type_nodes (doubled n) = 2 ^ (N.of_nat n + 1) - 1.
Proof.
  induction n as [|n IH]; [reflexivity|]. cbn [doubled type_nodes map sum fold_right]. rewrite IH.
  replace (N.of_nat (S n) + 1) with (N.succ (N.of_nat n + 1)) by lia. rewrite N.pow_succ_r'.
  pose proof (N.pow_nonzero 2 (N.of_nat n + 1)). lia.
Qed.

Definition pair_entry (i : nat) : ptype := match i with O => PtInteger 32 | S k => PtStruct None [N.of_nat k; N.of_nat k] false end.
Definition pair_record (i : nat) : record :=
  match i with O => mkRecord None 7 [32] | S k => mkRecord None 18 [0; N.of_nat k; N.of_nat k] end.
Definition pair_records (n : nat) : list record := mkRecord None 1 [N.of_nat (S n)] :: map pair_record (seq 0 (S n)).

Lemma pair_step e P i : type_step e (P, []) (pair_record i) = Ok (P ++ [pair_entry i], []).
Proof. destruct i; reflexivity. Qed.
Lemma pair_loop e l P : type_loop e (map pair_record l) (P, []) = Ok (P ++ map pair_entry l, []).
Proof.
  revert P. induction l as [|i l IH]; intros P; cbn [map type_loop]; [now rewrite app_nil_r|].
  rewrite pair_step. cbn [obind]. rewrite IH. now rewrite <- app_assoc.
Qed.
Lemma doubled_field n : is_struct_element (doubled n) = true.
Proof. now destruct n. Qed.
Lemma pair_resolve n i f : (i < f)%nat -> (i <= n)%nat -> resolve f (map pair_entry (seq 0 (S n))) (pair_entry i) = Ok (doubled i).
Proof.
  revert f. induction i as [|i IH]; intros f L M; (destruct f as [|f]; [lia|]); [reflexivity|].
  rewrite resolve_S. cbn [pair_entry resolve_body].
  assert (R : rref_of f (map pair_entry (seq 0 (S n))) (N.of_nat i) = Ok (doubled i)).
  { unfold rref_of. rewrite Nat2N.id.
    rewrite (map_nth_error pair_entry i (seq 0 (S n)) (d := i)).
    - cbn [ok_or obind]. apply IH; lia.
    - rewrite nth_error_nth' with (d := O); [|rewrite seq_length; lia]. f_equal. rewrite seq_nth; lia. }
  cbn [collect]. rewrite R. cbn [obind]. cbn [doubled]. unfold new_struct. cbn [find]. now rewrite doubled_field.
Qed.
Lemma pair_table e b n : b_records b = pair_records n -> N.of_nat (S n) <= alloc_limit e ->
  type_table_of e b = Ok (map doubled (seq 0 (S n))).
Proof.
  intros E L. unfold type_table_of. rewrite E.
  assert (O : one (type_code_num TcNumEntry) (pair_records n) = Some (mkRecord None 1 [N.of_nat (S n)])) by reflexivity.
  rewrite O. cbn [ok_or obind r_fields hd_error]. replace (alloc_limit e <? N.of_nat (S n)) with false by lia.
  assert (PL : type_loop e (pair_records n) ([], []) = Ok (map pair_entry (seq 0 (S n)), [])) by exact (pair_loop e (seq 0 (S n)) []).
  rewrite PL. cbn [obind]. unfold reify, reify_with. rewrite map_length, seq_length, N.eqb_refl.
  apply collect_iff.
  assert (W : forall l, (forall i, In i l -> (i <= n)%nat) ->
    Forall2 (fun p t => resolve (S (S n)) (map pair_entry (seq 0 (S n))) p = Ok t) (map pair_entry l) (map doubled l)).
  { induction l as [|i l IH]; intros H; cbn [map]; constructor.
    - apply pair_resolve; specialize (H i (or_introl eq_refl)); lia.
    - apply IH. intros j J. apply H. now right. }
  apply W. intros i I1. apply in_seq in I1. lia.
Qed.
Lemma pair_size n : sum (map record_size (pair_records n)) = 4 * N.of_nat n + 4.
Proof.
  unfold pair_records. cbn [map sum fold_right]. fold (sum (map record_size (map pair_record (seq 0 (S n))))).
  change (record_size (mkRecord None 1 [N.of_nat (S n)])) with 2.
  enough (sum (map record_size (map pair_record (seq 0 (S n)))) = 4 * N.of_nat n + 2) by lia.
  cbn [seq map]. unfold sum. cbn [fold_right]. change (record_size (pair_record 0)) with 2.
  enough (forall k m, fold_right N.add 0 (map record_size (map pair_record (seq (S m) k))) = 4 * N.of_nat k) as -> by lia.
  induction k as [|k IH]; intros m; [reflexivity|]. cbn [seq map fold_right]. rewrite IH. cbn [pair_record]. unfold record_size. cbn [r_fields length]. lia.
Qed.
Lemma table_nodes_last l t : type_nodes t <= table_nodes (l ++ [t]).
Proof. unfold table_nodes. rewrite map_app, sum_app. cbn. lia. Qed.

Lemma types_explode e n : N.of_nat n < alloc_limit e ->
  exists b T, records_size b = 4 * N.of_nat n + 4 /\ type_table_of e b = Ok T /\ length T = S n /\ 2 ^ N.of_nat n <= table_nodes T.
Proof.
  intros L. exists (mkBlock (BIr IbType) (pair_records n) []), (map doubled (seq 0 (S n))).
  split; [apply pair_size|]. split; [apply pair_table; [reflexivity|lia]|]. split; [now rewrite map_length, seq_length|].
  rewrite seq_S, map_app. cbn [map]. pose proof (table_nodes_last (map doubled (seq 0 n)) (doubled n)) as K.
  rewrite doubled_nodes in K. replace (0 + n)%nat with n by lia. revert K.
  replace (N.of_nat n + 1) with (N.succ (N.of_nat n)) by lia. rewrite N.pow_succ_r'. 
  pose proof (N.pow_nonzero 2 (N.of_nat n)). lia.
Qed.

Lemma types_disproportionate c : c < 2 ^ 64 -> exists b T, type_table_of debug_env b = Ok T /\ c * records_size b < table_nodes T.
Proof.
  intros L. destruct (types_explode debug_env 80) as (b & T & S1 & E & _ & K); [vm_compute; reflexivity|].
  exists b, T. split; [exact E|]. rewrite S1. change (4 * N.of_nat 80 + 4) with 324. change (2 ^ N.of_nat 80) with (2 ^ 64 * 65536) in K.
  lia.
Qed.
