(** Exactly which type tables make the resolution run forever. *)
From Verif Require Import Base Strings StringsProofs EnumModel SupportModel SupportSpec SupportMain UnrollModel UnrollApi
  AttributeModel AttributeSpec AttributeProofs AttributeMain LayoutMain TablesSpec TablesProofs TypeTableModel TypeTableSpec
  RecursionSpec TypeTableProofs TypeTableMain.
From Coq Require Import Lia ZifyBool ZifyNat ZifyN.
Ltac Zify.zify_post_hook ::= Z.div_mod_to_equations.
Local Open Scope N_scope.
#[local] Arguments N.add : simpl never.

Definition fine {E A} (x : outcome E A) : Prop := x = OutOfFuel \/ exists a, x = Ok a.
Lemma collect_out_of {E A B} (f : A -> outcome E B) pre a post :
  Forall (fun x => fine (f x)) pre -> f a = OutOfFuel -> collect f (pre ++ a :: post) = OutOfFuel.
Proof.
  intros F H. induction F as [|x pre [X | (b & X)] F IH]; cbn [app collect].
  - now rewrite H.
  - now rewrite X.
  - rewrite X. cbn [obind]. now rewrite IH.
Qed.
Lemma collect_out {E A B} (f : A -> outcome E B) l : collect f l = OutOfFuel ->
  exists pre a post, l = pre ++ a :: post /\ Forall (fun x => exists b, f x = Ok b) pre /\ f a = OutOfFuel.
Proof.
  induction l as [|x l IH]; cbn [collect]; [discriminate|]. intros H.
  apply obind_fuel in H as [H | (b & B' & H)].
  - exists [], x, l. auto.
  - apply obind_fuel in H as [H | (bs & _ & H)]; [|discriminate].
    destruct (IH H) as (pre & a & post & -> & F & O). exists (x :: pre), a, post. split; [reflexivity|]. split; [|exact O].
    constructor; eauto.
Qed.
Lemma body_out g p : resolve_body g p = OutOfFuel <-> collect g (prefs p) = OutOfFuel.
Proof.
  assert (O : forall (x : outcome ty_err ty), x <> OutOfFuel -> omap_err TtType x <> OutOfFuel) by (intros [| | |]; cbn; congruence).
  assert (X : forall (f : ty -> outcome ty_err ty) j, (forall t, f t <> OutOfFuel) ->
    ((let? t := g j in omap_err TtType (f t)) = OutOfFuel <-> collect g [j] = OutOfFuel)).
  { intros f j F. cbn [collect]. destruct (g j) as [t|x|x|]; cbn [obind]; try (split; discriminate); [|tauto].
    split; [|discriminate]. intros H. destruct (O (f t) (F t) H). }
  destruct p; cbn [resolve_body prefs].
  - cbn. split; discriminate.
  - cbn [collect]. split; [|discriminate]. intros H. exfalso. revert H. apply O. unfold new_integer. destruct (_ && _)%bool; discriminate.
  - cbn [collect]. match goal with |- obind (g ?i) _ = _ <-> _ => destruct (g i) as [t|x|x|] end; cbn [obind]; try (split; discriminate); [|tauto].
    match goal with |- obind (collect g ?i) _ = _ <-> _ => destruct (collect g i) as [ts|x|x|] end; cbn [obind]; try (split; discriminate); [|tauto].
    split; [|discriminate]. intros H. exfalso. revert H. apply O. unfold new_function. destruct (negb _); [discriminate|]. destruct (find _ _); discriminate.
  - apply (X (fun t => new_pointer t address_space)). intros t. unfold new_pointer. destruct (is_pointee t); discriminate.
  - cbn. split; discriminate.
  - match goal with |- obind (collect g ?i) _ = _ <-> _ => destruct (collect g i) as [ts|x|x|] end; cbn [obind]; try (split; discriminate); [|tauto].
    split; [|discriminate]. intros H. exfalso. revert H. apply O. unfold new_struct. destruct (find _ _); discriminate.
  - apply (X (fun t => new_array num_elements t)). intros t. unfold new_array. destruct (is_array_element t); discriminate.
  - apply (X (fun t => new_vector num_elements t)). intros t. unfold new_vector. destruct (is_vector_element t); discriminate.
  - apply (X (fun t => new_scalable_vector num_elements t)). intros t. unfold new_scalable_vector. destruct (is_vector_element t); discriminate.
Qed.

Lemma resolves_fine P k p f : resolves P k -> nth_error P k = Some p -> fine (resolve f P p).
Proof.
  intros (p' & f' & t & K & R) K'. rewrite K in K'. injection K' as ->.
  destruct (resolve f P p) eqn:X; [right; eauto| | |now left]; exfalso.
  all: assert (A : resolve f P p <> OutOfFuel) by congruence; apply resolve_any in A;
    assert (B : resolve f' P p <> OutOfFuel) by congruence; apply resolve_any in B; congruence.
Qed.
Lemma descends_out P path : descends P path -> forall f j p, nth_error P (path j) = Some p -> resolve f P p = OutOfFuel.
Proof.
  intros D. induction f as [|f IH]; intros j p K; [reflexivity|]. rewrite resolve_S. apply body_out.
  destruct (D j) as (p' & pre & i & post & K' & E & N' & F). rewrite K in K'. injection K' as <-. rewrite E. apply collect_out_of.
  - refine (Forall_impl _ _ F). intros x R. unfold rref_of. destruct R as (q & R). pose proof R as (f' & t & Q & R'). rewrite Q. cbn [ok_or obind].
    apply (resolves_fine P (N.to_nat x)); [exists q; exact R|exact Q].
  - unfold rref_of. rewrite <- N'. destruct (D (S j)) as (q & _ & _ & _ & Q & _). rewrite Q. cbn [ok_or obind]. now apply (IH (S j)).
Qed.

Section Path.
  Variable P : list ptype.
  Let F := S (length P).
  Definition stuck (k : nat) : Prop := exists p, nth_error P k = Some p /\ resolve F P p = OutOfFuel.
  Definition next (k : nat) : nat :=
    match nth_error P k with
    | None => O
    | Some p =>
        match find (fun i => match rref_of F P i with OutOfFuel => true | _ => false end) (prefs p) with
        | None => O
        | Some i => N.to_nat i
        end
    end.
  Lemma find_behind {A} (g : A -> bool) pre a post : Forall (fun x => g x = false) pre -> g a = true -> find g (pre ++ a :: post) = Some a.
  Proof. intros X G. induction X as [|x pre X _ IH]; cbn; [now rewrite G|]. now rewrite X. Qed.
  Lemma rref_ok i : (exists t, rref_of F P i = Ok t) -> resolves P (N.to_nat i).
  Proof.
    intros (t & H). unfold rref_of in H. destruct (nth_error P (N.to_nat i)) as [p|] eqn:Q; cbn [ok_or obind] in H; [|discriminate].
    exists p, F, t. auto.
  Qed.
  Lemma stuck_next k : stuck k -> stuck (next k) /\ exists p pre i post, nth_error P k = Some p /\ prefs p = pre ++ i :: post /\
    next k = N.to_nat i /\ Forall (fun i => resolves P (N.to_nat i)) pre.
  Proof.
    intros (p & K & R). assert (R' : resolve (S F) P p = OutOfFuel).
    { destruct (resolve (S F) P p) eqn:X; try reflexivity; exfalso;
        (assert (A : resolve (S F) P p <> OutOfFuel) by congruence; apply resolve_any in A; fold F in A; congruence). }
    rewrite resolve_S in R'. apply body_out, collect_out in R' as (pre & i & post & E & G & O).
    assert (NX : next k = N.to_nat i).
    { unfold next. rewrite K, E. rewrite (find_behind _ pre i post); [reflexivity| |now rewrite O].
      refine (Forall_impl _ _ G). intros x (t & ->). reflexivity. }
    split.
    - rewrite NX. unfold rref_of in O. destruct (nth_error P (N.to_nat i)) as [q|] eqn:Q; cbn [ok_or obind] in O; [|discriminate].
      exists q. auto.
    - exists p, pre, i, post. repeat split; auto. refine (Forall_impl _ _ G). intros x X. now apply rref_ok.
  Qed.
  Definition walk (k : nat) : nat -> nat := fix walk j := match j with O => k | S j => next (walk j) end.
  Lemma walk_stuck k : stuck k -> forall j, stuck (walk k j).
  Proof. intros H. induction j as [|j IH]; [exact H|]. cbn. now apply stuck_next. Qed.
  Lemma walk_descends k : stuck k -> descends P (walk k).
  Proof. intros H j. apply (proj2 (stuck_next _ (walk_stuck k H j))). Qed.
End Path.

Lemma nth_error_behind {A} (pre : list A) a post : nth_error (pre ++ a :: post) (length pre) = Some a.
Proof. rewrite nth_error_app2, Nat.sub_diag by lia. reflexivity. Qed.

Lemma endless_out P f : endless_types P -> collect (resolve f P) P = OutOfFuel.
Proof.
  intros (path & B & D). destruct (D O) as (p & _ & _ & _ & K & _). pose proof (descends_out P path D f O p K) as O'.
  destruct (nth_error_split P (path 0%nat) K) as (pre & post & E & L). rewrite E at 2. apply collect_out_of; [|exact O'].
  apply Forall_forall. intros q Q. apply In_nth_error in Q as (k & Q).
  assert (k < length pre)%nat by (apply nth_error_Some; congruence).
  apply (resolves_fine P k); [apply B; lia|]. rewrite E, nth_error_app1 by lia. exact Q.
Qed.
Lemma out_endless P : collect (resolve (S (length P)) P) P = OutOfFuel -> endless_types P.
Proof.
  intros H. apply collect_out in H as (pre & p & post & E & G & O). exists (walk P (length pre)). split.
  - cbn. intros k L. assert (X : nth_error pre k <> None) by (apply nth_error_Some; lia). destruct (nth_error pre k) as [q|] eqn:Q; [|congruence].
    pose proof (proj1 (Forall_forall _ _) G q (nth_error_In _ _ Q)) as (t & T). exists q, (S (length P)), t. split; [|exact T].
    rewrite E, nth_error_app1 by lia. exact Q.
  - apply walk_descends. exists p. split; [|exact O]. rewrite E. apply nth_error_behind.
Qed.

Lemma reify_endless n P : (forall f, reify_with f n P = OutOfFuel) <-> n = N.of_nat (length P) /\ endless_types P.
Proof.
  unfold reify_with. destruct (N.eqb_spec (N.of_nat (length P)) n) as [->|C]; split.
  - intros H. split; [reflexivity|]. apply out_endless, H.
  - intros (_ & H) f. now apply endless_out.
  - intros H. discriminate (H O).
  - intros (-> & _). congruence.
Qed.
Lemma type_table_endless e b : type_table_of e b = OutOfFuel <->
  exists P name, announced e b (N.of_nat (length P)) /\ type_loop e (b_records b) ([], []) = Ok (P, name) /\ endless_types P.
Proof.
  unfold type_table_of, announced. cbn [type_code_num]. split.
  - intros H. apply obind_fuel in H as [H | (r & R & H)]; [destruct (one _ _); discriminate|].
    apply obind_fuel in H as [H | (n & N' & H)]; [destruct (hd_error _); discriminate|].
    destruct (N.ltb_spec (alloc_limit e) n); [discriminate|].
    apply obind_fuel in H as [H | ((P & name) & L & H)]; [destruct (loop_fuel _ _ _ H)|].
    assert (X : n = N.of_nat (length P) /\ endless_types P).
    { unfold reify, reify_with in H. destruct (N.eqb_spec (N.of_nat (length P)) n); [|discriminate]. split; [congruence|now apply out_endless]. }
    destruct X as (-> & X). exists P, name. split; [|auto].
    destruct (one 1 (b_records b)) as [r'|] eqn:O; [|discriminate]. injection R as <-.
    destruct (r_fields r') as [|x l] eqn:FF; [discriminate|]. injection N' as ->. exists r', l. split; [|split; [exact FF|lia]].
    apply one_first. exact O.
  - intros (P & name & (r & l & R & FF & A) & L & D). apply one_first in R. rewrite R. cbn [ok_or obind]. rewrite FF. cbn [hd_error ok_or obind].
    destruct (N.ltb_spec (alloc_limit e) (N.of_nat (length P))); [lia|]. rewrite L. cbn [obind].
    apply (proj2 (reify_endless (N.of_nat (length P)) P)). auto.
Qed.
