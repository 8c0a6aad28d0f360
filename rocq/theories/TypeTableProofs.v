(** Lemmas for the type table: rules, fuel, resolution. *)
From Verif Require Import Base Strings EnumModel SupportModel UnrollModel AttributeModel AttributeMain LayoutMain
  TypeTableModel TypeTableSpec.
From Coq Require Import Lia ZifyBool ZifyNat ZifyN.
Ltac Zify.zify_post_hook ::= Z.div_mod_to_equations.
Local Open Scope N_scope.
#[local] Arguments N.add : simpl never.
#[local] Arguments N.sub : simpl never.
#[local] Arguments N.modulo : simpl never.
#[local] Arguments N.pow : simpl never.

(** The rules are what the predicates check. *)
Lemma pointee_exact t : is_pointee t = true <-> pointee_rule t.
Proof. unfold pointee_rule. split; [intros H K; destruct t; try discriminate H; cbn in K; intuition discriminate|]. intros H. destruct t; try reflexivity; exfalso; apply H; cbn; auto 10. Qed.
Lemma array_exact t : is_array_element t = true <-> array_rule t.
Proof.
  unfold array_rule, function_type, scalable_type. split.
  - intros H. split; [|split].
    + intros K; destruct t; try discriminate H; cbn in K; intuition discriminate.
    + intros (? & ? & ? & ->). discriminate H.
    + intros (? & ? & ->). discriminate H.
  - intros (H1 & H2 & H3). destruct t; try reflexivity; exfalso; solve [apply H1; cbn; auto 10|apply H2; eauto|apply H3; eauto].
Qed.
Lemma field_exact t : is_struct_element t = true <-> field_rule t.
Proof.
  unfold field_rule, function_type. split.
  - intros H. split.
    + intros K; destruct t; try discriminate H; cbn in K; intuition discriminate.
    + intros (? & ? & ? & ->). discriminate H.
  - intros (H1 & H2). destruct t; try reflexivity; exfalso; solve [apply H1; cbn; auto 10|apply H2; eauto].
Qed.
Lemma vector_exact t : is_vector_element t = true <-> vector_rule t.
Proof.
  unfold vector_rule. split.
  - intros H. destruct t; try discriminate H; solve [left; cbn; auto 10|right; left; eauto|right; right; eauto].
  - intros [H | [[w ->] | (p & a & ->)]]; try reflexivity. cbn in H. repeat destruct H as [<- | H]; try reflexivity. destruct H.
Qed.
Lemma param_exact t : is_argument t = true <-> param_rule t.
Proof.
  unfold param_rule, function_type. split.
  - intros H. split; [intros ->; discriminate|]. intros (? & ? & ? & ->). discriminate H.
  - intros (H1 & H2). destruct t; try reflexivity; exfalso; solve [now apply H1|apply H2; eauto].
Qed.
Lemma return_exact t : is_return t = true <-> return_rule t.
Proof.
  unfold return_rule, function_type. split.
  - intros H. split.
    + intros K; destruct t; try discriminate H; cbn in K; intuition discriminate.
    + intros (? & ? & ? & ->). discriminate H.
  - intros (H1 & H2). destruct t; try reflexivity; exfalso; solve [apply H1; cbn; auto 10|apply H2; eauto].
Qed.

Lemma find_neg {A} (f : A -> bool) l : find (fun x => negb (f x)) l = None <-> Forall (fun x => f x = true) l.
Proof.
  induction l as [|a l IH]; cbn; [split; constructor|]. destruct (f a) eqn:E; cbn.
  - rewrite IH. split; [now constructor|]. intros H; now inversion H.
  - split; [discriminate|]. intros H. inversion H. congruence.
Qed.
Lemma Forall_iff {A} (P Q : A -> Prop) l : (forall a, P a <-> Q a) -> (Forall P l <-> Forall Q l).
Proof. intros H. split; intros F; (eapply Forall_impl; [|exact F]); intros a; apply H. Qed.

Lemma new_struct_ok n fs pk t : new_struct n fs pk = Ok t <-> Forall field_rule fs /\ t = TStruct n fs pk.
Proof.
  unfold new_struct. rewrite <- (Forall_iff _ _ fs field_exact). rewrite <- find_neg.
  destruct (find _ fs); split; try discriminate; try (intros [H _]; discriminate H); [intros [= <-]; auto|intros [_ ->]; reflexivity].
Qed.
Lemma new_integer_ok w t : new_integer w = Ok t <-> width_rule w /\ t = TInteger w.
Proof.
  unfold new_integer, width_rule, MIN_INT_BITS, MAX_INT_BITS. change (2 ^ 24) with 16777216.
  destruct ((1 <=? w) && (w <=? 16777215))%bool eqn:E; split; try discriminate; try lia.
  - intros [= <-]. split; [lia|reflexivity].
  - intros [_ ->]. reflexivity.
Qed.
Lemma new_pointer_ok p a t : new_pointer p a = Ok t <-> pointee_rule p /\ t = TPointer p a.
Proof. unfold new_pointer. rewrite <- pointee_exact. destruct (is_pointee p); split; try discriminate; try (intros [H _]; discriminate H); [intros [= <-]; auto|intros [_ ->]; reflexivity]. Qed.
Lemma new_array_ok n x t : new_array n x = Ok t <-> array_rule x /\ t = TArray n x.
Proof. unfold new_array. rewrite <- array_exact. destruct (is_array_element x); split; try discriminate; try (intros [H _]; discriminate H); [intros [= <-]; auto|intros [_ ->]; reflexivity]. Qed.
Lemma new_vector_ok n x t : new_vector n x = Ok t <-> vector_rule x /\ t = TFixedVector n x.
Proof. unfold new_vector. rewrite <- vector_exact. destruct (is_vector_element x); split; try discriminate; try (intros [H _]; discriminate H); [intros [= <-]; auto|intros [_ ->]; reflexivity]. Qed.
Lemma new_scalable_ok n x t : new_scalable_vector n x = Ok t <-> vector_rule x /\ t = TScalableVector n x.
Proof. unfold new_scalable_vector. rewrite <- vector_exact. destruct (is_vector_element x); split; try discriminate; try (intros [H _]; discriminate H); [intros [= <-]; auto|intros [_ ->]; reflexivity]. Qed.
Lemma new_function_ok r ps va t : new_function r ps va = Ok t <-> return_rule r /\ Forall param_rule ps /\ t = TFunction r ps va.
Proof.
  unfold new_function. rewrite <- return_exact, <- (Forall_iff _ _ ps param_exact), <- find_neg.
  destruct (is_return r); cbn [negb]; [|split; [discriminate|intros [H _]; discriminate H]].
  destruct (find _ ps); split; try discriminate; try (intros (_ & H & _); discriminate H); [intros [= <-]; auto|intros (_ & _ & ->); reflexivity].
Qed.

(** [resolve] with the resolution of references as a parameter. *)
Definition resolve_body (rref : N -> outcome tt_err ty) (p : ptype) : outcome tt_err ty :=
  match p with
  | PtSimple t => Ok t
  | PtInteger w => omap_err TtType (new_integer w)
  | PtFunction r ps va =>
      let? r := rref r in
      let? ps := collect rref ps in
      omap_err TtType (new_function r ps va)
  | PtPointer r a => let? t := rref r in omap_err TtType (new_pointer t a)
  | PtOpaquePointer a => Ok (TOpaquePointer a)
  | PtStruct name fs packed =>
      let? fs := collect rref fs in
      omap_err TtType (new_struct name fs packed)
  | PtArray n r => let? t := rref r in omap_err TtType (new_array n t)
  | PtFixedVector n r => let? t := rref r in omap_err TtType (new_vector n t)
  | PtScalableVector n r => let? t := rref r in omap_err TtType (new_scalable_vector n t)
  end.
Definition rref_of (f : nat) (P : list ptype) (i : N) : outcome tt_err ty :=
  let? p := ok_or (nth_error P (N.to_nat i)) (TtBadIndex i) in resolve f P p.
Lemma resolve_S f P p : resolve (S f) P p = resolve_body (rref_of f P) p.
Proof. reflexivity. Qed.

Definition agrees {A B E} (g h : A -> outcome E B) : Prop := forall i, g i <> OutOfFuel -> h i = g i.
Lemma obind_agrees {A B E} (m m' : outcome E A) (k k' : A -> outcome E B) :
  (m <> OutOfFuel -> m' = m) -> (forall a, k a <> OutOfFuel -> k' a = k a) ->
  obind m k <> OutOfFuel -> obind m' k' = obind m k.
Proof.
  intros H K N. destruct m as [a|x|p|]; cbn in *; [| | |congruence].
  - rewrite H by discriminate. now apply K.
  - now rewrite H by discriminate.
  - now rewrite H by discriminate.
Qed.
Lemma collect_agrees {A B E} (g h : A -> outcome E B) l : agrees g h -> collect g l <> OutOfFuel -> collect h l = collect g l.
Proof.
  intros G. induction l as [|a l IH]; cbn [collect]; [reflexivity|].
  apply obind_agrees; [apply G|]. intros b. apply obind_agrees; [apply IH|]. reflexivity.
Qed.
Lemma body_agrees g h p : agrees g h -> resolve_body g p <> OutOfFuel -> resolve_body h p = resolve_body g p.
Proof.
  intros G. destruct p; cbn [resolve_body]; try reflexivity.
  - apply obind_agrees; [apply G|]. intros r. apply obind_agrees; [now apply collect_agrees|]. reflexivity.
  - apply obind_agrees; [apply G|]. reflexivity.
  - apply obind_agrees; [now apply collect_agrees|]. reflexivity.
  - apply obind_agrees; [apply G|]. reflexivity.
  - apply obind_agrees; [apply G|]. reflexivity.
  - apply obind_agrees; [apply G|]. reflexivity.
Qed.
Lemma rref_agrees f f' P : (forall p, In p P -> resolve f P p <> OutOfFuel -> resolve f' P p = resolve f P p) ->
  agrees (rref_of f P) (rref_of f' P).
Proof.
  intros H i. unfold rref_of. destruct (nth_error P (N.to_nat i)) as [p|] eqn:X; cbn [ok_or obind]; [|reflexivity].
  apply H. now apply nth_error_In in X.
Qed.

Lemma resolve_more f P p : resolve f P p <> OutOfFuel -> resolve (S f) P p = resolve f P p.
Proof.
  revert p. induction f as [|f IH]; intros p H; [now destruct H|].
  rewrite resolve_S in H. rewrite (resolve_S (S f)), (resolve_S f). apply body_agrees; [|exact H].
  apply rref_agrees. intros q _. apply IH.
Qed.
Lemma resolve_le f f' P p : (f <= f')%nat -> resolve f P p <> OutOfFuel -> resolve f' P p = resolve f P p.
Proof.
  intros L H. induction L as [|m L IH]; [reflexivity|]. rewrite <- IH. apply resolve_more. now rewrite IH.
Qed.

(** The entries resolved with [f] units of fuel: their number grows with the fuel until it is
    stable. *)
Definition resolved (f : nat) (P : list ptype) (p : ptype) : bool :=
  match resolve f P p with OutOfFuel => false | _ => true end.
Lemma resolved_spec f P p : resolved f P p = true <-> resolve f P p <> OutOfFuel.
Proof. unfold resolved. destruct (resolve f P p); split; congruence. Qed.
Definition stable (f : nat) (P : list ptype) : Prop := forall p, In p P -> resolved (S f) P p = true -> resolved f P p = true.

Lemma filter_grows {A} (g h : A -> bool) l : (forall a, In a l -> g a = true -> h a = true) ->
  (length (filter g l) < length (filter h l))%nat \/
  (length (filter g l) = length (filter h l) /\ forall a, In a l -> h a = true -> g a = true).
Proof.
  induction l as [|a l IH]; intros H; [right; split; [reflexivity|intros a []]|].
  destruct IH as [IH | [IH1 IH2]]; [intros x X; apply H; now right| |].
  - left. cbn. specialize (H a (or_introl eq_refl)). destruct (g a), (h a); cbn; lia.
  - cbn. specialize (H a (or_introl eq_refl)). destruct (g a) eqn:GA, (h a) eqn:HA; cbn.
    + right. split; [lia|]. intros x [<- | X]; auto.
    + discriminate (H eq_refl).
    + left. lia.
    + right. split; [exact IH1|]. intros x [<- | X]; [congruence|auto].
Qed.

Lemma filter_length_le {A} (g : A -> bool) l : (length (filter g l) <= length l)%nat.
Proof. induction l as [|a l IH]; cbn; [lia|]. destruct (g a); cbn; lia. Qed.
Lemma stable_or f P : (exists j, (j < f)%nat /\ stable j P) \/ (f <= length (filter (resolved f P) P))%nat.
Proof.
  induction f as [|f IH]; [right; lia|]. destruct IH as [(j & J & H) | IH]; [left; exists j; split; [lia|exact H]|].
  destruct (filter_grows (resolved f P) (resolved (S f) P) P) as [H | [_ H]]; [|right; lia|left; exists f; split; [lia|exact H]].
  intros p _. rewrite !resolved_spec. intros H. now rewrite resolve_more.
Qed.
Lemma stable_next f P : stable f P -> stable (S f) P.
Proof.
  intros H p I. rewrite !resolved_spec, (resolve_S (S f)), (resolve_S f). intros K.
  enough (agrees (rref_of (S f) P) (rref_of f P)) as A by (now rewrite (body_agrees _ _ p A K)).
  apply rref_agrees. intros q Q N. symmetry. apply resolve_more. apply resolved_spec, H; [exact Q|]. now apply resolved_spec.
Qed.
Lemma stable_forever f f' P p : stable f P -> In p P -> (f <= f')%nat -> resolved f' P p = true -> resolved f P p = true.
Proof.
  intros H I L. assert (S' : forall m, (f <= m)%nat -> stable m P) by (intros m M; induction M; [exact H|now apply stable_next]).
  induction L as [|m L IH]; [auto|]. intros K. apply IH. now apply S'.
Qed.

(** One unit of fuel per entry is enough for an entry. *)
Lemma resolve_enough f P p : In p P -> resolve f P p <> OutOfFuel -> resolve (length P) P p = resolve f P p.
Proof.
  intros I H. destruct (Nat.le_ge_cases f (length P)) as [L|L]; [now apply resolve_le|].
  assert (K : resolve (length P) P p <> OutOfFuel).
  { destruct (stable_or (S (length P)) P) as [(j & J & S') | X].
    - assert (R : resolved j P p = true) by (apply (stable_forever j f P p S' I); [lia|now apply resolved_spec]).
      apply resolved_spec in R. rewrite (resolve_le j); [exact R|lia|exact R].
    - exfalso. pose proof (filter_length_le (resolved (S (length P)) P) P). lia. }
  symmetry. now apply resolve_le.
Qed.

Lemma resolve_any f P p : resolve f P p <> OutOfFuel -> resolve (S (length P)) P p = resolve f P p.
Proof.
  destruct f as [|f]; [intros []; reflexivity|]. rewrite !resolve_S. apply body_agrees, rref_agrees. intros q Q. now apply resolve_enough.
Qed.

(** More fuel makes no difference: running out of it means that the recursion has no end. *)
Lemma reify_more_fuel n P : (forall f, reify_with f n P <> OutOfFuel -> reify n P = reify_with f n P) /\
  (reify n P <> OutOfFuel -> forall f, (length P < f)%nat -> reify_with f n P = reify n P).
Proof.
  unfold reify, reify_with. destruct (_ =? n); [|auto]. split.
  - intros f H. apply collect_agrees; [|exact H]. intros p. apply resolve_any.
  - intros H f L. apply collect_agrees; [|exact H]. intros p. now apply resolve_le.
Qed.

(** ** What resolution gives *)

Definition pt_ok (p : ptype) : Prop :=
  match p with
  | PtSimple t => exists c, In (c, t) simple_types
  | PtPointer _ a | PtOpaquePointer a => space_rule a
  | _ => True
  end.
Definition pdesc (R : N -> ty -> Prop) (p : ptype) (t : ty) : Prop :=
  match p with
  | PtSimple t' => t = t'
  | PtInteger w => width_rule w /\ t = TInteger w
  | PtFunction i js va => exists x xs, R i x /\ Forall2 R js xs /\ return_rule x /\ Forall param_rule xs /\ t = TFunction x xs va
  | PtPointer i a => exists x, R i x /\ pointee_rule x /\ t = TPointer x a
  | PtOpaquePointer a => t = TOpaquePointer a
  | PtStruct n js pk => exists xs, Forall2 R js xs /\ Forall field_rule xs /\ t = TStruct n xs pk
  | PtArray n i => exists x, R i x /\ array_rule x /\ t = TArray n x
  | PtFixedVector n i => exists x, R i x /\ vector_rule x /\ t = TFixedVector n x
  | PtScalableVector n i => exists x, R i x /\ vector_rule x /\ t = TScalableVector n x
  end.

Lemma omap_ty (x : outcome ty_err ty) t : omap_err TtType x = Ok t <-> x = Ok t.
Proof. apply omap_err_iff. Qed.
Lemma body_exact g p t : resolve_body g p = Ok t <-> pdesc (fun i x => g i = Ok x) p t.
Proof.
  destruct p; cbn [resolve_body pdesc]; rewrite ?omap_ty.
  - split; congruence.
  - apply new_integer_ok.
  - rewrite obind_iff. split.
    + intros (x & X & H). apply obind_iff in H as (xs & XS & H). apply omap_ty, new_function_ok in H as (H1 & H2 & H3).
      exists x, xs. apply collect_iff in XS. auto.
    + intros (x & xs & X & XS & H1 & H2 & H3). exists x. split; [exact X|]. apply obind_iff. exists xs.
      split; [now apply collect_iff|]. apply omap_ty, new_function_ok. auto.
  - rewrite obind_iff. split; intros (x & X & H); exists x; (split; [exact X|]); [apply omap_ty in H|apply omap_ty]; now apply new_pointer_ok.
  - split; congruence.
  - rewrite obind_iff. split.
    + intros (xs & XS & H). apply omap_ty, new_struct_ok in H as (H1 & H2). exists xs. apply collect_iff in XS. auto.
    + intros (xs & XS & H1 & H2). exists xs. split; [now apply collect_iff|]. apply omap_ty, new_struct_ok. auto.
  - rewrite obind_iff. split; intros (x & X & H); exists x; (split; [exact X|]); [apply omap_ty in H|apply omap_ty]; now apply new_array_ok.
  - rewrite obind_iff. split; intros (x & X & H); exists x; (split; [exact X|]); [apply omap_ty in H|apply omap_ty]; now apply new_vector_ok.
  - rewrite obind_iff. split; intros (x & X & H); exists x; (split; [exact X|]); [apply omap_ty in H|apply omap_ty]; now apply new_scalable_ok.
Qed.

Lemma pdesc_weaken (R R' : N -> ty -> Prop) p t : (forall i x, R i x -> R' i x) -> pdesc R p t -> pdesc R' p t.
Proof.
  intros H. destruct p; cbn [pdesc]; auto.
  - intros (x & xs & X & XS & K). exists x, xs. split; [auto|]. split; [|exact K]. now apply (Forall2_weaken R).
  - intros (x & X & K). eauto.
  - intros (xs & XS & K). exists xs. split; [|exact K]. now apply (Forall2_weaken R).
  - intros (x & X & K). eauto.
  - intros (x & X & K). eauto.
  - intros (x & X & K). eauto.
Qed.

(** Induction on types: into the lists. *)
Section TyInd.
  Variable Q : ty -> Prop.
  Hypothesis Hs : forall c t, In (c, t) simple_types -> Q t.
  Hypothesis Hi : forall w, Q (TInteger w).
  Hypothesis Hf : forall r ps va, Q r -> Forall Q ps -> Q (TFunction r ps va).
  Hypothesis Hp : forall p a, Q p -> Q (TPointer p a).
  Hypothesis Ho : forall a, Q (TOpaquePointer a).
  Hypothesis Hst : forall n fs pk, Forall Q fs -> Q (TStruct n fs pk).
  Hypothesis Ha : forall n t, Q t -> Q (TArray n t).
  Hypothesis Hv : forall n t, Q t -> Q (TFixedVector n t).
  Hypothesis Hsv : forall n t, Q t -> Q (TScalableVector n t).
  Fixpoint ty_rect' (t : ty) : Q t :=
    let all := fix all (l : list ty) : Forall Q l :=
      match l with [] => Forall_nil Q | x :: l' => Forall_cons x (ty_rect' x) (all l') end in
    match t with
    | THalf => Hs 10 _ ltac:(cbn; auto 20) | TBFloat => Hs 23 _ ltac:(cbn; auto 20) | TFloat => Hs 3 _ ltac:(cbn; auto 20)
    | TDouble => Hs 4 _ ltac:(cbn; auto 20) | TMetadata => Hs 16 _ ltac:(cbn; auto 20) | TX86Fp80 => Hs 13 _ ltac:(cbn; auto 20)
    | TFp128 => Hs 14 _ ltac:(cbn; auto 20) | TPpcFp128 => Hs 15 _ ltac:(cbn; auto 20) | TVoid => Hs 2 _ ltac:(cbn; auto 20)
    | TLabel => Hs 5 _ ltac:(cbn; auto 20) | TX86Mmx => Hs 17 _ ltac:(cbn; auto 20) | TX86Amx => Hs 24 _ ltac:(cbn; auto 20)
    | TToken => Hs 22 _ ltac:(cbn; auto 20)
    | TInteger w => Hi w
    | TFunction r ps va => Hf r ps va (ty_rect' r) (all ps)
    | TPointer p a => Hp p a (ty_rect' p)
    | TOpaquePointer a => Ho a
    | TStruct n fs pk => Hst n fs pk (all fs)
    | TArray n t => Ha n t (ty_rect' t)
    | TFixedVector n t => Hv n t (ty_rect' t)
    | TScalableVector n t => Hsv n t (ty_rect' t)
    end.
End TyInd.

Lemma Forall2_nth_r {A B} (R : A -> B -> Prop) l m : Forall2 R l m ->
  forall i b, nth_error m i = Some b -> exists a, nth_error l i = Some a /\ R a b.
Proof. induction 1; intros [|i] z X; cbn in *; try discriminate; [injection X as <-; eauto|eauto]. Qed.

(** A table that describes itself is the result of resolution. *)
Section Fix.
  Variables (P : list ptype) (T : list ty).
  Hypothesis D : Forall2 (pdesc (at_index T)) P T.

  Let RR f i x := rref_of f P i = Ok x.
  Lemma rr_le f f' i x : (f <= f')%nat -> RR f i x -> RR f' i x.
  Proof.
    unfold RR, rref_of. intros L. destruct (nth_error P (N.to_nat i)) as [p|]; cbn [ok_or obind]; [|discriminate].
    intros H. rewrite (resolve_le f f'); [exact H|exact L|congruence].
  Qed.
  Lemma at_described i x : at_index T i x -> exists p, nth_error P (N.to_nat i) = Some p /\ pdesc (at_index T) p x.
  Proof. intros A. exact (Forall2_nth_r _ _ _ D _ _ A). Qed.
  Lemma at_resolved i x : (forall p, pdesc (at_index T) p x -> exists f, resolve f P p = Ok x) ->
    at_index T i x -> exists f, RR f i x.
  Proof.
    intros H A. apply at_described in A as (p & X & Y). apply H in Y as (f & F). exists f. unfold RR, rref_of. now rewrite X.
  Qed.
  Lemma all_resolved js xs : Forall (fun x => forall p, pdesc (at_index T) p x -> exists f, resolve f P p = Ok x) xs ->
    Forall2 (at_index T) js xs -> exists f, Forall2 (RR f) js xs.
  Proof.
    intros H F. induction F as [|i x js xs A F IH]; [exists 0%nat; constructor|]. inversion H as [|? ? H1 H2]; subst.
    destruct (at_resolved i x H1 A) as (f1 & F1). destruct (IH H2) as (f2 & F2). exists (Nat.max f1 f2). constructor.
    - apply (rr_le f1); [lia|exact F1].
    - eapply Forall2_weaken; [|exact F2]. intros ? ?. apply rr_le. lia.
  Qed.
  Lemma describes_resolves t : forall p, pdesc (at_index T) p t -> exists f, resolve f P p = Ok t.
  Proof.
    assert (B : forall p t f, pdesc (RR f) p t -> exists f, resolve f P p = Ok t).
    { intros p x f H. exists (S f). rewrite resolve_S. now apply body_exact. }
    induction t using ty_rect'; intros p K; destruct p; cbn [pdesc] in K;
      repeat match goal with
        | K : exists _, _ |- _ => destruct K
        | K : _ /\ _ |- _ => destruct K
        | K : TInteger _ = _ |- _ => injection K as <-
        | K : TOpaquePointer _ = _ |- _ => injection K as <-
        end; subst; try discriminate;
      try match goal with K : In (_, _) simple_types |- _ => exfalso; cbn in K; intuition discriminate end;
      try (exists 1%nat; reflexivity).
    - exists 1%nat. rewrite resolve_S. apply body_exact. cbn. auto.
    - match goal with K : TFunction _ _ _ = _ |- _ => injection K as <- <- <- end.
      destruct (at_resolved _ _ IHt ltac:(eassumption)) as (f1 & F1).
      destruct (all_resolved _ _ H ltac:(eassumption)) as (f2 & F2).
      apply (B _ _ (Nat.max f1 f2)). cbn. do 2 eexists. split; [apply (rr_le f1); [lia|exact F1]|].
      split; [eapply Forall2_weaken; [|exact F2]; intros ? ?; apply rr_le; lia|]. auto.
    - match goal with K : TPointer _ _ = _ |- _ => injection K as <- <- end.
      destruct (at_resolved _ _ IHt ltac:(eassumption)) as (f1 & F1). apply (B _ _ f1). cbn. eauto.
    - match goal with K : TStruct _ _ _ = _ |- _ => injection K as <- <- <- end.
      destruct (all_resolved _ _ H ltac:(eassumption)) as (f2 & F2). apply (B _ _ f2). cbn. eauto.
    - match goal with K : TArray _ _ = _ |- _ => injection K as <- <- end.
      destruct (at_resolved _ _ IHt ltac:(eassumption)) as (f1 & F1). apply (B _ _ f1). cbn. eauto.
    - match goal with K : TFixedVector _ _ = _ |- _ => injection K as <- <- end.
      destruct (at_resolved _ _ IHt ltac:(eassumption)) as (f1 & F1). apply (B _ _ f1). cbn. eauto.
    - match goal with K : TScalableVector _ _ = _ |- _ => injection K as <- <- end.
      destruct (at_resolved _ _ IHt ltac:(eassumption)) as (f1 & F1). apply (B _ _ f1). cbn. eauto.
  Qed.
End Fix.

Lemma Forall2_nth {A B} (R : A -> B -> Prop) l m : Forall2 R l m ->
  forall i a, nth_error l i = Some a -> exists b, nth_error m i = Some b /\ R a b.
Proof. induction 1; intros [|i] z X; cbn in *; try discriminate; [injection X as <-; eauto|eauto]. Qed.
Lemma Forall2_in {A B} (R : A -> B -> Prop) l m b : Forall2 R l m -> In b m -> exists a, In a l /\ R a b.
Proof. induction 1 as [|a x l m H F IH]; intros []; [subst; exists a; cbn; auto|]. destruct (IH H0) as (y & Y & Z). exists y. cbn. auto. Qed.

Lemma table_exact P T : collect (resolve (S (length P)) P) P = Ok T <-> Forall2 (pdesc (at_index T)) P T.
Proof.
  rewrite collect_iff. split.
  - intros H. assert (X : forall p t, resolve (S (length P)) P p = Ok t -> pdesc (at_index T) p t).
    { intros p t K. rewrite resolve_S in K. apply body_exact in K. eapply pdesc_weaken; [|exact K]. intros i x R.
      unfold rref_of in R. destruct (nth_error P (N.to_nat i)) as [q|] eqn:Q; cbn [ok_or obind] in R; [|discriminate].
      destruct (Forall2_nth _ _ _ H _ _ Q) as (y & Y1 & Y2). unfold at_index. rewrite Y1. f_equal.
      rewrite (resolve_more (length P)) in Y2 by congruence. congruence. }
    eapply Forall2_weaken; [|exact H]. exact X.
  - intros H. eapply Forall2_weaken; [|exact H]. intros p t K.
    destruct (describes_resolves P T H t p K) as (f & F). rewrite (resolve_any f); [exact F|congruence].
Qed.
