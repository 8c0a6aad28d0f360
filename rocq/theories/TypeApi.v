(** Lemmas for C56: the constructors of types. *)
From Verif Require Import Base Strings SupportModel TypeTableSpec TypeTableProofs.
From Coq Require Import Lia ZifyBool ZifyNat ZifyN.
Ltac Zify.zify_post_hook ::= Z.div_mod_to_equations.
Local Open Scope N_scope.
#[local] Arguments N.add : simpl never.

Lemma bool_not (b : bool) (P : Prop) : (b = true <-> P) -> (b = false <-> ~ P).
Proof. intros H. destruct b; intuition discriminate. Qed.

Lemma find_first_bad {A} (f : A -> bool) (P : A -> Prop) : (forall a, f a = true <-> P a) ->
  forall l x, find (fun a => negb (f a)) l = Some x <-> first_bad P l x.
Proof.
  intros H l x. induction l as [|a l IH]; cbn [find].
  - split; [discriminate|]. intros ([|? ?] & l2 & E1 & _); discriminate E1.
  - destruct (f a) eqn:F; cbn [negb].
    + rewrite IH. split.
      * intros (l1 & l2 & -> & K & B). exists (a :: l1), l2. split; [reflexivity|]. split; [|exact B]. constructor; [now apply H|exact K].
      * intros ([|b l1] & l2 & E1 & K & B); injection E1 as -> ->; [now apply H in F|]. exists l1, l2. inversion K. auto.
    + split.
      * intros [= <-]. exists [], l. split; [reflexivity|]. split; [constructor|]. intros K. apply H in K. congruence.
      * intros ([|b l1] & l2 & E1 & K & B); injection E1 as -> ->; [reflexivity|]. inversion K as [|? ? K1 _]; subst. apply H in K1. congruence.
Qed.

Lemma new_struct_err n fs pk x : new_struct n fs pk = Err x <-> exists t, first_bad field_rule fs t /\ x = TeStructElement t.
Proof.
  unfold new_struct. pose proof (find_first_bad is_struct_element field_rule field_exact fs) as H.
  destruct (find _ fs) as [t|] eqn:F.
  - split; [intros [= <-]; exists t; split; [now apply H|reflexivity]|]. intros (t' & K & ->). apply H in K. congruence.
  - split; [discriminate|]. intros (t' & K & ->). apply H in K. congruence.
Qed.
Lemma new_function_err r ps va x : new_function r ps va = Err x <->
  (~ return_rule r /\ x = TeReturn r) \/ (return_rule r /\ exists t, first_bad param_rule ps t /\ x = TeParameter t).
Proof.
  unfold new_function. pose proof (return_exact r) as R. pose proof (find_first_bad is_argument param_rule param_exact ps) as H.
  destruct (is_return r); cbn [negb].
  - destruct (find _ ps) as [t|] eqn:F.
    + split; [intros [= <-]; right; split; [now apply R|]; exists t; split; [now apply H|reflexivity]|].
      intros [[N _]|[_ (t' & K & ->)]]; [exfalso; apply N; now apply R|]. apply H in K. congruence.
    + split; [discriminate|]. intros [[N _]|[_ (t' & K & ->)]]; [exfalso; apply N; now apply R|]. apply H in K. congruence.
  - assert (N : ~ return_rule r) by (intros K; apply R in K; discriminate K).
    split; [intros [= <-]; left; auto|]. intros [[_ ->]|[K _]]; [reflexivity|contradiction].
Qed.
Lemma unary_err (f : ty -> bool) (P : ty -> Prop) (H : forall t, f t = true <-> P t) (good : ty) (bad : ty_err) t x :
  (if f t then Ok good else Err bad) = Err x <-> ~ P t /\ x = bad.
Proof.
  specialize (H t). destruct (f t); (split; [|]); try discriminate.
  - intros [N _]. exfalso. apply N. now apply H.
  - intros [= <-]. split; [|reflexivity]. intros K. apply H in K. discriminate K.
  - now intros [_ ->].
Qed.
Lemma new_integer_err w x : new_integer w = Err x <-> ~ width_rule w /\ x = TeIntWidth.
Proof.
  unfold new_integer, width_rule, MIN_INT_BITS, MAX_INT_BITS. change (2 ^ 24) with 16777216.
  destruct ((1 <=? w) && (w <=? 16777215))%bool eqn:F; (split; [|]); try discriminate.
  - intros [N _]. exfalso. apply N. lia.
  - intros [= <-]. split; [lia|reflexivity].
  - now intros [_ ->].
Qed.
Lemma constructors_total :
  (forall n fs pk, exists r, new_struct n fs pk = r /\ match r with Ok _ | Err _ => True | _ => False end) /\
  (forall r ps va, exists x, new_function r ps va = x /\ match x with Ok _ | Err _ => True | _ => False end).
Proof.
  split; intros; eexists; (split; [reflexivity|]).
  - unfold new_struct. destruct (find _ _); exact I.
  - unfold new_function. destruct (negb _); [exact I|]. destruct (find _ _); exact I.
Qed.
Lemma byte_width_least w : w <= 8 * int_byte_width w /\ forall n, w <= 8 * n -> int_byte_width w <= n.
Proof. unfold int_byte_width. split; [lia|]. intros n H. lia. Qed.
Lemma scalar_exact t : (forall n x, t = TFixedVector n x \/ t = TScalableVector n x -> scalar_type t = x) /\
  ((forall n x, t <> TFixedVector n x /\ t <> TScalableVector n x) -> scalar_type t = t).
Proof.
  split.
  - intros n x [->| ->]; reflexivity.
  - intros H. destruct t; try reflexivity; cbn; [destruct (H num_elements t) as [K _]|destruct (H num_elements t) as [_ K]]; congruence.
Qed.
Lemma floating_exact t : is_floating_or_floating_vector t = true <->
  exists f, In f float_types /\ (t = f \/ exists n, t = TFixedVector n f \/ t = TScalableVector n f).
Proof.
  assert (F : forall t, is_floating t = true <-> In t float_types).
  { intros x. split; [destruct x; try discriminate; cbn; auto 10|]. intros K. cbn in K. intuition (subst; reflexivity). }
  unfold is_floating_or_floating_vector. rewrite F. split.
  - intros H. exists (scalar_type t). split; [exact H|]. destruct t; try (now left); right; cbn; eauto.
  - intros (f & I & [->|(n & [->| ->])]); try exact I. apply F in I. destruct f; try discriminate I; cbn; auto 10.
Qed.
Lemma integer_exact t : is_integer_or_integer_vector t = true <->
  exists w, t = TInteger w \/ exists n, t = TFixedVector n (TInteger w) \/ t = TScalableVector n (TInteger w).
Proof.
  unfold is_integer_or_integer_vector, is_integer. split.
  - destruct t; cbn; try discriminate; try (destruct t; try discriminate); intros _; eauto 10.
  - intros (w & [->|(n & [->| ->])]); reflexivity.
Qed.
