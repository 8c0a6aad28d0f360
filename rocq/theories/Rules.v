(** Combinators: a function built from parts ends as the rules for the parts say. *)
From Verif Require Import Base Strings RuleSpec.
Local Open Scope N_scope.

(** The rule says exactly how [o] ends. *)
Definition decided {E A} (o : outcome E A) (R : rule E) : Prop := forall v, verdict_of o = v <-> R v.

Lemma dec_ext {E A} (o : outcome E A) (R R' : rule E) : decided o R -> (forall v, R v <-> R' v) -> decided o R'.
Proof. intros D H v. rewrite (D v). apply H. Qed.
Lemma dec_same {E A B} (o : outcome E A) (o' : outcome E B) R : verdict_of o = verdict_of o' -> decided o R -> decided o' R.
Proof. intros H D v. rewrite <- H. apply D. Qed.
Lemma dec_here {E A} (o : outcome E A) R : decided o R -> R (verdict_of o).
Proof. intros D. now apply D. Qed.
Lemma dec_intro {E A} (o : outcome E A) (R : rule E) : R (verdict_of o) -> (forall v, R v -> verdict_of o = v) -> decided o R.
Proof. intros H1 H2 v. split; [now intros <-|apply H2]. Qed.
Lemma dec_ok {E A} (a : A) : @decided E A (Ok a) (in_order []).
Proof. intros v. cbn. split; [intros <-; constructor|]. intros H. now inversion H. Qed.
Lemma dec_bind {E A B} (m : outcome E A) (k : A -> outcome E B) R l :
  decided m R -> (forall a, m = Ok a -> decided (k a) (in_order l)) -> decided (obind m k) (in_order (R :: l)).
Proof.
  intros D K. pose proof (dec_here _ _ D) as H0. destruct m as [a|x|p|]; cbn [obind verdict_of] in *.
  - intros v. rewrite (K a eq_refl v). split; [intros H; now apply IoNext|].
    intros H; inversion H as [|? ? ? X Y|? ? ? X Y]; subst; [exact Y|]. apply D in X. cbn in X. congruence.
  - apply dec_intro; [now apply IoStop|]. intros v H; inversion H as [|? ? ? X Y|? ? ? X Y]; subst; apply D in X; [discriminate X|exact X].
  - apply dec_intro; [now apply IoStop|]. intros v H; inversion H as [|? ? ? X Y|? ? ? X Y]; subst; apply D in X; [discriminate X|exact X].
  - apply dec_intro; [now apply IoStop|]. intros v H; inversion H as [|? ? ? X Y|? ? ? X Y]; subst; apply D in X; [discriminate X|exact X].
Qed.
Lemma dec_last {E A} (m : outcome E A) R : decided m R -> decided m (in_order [R]).
Proof.
  intros D. apply (dec_same (obind m (fun a => Ok a))); [now destruct m|]. apply dec_bind; [exact D|]. intros a _. apply dec_ok.
Qed.
Lemma dec_pure {E A B} (m : outcome E A) (f : A -> B) R : decided m R -> decided (obind m (fun a => Ok (f a))) R.
Proof. apply dec_same. now destruct m. Qed.
Lemma dec_map_err {E F A} (f : E -> F) (m : outcome E A) R : decided m R -> decided (omap_err f m) (relabel f R).
Proof.
  intros D. pose proof (dec_here _ _ D) as H0. destruct m as [a|x|p|]; cbn in *;
    (apply dec_intro; [now constructor|]; intros v H; inversion H as [X|y X|y X|X]; subst; apply D in X; cbn in X; cbn; congruence).
Qed.
Lemma dec_or {E A} (o : option A) (x : E) (P : Prop) : ((exists a, o = Some a) <-> P) -> decided (ok_or o x) (demand P x).
Proof.
  intros H. destruct o as [a|]; cbn.
  - apply dec_intro; [constructor; apply H; eauto|]. intros v V; inversion V as [X|X]; [reflexivity|]. exfalso. apply X, H. eauto.
  - apply dec_intro; [constructor; intros X; apply H in X as [a [=]]|]. intros v V; inversion V as [X|X]; [|reflexivity].
    apply H in X as [a [=]].
Qed.
Lemma dec_if {E A} (c : bool) (x : E) (k : outcome E A) (P : Prop) l : (c = false <-> P) -> (P -> decided k (in_order l)) ->
  decided (if c then Err x else k) (in_order (demand P x :: l)).
Proof.
  intros H K. apply (dec_same (obind (ok_or (if c then None else Some tt) x) (fun _ => k))); [now destruct c|].
  apply dec_bind; [apply dec_or; rewrite <- H; destruct c; split; [intros [a [=]]|discriminate|reflexivity|eauto]|].
  intros a X. apply K, H. destruct c; [discriminate X|reflexivity].
Qed.
Lemma dec_next {E A} (x : E) (k : outcome E A) (P : Prop) l : P -> decided k (in_order l) -> decided k (in_order (demand P x :: l)).
Proof. intros H K. apply (dec_if false x k P l); [tauto|auto]. Qed.
Lemma dec_stop {E A} (x : E) (P : Prop) l : ~ P -> @decided E A (Err x) (in_order (demand P x :: l)).
Proof. intros H. apply (dec_if true x (Err x) P l); [split; [discriminate|tauto]|tauto]. Qed.
Lemma dec_collect {E A B} (f : A -> outcome E B) (R : A -> rule E) l : (forall a, In a l -> decided (f a) (R a)) ->
  decided (collect f l) (in_order (map R l)).
Proof.
  induction l as [|a l IH]; intros H; cbn [collect map]; [apply dec_ok|].
  apply dec_bind; [apply H; now left|]. intros b _.
  apply (dec_pure (collect f l)), IH. intros x I. apply H. now right.
Qed.
Lemma collect_omap {E F A B} (g : E -> F) (f : A -> outcome E B) l :
  omap_err g (collect f l) = collect (fun a => omap_err g (f a)) l.
Proof.
  induction l as [|a l IH]; [reflexivity|]. cbn [collect]. destruct (f a) as [b|x|p|]; cbn [obind omap_err]; [|reflexivity..].
  rewrite <- IH. now destruct (collect f l).
Qed.
Lemma dec_exact {E A} (o : outcome E A) (Q : outcome E A -> Prop) : (forall out, o = out <-> Q out) -> decided o (ends Q).
Proof.
  intros H v. unfold ends. split.
  - intros <-. exists o. split; [now apply H|reflexivity].
  - intros (o' & X & Y). apply H in X as <-. exact Y.
Qed.

Lemma dec_demand {E A} (o : outcome E A) (P : Prop) x : (o = Err x /\ ~ P) \/ ((exists a, o = Ok a) /\ P) -> decided o (demand P x).
Proof.
  intros [[-> H]|[[a ->] H]]; cbn; intros v; split.
  - intros <-. now constructor.
  - intros V; inversion V; [contradiction|reflexivity].
  - intros <-. now constructor.
  - intros V; inversion V; [reflexivity|contradiction].
Qed.
Lemma dec_from {E A} (o : outcome E A) (R : rule E) : (forall v, R v -> verdict_of o = v) -> (exists v, R v) -> decided o R.
Proof. intros H [w W] v. split; [intros <-; now rewrite (H w W)|apply H]. Qed.
Lemma dec_bind2 {E A B C} (m : outcome E A) (f : A -> outcome E B) (k : A -> B -> outcome E C) R l : decided (obind m f) R ->
  (forall a b, m = Ok a -> f a = Ok b -> decided (k a b) (in_order l)) -> decided (obind m (fun a => obind (f a) (k a))) (in_order (R :: l)).
Proof.
  intros D K. destruct m as [a|x|p|]; cbn [obind] in *.
  - apply dec_bind; [exact D|]. intros b H. now apply K.
  - apply (dec_same (obind (@Err E B x) (fun _ => @Err E C x))); [reflexivity|]. apply dec_bind; [exact D|]. discriminate.
  - apply (dec_same (obind (@Panic E B p) (fun _ => @Panic E C p))); [reflexivity|]. apply dec_bind; [exact D|]. discriminate.
  - apply (dec_same (obind (@OutOfFuel E B) (fun _ => @OutOfFuel E C))); [reflexivity|]. apply dec_bind; [exact D|]. discriminate.
Qed.
