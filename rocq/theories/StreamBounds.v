(** The numbers a parser produces are 64-bit numbers. *)
From Verif Require Import Base CursorModel CursorSpec CursorHist StreamModel StreamSpec StreamHist StreamProofs.
From Coq Require Import Lia ZifyBool ZifyNat ZifyN.
Ltac Zify.zify_post_hook ::= Z.div_mod_to_equations.
Local Open Scope N_scope.
#[local] Arguments N.add : simpl never.
#[local] Arguments N.mul : simpl never.
#[local] Arguments N.sub : simpl never.
#[local] Arguments N.pow : simpl never.

(** Successful results of [m] have property [P]. *)
Definition gives {St E A} (m : M St E A) (P : A -> Prop) : Prop := forall s x s', m s = (Ok x, s') -> P x.

Lemma gives_ret {St E A} (a : A) (P : A -> Prop) : P a -> gives (St := St) (E := E) (ret a) P.
Proof. intros H s x s' [= <- <-]. exact H. Qed.
Lemma gives_fail {St E A} (x : E) (P : A -> Prop) : gives (St := St) (fail x) P.
Proof. intros s y s' [=]. Qed.
Lemma gives_crash {St E A} p (P : A -> Prop) : gives (St := St) (E := E) (crash p) P.
Proof. intros s y s' [=]. Qed.
Lemma gives_bind {St E A B} (m : M St E A) (k : A -> M St E B) (P : A -> Prop) (Q : B -> Prop) :
  gives m P -> (forall a, P a -> gives (k a) Q) -> gives (bind m k) Q.
Proof.
  intros H K s x s' X. unfold bind in X. destruct (m s) as [[a|y|p|] s1] eqn:M1; try discriminate X.
  exact (K a (H _ _ _ M1) _ _ _ X).
Qed.
Lemma gives_any {St E A B} (m : M St E A) (k : A -> M St E B) (Q : B -> Prop) :
  (forall a, gives (k a) Q) -> gives (bind m k) Q.
Proof. intros K. apply (gives_bind m k (fun _ => True)); [intros ? ? ? _; exact I|intros a _; apply K]. Qed.
Lemma gives_lift {St E F A} (f : E -> F) (m : M St E A) P : gives m P -> gives (lift_err f m) P.
Proof.
  intros H s x s' X. unfold lift_err in X. destruct (m s) as [[a|y|p|] s1] eqn:M1; try discriminate X.
  injection X as <- <-. exact (H _ _ _ M1).
Qed.
Lemma gives_times {St E A} (m : M St E (list A)) (P : A -> Prop) n : gives m (Forall P) -> gives (times n m) (Forall P).
Proof.
  intros H s x s' X. rewrite times_nat in X. revert s x s' X. generalize (N.to_nat n). intros k.
  change (gives (times_n k m) (Forall P)). induction k as [|k IH]; cbn [times_n]; [apply gives_ret; constructor|].
  apply (gives_bind _ _ (Forall P)); [exact H|]. intros a A1. apply (gives_bind _ _ (Forall P)); [exact IH|]. intros b B1.
  apply gives_ret. now apply Forall_app.
Qed.

Lemma lor_bound a b : a < two64 -> b < two64 -> N.lor a b < two64.
Proof.
  intros A B. change two64 with (2 ^ 64) in *. destruct (N.eq_dec (N.lor a b) 0) as [->|Z]; [reflexivity|].
  apply N.log2_lt_pow2; [lia|]. rewrite N.log2_lor.
  destruct (N.eq_dec a 0) as [->|A0], (N.eq_dec b 0) as [->|B0]; cbn [N.log2 N.max].
  - reflexivity.
  - rewrite N.max_r by (apply N.le_0_l). apply N.log2_lt_pow2; [lia|exact B].
  - rewrite N.max_l by (apply N.le_0_l). apply N.log2_lt_pow2; [lia|exact A].
  - apply N.max_lub_lt; apply N.log2_lt_pow2; lia.
Qed.

Definition u64 (v : N) : Prop := v < two64.
(** Literals are 64-bit numbers. *)
Fixpoint op_u64 (op : abbrev_op) : Prop :=
  match op with
  | OpLiteral v => u64 v
  | OpArray el => op_u64 el
  | _ => True
  end.
Definition abbrev_u64 (a : abbrev) : Prop := Forall op_u64 a.
Definition entry_u64 (x : entry) : Prop :=
  match x with
  | ERecord a code fields => u64 code /\ Forall u64 fields
  | ESubBlock id len => u64 id
  | EEndBlock => True
  end.
Definition scope_u64 (s : scope) : Prop :=
  match s with ScInitial => True | ScBlock _ _ _ l => Forall abbrev_u64 l end.
Definition parser_u64 {C} (s : sparser C) : Prop :=
  Forall scope_u64 (p_scopes s) /\ Forall (fun x => Forall abbrev_u64 (snd x)) (p_info s).

Lemma char6_u64 {St E} v : gives (St := St) (E := E) (decode_char6 v) u64.
Proof.
  unfold decode_char6. destruct (nth_error char6_alphabet (N.to_nat v)) as [c|] eqn:H; [|apply gives_crash].
  apply gives_ret. apply nth_error_In in H. revert H. change (In c char6_alphabet -> c < two64).
  assert (F : forallb (fun c => c <? two64) char6_alphabet = true) by reflexivity.
  intros H. rewrite forallb_forall in F. specialize (F c H). lia.
Qed.

Section Bounds.
  Context {C : Type} (e : env) (o : cops C).
  Local Open Scope m_scope.

  Lemma vbr_loop_u64 f w : forall r sh, u64 r -> gives (vbr_loop e o f w r sh) u64.
  Proof.
    induction f as [|f IH]; intros r sh R; cbn [vbr_loop]; [intros s x s' [=]|].
    apply gives_any. intros block. cbv zeta. destruct (_ && _)%bool; [apply gives_crash|].
    assert (B : u64 (N.lor r (shl64 (N.ldiff block (shl64 1 (w - 1))) (sh mod 64)))).
    { apply lor_bound; [exact R|]. unfold shl64. apply N.mod_lt. discriminate. }
    destruct (_ =? 0); [now apply gives_ret|]. now apply IH.
  Qed.
  Lemma c_vbr_u64 w : gives (c_vbr e o w) u64.
  Proof.
    apply gives_lift. intros c x c' H. unfold read_vbr in H. destruct (_ && _)%bool; [|discriminate H].
    exact (vbr_loop_u64 _ w 0 0 eq_refl _ _ _ H).
  Qed.
  Lemma read_as_u64 t n : ity_signed t = false -> ity_bits t <= 64 -> gives (c_read_as o t n) u64.
  Proof.
    intros S B. apply gives_lift. unfold read_as. apply gives_any. intros v. unfold num_cast. rewrite S.
    destruct (v <? 2 ^ ity_bits t) eqn:L; [|apply gives_fail]. apply gives_ret. unfold u64.
    assert (2 ^ ity_bits t <= 2 ^ 64) by (apply N.pow_le_mono_r; [discriminate|exact B]). change two64 with (2 ^ 64). lia.
  Qed.

  Lemma op_parse_u64 op : op_u64 op -> gives (op_parse e o op) (Forall u64).
  Proof.
    induction op as [v|w|w|el IH| |]; intros O; cbn [op_parse].
    - apply gives_ret. repeat constructor. exact O.
    - apply (gives_bind _ _ u64); [apply c_vbr_u64|]. intros x X. apply gives_ret. repeat constructor. exact X.
    - apply (gives_bind _ _ u64); [now apply read_as_u64|]. intros x X. apply gives_ret. repeat constructor. exact X.
    - apply gives_any. intros n. apply gives_any. intros _. apply gives_times. now apply IH.
    - apply gives_any. intros x. apply (gives_bind _ _ u64); [apply char6_u64|]. intros y Y. apply gives_ret. repeat constructor. exact Y.
    - apply gives_any. intros n. apply gives_any. intros _. apply gives_any. intros _.
      apply (gives_bind _ _ (Forall u64)).
      + apply gives_times. apply (gives_bind _ _ u64); [now apply read_as_u64|]. intros b B. apply gives_ret. repeat constructor. exact B.
      + intros bs B. apply gives_any. intros _. now apply gives_ret.
  Qed.
  Lemma abbrev_parse_u64 a : abbrev_u64 a -> gives (abbrev_parse e o a) (Forall u64).
  Proof.
    induction a as [|op a IH]; intros A; cbn [abbrev_parse]; [apply gives_ret; constructor|].
    inversion A as [|? ? O A']; subst. apply (gives_bind _ _ (Forall u64)); [now apply op_parse_u64|]. intros x X.
    apply (gives_bind _ _ (Forall u64)); [now apply IH|]. intros y Y. apply gives_ret. now apply Forall_app.
  Qed.
  Lemma array_elem_u64 : gives (array_elem e o) op_u64.
  Proof.
    unfold array_elem. apply gives_any. intros _. apply gives_any. intros enc.
    destruct enc; try apply gives_fail; try (now apply gives_ret); apply gives_any; intros w; now apply gives_ret.
  Qed.
  Lemma abbrev_loop_u64 f : forall num idx acc, abbrev_u64 acc -> gives (abbrev_loop e o f num idx acc) abbrev_u64.
  Proof.
    induction f as [|f IH]; intros num idx acc A; cbn [abbrev_loop]; [intros s x s' [=]|].
    assert (A1 : forall op, op_u64 op -> abbrev_u64 (acc ++ [op])).
    { intros op O. apply Forall_app. split; [exact A|]. repeat constructor. exact O. }
    destruct (num <=? idx); [now apply gives_ret|]. apply gives_any. intros kind. destruct (kind =? 1).
    { apply (gives_bind _ _ u64); [apply c_vbr_u64|]. intros v V. apply IH. now apply A1. }
    apply gives_any. intros enc. destruct enc.
    - apply gives_any. intros w. apply IH. now apply A1.
    - apply gives_any. intros w. apply IH. now apply A1.
    - destruct (_ && _)%bool; [apply gives_crash|]. cbv zeta. destruct (negb _); [apply gives_fail|].
      apply (gives_bind _ _ op_u64); [apply array_elem_u64|]. intros el E. apply gives_ret. now apply A1.
    - apply IH. now apply A1.
    - destruct (negb _); [apply gives_fail|]. apply IH. now apply A1.
  Qed.
  Lemma abbrev_new_u64 : gives (abbrev_new e o) abbrev_u64.
  Proof.
    unfold abbrev_new. apply gives_any. intros num. destruct (num <? 1); [apply gives_fail|].
    intros c x c' H. exact (abbrev_loop_u64 _ num 0 [] (Forall_nil _) _ _ _ H).
  Qed.

  (** Parser actions keep [parser_u64], and their results have property [Q]. *)
  Notation PM := (M (sparser C) serr).
  Definition keeps {A} (m : PM A) (Q : A -> Prop) : Prop :=
    forall s, parser_u64 s -> parser_u64 (snd (m s)) /\ forall x, fst (m s) = Ok x -> Q x.
  Lemma keeps_ret {A} (a : A) (Q : A -> Prop) : Q a -> keeps (ret a) Q.
  Proof. intros H s I. split; [exact I|]. intros x [= <-]. exact H. Qed.
  Lemma keeps_fail {A} x (Q : A -> Prop) : keeps (fail x) Q.
  Proof. intros s I. split; [exact I|]. intros y [=]. Qed.
  Lemma keeps_crash {A} p (Q : A -> Prop) : keeps (crash p) Q.
  Proof. intros s I. split; [exact I|]. intros y [=]. Qed.
  Lemma keeps_bind {A B} (m : PM A) (k : A -> PM B) (P : A -> Prop) (Q : B -> Prop) :
    keeps m P -> (forall a, P a -> keeps (k a) Q) -> keeps (bind m k) Q.
  Proof.
    intros H K s I. specialize (H s I) as [H1 H2]. unfold bind.
    destruct (m s) as [[a|y|p|] s1]; cbn [fst snd] in *; try (split; [exact H1|discriminate]).
    apply K; [now apply H2|exact H1].
  Qed.
  Lemma keeps_any {A B} (m : PM A) (k : A -> PM B) (Q : B -> Prop) :
    keeps m (fun _ => True) -> (forall a, keeps (k a) Q) -> keeps (bind m k) Q.
  Proof. intros H K. apply (keeps_bind m k (fun _ => True)); [exact H|]. intros a _. apply K. Qed.
  Lemma keeps_cur {A} (m : M C serr A) (Q : A -> Prop) : gives m Q -> keeps (on_cur m) Q.
  Proof.
    intros H s [I1 I2]. unfold on_cur. destruct (m (p_cur s)) as [r c] eqn:M1. cbn. split; [split; assumption|].
    intros x ->. exact (H _ _ _ M1).
  Qed.
  Lemma keeps_cur_any {A} (m : M C serr A) : keeps (on_cur m) (fun _ => True).
  Proof. apply keeps_cur. intros ? ? ? _. exact I. Qed.
  Lemma get_scope_keeps : keeps get_scope scope_u64.
  Proof.
    intros s I. unfold get_scope. pose proof I as [I1 I2]. destruct (p_scopes s) as [|sc l] eqn:S; cbn; (split; [exact I|]).
    - discriminate.
    - intros x [= <-]. now inversion I1.
  Qed.
  Lemma set_scope_keeps sc : scope_u64 sc -> keeps (set_scope sc) (fun _ => True).
  Proof.
    intros H s I. unfold set_scope. pose proof I as [I1 I2]. destruct (p_scopes s) as [|sc' l] eqn:S; cbn; (split; [|auto]).
    - exact I.
    - split; [|exact I2]. cbn. inversion I1; subst. now constructor.
  Qed.
  Lemma extend_scope_keeps l : Forall abbrev_u64 l -> keeps (extend_scope l) (fun _ => True).
  Proof.
    intros H. unfold extend_scope. apply (keeps_bind _ _ scope_u64); [apply get_scope_keeps|]. intros sc SC.
    destruct sc as [|w b i a]; cbn [sc_extend]; [apply keeps_fail|]. apply set_scope_keeps. cbn in *. now apply Forall_app.
  Qed.
  Lemma info_get_u64 m k l : Forall (fun x : N * list abbrev => Forall abbrev_u64 (snd x)) m -> info_get m k = Some l -> Forall abbrev_u64 l.
  Proof.
    intros H. induction H as [|[k' v] m X H IH]; cbn [info_get]; [discriminate|].
    destruct (k' =? k); [intros [= <-]; exact X|exact IH].
  Qed.
  Lemma info_push_u64 m k a : Forall (fun x : N * list abbrev => Forall abbrev_u64 (snd x)) m -> abbrev_u64 a ->
    Forall (fun x => Forall abbrev_u64 (snd x)) (info_push m k a).
  Proof.
    intros H A. induction H as [|[k' v] m X H IH]; cbn [info_push]; [repeat constructor; exact A|].
    destruct (k' =? k); constructor; cbn in *; try assumption. apply Forall_app. split; [exact X|repeat constructor; exact A].
  Qed.
  Definition result_u64 (x : option entry) : Prop := match x with Some y => entry_u64 y | None => True end.

  Lemma enter_block_keeps : keeps (enter_block e o) result_u64.
  Proof.
    unfold enter_block. apply (keeps_bind _ _ u64); [apply keeps_cur, c_vbr_u64|]. intros bid B.
    apply keeps_any; [apply keeps_cur_any|]. intros w. apply keeps_any; [apply keeps_cur_any|]. intros _.
    destruct (w <? 1); [apply keeps_fail|]. apply keeps_any; [apply keeps_cur_any|]. intros words.
    apply keeps_any.
    { intros s [I1 I2]. cbn. split; [|auto]. split; cbn; [constructor; [constructor|exact I1]|exact I2]. }
    intros _. apply keeps_any.
    { intros s I. destruct (info_get (p_info s) bid) as [l|] eqn:G.
      - apply extend_scope_keeps; [|exact I]. destruct I as [_ I2]. exact (info_get_u64 _ _ _ I2 G).
      - cbn. auto. }
    intros _. apply keeps_any; [intros s I; destruct (get_scope_keeps s I) as [H _]; auto|]. intros sc.
    destruct (sc_is_blockinfo sc); apply keeps_ret; cbn; auto.
  Qed.
  Lemma exit_block_keeps : keeps (exit_block (C := C) o) result_u64.
  Proof.
    unfold exit_block. apply keeps_any; [apply keeps_cur_any|]. intros _ s I. pose proof I as [I1 I2].
    destruct (p_scopes s) as [|sc [|sc' l]] eqn:S; cbn; try (split; [exact I|discriminate]). split.
    - split; cbn; [now inversion I1|exact I2].
    - intros x [= <-]. destruct (sc_is_blockinfo sc); exact Logic.I.
  Qed.
  Lemma define_abbrev_keeps : keeps (define_abbrev e o) (fun _ => True).
  Proof.
    unfold define_abbrev. apply (keeps_bind _ _ abbrev_u64); [apply keeps_cur, abbrev_new_u64|]. intros a A.
    apply keeps_any; [intros s I; destruct (get_scope_keeps s I) as [H _]; auto|]. intros sc.
    destruct (sc_is_blockinfo sc); [|apply extend_scope_keeps; repeat constructor; exact A].
    destruct (sc_blockinfo_bid sc) as [bid|]; [|apply keeps_fail]. intros s [I1 I2]. cbn. split; [|auto].
    split; cbn; [exact I1|now apply info_push_u64].
  Qed.
  Lemma with_capacity_keeps n : keeps (with_capacity e n) (fun _ => True).
  Proof. unfold with_capacity. destruct (_ <=? _); [now apply keeps_ret|apply keeps_crash]. Qed.
  Lemma parse_unabbrev_keeps : keeps (parse_unabbrev e o) result_u64.
  Proof.
    unfold parse_unabbrev. apply (keeps_bind _ _ scope_u64); [apply get_scope_keeps|]. intros sc _.
    destruct sc as [|w b i a]; [apply keeps_fail|].
    apply (keeps_bind _ _ u64); [apply keeps_cur, c_vbr_u64|]. intros code CD.
    apply keeps_any; [apply keeps_cur_any|]. intros num. apply keeps_any; [apply with_capacity_keeps|]. intros _.
    apply (keeps_bind _ _ (Forall u64)).
    { apply keeps_cur, gives_times. apply (gives_bind _ _ u64); [apply c_vbr_u64|]. intros x X. apply gives_ret. repeat constructor. exact X. }
    intros fields F. apply (keeps_bind _ _ scope_u64); [apply get_scope_keeps|]. intros sc SC.
    destruct (sc_is_blockinfo sc); [|apply keeps_ret; cbn; auto].
    destruct (blockinfo_code_of code) as [[]|]; try apply keeps_fail; try (apply keeps_ret; exact I).
    destruct fields as [|bid fs]; [apply keeps_crash|].
    destruct sc as [|w' b' i' a']; cbn [sc_set_bid]; [apply keeps_fail|].
    apply keeps_any; [apply set_scope_keeps; exact SC|]. intros _. apply keeps_ret. exact I.
  Qed.
  Lemma parse_with_abbrev_keeps id : keeps (parse_with_abbrev e o id) result_u64.
  Proof.
    unfold parse_with_abbrev. apply (keeps_bind _ _ scope_u64); [apply get_scope_keeps|]. intros sc SC.
    apply (keeps_bind _ _ abbrev_u64).
    { unfold get_abbrev. destruct sc as [|w b i l]; [apply keeps_fail|]. destruct (id <? 4); [apply keeps_crash|].
      destruct (nth_error l (N.to_nat (id - 4))) as [a|] eqn:N1; [|apply keeps_fail]. apply keeps_ret.
      apply nth_error_In in N1. cbn in SC. rewrite Forall_forall in SC. now apply SC. }
    intros a A. apply (keeps_bind _ _ (Forall u64)); [apply keeps_cur; now apply abbrev_parse_u64|]. intros fields F.
    destruct fields as [|code fs]; [apply keeps_crash|]. inversion F; subst.
    apply (keeps_bind _ _ scope_u64); [apply get_scope_keeps|]. intros sc' _.
    destruct (sc_is_blockinfo sc'); apply keeps_ret; cbn; auto.
  Qed.
  Lemma step_keeps : keeps (step e o) result_u64.
  Proof.
    intros s I. unfold step. destruct (op_exhausted o (p_cur s)); [split; [exact I|discriminate]|].
    revert s I. match goal with |- forall s, parser_u64 s -> parser_u64 (snd (?m s)) /\ _ => change (keeps m result_u64) end.
    apply (keeps_bind _ _ scope_u64); [apply get_scope_keeps|]. intros sc _.
    apply keeps_any; [apply keeps_cur_any|]. intros v. destruct (abbrev_id_of v).
    - apply exit_block_keeps.
    - apply enter_block_keeps.
    - apply keeps_any; [apply define_abbrev_keeps|]. intros _. now apply keeps_ret.
    - apply parse_unabbrev_keeps.
    - apply parse_with_abbrev_keeps.
  Qed.
  Lemma advance_loop_keeps f : keeps (advance_loop e o f) entry_u64.
  Proof.
    induction f as [|f IH]; cbn [advance_loop]; [intros s I; split; [exact I|discriminate]|].
    apply (keeps_bind _ _ result_u64); [apply step_keeps|]. intros [x|] X; [now apply keeps_ret|exact IH].
  Qed.
  Lemma next_keeps s : parser_u64 s -> parser_u64 (snd (next e o s)) /\
    forall x, fst (next e o s) = Some (Ok x) -> entry_u64 x.
  Proof.
    intros I. destruct (advance_loop_keeps (op_fuel o (p_cur s)) s I) as [H1 H2].
    unfold next, advance. destruct (advance_loop e o (op_fuel o (p_cur s)) s) as [[x|[]|p|] s1]; cbn [fst snd] in *;
      (split; [exact H1|]); intros y; try discriminate. intros [= <-]. now apply H2.
  Qed.
  Lemma new_u64 (c : C) : parser_u64 (parser_new c).
  Proof. split; cbn; repeat constructor. Qed.
End Bounds.

Lemma reachable_u64 e s : parser_reachable e s -> parser_u64 s.
Proof. induction 1 as [c _|s _ IH]; [apply new_u64|now apply next_keeps]. Qed.
Lemma next_u64 e s x : parser_reachable e s -> fst (next e cursor_ops s) = Some (Ok x) -> entry_u64 x.
Proof. intros H. apply next_keeps. exact (reachable_u64 e s H). Qed.
