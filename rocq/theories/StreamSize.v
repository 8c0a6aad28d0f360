(** A record has no more fields than the stream has bits. *)
From Verif Require Import Base CursorModel CursorSpec CursorHist CursorProofs CursorSim CursorMain
  StreamModel StreamSpec StreamHist StreamProofs StreamPres StreamEnd.
From Coq Require Import Lia ZifyBool ZifyNat ZifyN.
Ltac Zify.zify_post_hook ::= Z.div_mod_to_equations.
Local Open Scope N_scope.
#[local] Arguments N.add : simpl never.
#[local] Arguments N.mul : simpl never.
#[local] Arguments N.sub : simpl never.
#[local] Arguments N.pow : simpl never.

(** Array elements take up bits. *)
Definition op_sized (op : abbrev_op) : Prop :=
  match op with
  | OpArray (OpVbr _) | OpArray (OpFixed _) | OpArray OpChar6 => True
  | OpArray _ => False
  | _ => True
  end.
Definition elem_sized (op : abbrev_op) : Prop := match op with OpVbr _ | OpFixed _ | OpChar6 => True | _ => False end.

Lemma F1 {A} (P : A -> Prop) a : P a -> Forall P [a].
Proof. intros H. constructor; [exact H|constructor]. Qed.

Section Size.
  Context {C : Type} (e : env) (o : cops C) (I : C -> Prop) (mu : C -> nat) (PG : progressive o I mu).
  Local Open Scope m_scope.

  (** A successful [m] pays for the weight of its result with bits, up to [k]. *)
  Definition pays {E A} (w : A -> nat) (k : nat) (m : M C E A) : Prop :=
    forall c x c', I c -> m c = (Ok x, c') -> I c' /\ (w x + mu c' <= mu c + k)%nat.

  Lemma pays_ret {E A} (w : A -> nat) k (a : A) : (w a <= k)%nat -> pays (E := E) w k (ret a).
  Proof. intros H c x c' Hc [= <- <-]. split; [exact Hc|lia]. Qed.
  Lemma pays_fail {E A} (w : A -> nat) k (x : E) : pays w k (fail x).
  Proof. intros c y c' Hc [=]. Qed.
  Lemma pays_crash {E A} (w : A -> nat) k p : pays (E := E) w k (crash p).
  Proof. intros c y c' Hc [=]. Qed.
  Lemma pays_bind {E A B} (w : A -> nat) (v : B -> nat) k (m : M C E A) (f : A -> M C E B) :
    pays w 0 m -> (forall a, pays v (w a + k) (f a)) -> pays v k (bind m f).
  Proof.
    intros H K c x c' Hc X. unfold bind in X. destruct (m c) as [[a|y|p|] c1] eqn:M1; try discriminate X.
    destruct (H _ _ _ Hc M1) as [H1 H2]. destruct (K a _ _ _ H1 X) as [H3 H4]. split; [exact H3|lia].
  Qed.
  Lemma pays_nice {E A} Pan (m : M C E A) : nice I mu Pan m -> pays (fun _ => 0%nat) 0 m.
  Proof. intros H c x c' Hc X. specialize (H c Hc). rewrite X in H. split; [tauto|lia]. Qed.
  Lemma pays_weaken {E A} (w : A -> nat) k k' (m : M C E A) : (k <= k')%nat -> pays w k m -> pays w k' m.
  Proof. intros L H c x c' Hc X. destruct (H c x c' Hc X). split; [assumption|lia]. Qed.
  Lemma pays_lift {E F A} (w : A -> nat) k (f : E -> F) (m : M C E A) : pays w k m -> pays w k (lift_err f m).
  Proof.
    intros H c x c' Hc X. unfold lift_err in X. destruct (m c) as [[a|y|p|] c1] eqn:M1; try discriminate X.
    injection X as <- <-. exact (H _ _ _ Hc M1).
  Qed.
  Lemma pays_times {E A} (m : M C E (list A)) n : pays (@length A) 0 m -> pays (@length A) 0 (times n m).
  Proof.
    intros H c x c' Hc X. rewrite times_nat in X. revert c x c' Hc X. generalize (N.to_nat n). intros k.
    change (pays (@length A) 0 (times_n k m)). induction k as [|k IH]; cbn [times_n]; [apply pays_ret; cbn; lia|].
    apply (pays_bind (@length A)); [exact H|]. intros a c x c' Hc X. unfold bind in X.
    destruct (times_n k m c) as [[b|y|p|] c1] eqn:M1; try discriminate X. destruct (IH _ _ _ Hc M1) as [I1 L1].
    injection X as <- <-. split; [exact I1|]. rewrite app_length. lia.
  Qed.

  Lemma read_pays n : pays (fun _ => 1%nat) 0 (op_read o n).
  Proof. intros c x c' Hc X. pose proof (pg_read _ _ _ PG n c Hc) as K. rewrite X in K. split; [tauto|lia]. Qed.
  Lemma vbr_pays w : pays (fun _ => 1%nat) 0 (read_vbr e o w).
  Proof.
    intros c x c' Hc X. unfold read_vbr in X. destruct (_ && _)%bool; [|discriminate X].
    revert X. generalize (op_fuel o c). generalize 0 at 1 as r. generalize 0 as s. intros s r f. revert c x c' Hc s r.
    induction f as [|f IH]; intros c x c' Hc s r X; [discriminate X|]. cbn [vbr_loop] in X. unfold bind at 1 in X.
    pose proof (pg_read _ _ _ PG w c Hc) as K.
    destruct (op_read o w c) as [[v|y|p|] c1]; try discriminate X. cbv zeta in X. destruct (_ && _)%bool; [discriminate X|].
    destruct (_ =? 0).
    - injection X as <- <-. split; [tauto|lia].
    - destruct (IH c1 x c' ltac:(tauto) _ _ X) as [I1 L1]. split; [exact I1|lia].
  Qed.
  Lemma c_vbr_pays w : pays (fun _ => 1%nat) 0 (c_vbr e o w).
  Proof. apply pays_lift, vbr_pays. Qed.
  Lemma c_read_as_pays t n : pays (fun _ => 1%nat) 0 (c_read_as o t n).
  Proof.
    apply pays_lift. unfold read_as. apply (pays_bind (fun _ => 1%nat)); [apply read_pays|]. intros v.
    destruct (num_cast t v); [apply pays_ret; lia|apply pays_fail].
  Qed.
  Lemma c_read_pays n : pays (fun _ => 1%nat) 0 (c_read o n).
  Proof. apply pays_lift, read_pays. Qed.
  Lemma free_align : pays (fun _ => 0%nat) 0 (c_align o).
  Proof. exact (pays_nice _ _ (c_align_nice e o I mu PG)). Qed.
  Lemma free_capacity n : pays (fun _ => 0%nat) 0 (with_capacity (E := serr) e n).
  Proof. intros c x c' Hc X. unfold with_capacity in X. destruct (_ <=? _); [|discriminate X]. injection X as <- <-. split; [exact Hc|lia]. Qed.

  Lemma elem_pays op : elem_sized op -> pays (@length N) 0 (op_parse e o op).
  Proof.
    destruct op; try contradiction; intros _; cbn [op_parse].
    - apply (pays_bind (fun _ => 1%nat)); [apply c_vbr_pays|]. intros x. apply pays_ret. cbn. lia.
    - apply (pays_bind (fun _ => 1%nat)); [apply c_read_as_pays|]. intros x. apply pays_ret. cbn. lia.
    - apply (pays_bind (fun _ => 1%nat)); [apply c_read_as_pays|]. intros x. unfold decode_char6.
      intros c y c' Hc X. unfold bind in X. destruct (nth_error char6_alphabet (N.to_nat x)); [|discriminate X].
      injection X as <- <-. cbn. split; [exact Hc|lia].
  Qed.
  Lemma op_pays op : op_sized op -> pays (@length N) 1 (op_parse e o op).
  Proof.
    intros O. destruct op as [v|w|w|el| |]; try (apply (pays_weaken _ 0); [lia|]; now apply elem_pays).
    - apply pays_ret. cbn. lia.
    - apply (pays_weaken _ 0); [lia|]. cbn [op_parse].
      apply (pays_bind (fun _ => 0%nat)); [eapply pays_nice, (c_vbr_nice e o I mu PG)|]. intros n.
      apply (pays_bind (fun _ => 0%nat)); [apply free_capacity|]. intros _.
      apply (pays_weaken _ 0); [lia|]. apply pays_times, elem_pays. destruct el; try contradiction; exact Logic.I.
    - apply (pays_weaken _ 0); [lia|]. cbn [op_parse].
      apply (pays_bind (fun _ => 0%nat)); [eapply pays_nice, (c_vbr_nice e o I mu PG)|]. intros n.
      apply (pays_bind (fun _ => 0%nat)); [apply free_align|]. intros _.
      apply (pays_bind (fun _ => 0%nat)); [apply free_capacity|]. intros _.
      apply (pays_bind (@length N)).
      + apply pays_times. apply (pays_bind (fun _ => 1%nat)); [apply c_read_as_pays|]. intros x. apply pays_ret. cbn. lia.
      + intros bs. apply (pays_bind (fun _ => 0%nat)); [apply free_align|]. intros _. apply pays_ret. lia.
  Qed.
  Lemma abbrev_pays a : Forall op_sized a -> pays (@length N) (length a) (abbrev_parse e o a).
  Proof.
    induction a as [|op a IH]; intros F; cbn [abbrev_parse length]; [apply pays_ret; cbn; lia|].
    inversion F as [|? ? O F']; subst. intros c x c' Hc X. unfold bind in X.
    destruct (op_parse e o op c) as [[y|?|?|] c1] eqn:M1; try discriminate X.
    destruct (op_pays op O _ _ _ Hc M1) as [I1 L1].
    destruct (abbrev_parse e o a c1) as [[z|?|?|] c2] eqn:M2; try discriminate X.
    destruct (IH F' _ _ _ I1 M2) as [I2 L2]. injection X as <- <-. split; [exact I2|]. rewrite app_length. lia.
  Qed.

  (** Definitions. *)
  Definition wsized (a : abbrev) : Prop := Forall op_sized a.
  Lemma array_elem_sized c x c' : array_elem e o c = (Ok x, c') -> elem_sized x.
  Proof.
    unfold array_elem, bind. destruct (c_read o 1 c) as [[v|?|?|] c1]; try discriminate.
    destruct (read_enc o c1) as [[[]|?|?|] c2]; try discriminate; try (destruct (c_vbr e o 5 c2) as [[w|?|?|] c3]; try discriminate);
      intros [= <- <-]; exact Logic.I.
  Qed.
  Lemma abbrev_loop_sized f : forall num idx acc c a c', wsized acc -> I c ->
    abbrev_loop e o f num idx acc c = (Ok a, c') -> wsized a /\ I c' /\ (length a + mu c' <= mu c + length acc)%nat.
  Proof.
    induction f as [|f IH]; intros num idx acc c a c' W Hc X; [discriminate X|]. cbn [abbrev_loop] in X.
    destruct (num <=? idx); [injection X as <- <-; split; [exact W|split; [exact Hc|lia]]|].
    unfold bind at 1 in X. destruct (c_read o 1 c) as [[kind|?|?|] c1] eqn:M1; try discriminate X.
    destruct (c_read_pays 1 _ _ _ Hc M1) as [I1 L1].
    assert (W1 : forall op, op_sized op -> wsized (acc ++ [op])) by (intros op O; apply Forall_app; split; [exact W|repeat constructor; exact O]).
    assert (Rec : forall op c2, op_sized op -> I c2 -> (mu c2 <= mu c1)%nat ->
      abbrev_loop e o f num (idx + 1) (acc ++ [op]) c2 = (Ok a, c') ->
      wsized a /\ I c' /\ (length a + mu c' <= mu c + length acc)%nat).
    { intros op c2 O I2 L2 Y. destruct (IH _ _ _ _ _ _ (W1 op O) I2 Y) as (Q1 & Q2 & Q3). rewrite app_length in Q3. cbn in Q3.
      split; [exact Q1|]. split; [exact Q2|lia]. }
    destruct (kind =? 1).
    { unfold bind in X. destruct (c_vbr e o 8 c1) as [[v|?|?|] c2] eqn:M2; try discriminate X.
      destruct (c_vbr_pays 8 _ _ _ I1 M2) as [I2 L2]. apply (Rec (OpLiteral v) c2 Logic.I I2 ltac:(lia) X). }
    unfold bind at 1 in X. destruct (read_enc o c1) as [[enc|?|?|] c2] eqn:M2; try discriminate X.
    destruct (pays_nice _ _ (read_enc_nice e o I mu PG) _ _ _ I1 M2) as [I2 L2].
    destruct enc.
    - unfold bind in X. destruct (c_vbr e o 5 c2) as [[v|?|?|] c3] eqn:M3; try discriminate X.
      destruct (c_vbr_pays 5 _ _ _ I2 M3) as [I3 L3]. apply (Rec (OpFixed v) c3 Logic.I I3 ltac:(lia) X).
    - unfold bind in X. destruct (c_vbr e o 5 c2) as [[v|?|?|] c3] eqn:M3; try discriminate X.
      destruct (c_vbr_pays 5 _ _ _ I2 M3) as [I3 L3]. apply (Rec (OpVbr v) c3 Logic.I I3 ltac:(lia) X).
    - destruct (_ && _)%bool; [discriminate X|]. cbv zeta in X. destruct (negb _); [discriminate X|].
      unfold bind in X. destruct (array_elem e o c2) as [[v|?|?|] c3] eqn:M3; try discriminate X.
      pose proof (array_elem_sized _ _ _ M3) as ES.
      destruct (pays_nice _ _ (array_elem_nice e o I mu PG) _ _ _ I2 M3) as [I3 L3]. injection X as <- <-.
      split; [apply W1; destruct v; try contradiction; exact Logic.I|]. split; [exact I3|]. rewrite app_length. cbn. lia.
    - apply (Rec OpChar6 c2 Logic.I I2 ltac:(lia) X).
    - destruct (negb _); [discriminate X|]. apply (Rec OpBlob c2 Logic.I I2 ltac:(lia) X).
  Qed.
  Lemma abbrev_new_sized c a c' : I c -> abbrev_new e o c = (Ok a, c') -> wsized a /\ I c' /\ (length a + mu c' <= mu c)%nat.
  Proof.
    intros Hc X. unfold abbrev_new, bind in X. destruct (c_vbr e o 5 c) as [[num|?|?|] c1] eqn:M1; try discriminate X.
    destruct (c_vbr_pays 5 _ _ _ Hc M1) as [I1 L1]. destruct (num <? 1); [discriminate X|].
    destruct (abbrev_loop_sized _ num 0 [] c1 a c' (Forall_nil _) I1 X) as (Q1 & Q2 & Q3). cbn in Q3. split; [exact Q1|]. split; [exact Q2|lia].
  Qed.

  (** *** The parser *)
  Context (B : nat).
  Definition abbrev_in (k : nat) (a : abbrev) : Prop := wsized a /\ (length a + k <= B)%nat.
  Definition scope_in (k : nat) (s : scope) : Prop := match s with ScInitial => True | ScBlock _ _ _ l => Forall (abbrev_in k) l end.
  Definition J (s : sparser C) : Prop :=
    I (p_cur s) /\ (mu (p_cur s) <= B)%nat /\ Forall (scope_in (mu (p_cur s))) (p_scopes s) /\
    Forall (fun x => Forall (abbrev_in (mu (p_cur s))) (snd x)) (p_info s).
  Lemma abbrev_in_less k k' a : (k' <= k)%nat -> abbrev_in k a -> abbrev_in k' a.
  Proof. unfold abbrev_in. intros L [H1 H2]. split; [exact H1|lia]. Qed.
  Lemma scope_in_less k k' s : (k' <= k)%nat -> scope_in k s -> scope_in k' s.
  Proof.
    intros L. destruct s as [|w b i l]; [exact (fun x => x)|]. cbn. apply Forall_impl. intros a. now apply abbrev_in_less.
  Qed.

  Notation PM := (M (sparser C) serr).
  Definition at_ {A} (s : sparser C) (m : PM A) (Q : A -> sparser C -> Prop) : Prop :=
    J (snd (m s)) /\ forall x, fst (m s) = Ok x -> Q x (snd (m s)).
  Lemma at_bind {A A'} s (m : PM A) (k : A -> PM A') P Q :
    at_ s m P -> (forall a s', J s' -> P a s' -> at_ s' (k a) Q) -> at_ s (bind m k) Q.
  Proof.
    unfold at_. intros [H1 H2] K. unfold bind. destruct (m s) as [[a|y|p|] s1]; cbn [fst snd] in *; try (split; [exact H1|discriminate]).
    now apply K; [|apply H2].
  Qed.
  Lemma at_ret {A} s (a : A) (Q : A -> sparser C -> Prop) : J s -> Q a s -> at_ s (ret a) Q.
  Proof. intros H1 H2. split; [exact H1|]. intros x [= <-]. exact H2. Qed.
  Lemma at_fail {A} s x (Q : A -> sparser C -> Prop) : J s -> at_ s (fail x) Q.
  Proof. intros H. split; [exact H|]. intros y [=]. Qed.
  Lemma at_crash {A} s p (Q : A -> sparser C -> Prop) : J s -> at_ s (crash p) Q.
  Proof. intros H. split; [exact H|]. intros y [=]. Qed.
  (** Cursor actions do not move backwards. *)
  Definition down {A} (m : M C serr A) : Prop := forall K, preserves (fun c => I c /\ (mu c <= K)%nat) m.
  Lemma read_down K n : preserves (fun c => I c /\ (mu c <= K)%nat) (op_read o n).
  Proof.
    intros c [Hc L]. pose proof (pg_read _ _ _ PG n c Hc) as X. destruct (op_read o n c) as [[] c']; cbn [snd]; try contradiction; split; lia || tauto.
  Qed.
  Lemma align_down K c : I c /\ (mu c <= K)%nat -> I (op_align32 o c) /\ (mu (op_align32 o c) <= K)%nat.
  Proof. intros [Hc L]. destruct (pg_align _ _ _ PG c Hc). split; [assumption|lia]. Qed.
  Lemma at_cur {A} s (m : M C serr A) (Q : A -> sparser C -> Prop) : J s -> down m ->
    (forall x c', m (p_cur s) = (Ok x, c') -> Q x (mkParser c' (p_scopes s) (p_info s))) -> at_ s (on_cur m) Q.
  Proof.
    intros (J1 & J2 & J3 & J4) D H. unfold at_, on_cur. pose proof (D (mu (p_cur s)) (p_cur s) (conj J1 (le_n _))) as [D1 D2].
    destruct (m (p_cur s)) as [r c'] eqn:M1. cbn [fst snd] in *. split.
    - unfold J. cbn [p_cur p_scopes p_info]. split; [exact D1|]. split; [lia|]. split.
      + eapply Forall_impl; [|exact J3]. intros sc. now apply scope_in_less.
      + eapply Forall_impl; [|exact J4]. intros x. apply Forall_impl. intros a. now apply abbrev_in_less.
    - intros x ->. now apply H.
  Qed.
  Lemma at_any {A A'} s (m : M C serr A) (k : A -> PM A') Q : J s -> down m ->
    (forall a s', J s' -> p_scopes s' = p_scopes s -> at_ s' (k a) Q) -> at_ s (bind (on_cur m) k) Q.
  Proof.
    intros H D K. apply (at_bind _ _ _ (fun _ s' => p_scopes s' = p_scopes s)); [now apply at_cur|]. intros a s' J' P'. now apply K.
  Qed.
  Lemma at_scope s (Q : scope -> sparser C -> Prop) : J s -> (forall sc, scope_in (mu (p_cur s)) sc -> Q sc s) -> at_ s get_scope Q.
  Proof.
    intros H K. pose proof H as (_ & _ & J3 & _). unfold at_, get_scope. destruct (p_scopes s) as [|sc l]; cbn; (split; [exact H|]).
    - discriminate.
    - intros x [= <-]. apply K. now inversion J3.
  Qed.
  Lemma at_set_scope s sc (Q : unit -> sparser C -> Prop) : J s -> scope_in (mu (p_cur s)) sc -> (forall s', Q tt s') -> at_ s (set_scope sc) Q.
  Proof.
    intros H K HQ. pose proof H as (J1 & J2 & J3 & J4). unfold at_, set_scope. destruct (p_scopes s) as [|sc' l]; cbn [fst snd]; (split; [|]).
    - exact H.
    - discriminate.
    - unfold J. cbn [p_cur p_scopes p_info]. inversion J3; subst. auto.
    - intros []. auto.
  Qed.
  Lemma at_extend s l : J s -> Forall (abbrev_in (mu (p_cur s))) l -> at_ s (extend_scope l) (fun _ _ => True).
  Proof.
    intros H K. unfold extend_scope. apply (at_bind _ _ _ (fun sc s' => s' = s /\ scope_in (mu (p_cur s)) sc)); [now apply at_scope|].
    intros sc s' J' [-> S]. destruct sc as [|w b i a]; cbn [sc_extend]; [now apply at_fail|].
    apply at_set_scope; auto. cbn in *. now apply Forall_app.
  Qed.
  Lemma info_get_in k m b l : Forall (fun x : N * list abbrev => Forall (abbrev_in k) (snd x)) m -> info_get m b = Some l -> Forall (abbrev_in k) l.
  Proof.
    intros H. induction H as [|[k' v] m X H IH]; cbn [info_get]; [discriminate|].
    destruct (k' =? b); [intros [= <-]; exact X|exact IH].
  Qed.
  Lemma info_push_in k m b a : Forall (fun x : N * list abbrev => Forall (abbrev_in k) (snd x)) m -> abbrev_in k a ->
    Forall (fun x => Forall (abbrev_in k) (snd x)) (info_push m b a).
  Proof.
    intros H A. induction H as [|[k' v] m X H IH]; cbn [info_push]; [apply F1, F1, A|].
    destruct (k' =? b); constructor; cbn in *; try assumption. apply Forall_app. split; [exact X|apply F1, A].
  Qed.

  Definition small (x : option entry) (s : sparser C) : Prop :=
    match x with Some (ERecord _ _ fields) => (length fields <= B)%nat | _ => True end.
  Lemma vbr_down w : down (c_vbr e o w).
  Proof. intros K. apply c_vbr_pres, read_down. Qed.
  Lemma c_read_down n : down (c_read o n).
  Proof. intros K. apply c_read_pres, read_down. Qed.
  Lemma c_align_down : down (c_align o).
  Proof. intros K. apply c_align_pres. exact (align_down K). Qed.

  Lemma enter_block_small s : J s -> at_ s (enter_block e o) small.
  Proof.
    intros H. unfold enter_block. apply at_any; [exact H|apply vbr_down|]. intros bid s1 J1 _.
    apply at_any; [exact J1|apply vbr_down|]. intros w s2 J2 _.
    apply at_any; [exact J2|apply c_align_down|]. intros _ s3 J3 _.
    destruct (w <? 1); [now apply at_fail|]. apply at_any; [exact J3|apply c_read_down|]. intros words s4 J4 _.
    apply (at_bind _ _ _ (fun _ _ => True)).
    { unfold push_scope, at_. cbn [fst snd]. split; [|auto]. destruct J4 as (K1 & K2 & K3 & K4). unfold J. cbn [p_cur p_scopes p_info].
      split; [exact K1|]. split; [exact K2|]. split; [constructor; [constructor|exact K3]|exact K4]. }
    intros _ s5 J5 _. apply (at_bind _ _ _ (fun _ _ => True)).
    { pose proof J5 as (_ & _ & _ & K4). unfold at_. destruct (info_get (p_info s5) bid) as [l|] eqn:G.
      - apply at_extend; [exact J5|]. exact (info_get_in _ _ _ _ K4 G).
      - cbn. auto. }
    intros _ s6 J6 _. apply (at_bind _ _ _ (fun _ _ => True)); [now apply at_scope|]. intros sc s7 J7 _.
    destruct (sc_is_blockinfo sc); apply at_ret; cbn; auto.
  Qed.
  Lemma exit_block_small s : J s -> at_ s (exit_block (C := C) o) small.
  Proof.
    intros H. unfold exit_block. apply at_any; [exact H|apply c_align_down|]. intros _ s1 J1 _. unfold at_.
    pose proof J1 as (K1 & K2 & K3 & K4).
    destruct (p_scopes s1) as [|sc [|sc' l]] eqn:S; cbn [fst snd]; try (split; [exact J1|discriminate]). split.
    - unfold J. cbn [p_cur p_scopes p_info]. inversion K3; subst. auto.
    - intros x [= <-]. destruct (sc_is_blockinfo sc); exact Logic.I.
  Qed.
  Lemma define_abbrev_small s : J s -> at_ s (define_abbrev e o) (fun _ _ => True).
  Proof.
    intros H. unfold define_abbrev. apply (at_bind _ _ _ (fun a s' => abbrev_in (mu (p_cur s')) a)).
    { apply at_cur; [exact H|intros K; apply abbrev_new_pres, read_down|].
      intros a c' X. pose proof H as (K1 & K2 & _). destruct (abbrev_new_sized _ _ _ K1 X) as (Q1 & Q2 & Q3).
      cbn [p_cur]. split; [exact Q1|lia]. }
    intros a s1 J1 A1. apply (at_bind _ _ _ (fun sc s' => s' = s1)); [now apply at_scope|]. intros sc s2 _ ->.
    destruct (sc_is_blockinfo sc); [|apply at_extend; [exact J1|apply F1, A1]].
    destruct (sc_blockinfo_bid sc) as [bid|]; [|now apply at_fail]. unfold at_. cbn [fst snd]. split; [|auto].
    destruct J1 as (K1 & K2 & K3 & K4). unfold J. cbn [p_cur p_scopes p_info]. split; [exact K1|]. split; [exact K2|].
    split; [exact K3|now apply info_push_in].
  Qed.
  Lemma parse_unabbrev_small s : J s -> at_ s (parse_unabbrev e o) small.
  Proof.
    intros H. unfold parse_unabbrev. apply (at_bind _ _ _ (fun sc s' => s' = s)); [now apply at_scope|]. intros sc s0 _ ->.
    destruct sc as [|w b i a]; [now apply at_fail|].
    apply at_any; [exact H|apply vbr_down|]. intros code s1 J1 _. apply at_any; [exact J1|apply vbr_down|]. intros num s2 J2 _.
    apply (at_bind _ _ _ (fun _ _ => True)); [unfold with_capacity; destruct (_ <=? _); [now apply at_ret|now apply at_crash]|]. intros _ s3 J3 _.
    apply (at_bind _ _ _ (fun fields _ => (length fields <= B)%nat)).
    { apply at_cur; [exact J3| |].
      - intros K. apply preserves_times. apply preserves_bind; [apply vbr_down|]. intros x. apply preserves_ret.
      - intros x c' X. pose proof J3 as (K1 & K2 & _).
        assert (PX : pays (@length N) 0 (times num (x <- c_vbr e o 6 ;; ret [x]))).
        { apply pays_times. apply (pays_bind (fun _ => 1%nat)); [apply c_vbr_pays|]. intros y. apply pays_ret. cbn. lia. }
        destruct (PX _ _ _ K1 X) as [_ L]. lia. }
    intros fields s4 J4 F. apply (at_bind _ _ _ (fun sc s' => s' = s4 /\ scope_in (mu (p_cur s4)) sc)); [now apply at_scope|]. intros sc s5 _ [-> SC].
    destruct (sc_is_blockinfo sc); [|apply at_ret; cbn; auto].
    destruct (blockinfo_code_of code) as [[]|]; try (now apply at_fail); try (apply at_ret; [exact J4|exact Logic.I]).
    destruct fields as [|bid fs]; [now apply at_crash|].
    destruct sc as [|w' b' i' a']; cbn [sc_set_bid]; [now apply at_fail|].
    apply (at_bind _ _ _ (fun _ _ => True)); [apply at_set_scope; auto|]. intros _ s6 J6 _. apply at_ret; [exact J6|exact Logic.I].
  Qed.
  Lemma parse_with_abbrev_small id s : J s -> at_ s (parse_with_abbrev e o id) small.
  Proof.
    intros H. unfold parse_with_abbrev.
    apply (at_bind _ _ _ (fun sc s' => s' = s /\ scope_in (mu (p_cur s)) sc)); [now apply at_scope|]. intros sc s0 _ [-> SC].
    apply (at_bind _ _ _ (fun a s' => s' = s /\ abbrev_in (mu (p_cur s)) a)).
    { unfold get_abbrev. destruct sc as [|w b i l]; [now apply at_fail|]. destruct (id <? 4); [now apply at_crash|].
      destruct (nth_error l (N.to_nat (id - 4))) as [a|] eqn:N1; [|now apply at_fail]. apply at_ret; [exact H|]. split; [reflexivity|].
      apply nth_error_In in N1. cbn in SC. rewrite Forall_forall in SC. now apply SC. }
    intros a s0 _ [-> [A1 A2]].
    apply (at_bind _ _ _ (fun fields _ => (length fields <= B)%nat)).
    { apply at_cur; [exact H|intros K; apply abbrev_parse_pres; [apply read_down|exact (align_down K)]|].
      intros x c' X. pose proof H as (K1 & K2 & _). destruct (abbrev_pays a A1 _ _ _ K1 X) as [_ L]. lia. }
    intros fields s1 J1 F. destruct fields as [|code fs]; [now apply at_crash|]. cbn [length] in F.
    apply (at_bind _ _ _ (fun _ _ => True)); [now apply at_scope|]. intros sc' s2 J2 _.
    destruct (sc_is_blockinfo sc'); apply at_ret; cbn; auto. lia.
  Qed.
  Lemma step_small s : J s -> at_ s (step e o) small.
  Proof.
    intros H. unfold step, at_. destruct (op_exhausted o (p_cur s)); [split; [exact H|discriminate]|].
    match goal with |- J (snd (?m s)) /\ _ => change (at_ s m small) end.
    apply (at_bind _ _ _ (fun _ s' => s' = s)); [now apply at_scope|]. intros sc s0 _ ->.
    apply at_any; [exact H|apply c_read_down|]. intros v s1 J1 _. destruct (abbrev_id_of v).
    - now apply exit_block_small.
    - now apply enter_block_small.
    - apply (at_bind _ _ _ (fun _ _ => True)); [now apply define_abbrev_small|]. intros _ s2 J2 _. apply at_ret; [exact J2|exact Logic.I].
    - now apply parse_unabbrev_small.
    - now apply parse_with_abbrev_small.
  Qed.
  Lemma advance_loop_small f : forall s, J s -> at_ s (advance_loop e o f) (fun x s => small (Some x) s).
  Proof.
    induction f as [|f IH]; intros s H; cbn [advance_loop]; [split; [exact H|discriminate]|].
    apply (at_bind _ _ _ small); [now apply step_small|]. intros [x|] s1 J1 X; [now apply at_ret|now apply IH].
  Qed.
  Lemma next_small s : J s -> J (snd (next e o s)) /\
    forall a c fields, fst (next e o s) = Some (Ok (ERecord a c fields)) -> (length fields <= B)%nat.
  Proof.
    intros H. destruct (advance_loop_small (op_fuel o (p_cur s)) s H) as [H1 H2].
    unfold next, advance. destruct (advance_loop e o (op_fuel o (p_cur s)) s) as [[x|[]|p|] s1]; cbn [fst snd] in *;
      (split; [exact H1|]); intros a c fields; try discriminate. intros [= ->]. exact (H2 _ eq_refl).
  Qed.
End Size.

Definition cmu (c : cursor) : nat := N.to_nat (bit_len c - tell_bit c).
Lemma reachable_small e s : parser_reachable e s -> J inv63 cmu (N.to_nat (total s)) s.
Proof.
  intros H. induction H as [c R|s H IH].
  - unfold J, total. cbn [p_cur p_scopes p_info parser_new]. split; [exact (reachable_inv e c R)|]. split; [unfold cmu; lia|].
    split; repeat constructor.
  - rewrite (next_total e s H). exact (proj1 (next_small e cursor_ops inv63 cmu cursor_progressive (N.to_nat (total s)) s IH)).
Qed.
Lemma fields_bounded e s a c fields : parser_reachable e s -> fst (next e cursor_ops s) = Some (Ok (ERecord a c fields)) ->
  N.of_nat (length fields) <= total s.
Proof.
  intros H X. pose proof (proj2 (next_small e cursor_ops inv63 cmu cursor_progressive (N.to_nat (total s)) s (reachable_small e s H)) a c fields X). lia.
Qed.
