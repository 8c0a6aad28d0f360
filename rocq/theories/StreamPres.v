(** What the cursor operations preserve, the parser preserves; and on the list cursor:
    progress, absence of fuel exhaustion, classification of panics. *)
From Verif Require Import Base CursorModel CursorSpec CursorHist CursorProofs CursorSim CursorVbr CursorMain StreamModel StreamProofs.
From Coq Require Import Lia ZifyBool ZifyNat ZifyN.
Ltac Zify.zify_post_hook ::= Z.div_mod_to_equations.
Local Open Scope N_scope.
Arguments N.add : simpl never.
Arguments N.mul : simpl never.
Arguments N.div : simpl never.
Arguments N.modulo : simpl never.
Arguments N.sub : simpl never.
Arguments N.pow : simpl never.

Lemma preserves_crash {C E A} (P : C -> Prop) p : preserves P (crash (E := E) (A := A) p).
Proof. intros c H. exact H. Qed.
Lemma preserves_lift {C E F A} (P : C -> Prop) (f : E -> F) (m : M C E A) : preserves P m -> preserves P (lift_err f m).
Proof. intros H c Hc. specialize (H c Hc). unfold lift_err. destruct (m c) as [[] c']; exact H. Qed.
Lemma preserves_times {C E A} (P : C -> Prop) (m : M C E (list A)) n : preserves P m -> preserves P (times n m).
Proof.
  intros Hm c. rewrite times_nat. generalize (N.to_nat n). intros k. revert c.
  induction k as [|k IH]; intros c H; cbn [times_n]; [exact H|].
  apply (preserves_bind P); [exact Hm| |exact H]. intros a.
  apply preserves_bind; [exact IH|]. intros b. apply preserves_ret.
Qed.

Section Pres.
  Context {C : Type} (e : env) (o : cops C) (P : C -> Prop)
          (HR : forall n, preserves P (op_read o n)) (HA : forall c, P c -> P (op_align32 o c)).

  Lemma c_read_pres n : preserves P (c_read o n).
  Proof. apply preserves_lift, HR. Qed.
  Lemma c_vbr_pres w : preserves P (c_vbr e o w).
  Proof. apply preserves_lift, read_vbr_preserves, HR. Qed.
  Lemma c_read_as_pres t n : preserves P (c_read_as o t n).
  Proof. apply preserves_lift, read_as_preserves, HR. Qed.
  Lemma c_align_pres : preserves P (c_align o).
  Proof. intros c H. apply HA, H. Qed.
  Lemma with_capacity_pres n : preserves P (with_capacity (E := serr) e n).
  Proof. intros c H. unfold with_capacity. destruct (_ <=? _); exact H. Qed.
  Hint Resolve c_read_pres c_vbr_pres c_read_as_pres c_align_pres with_capacity_pres
       preserves_ret preserves_fail preserves_crash : pres.
  Ltac bnd := apply preserves_bind; [auto with pres|intros ?].

  Lemma op_parse_pres op : preserves P (op_parse e o op).
  Proof.
    induction op as [v|w|w|el IH| |]; cbn [op_parse].
    - auto with pres.
    - bnd. auto with pres.
    - bnd. auto with pres.
    - bnd. bnd. now apply preserves_times.
    - bnd. bnd; [|auto with pres]. unfold decode_char6. destruct (nth_error _ _); auto with pres.
    - bnd. bnd. bnd. apply preserves_bind; [apply preserves_times; bnd; auto with pres|].
      intros ?. bnd. auto with pres.
  Qed.
  Lemma read_enc_pres : preserves P (read_enc o).
  Proof. unfold read_enc. bnd. destruct (abbrev_enc_of _); auto with pres. Qed.
  Hint Resolve read_enc_pres : pres.
  Lemma array_elem_pres : preserves P (array_elem e o).
  Proof. unfold array_elem. bnd. bnd. destruct a0; auto with pres; bnd; auto with pres. Qed.
  Hint Resolve array_elem_pres : pres.
  Lemma abbrev_loop_pres f num idx acc : preserves P (abbrev_loop e o f num idx acc).
  Proof.
    revert idx acc. induction f as [|f IH]; intros idx acc; cbn [abbrev_loop]; [intros c H; exact H|].
    destruct (num <=? idx); [auto with pres|]. bnd.
    destruct (_ =? 1); [bnd; auto|]. bnd. destruct a0.
    - bnd. auto.
    - bnd. auto.
    - destruct (_ && _); [auto with pres|]. destruct (negb _); [auto with pres|]. bnd. auto with pres.
    - auto.
    - destruct (negb _); auto with pres.
  Qed.
  Lemma abbrev_new_pres : preserves P (abbrev_new e o).
  Proof.
    unfold abbrev_new. bnd. destruct (_ <? _); [auto with pres|]. intros c H. now apply abbrev_loop_pres.
  Qed.
  Lemma abbrev_parse_pres a : preserves P (abbrev_parse e o a).
  Proof.
    induction a as [|op a IH]; cbn [abbrev_parse]; [auto with pres|].
    apply preserves_bind; [apply op_parse_pres|]. intros x.
    apply preserves_bind; [exact IH|]. intros y. auto with pres.
  Qed.

  Definition PP (s : sparser C) : Prop := P (p_cur s).
  Lemma on_cur_pres {A} (m : M C serr A) : preserves P m -> preserves PP (on_cur m).
  Proof. intros H s Hs. specialize (H _ Hs). unfold on_cur. destruct (m (p_cur s)). exact H. Qed.
  Lemma get_scope_pres : preserves PP get_scope.
  Proof. intros s H. unfold get_scope. destruct (p_scopes s); exact H. Qed.
  Lemma set_scope_pres sc : preserves PP (set_scope sc).
  Proof. intros s H. unfold set_scope. destruct (p_scopes s); exact H. Qed.
  Lemma push_scope_pres sc : preserves PP (push_scope sc).
  Proof. intros s H. exact H. Qed.
  Hint Resolve get_scope_pres set_scope_pres push_scope_pres : pres.
  Lemma extend_scope_pres l : preserves PP (extend_scope l).
  Proof. unfold extend_scope. bnd. destruct (sc_extend _ _); auto with pres. Qed.
  Hint Resolve extend_scope_pres on_cur_pres abbrev_new_pres abbrev_parse_pres : pres.

  Lemma enter_block_pres : preserves PP (enter_block e o).
  Proof.
    unfold enter_block. bnd. bnd. bnd. destruct (_ <? _); [auto with pres|]. bnd. bnd.
    apply preserves_bind; [|intros ?; bnd; destruct (sc_is_blockinfo _); auto with pres].
    intros s H. destruct (info_get _ _); [now apply extend_scope_pres|exact H].
  Qed.
  Lemma exit_block_pres : preserves PP (exit_block o).
  Proof. unfold exit_block. bnd. intros s H. destruct (p_scopes s) as [|? [|]]; exact H. Qed.
  Lemma define_abbrev_pres : preserves PP (define_abbrev e o).
  Proof.
    unfold define_abbrev. bnd. bnd. destruct (sc_is_blockinfo _); [|auto with pres].
    destruct (sc_blockinfo_bid _); [intros s H; exact H|auto with pres].
  Qed.
  Lemma parse_unabbrev_pres : preserves PP (parse_unabbrev e o).
  Proof.
    unfold parse_unabbrev. bnd. destruct a; [auto with pres|]. bnd. bnd.
    apply preserves_bind; [intros s H; unfold with_capacity; destruct (_ <=? _); exact H|]. intros ?.
    apply preserves_bind; [apply on_cur_pres, preserves_times; bnd; auto with pres|]. intros ?.
    bnd. destruct (sc_is_blockinfo _); [|auto with pres].
    destruct (blockinfo_code_of _) as [[]|]; auto with pres.
    match goal with |- context [match ?l with [] => _ | _ :: _ => _ end] => destruct l end; [auto with pres|].
    destruct (sc_set_bid _ _); [|auto with pres]. bnd. auto with pres.
  Qed.
  Lemma get_abbrev_pres sc id : preserves PP (get_abbrev sc id).
  Proof.
    unfold get_abbrev. destruct sc; [auto with pres|]. destruct (_ <? _); [auto with pres|].
    destruct (nth_error _ _); auto with pres.
  Qed.
  Hint Resolve get_abbrev_pres : pres.
  Lemma parse_with_abbrev_pres id : preserves PP (parse_with_abbrev e o id).
  Proof.
    unfold parse_with_abbrev. bnd. bnd. bnd.
    match goal with |- context [match ?l with [] => _ | _ :: _ => _ end] => destruct l end; [auto with pres|].
    bnd. destruct (sc_is_blockinfo _); auto with pres.
  Qed.
  Lemma step_pres : preserves PP (step e o).
  Proof.
    intros s H. unfold step. destruct (op_exhausted _ _); [exact H|]. revert s H.
    change (preserves PP (bind get_scope (fun sc => bind (on_cur (c_read o (sc_width sc))) (fun v =>
       match abbrev_id_of v with
       | IdEndBlock => exit_block o
       | IdEnterSubBlock => enter_block e o
       | IdDefineAbbrev => bind (define_abbrev e o) (fun _ => ret None)
       | IdUnabbrevRecord => parse_unabbrev e o
       | IdDefined id => parse_with_abbrev e o id
       end)))).
    bnd. bnd. destruct (abbrev_id_of _).
    - apply exit_block_pres.
    - apply enter_block_pres.
    - apply preserves_bind; [apply define_abbrev_pres|]. intros ?. auto with pres.
    - apply parse_unabbrev_pres.
    - apply parse_with_abbrev_pres.
  Qed.
  Lemma advance_loop_pres f : preserves PP (advance_loop e o f).
  Proof.
    induction f as [|f IH]; cbn [advance_loop]; [intros s H; exact H|].
    apply preserves_bind; [apply step_pres|]. intros [x|]; auto with pres.
  Qed.
  Lemma advance_pres : preserves PP (advance e o).
  Proof. intros s H. now apply advance_loop_pres. Qed.
  Lemma next_pres s : PP s -> PP (snd (next e o s)).
  Proof.
    intros H. pose proof (advance_pres s H) as K. unfold next. destruct (advance e o s) as [[?|[]|?|] s']; exact K.
  Qed.
End Pres.

(** ** Progress and panics, for any cursor *)

(** Panics the parser can raise. *)
Definition stream_panic (e : env) (p : panic) : Prop :=
  match p with
  | PShiftOverflow | PAbbrevCount => overflow_checks e = true
  | PAlloc | PSetBidNoField | PRemoveEmpty => True
  | _ => False
  end.

(** What is needed of the cursor: an invariant, and a measure that successful reads
    decrease and nothing increases. *)
Record progressive {C} (o : cops C) (I : C -> Prop) (mu : C -> nat) : Prop := {
  pg_read : forall n c, I c ->
    match op_read o n c with
    | (Ok v, c') => (mu c' < mu c)%nat /\ v < 2 ^ n /\ I c'
    | (Err _, c') => (mu c' <= mu c)%nat /\ I c'
    | _ => False
    end;
  pg_align : forall c, I c -> (mu (op_align32 o c) <= mu c)%nat /\ I (op_align32 o c);
  pg_fuel : forall c, I c -> (mu c < op_fuel o c)%nat
}.

(** [nice I mu Pan m]: [m] does not run out of fuel, panics only as [Pan] allows, does not
    move backwards and keeps [I]. *)
Definition nice {St E A} (I : St -> Prop) (mu : St -> nat) (Pan : panic -> Prop) (m : M St E A) : Prop :=
  forall s, I s -> match m s with
            | (Ok _, s') | (Err _, s') => (mu s' <= mu s)%nat /\ I s'
            | (Panic p, _) => Pan p
            | (OutOfFuel, _) => False
            end.

Section NiceGen.
  Context {St E : Type} (I : St -> Prop) (mu : St -> nat) (Pan : panic -> Prop).
  Lemma nice_bind {A B} (m : M St E A) (k : A -> M St E B) :
    nice I mu Pan m -> (forall a, nice I mu Pan (k a)) -> nice I mu Pan (bind m k).
  Proof.
    intros H1 H2 s Hs. specialize (H1 s Hs). unfold bind. destruct (m s) as [[a|x|p|] s1]; auto.
    destruct H1 as [L1 I1]. specialize (H2 a s1 I1). destruct (k a s1) as [[b|y|q|] s2]; auto; split; lia || tauto.
  Qed.
  Lemma nice_ret {A} (a : A) : nice I mu Pan (ret (E := E) a).
  Proof. intros s Hs. cbn. auto. Qed.
  Lemma nice_fail {A} (x : E) : nice I mu Pan (fail (A := A) x).
  Proof. intros s Hs. cbn. auto. Qed.
  Lemma nice_crash {A} p : Pan p -> nice I mu Pan (crash (E := E) (A := A) p).
  Proof. intros H s Hs. exact H. Qed.
  Lemma nice_times {A} (m : M St E (list A)) n : nice I mu Pan m -> nice I mu Pan (times n m).
  Proof.
    intros Hm s. rewrite times_nat. generalize (N.to_nat n). intros k. revert s.
    induction k as [|k IH]; [exact (nice_ret (@nil A))|]. cbn [times_n].
    apply nice_bind; [exact Hm|]. intros a. apply nice_bind; [exact IH|]. intros b. apply nice_ret.
  Qed.
End NiceGen.
Lemma nice_lift {St E F A} I (mu : St -> nat) Pan (f : E -> F) (m : M St E A) : nice I mu Pan m -> nice I mu Pan (lift_err f m).
Proof. intros H s Hs. specialize (H s Hs). unfold lift_err. destruct (m s) as [[] s']; exact H. Qed.

Section Nice.
  Context {C : Type} (e : env) (o : cops C) (I : C -> Prop) (mu : C -> nat) (PG : progressive o I mu).
  Notation Pan := (stream_panic e).
  Notation nce := (nice I mu Pan).

  Lemma op_read_nice n : nce (op_read o n).
  Proof.
    intros c H. pose proof (pg_read _ _ _ PG n c H) as K. destruct (op_read o n c) as [[] c']; try contradiction.
    - split; [lia|tauto].
    - exact K.
  Qed.
  Lemma vbr_loop_nice f w r s c : I c -> (mu c < f)%nat -> match vbr_loop e o f w r s c with
            | (Ok _, c') | (Err _, c') => (mu c' <= mu c)%nat /\ I c'
            | (Panic p, _) => Pan p
            | (OutOfFuel, _) => False
            end.
  Proof.
    revert r s c. induction f as [|f IH]; intros r s c HI Hf; [lia|]. cbn [vbr_loop].
    unfold bind. pose proof (pg_read _ _ _ PG w c HI) as HR.
    destruct (op_read o w c) as [[b|x|p|] c1]; try contradiction; [|exact HR].
    destruct HR as (L1 & _ & I1).
    destruct (_ && _) eqn:E.
    { apply andb_true_iff in E. exact (proj2 E). }
    destruct (_ =? 0); [split; [cbn; lia|exact I1]|].
    specialize (IH (N.lor r (shl64 (N.ldiff b (shl64 1 (w - 1))) (s mod 64))) (s + (w - 1)) c1 I1 ltac:(lia)).
    destruct (vbr_loop _ _ _ _ _ _ c1) as [[b2|x2|p2|] l2]; auto; split; lia || tauto.
  Qed.
  Lemma read_vbr_nice w : nce (read_vbr e o w).
  Proof.
    intros c H. unfold read_vbr. destruct (_ && _); [|cbn; auto].
    apply vbr_loop_nice; [exact H|]. now apply (pg_fuel _ _ _ PG).
  Qed.

  Lemma c_read_nice n : nce (c_read o n).
  Proof. apply nice_lift, op_read_nice. Qed.
  Lemma c_vbr_nice w : nce (c_vbr e o w).
  Proof. apply nice_lift, read_vbr_nice. Qed.
  Lemma c_read_as_nice t n : nce (c_read_as o t n).
  Proof.
    apply nice_lift. unfold read_as. apply nice_bind; [apply op_read_nice|]. intros v.
    destruct (num_cast t v); [apply nice_ret|apply nice_fail].
  Qed.
  Lemma c_align_nice : nce (c_align o).
  Proof. intros c H. apply (pg_align _ _ _ PG), H. Qed.
  Lemma with_capacity_nice {St} (J : St -> Prop) (nu : St -> nat) n : nice J nu Pan (with_capacity (E := serr) e n).
  Proof. unfold with_capacity. destruct (_ <=? _); [apply nice_ret|apply nice_crash; exact Logic.I]. Qed.
  Hint Resolve c_read_nice c_vbr_nice c_read_as_nice c_align_nice with_capacity_nice nice_ret nice_fail : nice.
  Ltac bnd := apply nice_bind; [auto with nice|intros ?].

  Lemma c_read_strict n c v c' : I c -> c_read o n c = (Ok v, c') -> (mu c' < mu c)%nat /\ v < 2 ^ n /\ I c'.
  Proof.
    intros H. unfold c_read, lift_err. pose proof (pg_read _ _ _ PG n c H) as K.
    destruct (op_read o n c) as [[x|x|x|] c1]; try discriminate. intros [= <- <-]. exact K.
  Qed.

  Lemma op_parse_nice op : nce (op_parse e o op).
  Proof.
    induction op as [v|w|w|el IH| |]; cbn [op_parse].
    - auto with nice.
    - bnd. auto with nice.
    - bnd. auto with nice.
    - bnd. bnd. now apply nice_times.
    - (* char6: six bits index the alphabet *)
      intros c H. unfold bind at 1. pose proof (c_read_as_nice u8t 6 c H) as K.
      destruct (c_read_as o u8t 6 c) as [[v|x|p|] c1] eqn:E; auto.
      assert (v < 64).
      { unfold c_read_as, lift_err, read_as, bind in E. pose proof (pg_read _ _ _ PG 6 c H) as K2.
        destruct (op_read o 6 c) as [[v'|x|p|] c2]; try discriminate.
        unfold num_cast in E. destruct (v' <? _); [|discriminate]. injection E as <- <-.
        change (2 ^ 6) with 64 in K2. tauto. }
      unfold bind, decode_char6. destruct (nth_error char6_alphabet (N.to_nat v)) eqn:E2; [exact K|].
      apply nth_error_None in E2. change (length char6_alphabet) with 64%nat in E2. lia.
    - bnd. bnd. bnd. apply nice_bind; [apply nice_times; bnd; auto with nice|].
      intros ?. bnd. auto with nice.
  Qed.
  Lemma read_enc_nice : nce (read_enc o).
  Proof. unfold read_enc. bnd. destruct (abbrev_enc_of _); auto with nice. Qed.
  Hint Resolve read_enc_nice : nice.
  Lemma array_elem_nice : nce (array_elem e o).
  Proof. unfold array_elem. bnd. bnd. destruct a0; auto with nice; bnd; auto with nice. Qed.
  Hint Resolve array_elem_nice : nice.

  (** The operand loop reads at least one bit per iteration. *)
  Lemma abbrev_loop_nice f num idx acc c : I c -> (mu c < f)%nat ->
    match abbrev_loop e o f num idx acc c with
    | (Ok _, c') | (Err _, c') => (mu c' <= mu c)%nat /\ I c'
    | (Panic p, _) => Pan p
    | (OutOfFuel, _) => False
    end.
  Proof.
    revert idx acc c. induction f as [|f IH]; intros idx acc c HI Hf; [lia|]. cbn [abbrev_loop].
    destruct (num <=? idx); [cbn; auto|].
    unfold bind at 1. pose proof (c_read_nice 1 c HI) as H1.
    destruct (c_read o 1 c) as [[kind|x|p|] c1] eqn:E1; auto.
    destruct (c_read_strict _ _ _ _ HI E1) as (H2 & _ & I1).
    assert (Rec : forall c2 (m : M C serr N) (g : N -> abbrev_op), nce m -> I c2 -> (mu c2 <= mu c1)%nat ->
      match bind m (fun v => abbrev_loop e o f num (idx + 1) (acc ++ [g v])) c2 with
      | (Ok _, c') | (Err _, c') => (mu c' <= mu c)%nat /\ I c'
      | (Panic p, _) => Pan p
      | (OutOfFuel, _) => False
      end).
    { intros c2 m g Hm I2 L2. specialize (Hm c2 I2). unfold bind. destruct (m c2) as [[v|x|p|] c3]; auto; [|split; lia || tauto].
      specialize (IH (idx + 1) (acc ++ [g v]) c3 ltac:(tauto) ltac:(lia)).
      destruct (abbrev_loop _ _ _ _ _ _ c3) as [[]]; auto; split; lia || tauto. }
    destruct (kind =? 1); [apply (Rec c1 (c_vbr e o 8) OpLiteral); auto with nice|].
    unfold bind at 1. pose proof (read_enc_nice c1 I1) as H3.
    destruct (read_enc o c1) as [[enc|x|p|] c2] eqn:E3; auto; [|split; lia || tauto].
    destruct H3 as [L2 I2].
    assert (Rec2 : forall op, match abbrev_loop e o f num (idx + 1) (acc ++ [op]) c2 with
      | (Ok _, c') | (Err _, c') => (mu c' <= mu c)%nat /\ I c'
      | (Panic p, _) => Pan p
      | (OutOfFuel, _) => False
      end).
    { intros op. specialize (IH (idx + 1) (acc ++ [op]) c2 I2 ltac:(lia)).
      destruct (abbrev_loop _ _ _ _ _ _ c2) as [[]]; auto; split; lia || tauto. }
    destruct enc.
    - apply (Rec c2 (c_vbr e o 5) OpFixed); auto with nice.
    - apply (Rec c2 (c_vbr e o 5) OpVbr); auto with nice.
    - destruct (_ && _) eqn:E4; [apply andb_true_iff in E4; exact (proj2 E4)|].
      destruct (negb _); [cbn; split; lia || tauto|]. pose proof (array_elem_nice c2 I2) as H4. unfold bind.
      destruct (array_elem e o c2) as [[v|x|p|] c3]; auto; cbn; split; lia || tauto.
    - apply Rec2.
    - destruct (negb _); [cbn; split; lia || tauto|]. apply Rec2.
  Qed.
  Lemma abbrev_new_nice : nce (abbrev_new e o).
  Proof.
    unfold abbrev_new. bnd. destruct (_ <? _); [auto with nice|]. intros c H. apply abbrev_loop_nice; [exact H|].
    pose proof (pg_fuel _ _ _ PG c H). lia.
  Qed.
  Lemma abbrev_parse_nice a : nce (abbrev_parse e o a).
  Proof.
    induction a as [|op a IH]; cbn [abbrev_parse]; [auto with nice|].
    apply nice_bind; [apply op_parse_nice|]. intros x.
    apply nice_bind; [exact IH|]. intros y. auto with nice.
  Qed.

  (** Parser states: the scope stack is never empty. *)
  Definition pmu (s : sparser C) : nat := mu (p_cur s).
  Definition pinv (s : sparser C) : Prop := I (p_cur s) /\ p_scopes s <> [].
  Notation pnice := (nice pinv pmu Pan).

  Lemma on_cur_nice {A} (m : M C serr A) : nce m -> pnice (on_cur m).
  Proof.
    intros H s [H1 H2]. specialize (H (p_cur s) H1). unfold on_cur. destruct (m (p_cur s)) as [[] c']; auto;
      unfold pmu, pinv; cbn [p_cur p_scopes]; tauto.
  Qed.
  Lemma get_scope_nice : pnice get_scope.
  Proof. intros s Hs. unfold get_scope. destruct (p_scopes s) eqn:E; [now destruct Hs|]. auto. Qed.
  Lemma set_scope_nice sc : pnice (set_scope sc).
  Proof.
    intros s [H1 H2]. unfold set_scope. destruct (p_scopes s) eqn:E; [congruence|]. unfold pmu, pinv. cbn [p_cur p_scopes].
    split; [lia|]. split; [exact H1|discriminate].
  Qed.
  Lemma push_scope_nice sc : pnice (push_scope sc).
  Proof.
    intros s [H1 H2]. unfold push_scope, pmu, pinv. cbn [p_cur p_scopes]. split; [lia|]. split; [exact H1|discriminate].
  Qed.
  Hint Resolve on_cur_nice get_scope_nice set_scope_nice push_scope_nice : nice.
  Lemma extend_scope_nice l : pnice (extend_scope l).
  Proof. unfold extend_scope. bnd. destruct (sc_extend _ _); auto with nice. Qed.
  Hint Resolve extend_scope_nice abbrev_new_nice abbrev_parse_nice : nice.

  Lemma enter_block_nice : pnice (enter_block e o).
  Proof.
    unfold enter_block. bnd. bnd. bnd. destruct (_ <? _); [auto with nice|]. bnd. bnd.
    apply nice_bind; [|intros ?; bnd; destruct (sc_is_blockinfo _); auto with nice].
    intros s H. destruct (info_get _ _); [now apply extend_scope_nice|]. cbn. auto.
  Qed.
  Lemma exit_block_nice : pnice (exit_block o).
  Proof.
    unfold exit_block. bnd. intros s H. destruct (p_scopes s) as [|sc [|sc2 rest]] eqn:E; [now destruct H|auto|].
    unfold pmu, pinv in *. cbn [p_cur p_scopes]. split; [lia|]. split; [tauto|discriminate].
  Qed.
  Lemma define_abbrev_nice : pnice (define_abbrev e o).
  Proof.
    unfold define_abbrev. bnd. bnd. destruct (sc_is_blockinfo _); [|auto with nice].
    destruct (sc_blockinfo_bid _); [intros s H; cbn; auto|auto with nice].
  Qed.
  Lemma parse_unabbrev_nice : pnice (parse_unabbrev e o).
  Proof.
    unfold parse_unabbrev. bnd. destruct a; [auto with nice|]. bnd. bnd. bnd.
    apply nice_bind; [apply on_cur_nice, nice_times; bnd; auto with nice|]. intros ?.
    bnd. destruct (sc_is_blockinfo _); [|auto with nice].
    destruct (blockinfo_code_of _) as [[]|]; auto with nice.
    match goal with |- context [match ?l with [] => _ | _ :: _ => _ end] => destruct l end;
      [apply nice_crash; exact Logic.I|].
    destruct (sc_set_bid _ _); [|auto with nice]. bnd. auto with nice.
  Qed.
  Lemma get_abbrev_nice sc id : 4 <= id -> pnice (get_abbrev sc id).
  Proof.
    intros H. unfold get_abbrev. destruct sc; [auto with nice|]. replace (id <? 4) with false by lia.
    destruct (nth_error _ _); auto with nice.
  Qed.
  Lemma parse_with_abbrev_nice id : 4 <= id -> pnice (parse_with_abbrev e o id).
  Proof.
    intros H. unfold parse_with_abbrev. bnd. apply nice_bind; [now apply get_abbrev_nice|]. intros ?. bnd.
    match goal with |- context [match ?l with [] => _ | _ :: _ => _ end] => destruct l end;
      [apply nice_crash; exact Logic.I|].
    bnd. destruct (sc_is_blockinfo _); auto with nice.
  Qed.

  Lemma abbrev_id_defined v id : abbrev_id_of v = IdDefined id -> id = v /\ 4 <= v.
  Proof.
    unfold abbrev_id_of.
    destruct v as [|[[p|p|]|[p|p|]|]]; intros H; try discriminate; injection H as <-; split; try reflexivity; lia.
  Qed.

  (** After the abbreviation id has been read the measure has decreased. *)
  Definition body (v : N) : M (sparser C) serr (option entry) :=
    match abbrev_id_of v with
    | IdEndBlock => exit_block o
    | IdEnterSubBlock => enter_block e o
    | IdDefineAbbrev => bind (define_abbrev e o) (fun _ => ret None)
    | IdUnabbrevRecord => parse_unabbrev e o
    | IdDefined id => parse_with_abbrev e o id
    end.
  Lemma body_nice v : pnice (body v).
  Proof.
    unfold body. destruct (abbrev_id_of v) eqn:EV.
    - apply exit_block_nice.
    - apply enter_block_nice.
    - apply nice_bind; [apply define_abbrev_nice|]. intros ?. apply nice_ret.
    - apply parse_unabbrev_nice.
    - apply parse_with_abbrev_nice. apply abbrev_id_defined in EV. lia.
  Qed.

  Lemma step_eq s : pinv s ->
    step e o s =
    if op_exhausted o (p_cur s) then (Err SExhausted, s)
    else match p_scopes s with
         | sc :: _ => bind (on_cur (c_read o (sc_width sc))) body s
         | [] => (Panic PNoScope, s)
         end.
  Proof.
    intros [_ H]. unfold step. destruct (op_exhausted _ _); [reflexivity|].
    unfold bind at 1, get_scope. destruct (p_scopes s); [congruence|]. reflexivity.
  Qed.

  Lemma step_nice s : pinv s ->
      match step e o s with
      | (Ok _, s') => (pmu s' < pmu s)%nat /\ pinv s'
      | (Err _, s') => (pmu s' <= pmu s)%nat /\ pinv s'
      | (Panic p, _) => Pan p
      | (OutOfFuel, _) => False
      end.
  Proof.
    intros Hs. rewrite step_eq by exact Hs. destruct (op_exhausted _ _); [split; [apply le_n|exact Hs]|].
    destruct (p_scopes s) as [|sc scs] eqn:ES; [now destruct Hs|].
    pose proof (on_cur_nice _ (c_read_nice (sc_width sc)) s Hs) as H1. unfold bind.
    destruct (on_cur (c_read o (sc_width sc)) s) as [[v|x|p|] s2] eqn:E1; auto.
    destruct H1 as [L1 S1].
    assert (L2 : (pmu s2 < pmu s)%nat).
    { unfold on_cur in E1. destruct (c_read o (sc_width sc) (p_cur s)) as [r c'] eqn:E2.
      injection E1 as -> <-. apply c_read_strict in E2; [|apply Hs]. unfold pmu. cbn [p_cur]. lia. }
    pose proof (body_nice v s2 S1) as K. destruct (body v s2) as [[] s3]; auto; split; lia || tauto.
  Qed.

  Lemma advance_loop_nice f s : pinv s -> (pmu s < f)%nat ->
      match advance_loop e o f s with
      | (Ok _, s') => (pmu s' < pmu s)%nat /\ pinv s'
      | (Err _, s') => (pmu s' <= pmu s)%nat /\ pinv s'
      | (Panic p, _) => Pan p
      | (OutOfFuel, _) => False
      end.
  Proof.
    revert s. induction f as [|f IH]; intros s Hs Hf; [lia|]. cbn [advance_loop]. unfold bind.
    pose proof (step_nice s Hs) as H. destruct (step e o s) as [[[x|]|x|p|] s1]; auto.
    destruct H as [H1 H2]. specialize (IH s1 H2 ltac:(lia)).
    destruct (advance_loop e o f s1) as [[] s2]; auto; split; lia || tauto.
  Qed.
  Lemma advance_nice s : pinv s ->
      match advance e o s with
      | (Ok _, s') => (pmu s' < pmu s)%nat /\ pinv s'
      | (Err _, s') => (pmu s' <= pmu s)%nat /\ pinv s'
      | (Panic p, _) => Pan p
      | (OutOfFuel, _) => False
      end.
  Proof. intros H. apply advance_loop_nice; [exact H|]. apply (pg_fuel _ _ _ PG), H. Qed.
End Nice.

(** *** Instances *)

Lemma list_progressive : progressive list_ops (fun _ => True) (@length bool).
Proof.
  split.
  - intros n l _. cbn [op_read list_ops]. unfold list_read. destruct (_ || _) eqn:E0; [cbn; auto|].
    destruct (n <=? _) eqn:E.
    + rewrite skipn_length. split; [lia|]. split; [|auto].
      eapply N.lt_le_trans; [apply N_of_bits_bound|]. apply N.pow_le_mono_r; [lia|].
      rewrite firstn_length. lia.
    + destruct l; cbn; auto.
  - intros l _. cbn [op_align32 list_ops]. unfold list_align32. rewrite skipn_length. split; [lia|auto].
  - intros l _. cbn. lia.
Qed.

Lemma cursor_progressive : progressive cursor_ops inv63 (fun c => N.to_nat (bit_len c - tell_bit c)).
Proof.
  split.
  - intros n c H. cbn [op_read cursor_ops]. pose proof (rem_len_N c H) as L. pose proof (tell_bit_le c (proj1 H)) as T.
    destruct ((n =? 0) || (64 <=? n)) eqn:E0.
    { rewrite read_invalid by lia. auto. }
    destruct (N.le_gt_cases (tell_bit c + n) (bit_len c)) as [Hr|Hr].
    + destruct (read_ok63 n c H ltac:(lia) ltac:(lia)) as (c' & -> & I' & R' & T' & [S1 S2] & _).
      assert (bit_len c' = bit_len c) as -> by (unfold bit_len; congruence).
      split; [lia|]. split; [|exact I'].
      eapply N.lt_le_trans; [apply N_of_bits_bound|]. apply N.pow_le_mono_r; [lia|]. rewrite firstn_length. lia.
    + pose proof (read_inv n c H) as (I' & [S1 S2] & _).
      destruct (read_fail63 n c H ltac:(lia) ltac:(lia)) as [[Hr2 E]|[Hr2 (c' & E & K)]]; rewrite E in *; cbn [snd] in *.
      * auto.
      * split; [|exact I']. assert (bit_len c' = bit_len c) as -> by (unfold bit_len; congruence).
        destruct K as (_ & _ & K & _). unfold tell_bit at 2. lia.
  - intros c H. cbn [op_align32 cursor_ops]. pose proof (align32_inv c H) as (I' & [S1 S2] & _).
    split; [|exact I']. assert (bit_len (align32 c) = bit_len c) as -> by (unfold bit_len; congruence).
    pose proof (tell_bit_le c (proj1 H)). unfold align32, tell_bit in *.
    destruct (32 <=? bit_index c) eqn:E; cbn [clear_block_state byte_pos bit_index]; lia.
  - intros c H. cbn. lia.
Qed.
