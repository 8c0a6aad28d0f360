(** How parsing steps act on the scope stack and the BLOCKINFO map, for any cursor. *)
From Verif Require Import Base CursorModel CursorSpec CursorHist CursorProofs CursorSim CursorVbr CursorMain StreamModel StreamSpec StreamHist StreamProofs StreamPres.
From Coq Require Import Lia ZifyBool ZifyNat ZifyN.
Local Open Scope N_scope.
Arguments N.add : simpl never.
Arguments N.mul : simpl never.
Arguments N.div : simpl never.
Arguments N.modulo : simpl never.
Arguments N.sub : simpl never.
Arguments N.pow : simpl never.

(** Abbreviations registered for a block id. *)
Definition registered (m : info_map) (b : N) : list abbrev :=
  match info_get m b with Some l => l | None => [] end.

Lemma registered_push m b a k :
  registered (info_push m b a) k = if k =? b then registered m k ++ [a] else registered m k.
Proof.
  unfold registered. induction m as [|[k' v] m IH]; cbn [info_push info_get].
  - destruct (b =? k) eqn:E; destruct (k =? b) eqn:E'; try reflexivity; lia.
  - destruct (k' =? b) eqn:E1; cbn [info_get]; destruct (k' =? k) eqn:E2.
    + assert (k =? b = true) as -> by lia. reflexivity.
    + assert (k =? b = false) as -> by lia. reflexivity.
    + assert (k =? b = false) as -> by lia. reflexivity.
    + exact IH.
Qed.

(** The possible effects of one step that succeeds, on (scope stack, BLOCKINFO map). *)
Inductive effect : list scope * info_map -> option entry -> list scope * info_map -> Prop :=
| EffEnter b w len sc info :
    b <> 0 -> 1 <= w ->
    effect (sc, info) (Some (ESubBlock b len)) (ScBlock w b None (registered info b) :: sc, info)
| EffEnterInfo w sc info :
    1 <= w ->
    effect (sc, info) None (ScBlock w 0 None (registered info 0) :: sc, info)
| EffExit s1 s2 sc info :
    sc_is_blockinfo s1 = false ->
    effect (s1 :: s2 :: sc, info) (Some EEndBlock) (s2 :: sc, info)
| EffExitInfo s1 s2 sc info :
    sc_is_blockinfo s1 = true ->
    effect (s1 :: s2 :: sc, info) None (s2 :: sc, info)
| EffDefine w b i l a sc info :
    b <> 0 ->
    effect (ScBlock w b i l :: sc, info) None (ScBlock w b i (l ++ [a]) :: sc, info)
| EffRegister w bid l a sc info :
    effect (ScBlock w 0 (Some bid) l :: sc, info) None
           (ScBlock w 0 (Some bid) l :: sc, info_push info bid a)
| EffSetBid w i bid l sc info :
    effect (ScBlock w 0 i l :: sc, info) None (ScBlock w 0 (Some bid) l :: sc, info)
| EffSkip w i l sc info :
    effect (ScBlock w 0 i l :: sc, info) None (ScBlock w 0 i l :: sc, info)
| EffRecord w b i l sc info id code fields :
    b <> 0 ->
    effect (ScBlock w b i l :: sc, info) (Some (ERecord id code fields)) (ScBlock w b i l :: sc, info).

Section Eff.
  Context {C : Type} (e : env) (o : cops C).
  Notation PS := (sparser C).
  Definition view (s : PS) : list scope * info_map := (p_scopes s, p_info s).

  (** The specification of an action: the view after success, unchanged otherwise. *)
  Definition acts {A} (m : M PS serr A) (v : list scope * info_map) (Q : A -> list scope * info_map -> Prop) : Prop :=
    forall s, view s = v ->
      match m s with
      | (Ok a, s') => Q a (view s')
      | (_, s') => view s' = v
      end.

  Lemma acts_bind {A B} (m : M PS serr A) (k : A -> M PS serr B) v Q R :
    acts m v R ->
    (forall a v', R a v' -> v' = v /\ acts (k a) v Q) ->
    acts (bind m k) v Q.
  Proof.
    intros H1 H2 s Hs. specialize (H1 s Hs). unfold bind. destruct (m s) as [[a|x|p|] s1]; auto.
    destruct (H2 _ _ H1) as [E K]. specialize (K s1 E). destruct (k a s1) as [[]]; auto.
  Qed.

  (** The same when the first part changes the view and the second cannot fail. *)
  Lemma acts_ret {A} (a : A) v (Q : A -> _ -> Prop) : Q a v -> acts (ret a) v Q.
  Proof. intros H s Hs. cbn. now rewrite Hs. Qed.
  Lemma acts_fail {A} x v (Q : A -> _ -> Prop) : acts (fail x) v Q.
  Proof. intros s Hs. exact Hs. Qed.
  Lemma acts_crash {A} p v (Q : A -> _ -> Prop) : acts (crash p) v Q.
  Proof. intros s Hs. exact Hs. Qed.
  Lemma acts_on_cur {A} (m : M C serr A) v : acts (on_cur m) v (fun _ v' => v' = v).
  Proof. intros s Hs. unfold on_cur. destruct (m (p_cur s)) as [[] c']; exact Hs. Qed.
  Lemma acts_get_scope v : acts get_scope v (fun sc v' => v' = v /\ exists rest, fst v = sc :: rest).
  Proof.
    intros s Hs. unfold get_scope. destruct (p_scopes s) as [|sc rest] eqn:E; [exact Hs|].
    split; [exact Hs|]. exists rest. rewrite <- Hs. exact E.
  Qed.

  Ltac cur := eapply acts_bind; [apply acts_on_cur|cbn beta; intros ? ? ?; split; [assumption|]].

  Lemma enter_block_acts v : acts (enter_block e o) v (effect v).
  Proof.
    unfold enter_block. cur. cur. cur. destruct (a0 <? 1) eqn:E; [apply acts_fail|]. cur.
    intros s Hs. unfold bind at 1. cbn [push_scope]. destruct v as [sc info].
    injection Hs as Hsc Hinfo. unfold bind at 1. cbn [p_info].
    rewrite Hinfo. destruct (info_get info a) as [l|] eqn:EG.
    - unfold extend_scope, bind, get_scope, set_scope. cbn [p_scopes sc_extend p_cur p_info app].
      cbn [sc_is_blockinfo]. destruct (a =? 0) eqn:E0; unfold ret.
      + assert (a = 0) as -> by lia. unfold view. cbn [p_scopes p_info]. rewrite ?Hsc, ?Hinfo.
        replace l with (registered info 0) by (unfold registered; now rewrite EG). constructor. lia.
      + unfold view. cbn [p_scopes p_info]. rewrite ?Hsc, ?Hinfo.
        replace l with (registered info a) by (unfold registered; now rewrite EG). constructor; lia.
    - unfold bind, ret, get_scope. cbn [p_scopes p_cur p_info]. cbn [sc_is_blockinfo].
      destruct (a =? 0) eqn:E0.
      + assert (a = 0) as -> by lia. unfold view. cbn [p_scopes p_info]. rewrite ?Hsc, ?Hinfo.
        replace (@nil abbrev) with (registered info 0) by (unfold registered; now rewrite EG). constructor. lia.
      + unfold view. cbn [p_scopes p_info]. rewrite ?Hsc, ?Hinfo.
        replace (@nil abbrev) with (registered info a) by (unfold registered; now rewrite EG). constructor; lia.
  Qed.

  Lemma exit_block_acts v : acts (exit_block o) v (effect v).
  Proof.
    unfold exit_block. cur. intros s Hs. destruct v as [sc info]. pose proof Hs as Hs'. injection Hs' as Hsc Hinfo.
    destruct (p_scopes s) as [|s1 [|s2 rest]] eqn:E; subst sc; try exact Hs.
    unfold view. cbn [p_scopes p_info]. rewrite Hinfo.
    destruct (sc_is_blockinfo s1) eqn:EB; now constructor.
  Qed.

  Lemma define_abbrev_acts v : acts (bind (define_abbrev e o) (fun _ => ret None)) v (effect v).
  Proof.
    intros s Hs.
    assert (K : match define_abbrev e o s with (Ok _, s') => effect v None (view s') | (_, s') => view s' = v end).
    { revert s Hs. change (acts (define_abbrev e o) v (fun _ v' => effect v None v')).
      unfold define_abbrev. cur. eapply acts_bind; [apply acts_get_scope|].
      cbn beta. intros sc vv [-> [rest E]]. split; [reflexivity|].
      destruct v as [scs info]. cbn [fst] in E. subst scs.
      destruct (sc_is_blockinfo sc) eqn:EB.
      - destruct sc as [|w b i l]; [discriminate|]. cbn [sc_is_blockinfo] in EB. assert (b = 0) as -> by lia.
        cbn [sc_blockinfo_bid]. destruct i as [bid|]; [|apply acts_fail].
        intros s Hs. injection Hs as H1 H2. unfold view. cbn [p_scopes p_info]. rewrite H1, H2. constructor.
      - unfold extend_scope. intros s Hs. pose proof Hs as Hs'. injection Hs' as H1 H2.
        unfold bind, get_scope. rewrite H1.
        destruct sc as [|w b i l]; cbn [sc_extend]; [exact Hs|]. unfold set_scope. rewrite H1. unfold view.
        cbn [p_scopes p_info]. rewrite H2. cbn [sc_is_blockinfo] in EB. constructor. lia. }
    unfold bind. destruct (define_abbrev e o s) as [[]]; exact K.
  Qed.

  Lemma parse_unabbrev_acts v : acts (parse_unabbrev e o) v (effect v).
  Proof.
    unfold parse_unabbrev. eapply acts_bind; [apply acts_get_scope|].
    cbn beta. intros sc vv [-> [rest E]]. split; [reflexivity|].
    destruct v as [scs info]. cbn [fst] in E. subst scs.
    destruct sc as [|w b i l]; [apply acts_fail|]. cur. cur.
    match goal with |- acts _ ?v _ => eapply acts_bind with (R := fun _ v' => v' = v) end.
    { unfold with_capacity. destruct (_ <=? _); [apply acts_ret; reflexivity|apply acts_crash]. }
    cbn beta. intros ? ? ?. split; [assumption|]. cur.
    eapply acts_bind; [apply acts_get_scope|].
    cbn beta. intros sc vw [-> [rest2 E2]]. split; [reflexivity|]. cbn [fst] in E2. injection E2 as <- <-.
    cbn [sc_is_blockinfo]. destruct (b =? 0) eqn:EB.
    - assert (b = 0) as -> by lia. destruct (blockinfo_code_of a) as [[]|].
      + destruct a2 as [|bid fs]; [apply acts_crash|]. cbn [sc_set_bid].
        intros s Hs. injection Hs as H3 H4. unfold bind, set_scope. rewrite H3. unfold ret, view.
        cbn [p_scopes p_info]. rewrite H4. constructor.
      + apply acts_ret. constructor.
      + apply acts_ret. constructor.
      + apply acts_fail.
    - apply acts_ret. constructor. lia.
  Qed.

  Lemma parse_with_abbrev_acts id v : acts (parse_with_abbrev e o id) v (effect v).
  Proof.
    unfold parse_with_abbrev. eapply acts_bind; [apply acts_get_scope|].
    cbn beta. intros sc vv [-> [rest E]]. split; [reflexivity|].
    destruct v as [scs info]. cbn [fst] in E. subst scs.
    destruct sc as [|w b i l].
    { intros s Hs. exact Hs. }
    match goal with |- acts _ ?v _ => eapply acts_bind with (R := fun _ v' => v' = v) end.
    { unfold get_abbrev. destruct (_ <? _); [apply acts_crash|].
      destruct (nth_error _ _); [apply acts_ret; reflexivity|apply acts_fail]. }
    cbn beta. intros ? ? ?. split; [assumption|]. cur.
    destruct a0 as [|code fields]; [apply acts_crash|].
    eapply acts_bind; [apply acts_get_scope|].
    cbn beta. intros sc vw [-> [rest2 E2]]. split; [reflexivity|]. cbn [fst] in E2. injection E2 as <- <-.
    cbn [sc_is_blockinfo]. destruct (b =? 0) eqn:EB.
    - assert (b = 0) as -> by lia. apply acts_ret. constructor.
    - apply acts_ret. constructor. lia.
  Qed.

  Lemma step_acts v : acts (step e o) v (effect v).
  Proof.
    intros s Hs. unfold step. destruct (op_exhausted _ _); [exact Hs|]. revert s Hs.
    change (acts (bind get_scope (fun sc => bind (on_cur (c_read o (sc_width sc))) (fun v =>
       match abbrev_id_of v with
       | IdEndBlock => exit_block o
       | IdEnterSubBlock => enter_block e o
       | IdDefineAbbrev => bind (define_abbrev e o) (fun _ => ret None)
       | IdUnabbrevRecord => parse_unabbrev e o
       | IdDefined id => parse_with_abbrev e o id
       end))) v (effect v)).
    eapply acts_bind; [apply acts_get_scope|]. cbn beta. intros sc v' [-> _]. split; [reflexivity|]. cur.
    destruct (abbrev_id_of a).
    - apply exit_block_acts.
    - apply enter_block_acts.
    - apply define_abbrev_acts.
    - apply parse_unabbrev_acts.
    - apply parse_with_abbrev_acts.
  Qed.
End Eff.

(** ** Consequences along executions *)

(** Silent steps: what [advance] does before it returns. *)
Inductive silent : list scope * info_map -> list scope * info_map -> Prop :=
| SilentRefl v : silent v v
| SilentStep v v1 v2 : effect v None v1 -> silent v1 v2 -> silent v v2.

Lemma silent_inv (P : list scope * info_map -> Prop) :
  (forall v r v', effect v r v' -> P v -> P v') -> forall v v', silent v v' -> P v -> P v'.
Proof. intros H v v' S. induction S; eauto. Qed.

Section Exec.
  Context {C : Type} (e : env) (o : cops C).

  Lemma advance_loop_effect f s :
    match advance_loop e o f s with
    | (Ok x, s') => exists v, silent (view s) v /\ effect v (Some x) (view s')
    | (_, s') => silent (view s) (view s')
    end.
  Proof.
    revert s. induction f as [|f IH]; intros s; cbn [advance_loop]; [constructor|].
    unfold bind. pose proof (step_acts e o (view s) s eq_refl) as H.
    destruct (step e o s) as [[[x|]|x|p|] s1].
    - exists (view s). split; [constructor|exact H].
    - specialize (IH s1). destruct (advance_loop e o f s1) as [[y|y|y|] s2].
      + destruct IH as (v & S1 & E1). exists v. split; [econstructor; eassumption|exact E1].
      + econstructor; eassumption.
      + econstructor; eassumption.
      + econstructor; eassumption.
    - rewrite H. constructor.
    - rewrite H. constructor.
    - rewrite H. constructor.
  Qed.

  Lemma next_effect s :
    match next e o s with
    | (Some (Ok x), s') => exists v, silent (view s) v /\ effect v (Some x) (view s')
    | (_, s') => silent (view s) (view s')
    end.
  Proof.
    pose proof (advance_loop_effect (op_fuel o (p_cur s)) s) as H. unfold next, advance.
    destruct (advance_loop e o (op_fuel o (p_cur s)) s) as [[x|[]|p|] s']; exact H.
  Qed.
End Exec.

Lemma after_inv {C} (e : env) (o : cops C) (P : list scope * info_map -> Prop) :
  (forall v r v', effect v r v' -> P v -> P v') ->
  forall n s, P (view s) -> P (view (after e o n s)).
Proof.
  intros H n. induction n as [|n IH]; intros s Hs; [exact Hs|]. cbn [after]. apply IH.
  pose proof (next_effect e o s) as K. destruct (next e o s) as [[[x|x|x|]|] s']; cbn [snd];
    try (eapply silent_inv; eassumption).
  destruct K as (v & S1 & E1). eapply H; [exact E1|]. eapply silent_inv; eassumption.
Qed.

(** *** Nesting *)

Definition is_block (s : scope) : bool := match s with ScInitial => false | ScBlock _ _ _ _ => true end.
Definition is_ordinary (s : scope) : bool := is_block s && negb (sc_is_blockinfo s).
Definition depth (l : list scope) : nat := length (filter is_ordinary l).

(** The stack is [ScInitial] at the bottom and blocks above. *)
Definition stack_ok (v : list scope * info_map) : Prop :=
  exists bs, fst v = bs ++ [ScInitial] /\ forallb is_block bs = true.

Lemma effect_stack_ok v r v' : effect v r v' -> stack_ok v -> stack_ok v'.
Proof.
  intros E (bs & H & K). destruct E; cbn [fst] in *.
  - eexists (_ :: bs). cbn [fst]. rewrite H. split; [reflexivity|]. exact K.
  - eexists (_ :: bs). cbn [fst]. rewrite H. split; [reflexivity|]. exact K.
  - destruct bs as [|b bs]; [discriminate|]. injection H as -> H. exists bs. cbn [forallb] in K.
    apply andb_true_iff in K. split; [exact H|exact (proj2 K)].
  - destruct bs as [|b bs]; [discriminate|]. injection H as -> H. exists bs. cbn [forallb] in K.
    apply andb_true_iff in K. split; [exact H|exact (proj2 K)].
  - destruct bs as [|b1 bs]; [discriminate|]. injection H as <- ->. eexists (_ :: bs). split; [reflexivity|exact K].
  - destruct bs as [|b1 bs]; [discriminate|]. injection H as <- ->. eexists (_ :: bs). split; [reflexivity|exact K].
  - destruct bs as [|b1 bs]; [discriminate|]. injection H as <- ->. eexists (_ :: bs). split; [reflexivity|exact K].
  - destruct bs as [|b1 bs]; [discriminate|]. injection H as <- ->. eexists (_ :: bs). split; [reflexivity|exact K].
  - destruct bs as [|b1 bs]; [discriminate|]. injection H as <- ->. eexists (_ :: bs). split; [reflexivity|exact K].
Qed.

Lemma effect_depth v r v' : effect v r v' -> stack_ok v ->
  match r with
  | None => depth (fst v') = depth (fst v)
  | Some (ESubBlock _ _) => depth (fst v') = S (depth (fst v))
  | Some EEndBlock => depth (fst v) = S (depth (fst v'))
  | Some (ERecord _ _ _) => depth (fst v') = depth (fst v) /\ (1 <= depth (fst v))%nat
  end.
Proof.
  intros E (bs & H & K). destruct E; cbn [fst] in *; unfold depth in *.
  - cbn [filter is_ordinary is_block sc_is_blockinfo andb]. replace (b =? 0) with false by lia. reflexivity.
  - reflexivity.
  - destruct bs as [|b bs]; [discriminate|]. injection H as <- H. cbn [forallb] in K.
    apply andb_true_iff in K. destruct K as [K _]. cbn [filter]. unfold is_ordinary at 1. rewrite K.
    match goal with X : sc_is_blockinfo _ = false |- _ => rewrite X end. reflexivity.
  - assert (X : is_ordinary s1 = false).
    { unfold is_ordinary. match goal with X : sc_is_blockinfo _ = true |- _ => rewrite X end. apply andb_false_r. }
    change (filter is_ordinary (s1 :: s2 :: sc)) with
      (if is_ordinary s1 then s1 :: filter is_ordinary (s2 :: sc) else filter is_ordinary (s2 :: sc)).
    now rewrite X.
  - cbn [filter is_ordinary is_block sc_is_blockinfo andb]. now destruct (b =? 0).
  - reflexivity.
  - reflexivity.
  - reflexivity.
  - split; [reflexivity|]. cbn [filter is_ordinary is_block sc_is_blockinfo andb].
    replace (b =? 0) with false by lia. cbn. lia.
Qed.

Lemma silent_depth v v' : silent v v' -> stack_ok v -> depth (fst v') = depth (fst v) /\ stack_ok v'.
Proof.
  intros S. induction S as [v|v v1 v2 E S IH]; intros H; [auto|].
  pose proof (effect_depth _ _ _ E H) as D. cbn in D. destruct (IH (effect_stack_ok _ _ _ E H)). split; [congruence|assumption].
Qed.

Section Nesting.
  Context {C : Type} (e : env) (o : cops C).

  Lemma next_depth (s : sparser C) : stack_ok (view s) ->
    let (r, s') := next e o s in
    stack_ok (view s') /\
    match r with
    | Some (Ok (ESubBlock _ _)) => depth (p_scopes s') = S (depth (p_scopes s))
    | Some (Ok EEndBlock) => depth (p_scopes s) = S (depth (p_scopes s'))
    | Some (Ok (ERecord _ _ _)) => depth (p_scopes s') = depth (p_scopes s) /\ (1 <= depth (p_scopes s))%nat
    | _ => depth (p_scopes s') = depth (p_scopes s)
    end.
  Proof.
    intros H. pose proof (next_effect e o s) as K. destruct (next e o s) as [[[x|x|x|]|] s'].
    - destruct K as (v & S1 & E1). destruct (silent_depth _ _ S1 H) as [D O].
      pose proof (effect_depth _ _ _ E1 O) as D2. cbn [fst view] in *.
      split; [now apply (effect_stack_ok _ _ _ E1)|]. cbn [fst view] in D. rewrite <- D. exact D2.
    - destruct (silent_depth _ _ K H) as [D O]. split; [exact O|exact D].
    - destruct (silent_depth _ _ K H) as [D O]. split; [exact O|exact D].
    - destruct (silent_depth _ _ K H) as [D O]. split; [exact O|exact D].
    - destruct (silent_depth _ _ K H) as [D O]. split; [exact O|exact D].
  Qed.

  Lemma run_depth n (s : sparser C) i : stack_ok (view s) -> (i <= n)%nat ->
    let l := run e o n s in
    (count is_end (firstn i l) <= depth (p_scopes s) + count is_start (firstn i l))%nat /\
    (forall a c fs, nth_error l i = Some (Some (Ok (ERecord a c fs))) ->
       (count is_end (firstn i l) < depth (p_scopes s) + count is_start (firstn i l))%nat).
  Proof.
    revert s i. induction n as [|n IH]; intros s i H Hi; cbn [run].
    - assert (i = 0)%nat as -> by lia. cbn. split; [lia|]. discriminate.
    - pose proof (next_depth s H) as K. destruct (next e o s) as [r s'].
      destruct K as [O D]. destruct i as [|i].
      + cbn [firstn count filter length nth_error]. split; [lia|]. intros a c fs [= ->]. cbn. lia.
      + specialize (IH s' i O ltac:(lia)). cbn zeta in *. destruct IH as [I1 I2]. cbn [firstn nth_error].
        destruct r as [[[|b len|a c fs]|x|x|]|]; unfold count in *; cbn [filter is_end is_start length];
          (split; [lia|]; intros a1 c1 fs1 N1; specialize (I2 a1 c1 fs1 N1); lia).
  Qed.
End Nesting.

(** *** BLOCKINFO *)

(** [history regs v]: [v] is reached from a fresh parser's state by effects among which
    the definitions made directly inside BLOCKINFO blocks were, in order, [regs]:
    pairs of the block id selected by SETBID and the abbreviation. *)
Inductive history : list (N * abbrev) -> list scope * info_map -> Prop :=
| HistStart : history [] ([ScInitial], [])
| HistRegister regs w bid l a sc info :
    history regs (ScBlock w 0 (Some bid) l :: sc, info) ->
    history (regs ++ [(bid, a)]) (ScBlock w 0 (Some bid) l :: sc, info_push info bid a)
| HistOther regs sc info r sc' :
    history regs (sc, info) -> effect (sc, info) r (sc', info) -> history regs (sc', info).

Lemma history_registered regs v b : history regs v -> registered (snd v) b = regs_for regs b.
Proof.
  intros H. induction H as [|regs w bid l a sc info H IH|regs sc info r sc' H IH E]; cbn [snd] in *.
  - reflexivity.
  - rewrite registered_push, IH. unfold regs_for. rewrite filter_app, map_app. cbn [filter fst].
    destruct (b =? bid) eqn:E1; destruct (bid =? b) eqn:E2; try lia; cbn; now rewrite ?app_nil_r.
  - exact IH.
Qed.

Lemma effect_history v r v' regs : effect v r v' -> history regs v -> exists regs', history regs' v'.
Proof.
  intros E H. destruct v as [sc info], v' as [sc' info']. pose proof E as E0.
  inversion E; subst; try (exists regs; eapply HistOther; eassumption).
  eexists. constructor. exact H.
Qed.

Lemma history_after {C} (e : env) (o : cops C) n (c : C) :
  exists regs, history regs (view (after e o n (parser_new c))).
Proof.
  apply (after_inv e o (fun v => exists regs, history regs v)).
  - intros v r v' E [regs H]. eapply effect_history; eassumption.
  - exists []. constructor.
Qed.

Lemma silent_history v v' regs : silent v v' -> history regs v -> exists regs', history regs' v'.
Proof. intros S. revert regs. induction S; intros regs H'; [eauto|]. edestruct effect_history; eauto. Qed.

Section BlockInfo.
  Context {C : Type} (e : env) (o : cops C).
  Lemma next_blockinfo n (c : C) x s' : next e o (after e o n (parser_new c)) = (Some (Ok x), s') ->
    exists regs, history regs (view s') /\
    match x with
    | ESubBlock b _ => b <> 0 /\ exists w rest, p_scopes s' = ScBlock w b None (regs_for regs b) :: rest
    | ERecord _ _ _ => exists w b i l rest, b <> 0 /\ p_scopes s' = ScBlock w b i l :: rest
    | EEndBlock => exists w b i l rest info, b <> 0 /\ p_scopes s' = rest /\
        silent (view (after e o n (parser_new c))) (ScBlock w b i l :: rest, info)
    end.
  Proof.
    intros H. destruct (history_after e o n c) as [regs0 H0].
    assert (O : stack_ok (view (after e o n (parser_new c)))).
    { apply (after_inv e o stack_ok effect_stack_ok). exists []. split; reflexivity. }
    pose proof (next_effect e o (after e o n (parser_new c))) as K. rewrite H in K.
    destruct K as (v & S1 & E1). destruct (silent_history _ _ _ S1 H0) as [regs1 H1].
    destruct (silent_depth _ _ S1 O) as [_ O1].
    destruct s' as [c' scs info]. cbn [p_scopes] in *. unfold view in *. cbn [p_scopes p_info] in *.
    destruct x as [|b len|a code fs].
    - inversion E1 as [| |s1 s2 sc info' HB EQ1 EQ2 EQ3| | | | | |]; subst. exists regs1.
      split; [eapply HistOther; eassumption|].
      destruct O1 as (bs & Hbs & Kbs). cbn [fst] in Hbs. destruct bs as [|b0 bs]; [discriminate|].
      injection Hbs as -> Hbs. cbn [forallb] in Kbs. apply andb_true_iff in Kbs. destruct Kbs as [Kb _].
      destruct b0 as [|w b i l]; [discriminate|]. cbn in HB.
      exists w, b, i, l, (s2 :: sc), info. split; [lia|]. split; [reflexivity|exact S1].
    - inversion E1; subst. exists regs1. split; [eapply HistOther; eassumption|]. split; [assumption|].
      pose proof (history_registered _ _ b H1) as R. cbn [snd] in R. rewrite <- R. eauto.
    - inversion E1; subst. exists regs1. split; [eapply HistOther; eassumption|]. do 5 eexists. split; [eassumption|reflexivity].
  Qed.
End BlockInfo.

(** *** Scoping *)

Section Scoping.
  Context {C : Type} (e : env) (o : cops C).

  Lemma step_view (s : sparser C) :
    view (snd (step e o s)) = view s \/ exists r, effect (view s) r (view (snd (step e o s))).
  Proof.
    pose proof (step_acts e o (view s) s eq_refl) as H. destruct (step e o s) as [[x|x|p|] s']; cbn [snd]; eauto.
  Qed.

  (** One step above [base] leaves [base] alone, and at most uncovers it. *)
  Lemma step_base (s : sparser C) top base : top <> [] -> p_scopes s = top ++ base ->
    (length base < height (snd (step e o s)) ->
      exists top', top' <> [] /\ p_scopes (snd (step e o s)) = top' ++ base)%nat /\
    ((height (snd (step e o s)) <= length base)%nat -> p_scopes (snd (step e o s)) = base).
  Proof.
    intros HT HS. unfold height. destruct (step_view s) as [E|[r E]].
    - injection E as -> _. rewrite HS, app_length. split; [eauto|]. destruct top; [congruence|]. cbn. lia.
    - unfold view in E. rewrite HS in E. remember (snd (step e o s)) as s' eqn:Es. clear Es.
      destruct top as [|t top]; [congruence|]. cbn [app] in E.
      inversion E; subst;
      try match goal with X : _ :: _ = p_scopes _ |- _ => rewrite <- X end; cbn [length]; rewrite ?app_length.
      + split; [intros _; eexists (_ :: t :: top); split; [discriminate|reflexivity]|lia].
      + split; [intros _; eexists (_ :: t :: top); split; [discriminate|reflexivity]|lia].
      + destruct top as [|t2 top]; cbn [app] in *.
        * subst base. cbn [length]. split; [lia|reflexivity].
        * match goal with X : _ :: _ = t2 :: _ |- _ => injection X as -> -> end. cbn [length].
          rewrite app_length. split; [intros _; eexists (_ :: top); split; [discriminate|reflexivity]|lia].
      + destruct top as [|t2 top]; cbn [app] in *.
        * subst base. cbn [length]. split; [lia|reflexivity].
        * match goal with X : _ :: _ = t2 :: _ |- _ => injection X as -> -> end. cbn [length].
          rewrite app_length. split; [intros _; eexists (_ :: top); split; [discriminate|reflexivity]|lia].
      + split; [intros _; eexists (_ :: top); split; [discriminate|reflexivity]|lia].
      + split; [intros _; eexists (_ :: top); split; [discriminate|reflexivity]|lia].
      + split; [intros _; eexists (_ :: top); split; [discriminate|reflexivity]|lia].
      + split; [intros _; eexists (_ :: top); split; [discriminate|reflexivity]|lia].
      + split; [intros _; eexists (_ :: top); split; [discriminate|reflexivity]|lia].
  Qed.

  (** A step that makes the stack higher pushes. *)
  Lemma step_push (s : sparser C) : (height s < height (snd (step e o s)))%nat ->
    exists t, p_scopes (snd (step e o s)) = t :: p_scopes s.
  Proof.
    unfold height. destruct (step_view s) as [E|[r E]].
    - injection E as -> _. lia.
    - remember (snd (step e o s)) as s' eqn:Es. clear Es. unfold view in E.
      inversion E; subst; repeat match goal with X : _ = p_scopes _ |- _ => rewrite <- X end; cbn [length]; try lia; eauto.
  Qed.

  Lemma micro_base n (s : sparser C) top base : top <> [] -> p_scopes s = top ++ base ->
    (forall i, (i <= n)%nat -> (length base < height (micro e o i s))%nat) ->
    exists top', top' <> [] /\ p_scopes (micro e o n s) = top' ++ base.
  Proof.
    intros HT HS. induction n as [|n IH]; intros H; [exists top; auto|].
    destruct IH as (top' & HT' & HS'); [intros; apply H; lia|]. cbn [micro].
    apply (proj1 (step_base _ top' base HT' HS')). apply (H (S n)). lia.
  Qed.

  Lemma micro_plus i j (s : sparser C) : micro e o (i + j) s = micro e o i (micro e o j s).
  Proof. induction i as [|i IH]; [reflexivity|]. cbn [Nat.add micro]. now rewrite IH. Qed.

  Lemma enter_leave n (s : sparser C) : (2 <= n)%nat ->
    (forall i, (1 <= i < n)%nat -> (height s < height (micro e o i s))%nat) ->
    height (micro e o n s) = height s ->
    p_scopes (micro e o n s) = p_scopes s.
  Proof.
    intros Hn Hi Hend. destruct n as [|[|n]]; try lia. clear Hn.
    pose proof (Hi 1%nat ltac:(lia)) as H1. cbn [micro] in H1. destruct (step_push s H1) as [t Ht].
    assert (B : exists top', top' <> [] /\ p_scopes (micro e o (S n) s) = top' ++ p_scopes s).
    { replace (S n) with (n + 1)%nat by lia. rewrite micro_plus. apply (micro_base n _ [t]); [discriminate|exact Ht|].
      intros i Hin. rewrite <- micro_plus. apply (Hi (i + 1)%nat). lia. }
    destruct B as (top' & HT' & HS'). change (micro e o (S (S n)) s) with (snd (step e o (micro e o (S n) s))) in *.
    apply (proj2 (step_base _ top' _ HT' HS')). rewrite Hend. unfold height. lia.
  Qed.

  (** Outside BLOCKINFO blocks nothing is registered. *)
  Lemma micro_info n (s : sparser C) :
    (forall i, (i < n)%nat -> in_blockinfo (micro e o i s) = false) ->
    p_info (micro e o n s) = p_info s.
  Proof.
    induction n as [|n IH]; intros H; [reflexivity|]. rewrite <- IH by (intros; apply H; lia).
    specialize (H n ltac:(lia)). cbn [micro]. remember (micro e o n s) as t eqn:Et. clear Et IH.
    destruct (step_view t) as [E|[r E]]; [now injection E|].
    unfold in_blockinfo in H. remember (snd (step e o t)) as t' eqn:Et'. clear Et'.
    destruct t as [c1 sc1 i1]. destruct t' as [c2 sc2 i2]. unfold view in E. cbn [p_scopes p_info] in *.
    inversion E; subst; try reflexivity. discriminate.
  Qed.
End Scoping.
