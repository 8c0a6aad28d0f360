(** Parsing as a sequence of single steps (the levels of [advance]'s recursion), and what
    BLOCKINFO blocks have defined so far. *)
From Verif Require Import Base CursorModel CursorSpec CursorHist CursorProofs CursorSim CursorVbr CursorMain
  StreamModel StreamSpec StreamHist StreamProofs StreamPres StreamEffect StreamRound StreamMain StreamEnd.
From Coq Require Import Lia ZifyBool ZifyNat ZifyN.
Ltac Zify.zify_post_hook ::= Z.div_mod_to_equations.
Local Open Scope N_scope.
Arguments N.add : simpl never.
Arguments N.mul : simpl never.
Arguments N.div : simpl never.
Arguments N.modulo : simpl never.
Arguments N.sub : simpl never.
Arguments N.pow : simpl never.

Section Trace.
  Context {C : Type} (e : env) (o : cops C).

  Definition inf (i : info_map) (s : sparser C) : Prop := p_info s = i.
  Lemma inf_on_cur {A} i (m : M C serr A) : preserves (inf i) (on_cur m).
  Proof. intros s H. unfold on_cur. destruct (m (p_cur s)). exact H. Qed.
  Lemma inf_get_scope i : preserves (E := serr) (inf i) (get_scope (C := C)).
  Proof. intros s H. unfold get_scope. destruct (p_scopes s); exact H. Qed.
  Lemma inf_set_scope i sc : preserves (E := serr) (inf i) (set_scope (C := C) sc).
  Proof. intros s H. unfold set_scope. destruct (p_scopes s); exact H. Qed.
  Lemma inf_push_scope i sc : preserves (E := serr) (inf i) (push_scope (C := C) sc).
  Proof. intros s H. exact H. Qed.
  Hint Resolve inf_on_cur inf_get_scope inf_set_scope inf_push_scope preserves_ret preserves_fail preserves_crash : inf.
  Ltac bnd := apply preserves_bind; [auto with inf|intros ?].
  Lemma inf_extend i l : preserves (inf i) (extend_scope (C := C) l).
  Proof. unfold extend_scope. bnd. destruct (sc_extend _ _); auto with inf. Qed.
  Hint Resolve inf_extend : inf.
  Lemma inf_body i v : v <> 2 -> preserves (inf i) (body e o v).
  Proof.
    intros Hv. unfold body. assert (abbrev_id_of v <> IdDefineAbbrev).
    { unfold abbrev_id_of. destruct v as [|[[]|[]|]]; congruence. }
    destruct (abbrev_id_of v); [| |congruence| |].
    - unfold exit_block. bnd. intros s K. destruct (p_scopes s) as [|? [|]]; exact K.
    - unfold enter_block. bnd. bnd. bnd. destruct (_ <? _); [auto with inf|]. bnd. bnd.
      apply preserves_bind; [|intros ?; bnd; destruct (sc_is_blockinfo _); auto with inf].
      intros s K. destruct (info_get _ _); [now apply inf_extend|exact K].
    - unfold parse_unabbrev. bnd. destruct a; [auto with inf|]. bnd. bnd.
      apply preserves_bind; [intros s K; unfold with_capacity; destruct (_ <=? _); exact K|]. intros ?. bnd. bnd.
      destruct (sc_is_blockinfo _); [|auto with inf]. destruct (blockinfo_code_of _) as [[]|]; auto with inf.
      match goal with |- context [match ?l with [] => _ | _ :: _ => _ end] => destruct l end; [auto with inf|].
      destruct (sc_set_bid _ _); [|auto with inf]. bnd. auto with inf.
    - unfold parse_with_abbrev. bnd. apply preserves_bind.
      { unfold get_abbrev. destruct a; [auto with inf|]. destruct (_ <? _); [auto with inf|]. destruct (nth_error _ _); auto with inf. }
      intros ?. bnd. match goal with |- context [match ?l with [] => _ | _ :: _ => _ end] => destruct l end; [auto with inf|].
      bnd. destruct (sc_is_blockinfo _); auto with inf.
  Qed.

  Lemma step_info s : stack_ok (view s) ->
    p_info (snd (step e o s)) =
    match next_definition e o s with Some (bid, a) => info_push (p_info s) bid a | None => p_info s end.
  Proof.
    intros (bs & HS & HB). unfold view in HS. cbn [fst] in HS.
    unfold step, next_definition. destruct (op_exhausted o (p_cur s)) eqn:EX.
    { cbn [snd]. destruct (p_scopes s) as [|[|w [] [] l] rest]; reflexivity. }
    unfold bind at 1, get_scope. destruct (p_scopes s) as [|sc rest] eqn:ES; [destruct bs; discriminate|].
    unfold bind at 1, on_cur, c_read, lift_err. 
    destruct (op_read o (sc_width sc) (p_cur s)) as [[v|x|p|] c1] eqn:ER.
    2-4: cbn [snd p_info]; destruct sc as [|w [] [] l]; try reflexivity; cbn [sc_width] in ER; rewrite ER; reflexivity.
    cbn [fst snd]. change (match abbrev_id_of v with
       | IdEndBlock => exit_block o
       | IdEnterSubBlock => enter_block e o
       | IdDefineAbbrev => bind (define_abbrev e o) (fun _ => ret None)
       | IdUnabbrevRecord => parse_unabbrev e o
       | IdDefined id => parse_with_abbrev e o id
       end) with (body e o v).
    destruct (N.eq_dec v 2) as [->|Hv].
    - unfold body. cbn [abbrev_id_of]. unfold bind at 1, define_abbrev, bind, on_cur. cbn [p_cur p_scopes p_info].
      destruct (abbrev_new e o c1) as [[a|x|p|] c2] eqn:EA.
      2-4: cbn [snd p_info]; destruct sc as [|w [] [] l]; try reflexivity; cbn [sc_width] in ER; rewrite ER, EA; reflexivity.
      unfold get_scope. cbn [p_scopes]. rewrite ES.
      destruct sc as [|w b i l].
      + cbn. unfold extend_scope, bind, get_scope. cbn [p_scopes]. rewrite ?ES. reflexivity.
      + cbn [sc_is_blockinfo sc_blockinfo_bid sc_width] in *. destruct b as [|b].
        * cbn [N.eqb]. destruct i as [bid|]; [|reflexivity]. rewrite ER, EA. reflexivity.
        * cbn [N.eqb]. unfold extend_scope, bind, get_scope. cbn [p_scopes]. rewrite ?ES. cbn [sc_extend]. unfold set_scope. cbn [p_scopes]. rewrite ?ES. reflexivity.
    - match goal with |- p_info (snd (body e o v ?t)) = _ =>
        pose proof (inf_body (p_info s) v Hv t eq_refl) as K end. unfold inf in K. rewrite K. clear K.
      destruct sc as [|w [] [] l]; try reflexivity. cbn [sc_width] in ER. rewrite ER.
      destruct v as [|[[]|[]|]]; try reflexivity; congruence.
  Qed.

  Lemma step_stack_ok s : stack_ok (view s) -> stack_ok (view (snd (step e o s))).
  Proof.
    intros H. destruct (step_view e o s) as [E|[r E]]; [now rewrite E|]. eapply effect_stack_ok; eassumption.
  Qed.
  Lemma micro_stack_ok n s : stack_ok (view s) -> stack_ok (view (micro e o n s)).
  Proof. intros H. induction n as [|n IH]; [exact H|]. now apply step_stack_ok. Qed.

  Lemma regs_for_app l1 l2 b : regs_for (l1 ++ l2) b = regs_for l1 b ++ regs_for l2 b.
  Proof. unfold regs_for. now rewrite filter_app, map_app. Qed.

  Lemma micro_registered n c b :
    registered (p_info (micro e o n (parser_new c))) b = regs_for (definitions e o n (parser_new c)) b.
  Proof.
    induction n as [|n IH]; [reflexivity|]. cbn [micro definitions]. rewrite step_info, regs_for_app, <- IH.
    - destruct (next_definition e o _) as [[bid a]|]; [|cbn; now rewrite app_nil_r].
      rewrite registered_push. unfold regs_for. cbn [filter fst].
      destruct (b =? bid) eqn:E1; destruct (bid =? b) eqn:E2; try lia; cbn; now rewrite ?app_nil_r.
    - apply micro_stack_ok. exists []. split; reflexivity.
  Qed.

  (** What one step reports, and how it relates to the scopes. *)
  Lemma micro_step n c x s' : let s := micro e o n (parser_new c) in step e o s = (Ok x, s') ->
    match x with
    | Some (ESubBlock b _) => b <> 0 /\
        exists w, p_scopes s' = ScBlock w b None (regs_for (definitions e o n (parser_new c)) b) :: p_scopes s
    | Some (ERecord _ _ _) => exists w b i l rest, b <> 0 /\ p_scopes s = ScBlock w b i l :: rest /\ p_scopes s' = p_scopes s
    | Some EEndBlock => exists w b i l, b <> 0 /\ p_scopes s = ScBlock w b i l :: p_scopes s'
    | None => True
    end.
  Proof.
    intros s H. assert (O : stack_ok (view s)) by (apply micro_stack_ok; exists []; split; reflexivity).
    pose proof (step_acts e o (view s) s eq_refl) as K. rewrite H in K.
    pose proof (fun b => micro_registered n c b) as R. fold s in R.
    unfold view in *. destruct s' as [c' sc' i']. cbn [p_scopes p_info] in *. clear H.
    revert K O R. generalize (p_scopes s) (p_info s). clear s. intros ps pi K O R.
    destruct x as [[|b len|a code fs]|]; [| | |exact I].
    - inversion K as [| |s1 s2 sc info' HB EQ1 EQ2 EQ3| | | | | |]; subst.
      destruct O as (bs & Hbs & Kbs). cbn [fst] in Hbs. destruct bs as [|b0 bs]; [discriminate|].
      injection Hbs as -> Hbs. cbn [forallb] in Kbs. apply andb_true_iff in Kbs. destruct Kbs as [Kb _].
      destruct b0 as [|w b i l]; [discriminate|]. cbn in HB. exists w, b, i, l. split; [lia|reflexivity].
    - inversion K; subst. split; [assumption|]. rewrite <- R. eauto.
    - inversion K; subst. exists w, b, i, l, sc. split; [assumption|]. split; reflexivity.
  Qed.

  (** [advance] is a run of steps reporting nothing, followed by one that reports or
      stops. *)
  Lemma advance_loop_micro f s : fst (advance_loop e o f s) <> OutOfFuel ->
    exists k, snd (advance_loop e o f s) = micro e o (S k) s /\
      (forall i, (i < k)%nat -> fst (step e o (micro e o i s)) = Ok None) /\
      match fst (advance_loop e o f s) with
      | Ok x => fst (step e o (micro e o k s)) = Ok (Some x)
      | Err x => fst (step e o (micro e o k s)) = Err x
      | Panic p => fst (step e o (micro e o k s)) = Panic p
      | OutOfFuel => False
      end.
  Proof.
    revert s. induction f as [|f IH]; intros s; cbn [advance_loop]; [intros H; now destruct H|]. unfold bind.
    destruct (step e o s) as [[[x|]|x|p|] s1] eqn:E.
    - intros _. exists O. cbn [micro fst snd ret]. rewrite E. repeat split; intros; lia.
    - intros H. destruct (IH s1 H) as (k & K1 & K2 & K3). exists (S k).
      assert (SH : forall i, micro e o i s1 = micro e o (S i) s).
      { intros i. replace (S i) with (i + 1)%nat by lia. rewrite micro_plus. cbn [micro]. now rewrite E. }
      split; [rewrite K1; exact (SH (S k))|]. split.
      + intros [|i] Hi; [cbn [micro]; now rewrite E|]. rewrite <- SH. apply K2. lia.
      + rewrite <- SH. exact K3.
    - intros _. exists O. cbn [micro fst snd]. rewrite E. repeat split; intros; lia.
    - intros _. exists O. cbn [micro fst snd]. rewrite E. repeat split; intros; lia.
    - intros H. now destruct H.
  Qed.
End Trace.

Lemma advance_micro e s : parser_reachable e s ->
  exists k, snd (advance e cursor_ops s) = micro e cursor_ops (S k) s /\
    (forall i, (i < k)%nat -> fst (step e cursor_ops (micro e cursor_ops i s)) = Ok None) /\
    match fst (advance e cursor_ops s) with
    | Ok x => fst (step e cursor_ops (micro e cursor_ops k s)) = Ok (Some x)
    | Err x => fst (step e cursor_ops (micro e cursor_ops k s)) = Err x
    | Panic p => fst (step e cursor_ops (micro e cursor_ops k s)) = Panic p
    | OutOfFuel => False
    end.
Proof. intros H. apply advance_loop_micro. apply (advance_main e s H). Qed.
