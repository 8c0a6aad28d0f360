(** With [two64] values of [usize] the code of WordModel.v is the code of the other models, in every outcome. *)
From Verif Require Import Base Strings EnumModel SupportModel LayoutModel LayoutMain
  CursorModel CursorSpec CursorHist CursorProofs CursorSim CursorVbr CursorMain
  StreamModel StreamSpec StreamHist StreamProofs StreamPres StreamMain StreamBounds StreamSize
  UnrollModel UnrollSpec UnrollProofs UnrollMain UnrollApi AttributeModel AttributeSpec AttributeMain
  TablesModel TablesSpec TypeTableModel RecordModel ModuleModel PipelineSpec PipelineProofs AmplifySpec AmplifyProofs
  WordModel WordSpec WordCursor WordStream WordMapper WordSmall.
From Coq Require Import Lia ZifyBool ZifyNat ZifyN.
Ltac Zify.zify_post_hook ::= Z.div_mod_to_equations.
Local Open Scope N_scope.
#[local] Arguments N.add : simpl never.
#[local] Arguments N.mul : simpl never.
#[local] Arguments N.sub : simpl never.
#[local] Arguments N.modulo : simpl never.
#[local] Arguments N.div : simpl never.
#[local] Arguments N.pow : simpl never.

Section Equal.
  Context (U : N) (e : env) (UW : two64 <= U).
  Notation o := cursor_ops.
  Notation w := (cursor_ops_w U e).
  Notation I := (inv_w U).
  Local Open Scope m_scope.
  Lemma us_wide v : u64 v -> us U v = v.
  Proof. intros H. apply us_small. unfold u64 in H. lia. Qed.

  (** Equal on the states with [J], which is kept; the results have [Q]. *)
  Definition equal {St E A} (J : St -> Prop) (m m' : M St E A) (Q : A -> Prop) : Prop :=
    forall s, J s -> m' s = m s /\ J (snd (m s)) /\ forall x, fst (m s) = Ok x -> Q x.
  Lemma equal_ret {St E A} (J : St -> Prop) (a : A) (Q : A -> Prop) : Q a -> equal (E := E) J (ret a) (ret a) Q.
  Proof. intros H s X. split; [reflexivity|]. split; [exact X|]. intros x [= <-]. exact H. Qed.
  Lemma equal_fail {St E A} (J : St -> Prop) (x : E) (Q : A -> Prop) : equal J (fail x) (fail x) Q.
  Proof. intros s X. split; [reflexivity|]. split; [exact X|]. intros y [=]. Qed.
  Lemma equal_crash {St E A} (J : St -> Prop) p (Q : A -> Prop) : equal (E := E) J (crash p) (crash p) Q.
  Proof. intros s X. split; [reflexivity|]. split; [exact X|]. intros y [=]. Qed.
  Lemma equal_bind {St E A B} (J : St -> Prop) (m m' : M St E A) (k k' : A -> M St E B) (P : A -> Prop) (Q : B -> Prop) :
    equal J m m' P -> (forall a, P a -> equal J (k a) (k' a) Q) -> equal J (bind m k) (bind m' k') Q.
  Proof.
    intros H K s X. destruct (H s X) as (H1 & H2 & H3). unfold bind. rewrite H1. destruct (m s) as [[a|y|p|] s1]; cbn [fst snd] in *.
    - exact (K a (H3 a eq_refl) s1 H2).
    - split; [reflexivity|]. split; [exact H2|discriminate].
    - split; [reflexivity|]. split; [exact H2|discriminate].
    - split; [reflexivity|]. split; [exact H2|discriminate].
  Qed.
  Lemma equal_any {St E A B} (J : St -> Prop) (m m' : M St E A) (k k' : A -> M St E B) (P : A -> Prop) (Q : B -> Prop) :
    equal J m m' P -> (forall a, equal J (k a) (k' a) Q) -> equal J (bind m k) (bind m' k') Q.
  Proof. intros H K. apply (equal_bind J m m' k k' P); [exact H|]. intros a _. apply K. Qed.
  Lemma equal_times {St E A} (J : St -> Prop) (m m' : M St E (list A)) n : equal J m m' (fun _ => True) -> equal J (times n m) (times n m') (fun _ => True).
  Proof.
    intros H s X. rewrite !times_nat. revert s X. generalize (N.to_nat n). intros k. change (equal J (times_n k m) (times_n k m') (fun _ => True)).
    induction k as [|k IH]; cbn [times_n]; [now apply equal_ret|]. apply (equal_any _ _ _ _ _ (fun _ => True)); [exact H|]. intros a.
    apply (equal_any _ _ _ _ _ (fun _ => True)); [exact IH|]. intros b. now apply equal_ret.
  Qed.
  Lemma equal_alike {E A} (m m' : M cursor E A) (Q : A -> Prop) : alike U m m' -> preserves I m -> StreamBounds.gives m Q -> equal I m m' Q.
  Proof.
    intros H1 H2 H3 c X. split; [exact (H1 c X)|]. split; [exact (H2 c X)|]. intros x Y. destruct (m c) as [r c'] eqn:M1. cbn [fst] in Y. subst r. exact (H3 _ _ _ M1).
  Qed.
  Lemma any_gives {St E A} (m : M St E A) : StreamBounds.gives m (fun _ => True).
  Proof. intros ? ? ? _. exact Logic.I. Qed.
  Notation RP := (read_keeps U).
  Notation AP := (align_keeps U).

  Lemma vbr_equal n : equal I (c_vbr e o n) (c_vbr e w n) u64.
  Proof. apply equal_alike; [apply c_vbr_alike|exact (c_vbr_pres e o I RP n)|apply c_vbr_u64]. Qed.
  Lemma read_as_equal t n : equal I (c_read_as o t n) (c_read_as w t n) (fun _ => True).
  Proof. apply equal_alike; [apply c_read_as_alike|exact (c_read_as_pres o I RP t n)|apply any_gives]. Qed.
  Lemma align_equal : equal I (c_align o) (c_align w) (fun _ => True).
  Proof. apply equal_alike; [apply c_align_alike|exact (c_align_pres o I AP)|apply any_gives]. Qed.
  Lemma read_equal n : equal I (c_read o n) (c_read w n) u64.
  Proof.
    intros c X. split; [exact (c_read_alike U e n c X)|]. split; [exact (c_read_pres o I RP n c X)|]. intros v Y.
    destruct (c_read o n c) as [r c'] eqn:M1. cbn [fst] in Y. subst r.
    destruct (c_read_strict o _ _ (progressive_w U) n c v c' X M1) as (_ & B & _).
    assert (W : n < 64).
    { unfold c_read, lift_err in M1. cbn [op_read cursor_ops] in M1. unfold read in M1. destruct (n =? 0); cbn [orb] in M1; [discriminate M1|].
      destruct (64 <=? n) eqn:E; [discriminate M1|lia]. }
    unfold u64. eapply N.lt_trans; [exact B|]. apply (N.pow_lt_mono_r 2 n 64); [reflexivity|exact W].
  Qed.
  Lemma capacity_equal {St} (J : St -> Prop) n : equal (E := serr) J (with_capacity e n) (with_capacity e n) (fun _ => True).
  Proof. unfold with_capacity. destruct (_ <=? _); [now apply equal_ret|apply equal_crash]. Qed.

  (** Widths are 64-bit numbers. *)
  Fixpoint op_wide (op : abbrev_op) : Prop :=
    match op with
    | OpVbr n | OpFixed n => u64 n
    | OpArray el => op_wide el
    | _ => True
    end.
  Lemma op_equal op : op_wide op -> equal I (op_parse e o op) (op_parse_w U e op) (fun _ => True).
  Proof.
    induction op as [v|n|n|el IH| |]; intros O; cbn [op_parse op_parse_w op_wide] in *.
    - now apply equal_ret.
    - rewrite us_wide by exact O. apply (equal_any _ _ _ _ _ u64); [apply vbr_equal|]. intros x. now apply equal_ret.
    - rewrite us_wide by exact O. apply (equal_any _ _ _ _ _ (fun _ => True)); [apply read_as_equal|]. intros x. now apply equal_ret.
    - apply (equal_bind _ _ _ _ _ u64); [apply vbr_equal|]. intros n N1. rewrite us_wide by exact N1.
      apply (equal_any _ _ _ _ _ (fun _ => True)); [apply capacity_equal|]. intros _. apply equal_times. exact (IH O).
    - apply (equal_any _ _ _ _ _ (fun _ => True)); [apply read_as_equal|]. intros x. apply (equal_any _ _ _ _ _ (fun _ => True)); [|intros y; now apply equal_ret].
      unfold decode_char6. destruct (nth_error _ _); [now apply equal_ret|apply equal_crash].
    - apply (equal_bind _ _ _ _ _ u64); [apply vbr_equal|]. intros n N1. rewrite us_wide by exact N1.
      apply (equal_any _ _ _ _ _ (fun _ => True)); [apply align_equal|]. intros _.
      apply (equal_any _ _ _ _ _ (fun _ => True)); [apply capacity_equal|]. intros _.
      apply (equal_any _ _ _ _ _ (fun _ => True)).
      { apply equal_times. apply (equal_any _ _ _ _ _ (fun _ => True)); [apply read_as_equal|]. intros b. now apply equal_ret. }
      intros bs. apply (equal_any _ _ _ _ _ (fun _ => True)); [apply align_equal|]. intros _. now apply equal_ret.
  Qed.
  Lemma abbrev_equal a : Forall op_wide a -> equal I (abbrev_parse e o a) (abbrev_parse_w U e a) (fun _ => True).
  Proof.
    induction 1 as [|op a O _ IH]; cbn [abbrev_parse abbrev_parse_w]; [now apply equal_ret|].
    apply (equal_any _ _ _ _ _ (fun _ => True)); [now apply op_equal|]. intros x. apply (equal_any _ _ _ _ _ (fun _ => True)); [exact IH|]. intros y. now apply equal_ret.
  Qed.
  Lemma read_enc_equal : equal I (read_enc o) (read_enc w) (fun _ => True).
  Proof.
    unfold read_enc. apply (equal_any _ _ _ _ _ u64); [apply read_equal|]. intros v. destruct (abbrev_enc_of v); [now apply equal_ret|apply equal_fail].
  Qed.
  Lemma array_elem_equal : equal I (array_elem e o) (array_elem e w) op_wide.
  Proof.
    unfold array_elem. apply (equal_any _ _ _ _ _ u64); [apply read_equal|]. intros _. apply (equal_any _ _ _ _ _ (fun _ => True)); [apply read_enc_equal|]. intros x.
    destruct x; try apply equal_fail; try (now apply equal_ret); (apply (equal_bind _ _ _ _ _ u64); [apply vbr_equal|]; intros v V; now apply equal_ret).
  Qed.
  Lemma abbrev_loop_equal f : forall num idx acc, Forall op_wide acc -> equal I (abbrev_loop e o f num idx acc) (abbrev_loop e w f num idx acc) (Forall op_wide).
  Proof.
    induction f as [|f IH]; intros num idx acc A; cbn [abbrev_loop].
    { intros c X. split; [reflexivity|]. split; [exact X|discriminate]. }
    assert (A1 : forall op, op_wide op -> Forall op_wide (acc ++ [op])) by (intros op O; apply Forall_app; split; [exact A|constructor; [exact O|constructor]]).
    destruct (num <=? idx); [now apply equal_ret|]. apply (equal_any _ _ _ _ _ u64); [apply read_equal|]. intros kind. destruct (kind =? 1).
    { apply (equal_bind _ _ _ _ _ u64); [apply vbr_equal|]. intros v V. apply IH, A1. exact Logic.I. }
    apply (equal_any _ _ _ _ _ (fun _ => True)); [apply read_enc_equal|]. intros x. destruct x.
    - apply (equal_bind _ _ _ _ _ u64); [apply vbr_equal|]. intros v V. apply IH, A1. exact V.
    - apply (equal_bind _ _ _ _ _ u64); [apply vbr_equal|]. intros v V. apply IH, A1. exact V.
    - destruct (_ && _)%bool; [apply equal_crash|]. cbv zeta. destruct (negb _); [apply equal_fail|].
      apply (equal_bind _ _ _ _ _ op_wide); [apply array_elem_equal|]. intros v V. apply equal_ret. exact (A1 (OpArray v) V).
    - apply IH, A1. exact Logic.I.
    - destruct (negb _); [apply equal_fail|]. apply IH, A1. exact Logic.I.
  Qed.
  Lemma abbrev_new_equal : equal I (abbrev_new e o) (abbrev_new e w) (Forall op_wide).
  Proof.
    unfold abbrev_new. apply (equal_any _ _ _ _ _ u64); [apply vbr_equal|]. intros num. destruct (num <? 1); [apply equal_fail|].
    intros c X. exact (abbrev_loop_equal _ num 0 [] (Forall_nil _) c X).
  Qed.

  (** *** The parser *)
  Definition scope_wide (s : scope) : Prop := match s with ScInitial => True | ScBlock wd _ _ l => u64 wd /\ Forall (Forall op_wide) l end.
  Definition J (s : sparser cursor) : Prop :=
    I (p_cur s) /\ Forall scope_wide (p_scopes s) /\ Forall (fun x => Forall (Forall op_wide) (snd x)) (p_info s).
  Lemma cur_equal {A} (m m' : M cursor serr A) (Q : A -> Prop) : equal I m m' Q -> equal J (on_cur m) (on_cur m') Q.
  Proof.
    intros H s (J1 & J2 & J3). destruct (H _ J1) as (H1 & H2 & H3). unfold on_cur. rewrite H1. destruct (m (p_cur s)) as [r c]. cbn [fst snd] in *.
    split; [reflexivity|]. split; [|exact H3]. split; [exact H2|]. split; assumption.
  Qed.
  Lemma scope_equal : equal J get_scope get_scope scope_wide.
  Proof.
    intros s X. split; [reflexivity|]. pose proof X as (_ & X2 & _). unfold get_scope. destruct (p_scopes s) as [|sc l] eqn:S1; cbn; (split; [exact X|]).
    - discriminate.
    - intros x [= <-]. now inversion X2.
  Qed.
  Lemma set_scope_equal sc : scope_wide sc -> equal J (set_scope sc) (set_scope sc) (fun _ => True).
  Proof.
    intros H s X. split; [reflexivity|]. split; [|auto]. pose proof X as (X1 & X2 & X3). unfold set_scope. destruct (p_scopes s) as [|sc' l] eqn:S1; cbn.
    - exact X.
    - split; [exact X1|]. split; [|exact X3]. cbn. inversion X2; subst. now constructor.
  Qed.
  Lemma extend_equal l : Forall (Forall op_wide) l -> equal J (extend_scope l) (extend_scope l) (fun _ => True).
  Proof.
    intros H. unfold extend_scope. apply (equal_bind _ _ _ _ _ scope_wide); [apply scope_equal|]. intros sc SC.
    destruct sc as [|wd b i a]; cbn [sc_extend]; [apply equal_fail|]. apply set_scope_equal. destruct SC as [S1 S2]. split; [exact S1|]. now apply Forall_app.
  Qed.
  Lemma info_get_wide m k l : Forall (fun x : N * list abbrev => Forall (Forall op_wide) (snd x)) m -> info_get m k = Some l -> Forall (Forall op_wide) l.
  Proof.
    intros H. induction H as [|[k' v] m X H IH]; cbn [info_get]; [discriminate|]. destruct (k' =? k); [intros [= <-]; exact X|exact IH].
  Qed.
  Lemma info_push_wide m k a : Forall (fun x : N * list abbrev => Forall (Forall op_wide) (snd x)) m -> Forall op_wide a ->
    Forall (fun x => Forall (Forall op_wide) (snd x)) (info_push m k a).
  Proof.
    intros H A. induction H as [|[k' v] m X H IH]; cbn [info_push]; [repeat constructor; exact A|].
    destruct (k' =? k); constructor; cbn in *; try assumption. apply Forall_app. split; [exact X|repeat constructor; exact A].
  Qed.
  Notation T := (fun _ => True).
  Lemma enter_block_equal : equal J (StreamModel.enter_block e o) (StreamModel.enter_block e w) T.
  Proof.
    unfold StreamModel.enter_block. apply (equal_any _ _ _ _ _ u64); [apply cur_equal, vbr_equal|]. intros bid.
    apply (equal_bind _ _ _ _ _ u64); [apply cur_equal, vbr_equal|]. intros wd WD. apply (equal_any _ _ _ _ _ T); [apply cur_equal, align_equal|]. intros _.
    destruct (wd <? 1); [apply equal_fail|]. apply (equal_any _ _ _ _ _ u64); [apply cur_equal, read_equal|]. intros words.
    apply (equal_any _ _ _ _ _ T).
    { intros s (X1 & X2 & X3). split; [reflexivity|]. split; [|auto]. cbn. split; [exact X1|]. split; [|exact X3]. constructor; [|exact X2]. split; [exact WD|constructor]. }
    intros _. apply (equal_any _ _ _ _ _ T).
    { intros s X. destruct (info_get (p_info s) bid) as [l|] eqn:G1.
      - apply extend_equal; [|exact X]. destruct X as (_ & _ & X). exact (info_get_wide _ _ _ X G1).
      - split; [reflexivity|]. split; [exact X|auto]. }
    intros _. apply (equal_any _ _ _ _ _ scope_wide); [apply scope_equal|]. intros sc. destruct (sc_is_blockinfo sc); now apply equal_ret.
  Qed.
  Lemma exit_block_equal : equal J (StreamModel.exit_block o) (StreamModel.exit_block w) T.
  Proof.
    unfold StreamModel.exit_block. apply (equal_any _ _ _ _ _ T); [apply cur_equal, align_equal|]. intros _ s X. split; [reflexivity|]. split; [|auto].
    pose proof X as (X1 & X2 & X3). destruct (p_scopes s) as [|sc [|sc' l]] eqn:S1; cbn; try exact X.
    split; [exact X1|]. split; [now inversion X2|exact X3].
  Qed.
  Lemma define_abbrev_equal : equal J (StreamModel.define_abbrev e o) (StreamModel.define_abbrev e w) T.
  Proof.
    unfold StreamModel.define_abbrev. apply (equal_bind _ _ _ _ _ (Forall op_wide)); [apply cur_equal, abbrev_new_equal|]. intros a A.
    apply (equal_any _ _ _ _ _ scope_wide); [apply scope_equal|]. intros sc.
    destruct (sc_is_blockinfo sc); [|apply extend_equal; repeat constructor; exact A].
    destruct (sc_blockinfo_bid sc) as [bid|]; [|apply equal_fail]. intros s (X1 & X2 & X3). split; [reflexivity|]. split; [|auto]. cbn.
    split; [exact X1|]. split; [exact X2|now apply info_push_wide].
  Qed.
  Lemma parse_unabbrev_equal : equal J (parse_unabbrev e o) (parse_unabbrev_w U e) T.
  Proof.
    unfold parse_unabbrev, parse_unabbrev_w. apply (equal_any _ _ _ _ _ scope_wide); [apply scope_equal|]. intros sc. destruct sc as [|x1 x2 x3 x4]; [apply equal_fail|].
    apply (equal_any _ _ _ _ _ u64); [apply cur_equal, vbr_equal|]. intros code. apply (equal_bind _ _ _ _ _ u64); [apply cur_equal, vbr_equal|]. intros num NM.
    rewrite us_wide by exact NM. apply (equal_any _ _ _ _ _ T); [apply capacity_equal|]. intros _.
    apply (equal_any _ _ _ _ _ T).
    { apply cur_equal, equal_times. apply (equal_any _ _ _ _ _ u64); [apply vbr_equal|]. intros x. now apply equal_ret. }
    intros fields. apply (equal_bind _ _ _ _ _ scope_wide); [apply scope_equal|]. intros sc SC.
    destruct (sc_is_blockinfo sc); [|now apply equal_ret].
    destruct (blockinfo_code_of code) as [[]|]; try apply equal_fail; try (now apply equal_ret).
    destruct fields as [|bid fs]; [apply equal_crash|]. destruct sc as [|y1 y2 y3 y4]; cbn [sc_set_bid]; [apply equal_fail|].
    apply (equal_any _ _ _ _ _ T); [apply set_scope_equal; exact SC|]. intros _. now apply equal_ret.
  Qed.
  Lemma parse_with_abbrev_equal id : u64 id -> 4 <= id -> equal J (parse_with_abbrev e o id) (parse_with_abbrev_w U e id) T.
  Proof.
    intros ID I4. unfold parse_with_abbrev, parse_with_abbrev_w. apply (equal_bind _ _ _ _ _ scope_wide); [apply scope_equal|]. intros sc SC.
    apply (equal_bind _ _ _ _ _ (Forall op_wide)).
    { intros s X. unfold get_abbrev, get_abbrev_w. destruct sc as [|x1 x2 x3 l]; [split; [reflexivity|split; [exact X|discriminate]]|].
      unfold w_sub. rewrite us_wide by exact ID. replace (id <? 4) with false by lia. replace (4 <=? id) with true by lia.
      destruct (nth_error l (N.to_nat (id - 4))) as [a|] eqn:E; (split; [reflexivity|]; split; [exact X|]); [|discriminate].
      intros y [= <-]. destruct SC as [_ SC]. rewrite Forall_forall in SC. exact (SC _ (nth_error_In _ _ E)). }
    intros a A. apply (equal_any _ _ _ _ _ T); [apply cur_equal, abbrev_equal, A|]. intros fields.
    destruct fields as [|code fs]; [apply equal_crash|]. apply (equal_any _ _ _ _ _ scope_wide); [apply scope_equal|]. intros sc'.
    destruct (sc_is_blockinfo sc'); now apply equal_ret.
  Qed.
  Lemma step_equal : equal J (StreamModel.step e o) (step_w U e) T.
  Proof.
    intros s X. unfold StreamModel.step, step_w. cbn [op_exhausted cursor_ops]. destruct (exhausted (p_cur s)); [split; [reflexivity|split; [exact X|discriminate]]|].
    revert s X. match goal with |- forall s, J s -> ?m' s = ?m s /\ _ => change (equal J m m' T) end.
    apply (equal_bind _ _ _ _ _ scope_wide); [apply scope_equal|]. intros sc SC.
    assert (us U (sc_width sc) = sc_width sc) as -> by (destruct sc; cbn [sc_width]; apply us_wide; [reflexivity|apply SC]).
    apply (equal_bind _ _ _ _ _ u64); [apply cur_equal, read_equal|]. intros v V. destruct (abbrev_id_of v) eqn:AI.
    - apply exit_block_equal.
    - apply enter_block_equal.
    - apply (equal_any _ _ _ _ _ T); [apply define_abbrev_equal|]. intros _. now apply equal_ret.
    - apply parse_unabbrev_equal.
    - apply abbrev_id_defined in AI as [-> L]. now apply parse_with_abbrev_equal.
  Qed.
  Lemma advance_loop_equal f : equal J (advance_loop e o f) (advance_loop_w U e f) T.
  Proof.
    induction f as [|f IH]; cbn [advance_loop advance_loop_w]; [intros s X; split; [reflexivity|split; [exact X|discriminate]]|].
    apply (equal_any _ _ _ _ _ T); [apply step_equal|]. intros [x|]; [now apply equal_ret|exact IH].
  Qed.
  Lemma next_equal s : J s -> next_w U e s = next e o s /\ J (snd (next e o s)).
  Proof.
    intros X. unfold next_w, advance_w, next, advance. change (op_fuel w) with (op_fuel o). destruct (advance_loop_equal (op_fuel o (p_cur s)) s X) as (-> & H & _).
    destruct (advance_loop e o (op_fuel o (p_cur s)) s) as [[x|[]|p|] s1]; cbn [snd] in *; split; try reflexivity; exact H.
  Qed.
  Lemma run_equal n : forall s, J s -> run_w U e n s = run e o n s.
  Proof.
    induction n as [|n IH]; intros s X; [reflexivity|]. cbn [run_w run]. destruct (next_equal s X) as [-> X'].
    destruct (next e o s) as [r s']; cbn [snd] in X'. f_equal. now apply IH.
  Qed.
  Lemma enter_equal f : forall b s, J s -> enter (next_w U e) f b s = enter (next e o) f b s /\ forall b' s', enter (next e o) f b s = Ok (b', s') -> J s'.
  Proof.
    induction f as [|f IH]; intros b s X; cbn [enter]; [split; [reflexivity|discriminate]|].
    destruct (next_equal s X) as [-> X']. destruct (next e o s) as [[[x|x|p|]|] s1]; cbn [snd omap_err obind] in *; try (split; [reflexivity|discriminate]).
    destruct x as [| |].
    - split; [reflexivity|]. now intros b' s' [= _ <-].
    - destruct (IH (block_new block_id) s1 X') as [-> K]. destruct (enter (next e o) f (block_new block_id) s1) as [[child s2]| | |]; cbn [obind]; try (split; [reflexivity|discriminate]).
      apply IH. exact (K _ _ eq_refl).
    - now apply IH.
  Qed.
  Lemma tops_equal f : forall acc s, J s -> tops (next_w U e) f acc s = tops (next e o) f acc s.
  Proof.
    induction f as [|f IH]; intros acc s X; cbn [tops]; [reflexivity|].
    destruct (next_equal s X) as [-> X']. destruct (next e o s) as [[[x|x|p|]|] s1]; cbn [snd omap_err obind] in *; try reflexivity.
    destruct x as [| |]; try reflexivity.
    destruct (enter_equal f (block_new block_id) s1 X') as [-> K]. destruct (enter (next e o) f (block_new block_id) s1) as [[child s2]| | |]; cbn [obind]; try reflexivity.
    destruct (group child acc); cbn [obind]; try reflexivity. apply IH. exact (K _ _ eq_refl).
  Qed.
  Lemma unroll_equal s : J s -> unroll_w U e s = unroll e s.
  Proof. intros X. unfold unroll_w, unroll. now rewrite tops_equal. Qed.

  (** *** Opening *)
  Lemma new_J c : I c -> J (parser_new c).
  Proof. intros H. split; [exact H|]. split; repeat constructor. Qed.
  Lemma from_cursor_equal c : I c -> from_cursor_w U e c = from_cursor c.
  Proof.
    intros X. unfold from_cursor, from_cursor_w. destruct (negb _); [reflexivity|]. unfold read_exact. now rewrite (read_as_same U e u32t (ity_bits u32t) c X).
  Qed.
  Lemma u32_bound n : StreamBounds.gives (read_as o u32t n) (fun v => v < 4294967296).
  Proof.
    unfold read_as. apply gives_any. intros v. unfold num_cast. change (if ity_signed u32t then _ else 2 ^ ity_bits u32t) with 4294967296.
    destruct (v <? 4294967296) eqn:L; [|apply gives_fail]. apply StreamBounds.gives_ret. lia.
  Qed.
  Lemma wrapper_bound : StreamBounds.gives read_wrapper (fun x => wr_size x < 4294967296 /\ wr_offset x < 4294967296).
  Proof.
    unfold read_wrapper, read_exact. apply gives_any. intros m. apply gives_any. intros v.
    apply (StreamBounds.gives_bind _ _ (fun v => v < 4294967296)); [apply u32_bound|]. intros off O1.
    apply (StreamBounds.gives_bind _ _ (fun v => v < 4294967296)); [apply u32_bound|]. intros size S1.
    apply gives_any. intros cpu. apply StreamBounds.gives_ret. now split.
  Qed.
  Lemma from_equal buf : 8 * N.of_nat (length buf) < U -> from_w U e buf = from e buf.
  Proof.
    intros B2. pose proof (new_inv U buf B2) as X. unfold from, from_w, read_exact. rewrite (read_as_same U e u32t (ity_bits u32t) _ X).
    apply obind_same; [reflexivity|]. intros m _. destruct (m =? BITCODE_WRAPPER_MAGIC).
    - f_equal. unfold from_wrapped, from_wrapped_w. rewrite (read_wrapper_same U e _ X). apply obind_same; [reflexivity|]. intros wr W.
      apply omap_err_iff in W. destruct (read_wrapper (cur_new buf)) as [r c0] eqn:R. cbn [fst] in W. subst r.
      destruct (wrapper_bound _ _ _ R) as [W1 W2]. change two64 with 18446744073709551616 in UW.
      rewrite us_small by lia. unfold w_add. replace (wr_size wr + 20 <? U) with true by lia. cbn [obind].
      apply obind_same; [reflexivity|]. intros c C0. apply omap_err_iff in C0.
      unfold seek, seek_w. cbn [seek_offset seek_offset_w]. rewrite us_small by lia. destruct (byte_len c <? wr_offset wr) eqn:L2; [reflexivity|].
      rewrite from_cursor_equal; [reflexivity|].
      destruct (seek_bit_start c (wr_offset wr)) as (K & _); [|lia|].
      + apply (proj1 (fresh_inv c (or_intror (ex_intro _ buf (ex_intro _ (wr_size wr + 20) C0))))).
      + split; [exact K|]. cbn. unfold cur_new_with_len in C0. destruct (N.of_nat (length buf) <? wr_size wr + 20) eqn:L; [discriminate C0|]. injection C0 as <-. cbn. lia.
    - unfold from_raw, from_raw_w. now rewrite from_cursor_equal.
  Qed.
End Equal.

(** *** Files *)
Lemma unrolled_below k t b : Forall (entry_fits k) (flat t) -> unrolled t b -> module_below two64 b.
Proof.
  intros F H. split; [eapply Forall_impl; [|exact (unrolled_fits k t b F H)]; now intros r [X _]|].
  intros id b' X. pose proof (unrolled_nodup t b H) as ND.
  inversion H as [bid len body b0 I1 R1 C1 K1 N1 E1 E2]; subst.
  destruct (by_id_entry id b) as [l E]; [destruct (by_id id b); [destruct X|discriminate]|]. destruct (K1 _ _ E) as [v V].
  rewrite (map_get_under id b ND) in X. specialize (C1 v id V).
  assert (exists t', In t' (children v body) /\ unrolled t' b') as (t' & T1 & T2).
  { clear - C1 X. induction C1 as [|x y l m X1 X2 IH]; [destruct X|]. destruct X as [<-|X]; [exists x; split; [now left|exact X1]|].
    destruct (IH X) as (t' & T1 & T2). exists t'. split; [now right|exact T2]. }
  assert (FT : Forall (entry_fits k) (flat t')).
  { unfold children in T1. apply filter_In in T1 as [T1 _]. cbn [flat] in F. inversion F as [|? ? _ F']; subst. apply Forall_app in F' as [F' _].
    apply Forall_forall. intros y Y. rewrite Forall_forall in F'. apply F'. apply in_flat_map. now exists t'. }
  eapply Forall_impl; [|exact (unrolled_fits k t' b' FT T2)]. now intros r [Z _].
Qed.
Lemma reify_equal e host p : (forall b, pt_module p = Some b -> module_below two64 b) -> reify_module_w two64 e host p = reify_module e host p.
Proof.
  intros M. unfold reify_module, reify_module_w. do 3 (apply obind_same; [reflexivity|intros ? _]). apply obind_same; [reflexivity|intros mb M1]. apply ok_or_ok in M1.
  unfold module_of, module_of_w. now rewrite module_map_64 by exact (M _ M1).
Qed.
Lemma from_J e buf w b : 8 * N.of_nat (length buf) < two64 -> from e buf = Ok (w, b) -> J two64 (bs_parser b).
Proof. intros L F. destruct (from_keeps (two64 + 8) e buf w b ltac:(lia) F) as (_ & c & -> & [X _] & BL). apply new_J. split; [exact X|lia]. Qed.
Lemma bitcode_equal e host buf : 8 * N.of_nat (length buf) < two64 -> bitcode_of_w two64 e host buf = bitcode_of e host buf.
Proof.
  intros L. unfold bitcode_of, bitcode_of_w. apply obind_same; [now rewrite from_equal by (assumption || reflexivity)|]. intros [w b] F. apply omap_err_iff in F.
  pose proof (from_reachable e buf w b F) as R.
  pose proof (from_J e buf w b L F) as JS.
  unfold bitcode_of_stream, bitcode_of_stream_w. rewrite (unroll_equal two64 e (N.le_refl _) _ JS). apply obind_same; [reflexivity|]. intros ps P. apply omap_err_iff in P.
  apply collect_same. intros p IP. apply reify_equal. intros mb PB.
  destruct (unroll_ok e _ ps R P) as (forest & ST & _ & C).
  pose proof (stream_fits e _ forest R ST) as FT. pose proof (modules_fit _ _ FT) as M1.
  assert (exists tm, In tm (modules_of forest) /\ carries tm p) as (tm & IT & CT).
  { clear - C IP. induction C as [|x y l m X1 X2 IH]; [destruct IP|]. destruct IP as [<-|X]; [exists x; split; [now left|exact X1]|].
    destruct (IH X) as (t' & T1 & T2). exists t'. split; [now right|exact T2]. }
  rewrite Forall_forall in M1. destruct (M1 tm IT) as [F1 F2].
  destruct CT as (_ & CM & _). rewrite PB in CM. destruct (tm_module tm) as [t|]; [|contradiction]. cbn in CM, F1. exact (unrolled_below _ t mb F1 CM).
Qed.

(** *** Histories *)
Lemma as_u64_bound z : as_u64 z < two64.
Proof. unfold as_u64, two64. lia. Qed.
Lemma seek_64 e sf : (forall p, sf = SeekStart p -> p < two64) -> alike two64 (seek e sf) (seek_w two64 e sf).
Proof.
  intros R c X. unfold seek, seek_w. assert (seek_offset_w two64 e c sf = seek_offset e c sf) as ->; [|reflexivity].
  destruct sf as [p|d|d]; cbn [seek_offset seek_offset_w].
  - now rewrite us_small by exact (R p eq_refl).
  - destruct (0 <=? d)%Z; [reflexivity|]. apply obind_same; [reflexivity|]. intros s _. now rewrite us_small by apply as_u64_bound.
  - rewrite tell_byte_same by exact X. cbn [omap_err obind]. apply obind_same; [reflexivity|]. intros s _. now rewrite us_small by apply as_u64_bound.
Qed.
Lemma svbr_64 e n : alike two64 (read_svbr e cursor_ops n) (read_svbr_w two64 e n).
Proof.
  intros c X. unfold read_svbr_w, read_svbr, bind. rewrite read_vbr_same by exact X.
  destruct (read_vbr e cursor_ops n c) as [[r| | |] c'] eqn:M1; try reflexivity.
  assert (B : u64 r).
  { assert (Y : c_vbr e cursor_ops n c = (Ok r, c')) by (unfold c_vbr, lift_err; now rewrite M1). exact (c_vbr_u64 e cursor_ops n _ _ _ Y). }
  assert (L : N.shiftr r 1 < 9223372036854775808) by (rewrite N.shiftr_div_pow2; unfold u64, two64 in B; change (2 ^ 1) with 2; lia).
  unfold as_isize. rewrite us_small by (unfold two64; lia). change (two64 / 2) with 9223372036854775808. replace (N.shiftr r 1 <? 9223372036854775808) with true by lia.
  destruct (N.land r 1 =? 0); [reflexivity|]. change (- (Z.of_N two64 / 2))%Z with (-9223372036854775808)%Z.
  destruct (Z.eqb_spec (Z.of_N (N.shiftr r 1)) (-9223372036854775808)) as [Q|Q]; [lia|reflexivity].
Qed.
Lemma op_64 e c o : inv_w two64 c -> (forall p, o = OSeek (SeekStart p) -> p < two64) ->
  result_of_w two64 e c o = result_of e c o /\ apply_op_w two64 e c o = apply_op e c o.
Proof.
  intros X R. destruct o as [n|t n|t|w|w| |p|sf]; cbn [result_of_w result_of apply_op_w apply_op].
  - rewrite read_same by exact X. auto.
  - rewrite read_as_same by exact X. auto.
  - unfold read_exact. rewrite read_as_same by exact X. auto.
  - rewrite read_vbr_same by exact X. auto.
  - rewrite svbr_64 by exact X. auto.
  - auto.
  - rewrite seek_bit_same by exact X. auto.
  - rewrite seek_64; [auto| |exact X]. intros p ->. now apply R.
Qed.
Lemma observe_64 e ops : (forall p, In (OSeek (SeekStart p)) ops -> p < two64) -> forall c, inv_w two64 c ->
  observe_w two64 e c ops = map (fun x => let '(r, p, t) := x in (r, Ok p, t)) (observe e c ops).
Proof.
  induction ops as [|o ops IH]; intros R c X; [reflexivity|]. cbn [observe_w observe map].
  destruct (op_64 e c o X) as [-> ->]; [intros p ->; apply R; now left|].
  assert (K : inv_w two64 (apply_op e c o)).
  { destruct X as [X B]. destruct (apply_good e c o c) as [A [_ D]]; [split; [exact X|apply same_data_refl]|]. split; [exact A|]. rewrite D. exact B. }
  rewrite tell_bit_same by exact K. rewrite IH; [reflexivity| |exact K]. intros p Q. apply R. now right.
Qed.
