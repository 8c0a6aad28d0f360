(** Records fit their abbreviations. *)
From Coq Require Import Lia ZifyBool ZifyNat ZifyN.
From Verif Require Import Base CursorModel CursorSpec CursorHist StreamModel StreamSpec StreamHist StreamAbb StreamEffect GrammarSpec GrammarProofs ResourceParser FitSpec.
Local Open Scope N_scope.

Lemma lor_small a b : a < 2 ^ 64 -> b < 2 ^ 64 -> N.lor a b < 2 ^ 64.
Proof.
  intros A B. destruct (N.eq_dec (N.lor a b) 0) as [->|Z]; [reflexivity|].
  apply N.log2_lt_pow2; [lia|]. rewrite N.log2_lor.
  destruct (N.eq_dec a 0) as [->|A0], (N.eq_dec b 0) as [->|B0]; try (cbn in Z; congruence).
  - cbn [N.log2]. rewrite N.max_0_l. apply N.log2_lt_pow2; lia.
  - cbn [N.log2]. rewrite N.max_0_r. apply N.log2_lt_pow2; lia.
  - apply N.max_lub_lt; apply N.log2_lt_pow2; lia.
Qed.

Lemma wrapped_small w ps : forall i, wrapped_groups w i ps < 2 ^ 64.
Proof.
  induction ps as [|p ps IH]; intros i; cbn [wrapped_groups]; [reflexivity|].
  apply lor_small; [|apply IH]. apply N.mod_lt. discriminate.
Qed.

Lemma vbr_small e w v t : vbr_means e w v t -> between 2 32 w /\ v < 2 ^ 64.
Proof.
  intros (W & ps & last & _ & _ & _ & H). split; [exact W|]. destruct (overflow_checks e).
  - destruct H as (_ & ->). apply N.mod_lt. discriminate.
  - subst v. apply wrapped_small.
Qed.

Lemma char6_fits c i : char6_code c = Some i -> value_fits OpChar6 c.
Proof.
  unfold char6_code, value_fits, between. intros H.
  repeat match type of H with (if ?b then _ else _) = _ => destruct b eqn:?; [lia|] end. discriminate.
Qed.

Lemma fits_char6 c : value_fits OpChar6 c -> char6_code c <> None.
Proof.
  unfold char6_code, value_fits, between. intros H.
  repeat match goal with |- (if ?b then _ else _) <> _ => destruct b eqn:?; [discriminate|] end. lia.
Qed.

Lemma scalar_fits e op v t : scalar_text e op v t -> value_fits op v /\ match op with OpLiteral _ => False | _ => True end.
Proof.
  intros [w x u (W & B & _)|w x u H|c i u H _]; cbn [value_fits].
  - split; [split; [exact W|exact B]|exact I].
  - split; [exact (vbr_small _ _ _ _ H)|exact I].
  - split; [exact (char6_fits _ _ H)|exact I].
Qed.

Lemma all_fits e elem vals ts : Forall2 (scalar_text e elem) vals ts -> Forall (value_fits elem) vals.
Proof. induction 1 as [|v t vals ts H _ IH]; constructor; [exact (proj1 (scalar_fits _ _ _ _ H))|exact IH]. Qed.

Lemma bytes_fit vals ts : Forall2 (fixed_text 8) vals ts -> Forall (fun v => v < 256) vals.
Proof. induction 1 as [|v t vals ts (_ & B & _) _ IH]; constructor; [exact B|exact IH]. Qed.

Lemma shaped_tail op a : ops_shaped (op :: a) = true -> ops_shaped a = true.
Proof. destruct op, a as [|op' a']; cbn [ops_shaped is_scalar andb]; auto; discriminate. Qed.
Lemma shaped_array elem : ops_shaped [OpArray elem] = true -> match elem with OpFixed _ | OpVbr _ | OpChar6 => True | _ => False end.
Proof. destruct elem; cbn; auto; discriminate. Qed.

Lemma text_fits e gap pos a vals t : ops_shaped a = true -> values_text e gap pos a vals t -> values_fit a vals.
Proof.
  intros S H. induction H as [pos|pos v a vals t H IH|pos op a v vals t1 t2 H1 H2 IH|pos elem vals t0 ts _ _ H|pos vals t0 p1 ts p2 _ _ _ H _].
  - constructor.
  - constructor; [reflexivity|]. apply IH. exact (shaped_tail _ _ S).
  - constructor; [exact (proj1 (scalar_fits _ _ _ _ H1))|]. apply IH. exact (shaped_tail _ _ S).
  - constructor; [exact (shaped_array _ S)|exact (all_fits _ _ _ _ H)].
  - constructor. exact (bytes_fit _ _ H).
Qed.

Lemma record_fits e gap s id code fields s' : opened e gap s -> next e cursor_ops s = (Some (Ok (ERecord (Some id) code fields)), s') ->
  exists w b i l scs a, p_scopes s' = ScBlock w b i l :: scs /\ 4 <= id < 2 ^ w /\ nth_error l (N.to_nat (id - 4)) = Some a /\
    values_fit a (code :: fields).
Proof.
  intros O E. pose proof (opened_reachable e gap s O) as R. apply PRNext in R. rewrite E in R. cbn [snd] in R.
  pose proof (reachable_shaped e s' R) as SH.
  destruct (proj1 (next_exactly e gap s _ (unread s') (p_scopes s') (registered (p_info s')) O)
    (ex_intro _ s' (conj E (conj eq_refl (conj eq_refl (fun k => eq_refl)))))) as (t & _ & T).
  remember (ERecord (Some id) code fields) as x eqn:X. remember (p_scopes s') as scs' eqn:SC. clear E SC O R.
  induction T as [pos regs scs t x scs' regs' S|pos regs scs t1 scs1 regs1 t2 x scs' regs' S T IH]; [|now apply IH].
  subst x. inversion S; subst; repeat match goal with H : (if ?b then _ else _) = Some _ |- _ => destruct b; try discriminate H end; try discriminate.
  match goal with H : Some _ = Some _ |- _ => injection H as -> -> -> end.
  match goal with H : nth_error ?l _ = Some ?a |- _ => pose proof (SH _ _ _ _ a (or_introl eq_refl) (nth_error_In _ _ H)) as K end.
  apply andb_prop in K. destruct K as [_ K].
  match goal with H : fixed_text _ id _ |- _ => destruct H as (_ & B & _) end.
  do 6 eexists. split; [reflexivity|]. split; [split; eassumption|]. split; [eassumption|]. eapply text_fits; eassumption.
Qed.

(** The writer of the format writes exactly these. *)
Lemma concat_total {A} (f : A -> option (list bool)) l : concat_opt f l <> None <-> Forall (fun v => f v <> None) l.
Proof.
  induction l as [|v l IH]; cbn [concat_opt]; [split; [constructor|discriminate]|].
  rewrite Forall_cons_iff, <- IH. destruct (f v); [|split; [intros []; reflexivity|intros [[] _]; reflexivity]].
  destruct (concat_opt f l); split; try (intros H; now split); try (intros [_ H]; exact H); discriminate.
Qed.
Lemma scalar_total op v : match op with OpFixed _ | OpVbr _ | OpChar6 => True | _ => False end -> (scalar_bits op v <> None <-> value_fits op v).
Proof.
  destruct op; try contradiction; intros _; cbn [scalar_bits value_fits]; unfold between, vbr, fixed, fits64.
  1,2: destruct (_ && _)%bool eqn:W; [|split; [intros []; reflexivity|lia]];
    destruct (_ <? _) eqn:V; [split; [change (2 ^ 64) with two64; lia|discriminate]|split; [intros []; reflexivity|change (2 ^ 64) with two64; lia]].
  split.
  - intros H. destruct (char6_code v) as [i|] eqn:C; [exact (char6_fits _ _ C)|now destruct H].
  - intros H. apply fits_char6 in H. destruct (char6_code v); [discriminate|now destruct H].
Qed.
Lemma byte_total v : fixed 8 v <> None <-> v < 256.
Proof. unfold fixed. change (2 ^ 8) with 256. destruct (v <? 256) eqn:V; split; try discriminate; try lia. now intros []. Qed.

Lemma written_exactly a : ops_shaped a = true -> forall pos vals, N.of_nat (length vals) < 2 ^ 64 ->
  (rec_bits pos a vals <> None <-> values_fit a vals).
Proof.
  induction a as [|op a IH]; intros S pos vals L.
  - destruct vals; cbn; split; try constructor; try discriminate; intros H; [now destruct H|inversion H].
  - assert (B : vbr 6 (N.of_nat (length vals)) <> None).
    { unfold vbr, fits64. change two64 with (2 ^ 64). destruct (_ <? _) eqn:X; [discriminate|lia]. }
    pose proof (shaped_tail _ _ S) as ST.
    assert (SC : match op with OpFixed _ | OpVbr _ | OpChar6 => True | _ => False end ->
      (match vals with v :: vals' => do! x := scalar_bits op v in do! y := rec_bits (pos + blen x) a vals' in Some (x ++ y) | [] => None end <> None
       <-> values_fit (op :: a) vals)).
    { intros HS. destruct vals as [|v vals].
      - split; [intros []; reflexivity|]. intros H. inversion H; subst; contradiction.
      - cbn [length] in L. pose proof (scalar_total op v HS) as T. destruct (scalar_bits op v) as [x|].
        + pose proof (IH ST (pos + blen x) vals ltac:(lia)) as I1. destruct (rec_bits _ a vals).
          * split; [|discriminate]. intros _. constructor; [apply T; discriminate|apply I1; discriminate].
          * split; [intros []; reflexivity|]. intros H. inversion H; subst; try contradiction. apply I1; assumption.
        + split; [intros []; reflexivity|]. intros H. inversion H; subst; try contradiction. apply T; assumption. }
    destruct op as [x|w|w|elem| |]; cbn [rec_bits]; try exact (SC I).
    + destruct vals as [|v vals]; [split; [intros []; reflexivity|intros H; inversion H]|]. cbn [length] in L.
      destruct (v =? x) eqn:X.
      * rewrite (IH ST pos vals ltac:(lia)). split; [intros H; constructor; [cbn; lia|exact H]|]. intros H. now inversion H.
      * split; [intros []; reflexivity|]. intros H. inversion H; subst. cbn in *. lia.
    + destruct a as [|op' a]; [|destruct elem; discriminate S]. cbn [length Nat.eqb].
      destruct (vbr 6 _) as [n|]; [|now destruct B]. pose proof (shaped_array _ S) as HE.
      pose proof (concat_total (scalar_bits elem) vals) as T. destruct (concat_opt _ vals) as [y|].
      * split; [|discriminate]. intros _. constructor; [exact HE|]. eapply Forall_impl; [|apply T; discriminate].
        intros v. cbn. apply scalar_total, HE.
      * split; [intros []; reflexivity|]. intros H. inversion H; subst; [cbn in *; contradiction|].
        apply T. eapply Forall_impl; [|eassumption]. intros v. cbn. apply scalar_total, HE.
    + destruct a as [|op' a]; [|discriminate S]. cbn [length Nat.eqb]. destruct (vbr 6 _) as [n|]; [|now destruct B].
      pose proof (concat_total (fixed 8) vals) as T. destruct (concat_opt _ vals) as [y|].
      * split; [|discriminate]. intros _. constructor. eapply Forall_impl; [|apply T; discriminate]. intros v. apply byte_total.
      * split; [intros []; reflexivity|]. intros H. inversion H; subst; [cbn in *; contradiction|].
        apply T. eapply Forall_impl; [|eassumption]. intros v. apply byte_total.
Qed.
