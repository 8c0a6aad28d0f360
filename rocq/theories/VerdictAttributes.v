(** The rules of VerdictSpec.v are exactly what the mapping does: attribute groups and attribute lists. *)
From Verif Require Import Base Strings StringsProofs EnumModel SupportModel SupportSpec SupportProofs SupportMain LayoutMain TablesProofs UnrollProofs UnrollApi CursorModel StreamModel
  UnrollModel UnrollSpec AttributeModel AttributeSpec AttributeProofs AttributeMain TypeStopSpec TypeStops VerdictSpec Verdicts.
From Coq Require Import Lia ZifyBool ZifyNat ZifyN.
Ltac Zify.zify_post_hook ::= Z.div_mod_to_equations.
Local Open Scope N_scope.
#[local] Arguments N.add : simpl never.
#[local] Arguments N.sub : simpl never.
#[local] Arguments N.modulo : simpl never.
#[local] Arguments N.pow : simpl never.

Lemma no_word_iff l : no_word l <-> forall s, ~ string_at l s.
Proof.
  unfold no_word, string_at. split.
  - intros H s (T & [(r & ->)| ->]); [apply (H s (0 :: r) T eq_refl); reflexivity|].
    apply (H s [] T); [now rewrite app_nil_r|reflexivity].
  - intros H s rest T -> Z. apply (H s). split; [exact T|]. destruct rest as [|x rest]; [right; now rewrite app_nil_r|].
    cbn in Z. subst. left. eauto.
Qed.
Lemma attr_string_err fields start count x : attr_string fields start count = Err x -> x = AeBadString.
Proof.
  unfold attr_string. destruct (_ <? _); [discriminate|]. destruct (bytes_dec (take_nonzero (skipn (N.to_nat (start + count)) fields))) as [B|B].
  - rewrite (proj2 (collect_u8 AeBadString _ _)) by (split; [reflexivity|exact B]). cbn [obind].
    destruct (take_nonzero _); [congruence|]. unfold ok_or. destruct (utf8_decode _); cbn [obind]; congruence.
  - rewrite collect_u8_err by exact B. cbn [obind]. congruence.
Qed.
Lemma attr_string_bad pre l start count : start + count = N.of_nat (length pre) ->
  (attr_string (pre ++ l) start count = Err AeBadString <-> no_word l).
Proof.
  intros H. rewrite no_word_iff. split.
  - intros Q s X. rewrite (proj2 (attr_string_ok pre l start count s _ H) (conj X eq_refl)) in Q. discriminate Q.
  - intros N. destruct (attr_string_total (pre ++ l) start count) as [[[s n] Q]|[[x Q]|[_ Q]]].
    + apply attr_string_ok in Q as [X _]; [|exact H]. destruct (N s X).
    + rewrite Q. now rewrite (attr_string_err _ _ _ _ Q).
    + rewrite app_length in Q. lia.
Qed.
Lemma id_known v : (exists x, known_id v x) \/ unknown_id v.
Proof.
  destruct (attribute_id_of v) as [x|] eqn:Q; [left; exists x; now apply attr_id_exact|right].
  intros x H. apply attr_id_exact in H. congruence.
Qed.
Lemma enum_attribute_err i x : enum_attribute_of i = Err x <-> x = AeMalformed MfNotEnum i /\ In (attribute_id_num i) valued_ids.
Proof.
  pose proof (enum_attribute_exact i i) as X. unfold enum_attribute_of in *. destruct (is_enum_attribute i).
  - split; [discriminate|]. intros [_ H]. now destruct (proj2 (proj1 X eq_refl)).
  - split.
    + intros [= <-]. split; [reflexivity|]. destruct (in_dec N.eq_dec (attribute_id_num i) valued_ids) as [Y|Y]; [exact Y|].
      assert (Err (AeMalformed MfNotEnum i) = Ok i) as [=] by now apply X.
    + now intros [-> _].
Qed.
Lemma id_is n x i : attribute_id_of n = Some x -> attribute_id_num i = n -> i = x.
Proof. intros H K. assert (Y : attribute_id_of n = Some i) by now apply attr_id_exact. congruence. Qed.
Lemma int_fault_sound i v y : int_fault (attribute_id_num i) v y -> int_attribute_of i v = Err (AeMalformed y i).
Proof.
  intros H. remember (attribute_id_num i) as n eqn:E. symmetry in E. destruct H as [n v H H33|n v H L|n v H L| |v L].
  - unfold int_attribute_of. assert (X : enum_attribute_of i = Ok i) by (apply enum_attribute_exact; now rewrite E).
    unfold enum_attribute_of in X. destruct (is_enum_attribute i); [|discriminate X].
    destruct i; try reflexivity. now elim H33.
  - assert (i = AiAlignment \/ i = AiStackAlignment) as [-> | ->] by (destruct H as [<-|[<-|[]]]; [left; now apply (id_is 1)|right; now apply (id_is 25)]);
      unfold int_attribute_of; cbn [is_enum_attribute andb]; unfold attr_align; replace (v <? 256) with false by lia; reflexivity.
  - assert (i = AiAlignment \/ i = AiStackAlignment) as [-> | ->] by (destruct H as [<-|[<-|[]]]; [left; now apply (id_is 1)|right; now apply (id_is 25)]);
      unfold int_attribute_of; cbn [is_enum_attribute andb]; unfold attr_align; replace (v <? 256) with true by lia;
      unfold maybe_align_of, from_shift, MAX_SHIFT; replace (v =? 0) with false by lia; destruct (_ <? _) eqn:Z; (reflexivity || lia).
  - now rewrite (id_is 51 AiAllocSize i eq_refl E).
  - rewrite (id_is 33 AiUwTable i eq_refl E). cbn. destruct v as [|[[]|[]|]]; try reflexivity; lia.
Qed.
Lemma int_attribute_fails i v : v < two64 ->
  int_attribute_of i v = Err (AeIntUnsupported i) /\ attribute_id_num i = 79 \/
  (exists y, int_attribute_of i v = Err (AeMalformed y i) /\ attribute_id_num i <> 79 /\ int_fault (attribute_id_num i) v y) \/
  exists a, int_attribute_of i v = Ok a /\ int_reads (attribute_id_num i) v a /\ attribute_id_num i <> 79.
Proof.
  intros V.
  assert (F : (exists y, int_fault (attribute_id_num i) v y) -> exists y, int_attribute_of i v = Err (AeMalformed y i) /\ int_fault (attribute_id_num i) v y).
  { intros (y & H). exists y. split; [now apply int_fault_sound|exact H]. }
  destruct (N.eq_dec (attribute_id_num i) 79) as [E|E].
  { left. split; [|exact E]. now rewrite (id_is 79 AiNoSanitizeBounds i eq_refl E). }
  right. destruct (int_attribute_of i v) as [a|x|p|] eqn:Q.
  { right. exists a. split; [reflexivity|]. split; [now apply int_attribute_exact in Q|exact E]. }
  all: left.
  all: destruct F as (y & F & K); [|exists y; split; [congruence|split; [exact E|exact K]]].
  all: unfold int_attribute_of in Q; destruct (is_enum_attribute i && _) eqn:B;
    [exists MfNotInt; apply andb_true_iff in B as [B1 B2]; apply IfNoValue;
      [assert (X : enum_attribute_of i = Ok i) by (unfold enum_attribute_of; now rewrite B1); now apply enum_attribute_exact in X
      |intros X; rewrite (id_is 33 AiUwTable i eq_refl X) in B2; discriminate B2]|].
  all: destruct i; try discriminate B; try discriminate Q; try (now destruct E); cbn [attribute_id_num].
  all: try (unfold attr_align in Q; destruct (v <? 256) eqn:L; [|exists MfLargeAlignment; apply IfLarge; [cbn; auto|lia]];
    exists MfAlignment; apply IfAlignment; [cbn; auto|]; unfold maybe_align_of, from_shift, MAX_SHIFT in Q; destruct (v =? 0); [discriminate Q|];
    destruct (_ <? _) eqn:Z in Q; (discriminate Q || lia)).
  all: try (destruct (v =? 0) eqn:Z; [|discriminate Q]; apply N.eqb_eq in Z; subst v; eexists; apply IfAllocSize).
  all: exists MfUwTable; apply IfUwTable; destruct v as [|[[]|[]|]]; (discriminate Q || lia).
Qed.

(** *** One attribute *)

Lemma stop_sound pre l v : Forall (fun f => f < two64) l -> attribute_stop l v ->
  verdict_of (attr_from_record (N.of_nat (length pre)) (pre ++ l)) = v /\ v <> Fine.
Proof.
  intros F H. split; [|now destruct H]. unfold attr_from_record. destruct H as [k l H|k H|i x H|k i l H U|i x l H V|i x w y l H V|x w l H|k l H V|s l T V|s T];
    rewrite attr_next_pre by lia; cbn [obind].
  - destruct (attribute_kind_of k) as [a|] eqn:Q; [|reflexivity]. exfalso. apply H. apply kind_exact in Q. cbn. destruct Q as [[-> _]|[[-> _]|[[-> _]|[-> _]]]]; auto.
  - destruct H as [<-|[<-|[]]]; cbn [attribute_kind_of ok_or obind]; rewrite pre_one, attr_next_pre by len; reflexivity.
  - cbn [attribute_kind_of ok_or obind]. rewrite pre_one, attr_next_pre by len. cbn [obind]. unfold attr_id_of.
    rewrite (proj2 (attr_id_exact _ _) H). cbn [ok_or obind]. rewrite pre_one, attr_next_pre by len. reflexivity.
  - assert (N0 : attr_id_of i = Err (AeUnknownId i)).
    { unfold attr_id_of. destruct (attribute_id_of i) as [x|] eqn:Q; [|reflexivity]. apply attr_id_exact in Q. now apply U in Q. }
    destruct H as [<-|[<-|[]]]; cbn [attribute_kind_of ok_or obind]; rewrite pre_one, attr_next_pre by len; cbn [obind]; rewrite N0; reflexivity.
  - cbn [attribute_kind_of ok_or obind]. rewrite pre_one, attr_next_pre by len. cbn [obind]. unfold attr_id_of.
    rewrite (proj2 (attr_id_exact _ _) H). cbn [ok_or obind]. rewrite <- H in V.
    now rewrite (proj2 (enum_attribute_err x _) (conj eq_refl V)).
  - cbn [attribute_kind_of ok_or obind]. rewrite pre_one, attr_next_pre by len. cbn [obind]. unfold attr_id_of.
    rewrite (proj2 (attr_id_exact _ _) H). cbn [ok_or obind]. rewrite pre_one, attr_next_pre by len. cbn [obind].
    rewrite <- H in V. now rewrite (int_fault_sound _ _ _ V).
  - cbn [attribute_kind_of ok_or obind]. rewrite pre_one, attr_next_pre by len. cbn [obind]. unfold attr_id_of.
    rewrite (proj2 (attr_id_exact _ _) H). cbn [ok_or obind]. rewrite pre_one, attr_next_pre by len. cbn [obind].
    inversion F as [|? ? _ F1]; inversion F1 as [|? ? _ F2]; inversion F2 as [|? ? F3 _]; subst.
    destruct (int_attribute_fails x w F3) as [(-> & _)|[(y & _ & X & _)|(a & _ & _ & X)]]; [reflexivity|now apply X in H..].
  - destruct H as [<-|[<-|[]]]; cbn [attribute_kind_of ok_or obind]; rewrite pre_one.
    + rewrite (proj2 (attr_string_bad (pre ++ [3]) l (N.of_nat (length pre)) (0 + 1) ltac:(len)) V). reflexivity.
    + rewrite (proj2 (attr_string_bad (pre ++ [4]) l (N.of_nat (length pre)) (0 + 1) ltac:(len)) V). reflexivity.
  - cbn [attribute_kind_of ok_or obind]. rewrite pre_one.
    rewrite (proj2 (attr_string_ok (pre ++ [4]) _ (N.of_nat (length pre)) (0 + 1) s _ ltac:(len)) (conj (conj T (or_introl (ex_intro _ l eq_refl))) eq_refl)).
    cbn [obind]. replace ((pre ++ [4]) ++ utf8_encode s ++ 0 :: l) with (((pre ++ [4]) ++ utf8_encode s ++ [0]) ++ l) by now rewrite <- !app_assoc.
    rewrite (proj2 (attr_string_bad ((pre ++ [4]) ++ utf8_encode s ++ [0]) l (N.of_nat (length pre)) (0 + 1 + (N.of_nat (length (utf8_encode s)) + 1)) ltac:(len)) V).
    reflexivity.
  - cbn [attribute_kind_of ok_or obind]. rewrite pre_one.
    rewrite (proj2 (attr_string_ok (pre ++ [4]) _ (N.of_nat (length pre)) (0 + 1) s _ ltac:(len)) (conj (conj T (or_intror eq_refl)) eq_refl)).
    cbn [obind]. rewrite (proj2 (attr_string_panic _ _ _ PSliceRange)); [reflexivity|]. split; [reflexivity|len].
Qed.

Lemma stop_total pre l : Forall (fun f => f < two64) l -> l <> [] ->
  (exists v, attribute_stop l v) \/ exists n a, attr_from_record (N.of_nat (length pre)) (pre ++ l) = Ok (n, a).
Proof.
  intros F NE. destruct l as [|k l]; [congruence|].
  destruct (attribute_kind_of k) as [kind|] eqn:Q.
  2:{ left. exists (Fails (AeUnknownKind k)). constructor. intros H. cbn in H.
      assert (k = 0 \/ k = 1 \/ k = 3 \/ k = 4) as X by lia. repeat destruct X as [X|X]; subst; discriminate Q. }
  apply kind_exact in Q. destruct Q as [[-> ->]|[[-> ->]|[[-> ->]|[-> ->]]]].
  - destruct l as [|i l]; [left; eexists; apply AsShort; cbn; auto|].
    destruct (id_known i) as [[x H]|H]; [|left; eexists; apply AsId; [cbn; auto|exact H]].
    destruct (in_dec N.eq_dec i valued_ids) as [V|V]; [left; eexists; now apply AsEnum with (x := x)|].
    right. exists 2, (AtEnum x). now apply (attr_complete pre (WEnum i) (AtEnum x) l); [inversion F as [|? ? A B]; inversion B; now repeat constructor|].
  - destruct l as [|i l]; [left; eexists; apply AsShort; cbn; auto|].
    destruct (id_known i) as [[x H]|H]; [|left; eexists; apply AsId; [cbn; auto|exact H]].
    destruct l as [|w l]; [left; eexists; now apply AsNoValue with (x := x)|].
    inversion F as [|? ? F0 F1]; inversion F1 as [|? ? F1' F2]; inversion F2 as [|? ? F3 F4]; subst. red in H. subst i.
    destruct (int_attribute_fails x w F3) as [(_ & X)|[(y & _ & X & Y)|(a & X & Y & Z)]].
    + left. rewrite X. eexists. now apply AsUnsupported with (x := x).
    + left. eexists. apply AsInt with (x := x); [reflexivity|exact Y].
    + right. exists 3, (AtInt a). apply (attr_complete pre (WInt (attribute_id_num x) w) (AtInt a) l); [now repeat constructor|exact Y].
  - destruct (attr_string_total ((pre ++ [3]) ++ l) (N.of_nat (length pre)) (0 + 1)) as [[[s n] E]|[[x E]|[_ E]]].
    + right. exists n, (AtStr s). unfold attr_from_record. rewrite attr_next_pre by lia. cbn [obind attribute_kind_of ok_or]. rewrite pre_one, E. reflexivity.
    + left. eexists. apply AsWord; [cbn; auto|]. rewrite (attr_string_err _ _ _ _ E) in E. now apply attr_string_bad in E; [|len].
    + exfalso. revert E. len.
  - destruct (attr_string_total ((pre ++ [4]) ++ l) (N.of_nat (length pre)) (0 + 1)) as [[[s n] E]|[[x E]|[_ E]]].
    + apply attr_string_ok in E as [[T [[r ->]| ->]] ->]; [| |len].
      * destruct (attr_string_total (((pre ++ [4]) ++ utf8_encode s ++ [0]) ++ r) (N.of_nat (length pre)) (0 + 1 + (N.of_nat (length (utf8_encode s)) + 1)))
          as [[[s' n] E]|[[x E]|[_ E]]].
        -- right. exists n, (AtStrKeyValue s s'). unfold attr_from_record. rewrite attr_next_pre by lia. cbn [obind attribute_kind_of ok_or]. rewrite pre_one.
           rewrite (proj2 (attr_string_ok (pre ++ [4]) _ (N.of_nat (length pre)) (0 + 1) s _ ltac:(len)) (conj (conj T (or_introl (ex_intro _ r eq_refl))) eq_refl)).
           cbn [obind]. replace ((pre ++ [4]) ++ utf8_encode s ++ 0 :: r) with (((pre ++ [4]) ++ utf8_encode s ++ [0]) ++ r) by now rewrite <- !app_assoc.
           rewrite E. reflexivity.
        -- left. eexists. apply AsValue; [exact T|]. rewrite (attr_string_err _ _ _ _ E) in E. now apply attr_string_bad in E; [|len].
        -- exfalso. revert E. len.
      * left. eexists. now apply AsCut.
    + left. eexists. apply AsWord; [cbn; auto|]. rewrite (attr_string_err _ _ _ _ E) in E. now apply attr_string_bad in E; [|len].
    + exfalso. revert E. len.
Qed.

(** *** One group *)

Lemma attributes_total n : forall l, (length l <= n)%nat -> Forall (fun f => f < two64) l ->
  exists ws attrs l', l = flat_map wattr_fields ws ++ l' /\ Forall2 denotes ws attrs /\
    (l' = [] \/ unterminated l' \/ exists v, attribute_stop l' v).
Proof.
  induction n as [|n IH]; intros l L F.
  - assert (l = []) as -> by (destruct l; [reflexivity|cbn in L; lia]). exists [], [], []. auto.
  - destruct l as [|k l]; [exists [], [], []; auto|].
    destruct (stop_total [] (k :: l) F ltac:(discriminate)) as [[v S0]|(m & a & Q)]; [exists [], [], (k :: l); eauto 6|].
    pose proof (attr_sound [] (k :: l) m a F Q) as (w & D & -> & [[r E]|E]).
    + assert (L' : (length r <= n)%nat).
      { pose proof (wattr_length w). assert (length (k :: l) = length (wattr_fields w ++ r)) as X by now rewrite E. rewrite app_length in X. cbn in X, L. lia. }
      assert (F' : Forall (fun f => f < two64) r) by (rewrite E in F; apply Forall_app in F; tauto).
      destruct (IH r L' F') as (ws & attrs & l' & -> & H & X). exists (w :: ws), (a :: attrs), l'. split; [cbn [flat_map]; now rewrite <- app_assoc|].
      split; [now constructor|exact X].
    + exists [], [], (k :: l). split; [reflexivity|]. split; [constructor|]. right.
      destruct w as [i|i v|s|s s']; cbn [wattr_fields] in E.
      * change [0; i] with ([0] ++ [i]) in E. apply app_inj_tail in E as [-> _]. right. eexists. apply AsShort. cbn. auto.
      * change [1; i; v] with ([1; i] ++ [v]) in E. apply app_inj_tail in E as [-> _]. right. destruct (id_known i) as [[x X]|X].
        -- eexists. now apply AsNoValue with (x := x).
        -- eexists. apply AsId; [cbn; auto|exact X].
      * change (3 :: utf8_encode s ++ [0]) with ((3 :: utf8_encode s) ++ [0]) in E. apply app_inj_tail in E as [-> _].
        left. constructor. destruct a; try contradiction. now destruct D as [_ D].
      * replace (4 :: utf8_encode s ++ 0 :: utf8_encode s' ++ [0]) with ((4 :: utf8_encode s ++ 0 :: utf8_encode s') ++ [0]) in E
          by (cbn [app]; now rewrite <- app_assoc).
        apply app_inj_tail in E as [-> _]. left. destruct a; try contradiction. destruct D as (_ & _ & D1 & D2). now constructor.
Qed.

Lemma loop_prefix ws attrs : Forall2 denotes ws attrs -> forall fuel pre l acc, Forall (fun f => f < two64) (flat_map wattr_fields ws) ->
  (length (flat_map wattr_fields ws ++ l) < fuel)%nat -> exists fuel', (length l < fuel')%nat /\
  group_loop fuel (pre ++ flat_map wattr_fields ws ++ l) (N.of_nat (length pre)) acc =
  group_loop fuel' ((pre ++ flat_map wattr_fields ws) ++ l) (N.of_nat (length (pre ++ flat_map wattr_fields ws))) (acc ++ attrs).
Proof.
  induction 1 as [|w a ws attrs D _ IH]; intros fuel pre l acc F L; cbn [flat_map] in *.
  - exists fuel. cbn in L. now rewrite !app_nil_r.
  - apply Forall_app in F as [F1 F2]. destruct fuel as [|f]; [lia|]. cbn [group_loop].
    pose proof (wattr_length w). rewrite !app_length in L.
    destruct (_ <? _) eqn:Q; [|rewrite !app_length in Q; lia].
    rewrite <- app_assoc, (attr_complete pre w a _ F1 D). cbn [obind].
    destruct (IH f (pre ++ wattr_fields w) l (acc ++ [a]) F2) as (f' & L' & E); [rewrite app_length; lia|].
    exists f'. split; [exact L'|]. rewrite <- !app_assoc in E. cbn [app] in E. rewrite <- !app_assoc.
    replace (N.of_nat (length pre) + N.of_nat (length (wattr_fields w))) with (N.of_nat (length (pre ++ wattr_fields w))) by (rewrite app_length; lia).
    exact E.
Qed.
Lemma unterminated_ok pre l : unterminated l -> exists a,
  attr_from_record (N.of_nat (length pre)) (pre ++ l) = Ok (N.of_nat (length l) + 1, a).
Proof.
  intros H. unfold attr_from_record. rewrite attr_next_pre by lia. destruct H as [s T|s s' T T']; cbn [obind attribute_kind_of ok_or]; rewrite pre_one.
  - rewrite (proj2 (attr_string_ok (pre ++ [3]) _ (N.of_nat (length pre)) (0 + 1) s _ ltac:(len)) (conj (conj T (or_intror eq_refl)) eq_refl)).
    eexists. cbn [obind]. f_equal. f_equal. len.
  - rewrite (proj2 (attr_string_ok (pre ++ [4]) _ (N.of_nat (length pre)) (0 + 1) s _ ltac:(len)) (conj (conj T (or_introl (ex_intro _ (utf8_encode s') eq_refl))) eq_refl)).
    cbn [obind]. replace ((pre ++ [4]) ++ utf8_encode s ++ 0 :: utf8_encode s') with (((pre ++ [4]) ++ utf8_encode s ++ [0]) ++ utf8_encode s')
      by now rewrite <- !app_assoc.
    rewrite (proj2 (attr_string_ok ((pre ++ [4]) ++ utf8_encode s ++ [0]) _ (N.of_nat (length pre)) (0 + 1 + (N.of_nat (length (utf8_encode s)) + 1)) s' _ ltac:(len))
      (conj (conj T' (or_intror eq_refl)) eq_refl)).
    eexists. cbn [obind]. f_equal. f_equal. len.
Qed.
Lemma stop_nonempty l v : attribute_stop l v -> l <> [].
Proof. now destruct 1. Qed.
Lemma unterminated_long l : unterminated l -> (2 <= length l)%nat.
Proof.
  assert (X : forall s, text s -> (1 <= length (utf8_encode s))%nat).
  { intros s T. apply text_encode in T as (_ & T & _). destruct (utf8_encode s); [congruence|cbn; lia]. }
  destruct 1 as [s T|s s' T _]; apply X in T; cbn [length]; rewrite ?app_length; lia.
Qed.

Lemma group_decided r : fields64 r -> decided (group_of_record r) (group_rule r).
Proof.
  intros F. apply dec_from.
  - intros v V. destruct V as [id g H|H|H|H|H L|g p ws attrs l v H E D S0|g p ws attrs l H E D U].
    + apply group_exact in H; [|exact F]. now rewrite H.
    + unfold group_of_record. destruct (attribute_code_of (r_code r)) as [c|] eqn:Q; [|reflexivity].
      exfalso. apply H. apply code_exact in Q. cbn. destruct Q as [[-> _]|[[-> _]|[-> _]]]; auto.
    + unfold group_of_record. now rewrite H.
    + unfold group_of_record. now rewrite H.
    + unfold group_of_record. rewrite H. cbn [attribute_code_of ok_or obind].
      destruct (r_fields r) as [|a [|b [|d m]]]; cbn in L; try lia; reflexivity.
    + unfold group_of_record. rewrite H. cbn [attribute_code_of ok_or obind].
      unfold fields64 in F. rewrite E in F. inversion F as [|? ? _ F1]; inversion F1 as [|? ? _ F2]; subst. apply Forall_app in F2 as [F2 F3].
      destruct (loop_prefix ws attrs D (S (length (r_fields r))) [g; p] l [] F2) as (f' & L' & X); [rewrite E; cbn; lia|].
      cbn [app length] in X. rewrite E in *. change (N.of_nat 2) with 2 in X. pose proof (stop_nonempty _ _ S0) as NE.
      assert (G : verdict_of (group_loop (S (length (g :: p :: flat_map wattr_fields ws ++ l))) (g :: p :: flat_map wattr_fields ws ++ l) 2 []) = v).
      { rewrite X. destruct f' as [|f']; [lia|]. cbn [group_loop]. destruct (_ <? _) eqn:Q.
        2:{ exfalso. destruct l; [congruence|]. cbn [length] in Q. rewrite !app_length in Q. cbn [length] in Q. lia. }
        destruct (stop_sound (g :: p :: flat_map wattr_fields ws) l v F3 S0) as [<- NF]. cbn [app length] in *.
        destruct (attr_from_record _ _) as [[n a]|x|q|]; try reflexivity. now destruct NF. }
      assert (NF : v <> Fine) by now destruct S0.
      destruct (flat_map wattr_fields ws ++ l) as [|x m] eqn:Y; [now apply app_eq_nil in Y as [_ Y]|].
      destruct (group_loop _ _ 2 []) as [[at' ix]|y|q|]; cbn in G; subst v; try reflexivity. now destruct NF.
    + unfold group_of_record. rewrite H. cbn [attribute_code_of ok_or obind].
      unfold fields64 in F. rewrite E in F. inversion F as [|? ? _ F1]; inversion F1 as [|? ? _ F2]; subst. apply Forall_app in F2 as [F2 F3].
      destruct (loop_prefix ws attrs D (S (length (r_fields r))) [g; p] l [] F2) as (f' & L' & X); [rewrite E; cbn; lia|].
      cbn [app length] in X. rewrite E in *. change (N.of_nat 2) with 2 in X. pose proof (unterminated_long _ U) as NE.
      destruct (unterminated_ok (g :: p :: flat_map wattr_fields ws) l U) as [a A]. cbn [app length] in A.
      assert (G : exists at', group_loop (S (length (g :: p :: flat_map wattr_fields ws ++ l))) (g :: p :: flat_map wattr_fields ws ++ l) 2 [] =
                  Ok (at', N.of_nat (length (g :: p :: flat_map wattr_fields ws ++ l)) + 1)).
      { rewrite X. destruct f' as [|f']; [lia|]. cbn [group_loop]. destruct (_ <? _) eqn:Q.
        2:{ exfalso. cbn [length] in Q. rewrite !app_length in Q. cbn [length] in Q. lia. }
        cbn [app length] in *. rewrite A. cbn [obind]. eexists. destruct f' as [|f']; [lia|]. cbn [group_loop].
        clear Q X. destruct (_ <? _) eqn:Q2; [exfalso; cbn [length] in Q2; rewrite !app_length in Q2; cbn [length] in Q2; lia|].
        f_equal. f_equal. cbn [length]. rewrite app_length. lia. }
      destruct G as [at' G].
      destruct (flat_map wattr_fields ws ++ l) as [|x m] eqn:Y; [apply app_eq_nil in Y as [_ Y]; subst l; cbn in NE; lia|].
      rewrite G. cbn [obind]. destruct (_ =? _) eqn:Q; [lia|]. reflexivity.
  - destruct (attribute_code_of (r_code r)) as [c|] eqn:Q.
    2:{ exists (Fails (AeUnknownCode (r_code r))). constructor. intros H. cbn in H.
        repeat destruct H as [H|H]; try contradiction H; rewrite <- H in Q; discriminate Q. }
    apply code_exact in Q. destruct Q as [[C ->]|[[C ->]|[C ->]]].
    + eexists. now apply GrOld.
    + eexists. now apply GrEntry.
    + destruct (r_fields r) as [|g [|p [|x m]]] eqn:E; [eexists; apply GrShort; [exact C|rewrite E; cbn; lia]..|].
      assert (F2 : Forall (fun f => f < two64) (x :: m)).
      { unfold fields64 in F. rewrite E in F. inversion F as [|? ? _ F1]; inversion F1 as [|? ? _ F2]; now subst. }
      destruct (attributes_total (length (x :: m)) (x :: m) (le_n _) F2) as (ws & attrs & l & Y & D & [->|[U|[v S0]]]); rewrite Y in E.
      * exists Fine. apply (GrFine r (g mod 2 ^ 32) (mkGroup (disposition_of (p mod 2 ^ 32)) attrs)). exists g, p, ws. rewrite app_nil_r in *.
        split; [exact C|]. split; [exact E|]. split; [intros ->; discriminate Y|]. split; [reflexivity|]. split; [now apply place_exact|exact D].
      * eexists. eapply GrSize; eauto.
      * eexists. eapply GrStop; eauto.
Qed.

Lemma groups_loop_collect l : forall m, verdict_of (groups_loop l m) = verdict_of (collect group_of_record l).
Proof.
  induction l as [|r l IH]; intros m; [reflexivity|]. cbn [groups_loop collect]. destruct (group_of_record r) as [g|x|p|]; cbn [obind]; [|reflexivity..].
  rewrite IH. now destruct (collect group_of_record l).
Qed.
Lemma groups_decided b : Forall fields64 (b_records b) -> decided (attr_groups_of b) (groups_rule b).
Proof.
  intros F. unfold attr_groups_of, groups_rule. apply (dec_same (collect group_of_record (b_records b))); [symmetry; apply groups_loop_collect|].
  apply dec_collect. intros r I. apply group_decided. rewrite Forall_forall in F. now apply F.
Qed.

(** *** Attribute lists *)

Lemma entry_rule_decided m (known : N -> Prop) r : (forall id, (exists g, groups_get m id = Some g) <-> known id) ->
  decided (entry_of_record m r) (entry_rule known r).
Proof.
  intros K. unfold entry_of_record. destruct (attribute_code_of (r_code r)) as [c|] eqn:Q.
  2:{ cbn [ok_or obind]. apply dec_intro.
      - constructor. intros H. cbn in H. repeat destruct H as [H|H]; try contradiction H; rewrite <- H in Q; discriminate Q.
      - intros v V; inversion V as [C|C|C|w C]; try reflexivity; rewrite C in Q; discriminate Q. }
  apply code_exact in Q. cbn [ok_or obind]. destruct Q as [[C ->]|[[C ->]|[C ->]]].
  - apply dec_intro; [now constructor|]. intros v V; inversion V as [D|D|D|w D]; try reflexivity; try congruence. destruct D. rewrite C. cbn. auto.
  - apply (dec_ext _ (in_order (map (fun g => demand (known (g mod 2 ^ 32)) (AeBadGroup (g mod 2 ^ 32))) (r_fields r)))).
    + apply dec_collect. intros g _. apply dec_or. apply K.
    + intros v. split; [intros H; now apply ErEntry|]. intros V; inversion V as [D|D|D|w D]; try reflexivity; try congruence. destruct D. rewrite C. cbn. auto.
  - apply dec_intro; [now constructor|]. intros v V; inversion V as [D|D|D|w D]; try reflexivity; try congruence. destruct D. rewrite C. cbn. auto.
Qed.
Lemma attributes_decided m known b : (forall id, (exists g, groups_get m id = Some g) <-> known id) ->
  decided (attributes_of m b) (attributes_rule known b).
Proof. intros K. apply dec_collect. intros r _. now apply entry_rule_decided. Qed.
Lemma groups_known b m : Forall fields64 (b_records b) -> attr_groups_of b = Ok m -> forall id,
  (exists g, groups_get m id = Some g) <-> exists r g l, In r (b_records b) /\ r_fields r = g :: l /\ g mod 2 ^ 32 = id.
Proof.
  intros F H id. destruct (groups_exact b F) as [G1 G2]. destruct (G2 m H) as [gs G]. destruct (G1 gs G) as (m' & M & E).
  assert (m' = m) as -> by congruence. rewrite E. unfold last_entry.
  assert (X : (exists g, option_map snd (find (fun x : N * attr_group => fst x =? id) (rev gs)) = Some g) <-> exists x, In x gs /\ fst x = id).
  { destruct (find _ (rev gs)) as [y|] eqn:Q; cbn; split.
    - intros _. apply find_some in Q as [Q1 Q2]. exists y. rewrite <- in_rev in Q1. split; [exact Q1|lia].
    - eauto.
    - intros [g [=]].
    - intros (x & I1 & I2). rewrite in_rev in I1. apply (find_none _ _ Q) in I1. lia. }
  rewrite X. clear X E. split.
  - intros (x & I1 & <-). apply in_split in I1 as (l1 & l2 & ->). apply Forall2_app_inv_r in G as (k1 & k' & _ & G & K). inversion G as [|r ? k2 ? G0 _]; subst.
    destruct G0 as (gid & p & ws & C & Y & _ & Z & _). exists r, gid, (p :: flat_map wattr_fields ws). split; [rewrite K; apply in_elt|]. auto.
  - intros (r & g & l & I1 & E & <-). apply in_split in I1 as (k1 & k2 & K). rewrite K in G. apply Forall2_app_inv_l in G as (l1 & l' & _ & G & ->).
    inversion G as [|? x ? l2 G0 _]; subst. destruct G0 as (gid & p & ws & C & Y & _ & Z & _). exists x. split; [apply in_elt|]. congruence.
Qed.
