(** The rules of VerdictSpec.v are exactly what the mapping does: modules and whole inputs. *)
From Verif Require Import Base Strings StringsProofs EnumModel SupportModel SupportSpec LayoutModel LayoutSpec LayoutMain CursorModel CursorSpec StreamModel StreamSpec
  StreamHist StreamMain StreamBounds StreamSize UnrollModel UnrollSpec UnrollProofs UnrollMain UnrollApi UnrollStopSpec UnrollStops AttributeModel AttributeSpec
  AttributeProofs AttributeMain TablesModel TablesSpec TablesProofs TypeTableModel TypeTableSpec RecursionSpec TypeTableProofs TypeTableMain TypeTableExact
  RecordModel RecordSpec RecordProofs ModuleModel ModuleSpec ModuleProofs ModuleBodies PipelineSpec PipelineProofs PipelinePanics PipelineExact
  LayoutStopSpec LayoutStops TypeStopSpec TypeStops VerdictSpec Verdicts VerdictAttributes.
From Coq Require Import Lia ZifyBool ZifyNat ZifyN.
Ltac Zify.zify_post_hook ::= Z.div_mod_to_equations.
Local Open Scope N_scope.

(** *** Records and blocks of a module *)

Lemma code_cases code b : (absent code b /\ by_code code (b_records b) = []) \/ (exists r, sole code b r /\ by_code code (b_records b) = [r]) \/
  (twice code b /\ (2 <= length (by_code code (b_records b)))%nat).
Proof.
  destruct (by_code code (b_records b)) as [|r [|r' l]] eqn:Q.
  - left. split; [|reflexivity]. apply one_none. unfold one. now rewrite Q.
  - right. left. exists r. split; [|reflexivity]. apply sole_iff. unfold exactly_one. now rewrite Q.
  - right. right. split; [|cbn; lia]. unfold twice. apply two_codes. rewrite Q. cbn. lia.
Qed.
Lemma absent_sole code b r : absent code b -> sole code b r -> False.
Proof.
  intros H K. apply sole_iff in K. unfold exactly_one in K. apply one_none in H. unfold one in H. now destruct (by_code code (b_records b)).
Qed.
Lemma absent_twice code b : absent code b -> twice code b -> False.
Proof. intros H K. apply two_codes in K. apply one_none in H. unfold one in H. destruct (by_code code (b_records b)); [cbn in K; lia|discriminate]. Qed.
Lemma sole_twice code b r : sole code b r -> twice code b -> False.
Proof. intros H K. apply two_codes in K. apply sole_iff in H. unfold exactly_one in H. destruct (by_code code (b_records b)) as [|x [|y l]]; [discriminate|cbn in K; lia|discriminate]. Qed.
Lemma sole_same code b r r' : sole code b r -> sole code b r' -> r = r'.
Proof. intros H K. apply sole_iff in H, K. congruence. Qed.

Lemma maybe_decided {A} code b (d : A) f R : (forall r, sole (module_code_num code) b r -> decided (f r) (R r)) ->
  decided (obind (maybe_record code b) (fun o => match o with None => Ok d | Some r => f r end)) (maybe_rule (module_code_num code) b R).
Proof.
  intros H. unfold maybe_record, one_or_none. destruct (code_cases (module_code_num code) b) as [[X ->]|[(r & X & ->)|[X L]]].
  - cbn. apply dec_intro; [now constructor|]. intros v V; inversion V as [Y|r w Y Z|Y]; [reflexivity|..]; exfalso; eauto using absent_sole, absent_twice.
  - cbn [one_or_none_of omap_err obind]. apply (dec_ext _ _ _ (H r X)). intros v. split; [intros Y; now apply MyOne with r|].
    intros V; inversion V as [Y|r' w Y Z|Y]; subst; [exfalso; eauto using absent_sole|now rewrite (sole_same _ _ _ _ X Y)|exfalso; eauto using sole_twice].
  - destruct (by_code _ _) as [|a [|a' l]]; [cbn in L; lia|cbn in L; lia|]. cbn.
    apply dec_intro; [now constructor|]. intros v V; inversion V as [Y|r w Y Z|Y]; [..|reflexivity]; exfalso; eauto using sole_twice, absent_twice.
Qed.
Lemma all_decided {A} code b (f : record -> outcome module_err A) R : (forall r, In r (b_records b) -> r_code r = code -> decided (f r) (R r)) ->
  decided (collect f (by_code code (b_records b))) (all_rule code b R).
Proof.
  intros H. apply (dec_ext _ (in_order (map R (by_code code (b_records b))))).
  - apply dec_collect. intros r I. apply in_by_code in I as [I1 I2]. now apply H.
  - intros v. unfold all_rule. split.
    + intros X. exists (by_code code (b_records b)). split; [now apply all_with_iff|exact X].
    + intros (rs & X & Y). apply all_with_iff in X as ->. exact Y.
Qed.
Lemma block_decided {A} id b (f : block -> outcome module_err A) R : NoDup (map fst (b_blocks b)) ->
  (forall c, blocks_under (BIr id) b = [c] -> decided (f c) (R c)) -> decided (obind (sub_block id b) f) (block_rule id b R).
Proof.
  intros ND H. unfold sub_block, exactly_one_block. rewrite map_get_under by exact ND. destruct (blocks_under (BIr id) b) as [|c [|c' l]] eqn:Q; cbn.
  - apply dec_intro; [now constructor|]. intros v V; inversion V as [Y|r w Y Z|Y]; [reflexivity|congruence|rewrite Q in Y; cbn in Y; lia].
  - apply (dec_ext _ _ _ (H c eq_refl)). intros v. split; [intros Y; now apply BlOne with c|].
    intros V; inversion V as [Y|r w Y Z|Y]; [congruence|rewrite Q in Y; now injection Y as <-|rewrite Q in Y; cbn in Y; lia].
  - apply dec_intro; [apply BlTwo; rewrite Q; cbn; lia|]. intros v V; inversion V as [Y|r w Y Z|Y]; [congruence|congruence|reflexivity].
Qed.
Lemma maybe_block_decided {A} id b (d : A) f R : NoDup (map fst (b_blocks b)) ->
  (forall c, blocks_under (BIr id) b = [c] -> decided (f c) (R c)) ->
  decided (obind (maybe_block id b) (fun o => match o with None => Ok d | Some c => f c end)) (maybe_block_rule id b R).
Proof.
  intros ND H. unfold maybe_block, one_or_none_block. rewrite map_get_under by exact ND. destruct (blocks_under (BIr id) b) as [|c [|c' l]] eqn:Q; cbn.
  - apply dec_intro; [now constructor|]. intros v V; inversion V as [Y|r w Y Z|Y]; [reflexivity|congruence|rewrite Q in Y; cbn in Y; lia].
  - apply (dec_ext _ _ _ (H c eq_refl)). intros v. split; [intros Y; now apply MbOne with c|].
    intros V; inversion V as [Y|r w Y Z|Y]; [congruence|rewrite Q in Y; now injection Y as <-|rewrite Q in Y; cbn in Y; lia].
  - apply dec_intro; [apply MbTwo; rewrite Q; cbn; lia|]. intros v V; inversion V as [Y|r w Y Z|Y]; [congruence|congruence|reflexivity].
Qed.
Lemma strings_decided e code b : decided (strings_of e code b) (all_rule (module_code_num code) b (string_rule e)).
Proof. unfold strings_of. rewrite collect_omap. apply all_decided. intros r _ _. apply dec_map_err, text_decided. Qed.

Lemma version_decided b : decided (obind (omap_err MdInconsistent (exactly_one (module_code_num McVersion) (b_records b)))
  (fun r => ok_or (hd_error (r_fields r)) MdMissingVersion)) (version_rule b).
Proof.
  change (module_code_num McVersion) with 1. unfold exactly_one. destruct (code_cases 1 b) as [[X ->]|[(r & X & ->)|[X L]]].
  - cbn. apply dec_intro; [now constructor|]. intros v V; inversion V as [r w l Y|Y|Y|r Y]; [|reflexivity|..]; exfalso; eauto using absent_sole, absent_twice.
  - cbn [exactly_one_of omap_err obind]. destruct (r_fields r) as [|x l] eqn:Q; cbn; apply dec_intro.
    + now apply VrEmpty with r.
    + intros v V; inversion V as [r' w l Y Z|Y|Y|r' Y]; [|exfalso; eauto using absent_sole, sole_twice..|reflexivity].
      rewrite (sole_same _ _ _ _ X Y) in Q. congruence.
    + now apply VrFine with r x l.
    + intros v V; inversion V as [r' w l' Y|Y|Y|r' Y Z]; [reflexivity|exfalso; eauto using absent_sole, sole_twice..|].
      rewrite (sole_same _ _ _ _ X Y) in Q. congruence.
  - destruct (by_code _ _) as [|a [|a' l]]; [cbn in L; lia|cbn in L; lia|]. cbn.
    apply dec_intro; [now constructor|]. intros v V; inversion V as [r w m Y|Y|Y|r Y]; [|..|reflexivity|]; exfalso; eauto using sole_twice, absent_twice.
Qed.
Lemma layout_decided e r : decided (obind (omap_err MdLayoutString (try_string e r 0)) (fun s => omap_err MdLayout (layout_from_str s))) (layout_rule e r).
Proof.
  apply dec_bind; [apply dec_map_err, text_decided|]. intros s H. apply omap_err_iff, text_iff in H. apply dec_last.
  apply (dec_ext _ _ _ (dec_map_err MdLayout _ _ (layout_string_decided s))). intros v. split; [eauto|].
  intros (s' & H' & X). apply text_iff in H, H'. assert (s = s') as -> by congruence. exact X.
Qed.

(** *** Modules *)

Lemma context_decided e t b : sane b -> N.of_nat (length t) < two64 -> decided (module_ctx e t b) (context_rule e t b).
Proof.
  intros (ND & F64 & SF) T. unfold module_ctx, context_rule.
  apply dec_bind2; [apply version_decided|]. intros r version R1 V1. apply omap_err_iff, sole_iff in R1. apply ok_or_ok in V1.
  apply dec_bind2; [apply (maybe_decided McDataLayout); intros r3 _; apply layout_decided|]. intros o3 lay _ _.
  apply dec_bind; [apply strings_decided|]. intros sections _.
  apply dec_bind; [apply strings_decided|]. intros gcs _.
  apply dec_bind2; [apply block_decided; [exact ND|]; intros tb _; apply dec_map_err, dec_exact, table_exactly|]. intros tb types _ _.
  apply (dec_bind2 (sub_block IbValueSymtab b) (fun vb => Ok vb)); [apply block_decided; [exact ND|]; intros vb _ v; cbn; split; congruence|]. intros vb _ _ _. cbv zeta.
  apply dec_bind2; [apply maybe_block_decided; [exact ND|]; intros gb G; apply dec_map_err, groups_decided|].
  { apply (SF (BIr IbParamAttrGroup)). rewrite G. now left. }
  intros gb groups G1 G2.
  assert (K : forall id, (exists g, groups_get groups id = Some g) <-> has_group b id).
  { intros id. apply maybe_block_iff in G1; [|exact ND]. unfold has_group. destruct G1 as [[G1 ->]|(c & G1 & ->)].
    - injection G2 as <-. split; [intros [g [=]]|]. intros (gb' & r' & g & l & X & _). congruence.
    - apply omap_err_iff in G2. rewrite (groups_known c groups) by (exact G2 || (apply (SF (BIr IbParamAttrGroup)); rewrite G1; now left)).
      split; [intros (r' & g & l & X); exists c, r', g, l; tauto|].
      intros (gb' & r' & g & l & X & Y). assert (gb' = c) as -> by congruence. eauto. }
  apply dec_bind2; [apply maybe_block_decided; [exact ND|]; intros ab _; apply dec_map_err; now apply attributes_decided|]. intros ab attrs _ _.
  apply dec_last. apply (dec_pure (omap_err MdComdat (collect (comdat_of e version t) (by_code (module_code_num McComdat) (b_records b))))).
  rewrite collect_omap. apply all_decided. intros r12 I1 _. rewrite Forall_forall in F64.
  apply (dec_ext _ (relabel MdComdat (comdat_rule e version t r12))); [apply dec_map_err, comdat_decided; [now apply F64|exact T]|].
  destruct (r_fields r) as [|x l] eqn:Q; [discriminate V1|]. injection V1 as ->.
  intros v. unfold version_is. split; [intros X; exists version; split; [eauto|exact X]|].
  intros (w & (r' & l' & X & Y) & Z). rewrite (sole_same _ _ _ _ X R1) in Y. rewrite Q in Y. injection Y as -> ->. exact Z.
Qed.

Lemma module_decided e host t b : sane b -> N.of_nat (length t) < two64 -> decided (module_of e host t b) (module_rule e t b).
Proof.
  intros SB T. pose proof SB as (ND & F64 & SF).
  apply (dec_same (module_map e host t b)); [unfold module_of; destruct (module_map e host t b) as [[[[m c] fns] als]|x|p|]; reflexivity|].
  unfold module_map, module_rule. rewrite Forall_forall in F64.
  apply dec_bind; [now apply context_decided|]. intros c CX.
  assert (CE : forall c', context_described e t b c' -> c' = c).
  { intros c' X. apply context_exact in X; [congruence|exact ND|now apply Forall_forall|exact T]. }
  assert (CD : context_described e t b c) by (apply context_exact; [exact ND|now apply Forall_forall|exact T|exact CX]).
  assert (CT : cx_strtab c = t) by (now apply context_strtab in CX).
  assert (EX : forall (R : mctx -> rule module_err) v, R c v <-> exists c, context_described e t b c /\ R c v).
  { intros R v. split; [eauto|]. intros (c' & X & Y). now rewrite (CE c' X) in Y. }
  apply dec_bind2; [apply (maybe_decided McTriple); intros r _; apply dec_map_err, text_decided|]. intros o2 triple _ _.
  apply dec_bind2; [apply (maybe_decided McAsm); intros r _; apply (dec_pure (omap_err MdString (try_string e r 0))), dec_map_err, text_decided|].
  intros o4 asm _ _.
  apply dec_bind; [apply strings_decided|]. intros deplibs _.
  apply dec_bind.
  { rewrite collect_omap. apply all_decided. intros r I _.
    apply (dec_ext _ (relabel MdFunction (function_rule e c r))); [apply dec_map_err, function_decided; [now apply F64|now rewrite CT]|].
    intros v. apply (EX (fun c => relabel MdFunction (function_rule e c r))). }
  intros fns _. apply dec_bind.
  { rewrite collect_omap. unfold by_id. rewrite <- (map_get_under (BIr IbFunction) b ND). unfold by_id. apply dec_collect. intros fb _.
    apply (dec_ext _ (relabel MdBlock (ends (body e (cx_types c) fb)))); [apply dec_map_err, dec_exact, body_exact|].
    intros v. apply (EX (fun c => relabel MdBlock (ends (body e (cx_types c) fb)))). }
  intros u _. apply dec_last. apply (dec_pure (omap_err MdAlias (collect (alias_of e c) (by_code (module_code_num McAlias) (b_records b))))).
  rewrite collect_omap. apply all_decided. intros r I _.
  apply (dec_ext _ (relabel MdAlias (alias_rule e c r))); [apply dec_map_err, alias_decided; [now apply F64|now rewrite CT]|].
  intros v. apply (EX (fun c => relabel MdAlias (alias_rule e c r))).
Qed.

(** *** Parts *)

Lemma first_decided {E A} code b (x : E) (f : record -> outcome E A) R : (forall r, first_record code (b_records b) r -> decided (f r) (R r)) ->
  decided (obind (ok_or (one code (b_records b)) x) f) (first_rule code b x R).
Proof.
  intros H. apply dec_bind.
  - apply dec_or. split; intros [r X]; exists r; now apply one_first.
  - intros r X. apply ok_or_ok, one_first in X. apply dec_last. apply (dec_ext _ _ _ (H r X)). intros v. split; [eauto|].
    intros (r' & Y & Z). apply one_first in X, Y. assert (r' = r) as -> by congruence. exact Z.
Qed.
Lemma strtab_decided e b : decided (strtab_of e b) (strtab_rule e b).
Proof. apply (first_decided 1). intros r _. apply dec_map_err, blob_decided. Qed.
Lemma symtab_decided e b : decided (symtab_of e b) (symtab_rule e b).
Proof. apply (first_decided 1). intros r _. apply dec_map_err, blob_decided. Qed.
Lemma identification_decided e b : decided (identification_of e b) (identification_rule e b).
Proof.
  unfold identification_of, identification_rule.
  apply dec_bind2; [apply (first_decided 1); intros r _; apply dec_map_err, text_decided|]. intros r producer _ _.
  apply dec_last.
  apply (dec_same (obind (ok_or (one (identification_code_num IcEpoch) (b_records b)) IeMissingEpoch) (fun r => ok_or (hd_error (r_fields r)) IeMissingEpoch))).
  { destruct (one _ _) as [r'|]; [|reflexivity]. cbn [ok_or obind]. now destruct (r_fields r'). }
  apply (first_decided 2). intros r' _. apply dec_or. destruct (r_fields r'); cbn; split; [intros [a [=]]|congruence|discriminate|eauto].
Qed.
Lemma part_decided e host p : (forall b, pt_module p = Some b -> sane b) ->
  (forall b t, pt_strtab p = Some b -> holds_blob e b t -> N.of_nat (length t) < two64) -> decided (reify_module e host p) (part_rule e p).
Proof.
  intros SB T. unfold reify_module, part_rule.
  apply dec_bind; [apply dec_or; destruct (pt_strtab p); split; [discriminate|eauto|intros [a [=]]|congruence]|]. intros sb S1. apply ok_or_ok in S1.
  apply dec_bind.
  { apply (dec_ext _ (relabel BcStrtab (strtab_rule e sb))); [apply dec_map_err, strtab_decided|]. intros v. split; [eauto|].
    intros (b & X & Y). assert (b = sb) as -> by congruence. exact Y. }
  intros t T1. apply omap_err_iff, strtab_exact in T1.
  apply dec_bind; [apply dec_map_err, identification_decided|]. intros i _.
  apply dec_bind; [apply dec_or; destruct (pt_module p); split; [discriminate|eauto|intros [a [=]]|congruence]|]. intros mb M1. apply ok_or_ok in M1.
  apply dec_bind.
  { apply (dec_ext _ (relabel BcModule (module_rule e t mb))); [apply dec_map_err, module_decided; [now apply SB|exact (T sb t S1 T1)]|].
    intros v. split; [intros X; exists sb, t, mb; auto|]. intros (sb' & t' & mb' & X & Y & Z & W).
    assert (sb' = sb) as -> by congruence. assert (mb' = mb) as -> by congruence. apply strtab_exact in T1, Y. assert (t' = t) as -> by congruence. exact W. }
  intros m _. apply dec_last.
  match goal with |- decided (obind ?m (fun x => Ok (@?f x))) _ => apply (dec_pure m f) end.
  destruct (pt_symtab p) as [yb|].
  - apply (dec_pure (omap_err BcSymtab (symtab_of e yb)) Some). apply (dec_ext _ (relabel BcSymtab (symtab_rule e yb))); [apply dec_map_err, symtab_decided|].
    intros v. split; [eauto|]. intros [[[=] _]|(b & [= <-] & X)]. exact X.
  - intros v. cbn. split; [intros <-; auto|]. intros [[_ ->]|(b & [=] & _)]. reflexivity.
Qed.

(** *** The same tree, the same verdict *)

Lemma block_alike_ex {A} id b1 b2 (f : block -> outcome module_err A) : NoDup (map fst (b_blocks b1)) -> NoDup (map fst (b_blocks b2)) ->
  alike b1 b2 -> (forall x y, same_records x y -> f x = f y) -> obind (sub_block id b1) f = obind (sub_block id b2) f.
Proof.
  intros N1 N2 [_ A0] H. unfold sub_block, exactly_one_block. rewrite (map_get_under _ _ N1), (map_get_under _ _ N2).
  destruct (A0 (BIr id)) as [|x y l m R []]; cbn; [reflexivity|now apply H|reflexivity].
Qed.
Lemma block_alike_maybe {A} id b1 b2 (f : option block -> outcome module_err A) : NoDup (map fst (b_blocks b1)) -> NoDup (map fst (b_blocks b2)) ->
  alike b1 b2 -> (forall x y, same_records x y -> f (Some x) = f (Some y)) -> obind (maybe_block id b1) f = obind (maybe_block id b2) f.
Proof.
  intros N1 N2 [_ A0] H. unfold maybe_block, one_or_none_block. rewrite (map_get_under _ _ N1), (map_get_under _ _ N2).
  destruct (A0 (BIr id)) as [|x y l m R []]; cbn; [reflexivity|now apply H|reflexivity].
Qed.
Lemma obind_ext {E A B} (m : outcome E A) (f g : A -> outcome E B) : (forall a, f a = g a) -> obind m f = obind m g.
Proof. intros H. destruct m; cbn; auto. Qed.
Lemma collect_alike {E A B} (R : A -> A -> Prop) (f : A -> outcome E B) l m : (forall x y, R x y -> f x = f y) -> Forall2 R l m -> collect f l = collect f m.
Proof. intros H. induction 1 as [|x y l m X _ IH]; [reflexivity|]. cbn [collect]. now rewrite (H x y X), IH. Qed.

Lemma context_same e t b1 b2 : NoDup (map fst (b_blocks b1)) -> NoDup (map fst (b_blocks b2)) -> alike b1 b2 -> module_ctx e t b1 = module_ctx e t b2.
Proof.
  intros N1 N2 A0. pose proof A0 as [R _]. unfold module_ctx, strings_of, maybe_record. rewrite R.
  apply obind_ext; intros r. apply obind_ext; intros version. apply obind_ext; intros o. apply obind_ext; intros lay.
  apply obind_ext; intros sections. apply obind_ext; intros gcs.
  transitivity (let? tb := sub_block IbType b1 in let? types := omap_err MdTypes (type_table_of e tb) in
    let? vb := sub_block IbValueSymtab b2 in
    let? gb := maybe_block IbParamAttrGroup b2 in
    let? groups := match gb with None => Ok [] | Some gb => omap_err MdAttributes (attr_groups_of gb) end in
    let? ab := maybe_block IbParamAttr b2 in
    let? attrs := match ab with None => Ok [] | Some ab => omap_err MdAttributes (attributes_of groups ab) end in
    let? comdats := omap_err MdComdat (collect (comdat_of e version t) (by_code (module_code_num McComdat) (b_records b2))) in
    Ok (mkCtx version lay sections gcs t groups attrs types comdats)).
  - apply obind_ext; intros tb. apply obind_ext; intros types.
    transitivity (let? vb := sub_block IbValueSymtab b2 in
      let? gb := maybe_block IbParamAttrGroup b1 in
      let? groups := match gb with None => Ok [] | Some gb => omap_err MdAttributes (attr_groups_of gb) end in
      let? ab := maybe_block IbParamAttr b1 in
      let? attrs := match ab with None => Ok [] | Some ab => omap_err MdAttributes (attributes_of groups ab) end in
      let? comdats := omap_err MdComdat (collect (comdat_of e version t) (by_code (module_code_num McComdat) (b_records b2))) in
      Ok (mkCtx version lay sections gcs t groups attrs types comdats)); [now apply block_alike_ex|].
    apply obind_ext; intros vb.
    rewrite (block_alike_maybe IbParamAttrGroup b1 b2 (fun gb =>
      let? groups := match gb with None => Ok [] | Some gb => omap_err MdAttributes (attr_groups_of gb) end in
      let? ab := maybe_block IbParamAttr b1 in
      let? attrs := match ab with None => Ok [] | Some ab => omap_err MdAttributes (attributes_of groups ab) end in
      let? comdats := omap_err MdComdat (collect (comdat_of e version t) (by_code (module_code_num McComdat) (b_records b2))) in
      Ok (mkCtx version lay sections gcs t groups attrs types comdats)) N1 N2 A0) by (intros x y X; now rewrite (groups_same x y X)).
    apply obind_ext; intros gb. apply obind_ext; intros groups.
    apply (block_alike_maybe IbParamAttr b1 b2 (fun ab =>
      let? attrs := match ab with None => Ok [] | Some ab => omap_err MdAttributes (attributes_of groups ab) end in
      let? comdats := omap_err MdComdat (collect (comdat_of e version t) (by_code (module_code_num McComdat) (b_records b2))) in
      Ok (mkCtx version lay sections gcs t groups attrs types comdats)) N1 N2 A0). intros x y X; now rewrite (attributes_same _ x y X).
  - apply (block_alike_ex IbType b1 b2 (fun tb => let? types := omap_err MdTypes (type_table_of e tb) in
      let? vb := sub_block IbValueSymtab b2 in
      let? gb := maybe_block IbParamAttrGroup b2 in
      let? groups := match gb with None => Ok [] | Some gb => omap_err MdAttributes (attr_groups_of gb) end in
      let? ab := maybe_block IbParamAttr b2 in
      let? attrs := match ab with None => Ok [] | Some ab => omap_err MdAttributes (attributes_of groups ab) end in
      let? comdats := omap_err MdComdat (collect (comdat_of e version t) (by_code (module_code_num McComdat) (b_records b2))) in
      Ok (mkCtx version lay sections gcs t groups attrs types comdats)) N1 N2 A0). intros x y X. now rewrite (types_same e x y X).
Qed.
Lemma body_same e types x y : same_records x y -> fn_block_of e types x = fn_block_of e types y.
Proof. unfold same_records, fn_block_of. now intros ->. Qed.
Lemma module_same e host t b1 b2 : NoDup (map fst (b_blocks b1)) -> NoDup (map fst (b_blocks b2)) -> alike b1 b2 -> module_of e host t b1 = module_of e host t b2.
Proof.
  intros N1 N2 A0. pose proof A0 as [R A1]. unfold module_of, module_map, strings_of, maybe_record. rewrite (context_same e t b1 b2 N1 N2 A0), R.
  rewrite (map_get_under (BIr IbFunction) b1 N1), (map_get_under (BIr IbFunction) b2 N2).
  f_equal. apply obind_ext; intros c. do 5 (apply obind_ext; intro). apply obind_ext; intros fns.
  rewrite (collect_alike same_records (fn_block_of e (cx_types c)) _ _ (body_same e (cx_types c)) (A1 (BIr IbFunction))). reflexivity.
Qed.
Lemma reify_same e host tm p1 p2 : carries tm p1 -> carries tm p2 -> reify_module e host p1 = reify_module e host p2.
Proof.
  intros (A1 & B1 & C1 & D1) (A2 & B2 & C2 & D2). unfold reify_module.
  destruct (unrolled_alike _ _ _ A1 A2) as [RI _].
  assert (EI : identification_of e (pt_identification p1) = identification_of e (pt_identification p2)) by (unfold identification_of; now rewrite RI).
  rewrite EI. clear RI EI A1 A2.
  destruct (tm_strtab tm) as [ts|], (pt_strtab p1) as [s1|], (pt_strtab p2) as [s2|]; try contradiction C1; try contradiction C2; [|reflexivity].
  destruct (unrolled_alike _ _ _ C1 C2) as [RS _].
  assert (ES : strtab_of e s1 = strtab_of e s2) by (unfold strtab_of; now rewrite RS). cbn [ok_or obind]. rewrite ES. clear RS ES C1 C2.
  apply obind_ext; intros t. apply obind_ext; intros i.
  destruct (tm_module tm) as [tt|], (pt_module p1) as [m1|], (pt_module p2) as [m2|]; try contradiction B1; try contradiction B2; [|reflexivity].
  cbn [ok_or obind]. rewrite (module_same e host t m1 m2 (unrolled_nodup _ _ B1) (unrolled_nodup _ _ B2) (unrolled_alike _ _ _ B1 B2)).
  apply obind_ext; intros m. clear B1 B2.
  destruct (tm_symtab tm) as [ty|], (pt_symtab p1) as [y1|], (pt_symtab p2) as [y2|]; try contradiction D1; try contradiction D2; [|reflexivity].
  destruct (unrolled_alike _ _ _ D1 D2) as [RY _].
  assert (EY : symtab_of e y1 = symtab_of e y2) by (unfold symtab_of; now rewrite RY). now rewrite EY.
Qed.

(** *** Inputs *)

Lemma collect_verdicts {E A B C} (P : C -> A -> Prop) (f : A -> outcome E B) (R : C -> rule E) ts ps : Forall2 P ts ps ->
  (forall t p, In t ts -> P t p -> decided (f p) (R t)) -> decided (collect f ps) (in_order (map R ts)).
Proof.
  induction 1 as [|t p ts ps H _ IH]; intros D; [apply dec_ok|]. cbn [map collect].
  apply dec_bind; [apply D; [now left|exact H]|]. intros b _. apply (dec_pure (collect f ps)), IH. intros t' p' I1. apply D. now right.
Qed.
Lemma parts_decided e host s forest parts : parser_reachable e s -> total s < two64 -> stream_is e s forest ->
  Forall2 carries (modules_of forest) parts -> decided (collect (reify_module e host) parts) (in_order (map (tree_rule e) (modules_of forest))).
Proof.
  intros R T HS F. apply (collect_verdicts carries); [exact F|]. intros tm p I1 C.
  pose proof (modules_fit _ _ (stream_fits e s forest R HS)) as M. rewrite Forall_forall in M. destruct (M tm I1) as [_ M2].
  assert (D : forall q, carries tm q -> decided (reify_module e host q) (part_rule e q)).
  { intros q (A1 & B1 & C1 & D1). apply part_decided.
    - intros b B. refine (module_sane e s forest tm q b R HS I1 _ B). now split.
    - intros b t B H. destruct (tm_strtab tm) as [ts|]; rewrite B in C1; [|contradiction C1].
      apply (N.le_lt_trans _ (total s)); [|exact T]. apply (blob_length (total s) e b t); [now apply (unrolled_fits _ ts)|exact H]. }
  intros v. unfold tree_rule. rewrite (D p C v). split; [eauto|]. intros (q & Q & H).
  apply (D q Q) in H. apply (D p C). now rewrite (reify_same e host tm p q C Q).
Qed.
Lemma stops_fail e s o : unroll_stops e s o -> (exists x, o = Err x) \/ (exists p, o = Panic p).
Proof. destruct 1; eauto. Qed.
Lemma stream_decided e host s : parser_reachable e s -> total s < two64 -> decided (bitcode_of_stream e host s) (stream_rule e s).
Proof.
  intros R T. unfold bitcode_of_stream.
  assert (OK : forall forest v, stream_is e s forest -> well_grouped forest -> in_order (map (tree_rule e) (modules_of forest)) v ->
    exists parts, unroll e s = Ok parts /\ verdict_of (collect (reify_module e host) parts) = v).
  { intros forest v HS W H. destruct (unroll_decides e s forest R HS) as [U _]. destruct (U W) as (parts & -> & F).
    exists parts. split; [reflexivity|]. now apply (parts_decided e host s forest parts R T HS F). }
  assert (NO : forall w, ends (unroll_stops e s) w -> exists o, unroll e s = o /\ verdict_of o = w /\ unroll_stops e s o).
  { intros w (o & Y & Z). exists o. split; [now apply unroll_stops_complete|auto]. }
  destruct (unroll e s) as [parts|x|p|] eqn:U.
  - destruct (unroll_ok e s parts R U) as (forest & HS & W & F). cbn [omap_err obind].
    apply (dec_ext _ _ _ (parts_decided e host s forest parts R T HS F)). intros v. split; [intros H; now apply StrParts with forest|].
    intros H; inversion H as [w X|forest' w HS' W' X]; subst.
    + exfalso. assert (Z : forall w, ~ ends (unroll_stops e s) w); [|inversion X as [Y|x Y|x Y|Y]; now apply Z in Y].
      intros w Y. apply NO in Y as (o & <- & _ & Y). apply stops_fail in Y as [[? [=]]|[? [=]]].
    + destruct (OK forest' v HS' W' X) as (parts' & [= <-] & Y). now apply (parts_decided e host s forest parts R T HS F).
  - cbn [omap_err obind]. assert (ST : unroll_stops e s (Err x)) by (apply unroll_stops_sound; [exact R|exact U|discriminate]).
    apply dec_intro; [apply StrStop, (RlFails BcUnroll); exists (Err x); auto|].
    intros v H; inversion H as [w X|forest' w HS' W' X]; subst; [|destruct (OK forest' v HS' W' X) as (? & [=] & _)].
    inversion X as [Y|y Y|y Y|Y]; apply NO in Y as (o & <- & Y & _); try discriminate Y. now injection Y as ->.
  - cbn [omap_err obind]. assert (ST : unroll_stops e s (Panic p)) by (apply unroll_stops_sound; [exact R|exact U|discriminate]).
    apply dec_intro; [apply StrStop, (RlPanics BcUnroll); exists (Panic p); auto|].
    intros v H; inversion H as [w X|forest' w HS' W' X]; subst; [|destruct (OK forest' v HS' W' X) as (? & [=] & _)].
    inversion X as [Y|y Y|y Y|Y]; apply NO in Y as (o & <- & Y & _); try discriminate Y. now injection Y as ->.
  - now apply unroll_terminates in U.
Qed.
Lemma buffer_decided e host buf : N.of_nat (length buf) < 2 ^ 61 -> decided (bitcode_of e host buf) (buffer_rule e buf).
Proof.
  intros L. change (2 ^ 61) with 2305843009213693952 in L. unfold bitcode_of.
  destruct (from_settled e buf) as [[[w b] F]|[x F]]; rewrite F; cbn [omap_err obind].
  - assert (T : total (bs_parser b) < two64).
    { pose proof (from_total e buf w b F). unfold two64. change (2 ^ 64) with 18446744073709551616. lia. }
    apply (dec_ext _ _ _ (stream_decided e host _ (from_reachable e buf w b F) T)). intros v. split; [intros H; now apply BuStream with w b|].
    intros H; inversion H as [y Y|w' b' v' Y Z]; subst; [congruence|]. assert (b' = b) as -> by congruence. exact Z.
  - apply dec_intro; [now constructor|]. intros v H; inversion H as [y Y|w' b' v' Y Z]; subst; [|congruence]. now assert (y = x) as -> by congruence.
Qed.
