(** Exactly which inputs make the mapping run forever. *)
From Verif Require Import Base Strings StringsProofs EnumModel SupportModel SupportSpec LayoutModel LayoutSpec LayoutMain CursorModel CursorSpec StreamModel StreamSpec
  StreamHist StreamMain StreamBounds StreamSize UnrollModel UnrollSpec UnrollProofs UnrollMain UnrollApi AttributeModel AttributeSpec
  AttributeProofs AttributeMain TablesModel TablesSpec TablesProofs TypeTableModel TypeTableSpec RecursionSpec TypeTableProofs TypeTableMain TypeTableExact
  RecordModel RecordSpec RecordProofs ModuleModel ModuleSpec ModuleProofs PipelineSpec PipelineProofs PipelinePanics.
From Coq Require Import Lia ZifyBool ZifyNat ZifyN.
Ltac Zify.zify_post_hook ::= Z.div_mod_to_equations.
Local Open Scope N_scope.

Lemma context_out e t b : sane b -> (module_ctx e t b = OutOfFuel <-> exists tb, types_reached e b tb /\ type_table_of e tb = OutOfFuel).
Proof.
  intros (ND & F64 & SF). split.
  - intros H. unfold module_ctx in H.
    apply obind_fuel in H as [H|(r1 & R1 & H)]; [apply omap_err_fuel in H; now apply exactly_one_fuel in H|].
    apply omap_err_iff, sole_iff in R1.
    apply obind_fuel in H as [H|(version & V & H)]; [now apply ok_or_fuel in H|]. apply ok_or_ok in V.
    apply obind_fuel in H as [H|(o & O & H)]; [now apply maybe_record_fuel in H|]. unfold maybe_record in O. apply omap_err_iff, maybe_iff in O.
    apply obind_fuel in H as [H|(lay & LY & H)].
    { destruct o as [r|]; [|discriminate H]. apply obind_fuel in H as [H|(s & _ & H)].
      - apply omap_err_fuel in H. now apply text_fuel in H.
      - apply omap_err_fuel in H. now apply layout_total' in H. }
    apply obind_fuel in H as [H|(sections & SE & H)]; [now apply strings_of_fuel in H|]. apply texts_iff in SE.
    apply obind_fuel in H as [H|(gcs & GC & H)]; [now apply strings_of_fuel in H|]. apply texts_iff in GC.
    apply obind_fuel in H as [H|(tb & TB & H)]; [apply omap_err_fuel in H; now apply exactly_one_fuel in H|].
    apply sub_block_iff in TB; [|exact ND].
    assert (TR : types_reached e b tb).
    { constructor.
      - destruct (r_fields r1) as [|x l] eqn:F; [discriminate V|]. eauto.
      - destruct O as [[A ->]|(r & S0 & ->)]; [now left|right]. apply obind_iff in LY as (s & T & Y). apply omap_err_iff in T, Y.
        apply text_iff in T. exists r, s, lay. auto.
      - eauto.
      - eauto.
      - exact TB. }
    apply obind_fuel in H as [H|(types & _ & H)]; [apply omap_err_fuel in H; eauto|].
    apply obind_fuel in H as [H|(vb & _ & H)]; [apply omap_err_fuel in H; now apply exactly_one_fuel in H|].
    apply obind_fuel in H as [H|(gb & GB & H)]; [apply omap_err_fuel in H; now apply one_or_none_fuel in H|].
    apply maybe_block_iff in GB; [|exact ND].
    apply obind_fuel in H as [H|(groups & _ & H)].
    { destruct GB as [[_ ->]|(g & GB & ->)]; [discriminate H|]. apply omap_err_fuel in H.
      apply groups_fuel in H; [contradiction|]. apply (SF (BIr IbParamAttrGroup)). rewrite GB. now left. }
    apply obind_fuel in H as [H|(ab & AB & H)]; [apply omap_err_fuel in H; now apply one_or_none_fuel in H|].
    apply obind_fuel in H as [H|(attrs & _ & H)].
    { destruct ab as [a|]; [|discriminate H]. apply omap_err_fuel in H. now apply attributes_fuel in H. }
    apply obind_fuel in H as [H|(comdats & _ & H)]; [|discriminate H].
    apply omap_err_fuel in H. exfalso. revert H. apply collect_fuel. intros r R. apply filter_In in R as [R _].
    apply comdat_fuel. rewrite Forall_forall in F64. now apply F64.
  - intros (tb & [(r1 & v & l & H1 & H2) H3 (ss & H4) (gs & H5) H7] & H8). unfold module_ctx, maybe_record, strings_of, sub_block. cbn [module_code_num].
    apply sole_iff in H1. rewrite H1. cbn [omap_err obind]. rewrite H2. cbn [hd_error ok_or obind].
    assert (L : exists o y, one_or_none 3 (b_records b) = Ok o /\
      match o with None => Ok layout_default
      | Some r => let? s := omap_err MdLayoutString (try_string e r 0) in omap_err MdLayout (layout_from_str s) end = Ok y).
    { destruct H3 as [A|(r & s & y & S0 & T & Y)].
      - exists None, layout_default. split; [apply maybe_iff; auto|reflexivity].
      - exists (Some r), y. split; [apply maybe_iff; right; eauto|]. apply text_iff in T. rewrite T. cbn [omap_err obind]. now rewrite Y. }
    destruct L as (o & y & L1 & L2). rewrite L1. cbn [omap_err obind]. rewrite L2. cbn [obind].
    apply texts_iff in H4, H5. rewrite H4. cbn [obind]. rewrite H5. cbn [obind].
    rewrite (proj2 (sub_block_iff IbType b tb ND) H7). cbn [obind]. now rewrite H8.
Qed.
Lemma module_out e host t b : sane b -> (module_of e host t b = OutOfFuel <-> exists tb, types_reached e b tb /\ type_table_of e tb = OutOfFuel).
Proof.
  intros SB. rewrite <- (context_out e t b SB). split.
  - intros H. pose proof SB as (ND & F64 & _). unfold module_of in H.
    apply obind_fuel in H as [H|((((m & c) & fns) & als) & _ & H)]; [|discriminate H]. unfold module_map in H.
    apply obind_fuel in H as [H|(c & CX & H)]; [exact H|].
    apply obind_fuel in H as [H|(o & O & H)]; [now apply maybe_record_fuel in H|].
    apply obind_fuel in H as [H|(triple & _ & H)].
    { destruct o as [r|]; [|discriminate H]. apply omap_err_fuel in H. now apply text_fuel in H. }
    apply obind_fuel in H as [H|(o' & O' & H)]; [now apply maybe_record_fuel in H|].
    apply obind_fuel in H as [H|(asm & _ & H)].
    { destruct o' as [r|]; [|discriminate H]. apply obind_fuel in H as [H|(s & _ & H)]; [|discriminate H].
      apply omap_err_fuel in H. now apply text_fuel in H. }
    apply obind_fuel in H as [H|(deplibs & _ & H)]; [now apply strings_of_fuel in H|].
    rewrite Forall_forall in F64.
    apply obind_fuel in H as [H|(fns & _ & H)].
    { apply omap_err_fuel in H. exfalso. revert H. apply collect_fuel. intros r R. apply filter_In in R as [R _]. now apply function_fuel, F64. }
    apply obind_fuel in H as [H|(u & _ & H)].
    { apply omap_err_fuel in H. exfalso. revert H. apply collect_fuel. intros fb _. apply body_fuel. }
    apply obind_fuel in H as [H|(als & _ & H)]; [|discriminate H].
    apply omap_err_fuel in H. exfalso. revert H. apply collect_fuel. intros r R. apply filter_In in R as [R _]. now apply alias_fuel, F64.
  - intros H. unfold module_of, module_map. now rewrite H.
Qed.
Lemma reify_out e host p : (forall b, pt_module p = Some b -> sane b) -> (reify_module e host p = OutOfFuel <-> endless_part e p).
Proof.
  intros SB. unfold reify_module, endless_part. split.
  - intros H. apply obind_fuel in H as [H|(sb & S1 & H)]; [now apply ok_or_fuel in H|]. apply ok_or_ok in S1.
    apply obind_fuel in H as [H|(t & T & H)].
    { apply omap_err_fuel in H. unfold strtab_of in H. apply obind_fuel in H as [H|(r & R & H)]; [now apply ok_or_fuel in H|].
      apply omap_err_fuel in H. now apply blob_fuel in H. }
    apply omap_err_iff, strtab_exact in T.
    apply obind_fuel in H as [H|(i & I1 & H)].
    { apply omap_err_fuel in H. unfold identification_of in H. apply obind_fuel in H as [H|(r & R & H)]; [now apply ok_or_fuel in H|].
      apply obind_fuel in H as [H|(s & _ & H)].
      - apply omap_err_fuel in H. now apply text_fuel in H.
      - apply obind_fuel in H as [H|(r' & _ & H)]; [now apply ok_or_fuel in H|].
        apply obind_fuel in H as [H|(ep & _ & H)]; [now apply ok_or_fuel in H|discriminate H]. }
    apply omap_err_iff, identification_iff in I1.
    apply obind_fuel in H as [H|(mb & B & H)]; [now apply ok_or_fuel in H|]. apply ok_or_ok in B.
    apply obind_fuel in H as [H|(m & _ & H)].
    { apply omap_err_fuel, module_out in H as (tb & TB & H); [|exact (SB mb B)]. apply type_table_endless in H.
      exists sb, t, i, mb, tb. auto 10. }
    apply obind_fuel in H as [H|(s & _ & H)]; [|discriminate H].
    destruct (pt_symtab p) as [yb|] eqn:Y; [|discriminate H]. apply obind_fuel in H as [H|(y & _ & H)]; [|discriminate H].
    apply omap_err_fuel in H. unfold symtab_of in H. apply obind_fuel in H as [H|(r & R & H)]; [now apply ok_or_fuel in H|].
    apply omap_err_fuel in H. now apply blob_fuel in H.
  - intros (sb & t & i & b & tb & SB1 & T & I1 & B & TR & EB). rewrite SB1. cbn [ok_or obind].
    apply strtab_exact in T. rewrite T. cbn [omap_err obind]. apply identification_iff in I1. rewrite I1. cbn [omap_err obind].
    rewrite B. cbn [ok_or obind]. apply type_table_endless in EB.
    rewrite (proj2 (module_out e host t b (SB b B))); [reflexivity|eauto].
Qed.

Lemma types_alike e b1 b2 tb1 : alike b1 b2 -> types_reached e b1 tb1 -> endless_block e tb1 ->
  exists tb2, types_reached e b2 tb2 /\ endless_block e tb2.
Proof.
  intros A [V L S0 G T] EB. pose proof A as [R _]. destruct (alike_one _ _ _ _ A T) as (tb2 & Y & E). exists tb2. split.
  - unfold sole, absent, texts, all_with in *. rewrite R in *. constructor; assumption.
  - unfold endless_block, announced in *. now rewrite <- E.
Qed.
Lemma endless_alike e tm p1 p2 : carries tm p1 -> carries tm p2 -> endless_part e p1 -> endless_part e p2.
Proof.
  intros (A1 & B1 & C1 & D1) (A2 & B2 & C2 & D2) (sb & t & i & b & tb & SB & T & I1 & B & TR & EB).
  destruct (option_alike _ _ _ _ C1 C2 SB) as (sb2 & E1 & [R1 _]).
  destruct (unrolled_alike _ _ _ A1 A2) as [R2 _].
  destruct (option_alike _ _ _ _ B1 B2 B) as (b2 & E3 & A3). destruct (types_alike e b b2 tb A3 TR EB) as (tb2 & TR2 & EB2).
  exists sb2, t, i, b2, tb2. unfold holds_blob, identifies in *. rewrite <- R1, <- R2. auto 10.
Qed.

Lemma Forall2_split_r {A B} (P : A -> B -> Prop) l m1 b m2 : Forall2 P l (m1 ++ b :: m2) ->
  exists l1 a l2, l = l1 ++ a :: l2 /\ Forall2 P l1 m1 /\ P a b /\ Forall2 P l2 m2.
Proof.
  intros F. apply Forall2_app_inv_r in F as (l1 & l' & F1 & F2 & ->). inversion F2 as [|a ? l2 ? H F3]; subst. exists l1, a, l2. auto.
Qed.
Lemma Forall2_split_l {A B} (P : A -> B -> Prop) l1 a l2 m : Forall2 P (l1 ++ a :: l2) m ->
  exists m1 b m2, m = m1 ++ b :: m2 /\ Forall2 P l1 m1 /\ P a b /\ Forall2 P l2 m2.
Proof.
  intros F. apply Forall2_app_inv_l in F as (m1 & m' & F1 & F2 & ->). inversion F2 as [|? b ? m2 H F3]; subst. exists m1, b, m2. auto.
Qed.
Lemma collect_out_iff {E A B} (f : A -> outcome E B) l : collect f l = OutOfFuel <->
  exists l1 a l2 m, l = l1 ++ a :: l2 /\ Forall2 (fun x y => f x = Ok y) l1 m /\ f a = OutOfFuel.
Proof.
  split.
  - intros H. apply collect_out in H as (l1 & a & l2 & -> & F & H).
    assert (X : exists m, Forall2 (fun x y => f x = Ok y) l1 m).
    { clear - F. induction F as [|x l (b & B') F (m & IH)]; [exists []; constructor|]. exists (b :: m). now constructor. }
    destruct X as (m & X). exists l1, a, l2, m. auto.
  - intros (l1 & a & l2 & m & -> & F & H). apply collect_out_of; [|exact H].
    clear - F. induction F as [|x y l m X F IH]; constructor; [right; eauto|exact IH].
Qed.
Lemma stream_out e host s : parser_reachable e s -> total s < two64 ->
  (bitcode_of_stream e host s = OutOfFuel <->
   exists forest done tm rest ms p, stream_is e s forest /\ well_grouped forest /\ modules_of forest = done ++ tm :: rest /\
     Forall2 (tree_described e host) done ms /\ carries tm p /\ endless_part e p).
Proof.
  intros R T.
  assert (RD : forall forest done p tm m, stream_is e s forest -> incl done (modules_of forest) -> In tm done -> carries tm p ->
    (reify_module e host p = Ok m <-> tree_described e host tm m)).
  { intros forest done p tm m HS IN I1 C. pose proof (modules_fit _ _ (stream_fits e s forest R HS)) as M. rewrite Forall_forall in M.
    destruct (M tm (IN tm I1)) as [M1 M2]. exact (reify_described e host (total s) tm p m T M1 M2 C). }
  unfold bitcode_of_stream. split.
  - intros H. apply obind_fuel in H as [H|(parts & U & H)]; [apply omap_err_fuel in H; now apply unroll_terminates in H|].
    apply omap_err_iff in U. destruct (unroll_ok e s parts R U) as (forest & HS & W & F).
    apply collect_out_iff in H as (l1 & p & l2 & ms & -> & O & H).
    destruct (Forall2_split_r _ _ _ _ _ F) as (done & tm & rest & E & F1 & C & F2).
    exists forest, done, tm, rest, ms, p. split; [exact HS|]. split; [exact W|]. split; [exact E|]. split; [|split; [exact C|]].
    + refine (proj1 (Forall2_through carries _ _ done l1 ms F1 _) O). intros a b c I1 X.
      apply (RD forest done b a c HS); [|exact I1|exact X]. rewrite E. apply incl_appl, incl_refl.
    + apply (reify_out e host); [|exact H]. intros b B. refine (module_sane e s forest tm p b R HS _ C B). rewrite E. apply in_elt.
  - intros (forest & done & tm & rest & ms & p & HS & W & E & D & C & EP).
    destruct (unroll_decides e s forest R HS) as [U _]. destruct (U W) as (parts & -> & F). cbn [omap_err obind].
    rewrite E in F. destruct (Forall2_split_l _ _ _ _ _ F) as (l1 & p' & l2 & -> & F1 & C' & F2).
    apply collect_out_iff. exists l1, p', l2, ms. split; [reflexivity|]. split.
    + refine (proj2 (Forall2_through carries _ _ done l1 ms F1 _) D). intros a b c I1 X.
      apply (RD forest done b a c HS); [|exact I1|exact X]. rewrite E. apply incl_appl, incl_refl.
    + apply (reify_out e host); [|exact (endless_alike e tm p p' C C' EP)].
      intros b B. refine (module_sane e s forest tm p' b R HS _ C' B). rewrite E. apply in_elt.
Qed.
Lemma bitcode_out e host buf : N.of_nat (length buf) < 2 ^ 61 ->
  (bitcode_of e host buf = OutOfFuel <->
   exists w b forest done tm rest ms p, from e buf = Ok (w, b) /\ stream_is e (bs_parser b) forest /\ well_grouped forest /\
     modules_of forest = done ++ tm :: rest /\ Forall2 (tree_described e host) done ms /\ carries tm p /\ endless_part e p).
Proof.
  intros L. change (2 ^ 61) with 2305843009213693952 in L. unfold bitcode_of.
  assert (T : forall w b, from e buf = Ok (w, b) -> total (bs_parser b) < two64).
  { intros w b F. pose proof (from_total e buf w b F). unfold two64. change (2 ^ 64) with 18446744073709551616. lia. }
  split.
  - intros H. destruct (from_settled e buf) as [[[w b] F]|[y F]]; rewrite F in H; [|discriminate H]. cbn [omap_err obind] in H.
    apply (stream_out e host _ (from_reachable e buf w b F) (T w b F)) in H as (forest & done & tm & rest & ms & p & H).
    exists w, b, forest, done, tm, rest, ms, p. tauto.
  - intros (w & b & forest & done & tm & rest & ms & p & F & H). rewrite F. cbn [omap_err obind].
    apply (stream_out e host _ (from_reachable e buf w b F) (T w b F)). exists forest, done, tm, rest, ms, p. tauto.
Qed.
