(** Facts about whole inputs. *)
From Verif Require Import Base Strings StringsProofs EnumModel SupportModel SupportSpec SupportMain LayoutModel LayoutSpec LayoutMain
  CursorModel CursorSpec CursorHist CursorProofs CursorMain StreamModel StreamSpec StreamHist StreamMain StreamPres StreamEnd StreamBounds StreamSize
  UnrollModel UnrollSpec UnrollProofs UnrollMain UnrollApi AttributeModel AttributeSpec AttributeProofs AttributeMain
  TablesModel TablesSpec TablesProofs TypeTableModel TypeTableSpec TypeTableProofs TypeTableMain RecordModel RecordSpec RecordProofs
  ModuleModel ModuleSpec ModuleProofs PipelineSpec.
From Coq Require Import Lia ZifyBool ZifyNat ZifyN.
Ltac Zify.zify_post_hook ::= Z.div_mod_to_equations.
Local Open Scope N_scope.
#[local] Arguments N.add : simpl never.
#[local] Arguments N.sub : simpl never.
#[local] Arguments N.modulo : simpl never.

(** *** Blobs and identification blocks *)

Lemma blob_iff e r t : try_blob e r 0 = Ok t <-> blob_of e r t.
Proof.
  unfold blob_of. destruct (r_fields r) as [|x [|y l]] eqn:R.
  - destruct (strings_empty e r 0 R eq_refl) as [_ ->]. cbn [N.eqb]. destruct (overflow_checks e).
    + split; [discriminate|]. intros [(L & _)|([=] & _)]. cbn in L. lia.
    + split; [intros [= <-]; right; auto|]. intros [(L & _)|(_ & _ & ->)]; [cbn in L; lia|reflexivity].
  - destruct (strings_out e r 0) as [_ ->]; [rewrite R; discriminate|rewrite R; cbn; lia|].
    split; [discriminate|]. intros [(L & _)|(_ & [=] & _)]. cbn in L. lia.
  - destruct (try_blob_in e r 0) as [H _]; [rewrite R; cbn; lia|]. rewrite H. change (N.to_nat 0) with 0%nat. cbn [skipn]. rewrite R.
    split.
    + intros [F ->]. left. cbn. split; [lia|auto].
    + intros [(_ & <- & F)|(_ & [=] & _)]. auto.
Qed.
Lemma strtab_exact e b t : strtab_of e b = Ok t <-> holds_blob e b t.
Proof.
  unfold strtab_of, holds_blob. cbn [strtab_code_num]. split.
  - intros H. apply obind_iff in H as (r & R & H). apply ok_or_ok, one_first in R. apply omap_err_iff, blob_iff in H. eauto.
  - intros (r & R & H). apply one_first in R. rewrite R. cbn [ok_or obind]. apply omap_err_iff, blob_iff, H.
Qed.
Lemma symtab_exact e b t : symtab_of e b = Ok t <-> holds_blob e b t.
Proof.
  unfold symtab_of, holds_blob. cbn [symtab_code_num]. split.
  - intros H. apply obind_iff in H as (r & R & H). apply ok_or_ok, one_first in R. apply omap_err_iff, blob_iff in H. eauto.
  - intros (r & R & H). apply one_first in R. rewrite R. cbn [ok_or obind]. apply omap_err_iff, blob_iff, H.
Qed.
Lemma identification_iff e b i : identification_of e b = Ok i <-> identifies e b i.
Proof.
  unfold identification_of, identifies. cbn [identification_code_num]. split.
  - intros H. apply obind_iff in H as (r & R & H). apply ok_or_ok, one_first in R.
    apply obind_iff in H as (s & T & H). apply omap_err_iff, text_iff in T.
    apply obind_iff in H as (r' & R' & H). apply ok_or_ok, one_first in R'.
    apply obind_iff in H as (ep & P & H). apply ok_or_ok in P. injection H as <-. cbn [id_producer id_epoch].
    destruct (r_fields r') as [|y l] eqn:F; [discriminate P|]. injection P as ->. exists r, r', l. auto.
  - intros (r & r' & l & R & T & R' & F). apply one_first in R, R'. rewrite R. cbn [ok_or obind].
    apply text_iff in T. rewrite T. cbn [omap_err obind]. rewrite R'. cbn [ok_or obind]. rewrite F. cbn. now destruct i.
Qed.

(** *** One module *)

Lemma reify_iff e host p m :
  (forall b, pt_module p = Some b -> NoDup (map fst (b_blocks b)) /\ Forall fields64 (b_records b)) ->
  N.of_nat (length (bm_strtab m)) < two64 ->
  (reify_module e host p = Ok m <-> bitcode_described e host p m).
Proof.
  intros MB LT. unfold reify_module. split.
  - intros H. apply obind_iff in H as (sb & SB & H). apply ok_or_ok in SB.
    apply obind_iff in H as (t & T & H). apply omap_err_iff, strtab_exact in T.
    apply obind_iff in H as (i & I1 & H). apply omap_err_iff, identification_iff in I1.
    apply obind_iff in H as (mb & B & H). apply ok_or_ok in B.
    apply obind_iff in H as (md & M & H). apply omap_err_iff in M.
    apply obind_iff in H as (s & S0 & H). injection H as <-. cbn [bm_strtab] in LT.
    destruct (MB mb B) as [ND F]. apply module_of_exact in M as (c & fns & als & M); try assumption.
    constructor; cbn [bm_identification bm_strtab bm_module bm_symtab].
    + exact I1.
    + eauto.
    + exists mb, c, fns, als. auto.
    + destruct (pt_symtab p) as [yb|].
      * apply obind_iff in S0 as (y & Y & Z). apply omap_err_iff, symtab_exact in Y. injection Z as <-. right. eauto.
      * injection S0 as <-. now left.
  - intros [I1 (sb & SB & T) (mb & c & fns & als & B & M) S0]. rewrite SB. cbn [ok_or obind].
    apply strtab_exact in T. rewrite T. cbn [omap_err obind]. apply identification_iff in I1. rewrite I1. cbn [omap_err obind].
    rewrite B. cbn [ok_or obind]. destruct (MB mb B) as [ND F].
    assert (M' : module_of e host (bm_strtab m) mb = Ok (bm_module m)) by (apply module_of_exact; eauto).
    rewrite M'. cbn [omap_err obind]. destruct S0 as [[S1 S2]|(yb & y & S1 & S2 & Y)]; rewrite S1.
    + cbn [obind]. rewrite <- S2. now destruct m.
    + apply symtab_exact in Y. rewrite Y. cbn [omap_err obind]. rewrite <- S2. now destruct m.
Qed.

(** *** Trees determine the description *)

Lemma under_none id b : (forall l, ~ In (id, l) (b_blocks b)) -> blocks_under id b = [].
Proof.
  unfold blocks_under. induction (b_blocks b) as [|[k l] m IH]; intros H; [reflexivity|]. cbn [flat_map fst snd].
  destruct (block_id_dec k id) as [->|]; [destruct (H l); now left|]. cbn [app]. apply IH. intros l' K. apply (H l'). now right.
Qed.
Lemma id_known id : (exists v, id_matches v id) \/ (forall v, ~ id_matches v id).
Proof.
  destruct id as [r|i|u]; [left; now exists (reserved_block_id_num r)|left; now exists (ir_block_id_num i)|].
  destruct (N.lt_ge_cases 26 u) as [L|L]; [left; exists u; split; auto|right; intros v [-> K]; lia].
Qed.
Definition same_records (b1 b2 : block) : Prop := b_records b1 = b_records b2.
Definition alike (b1 b2 : block) : Prop :=
  b_records b1 = b_records b2 /\ forall id, Forall2 same_records (blocks_under id b1) (blocks_under id b2).
Lemma unrolled_records t b1 b2 : unrolled t b1 -> unrolled t b2 -> same_records b1 b2.
Proof. intros H1 H2. inversion H1; subst. inversion H2; subst. unfold same_records. congruence. Qed.
Lemma Forall2_join {A B C} (P : A -> B -> Prop) (Q : A -> C -> Prop) (R : B -> C -> Prop) l : forall m n,
  (forall a b c, P a b -> Q a c -> R b c) -> Forall2 P l m -> Forall2 Q l n -> Forall2 R m n.
Proof.
  induction l as [|a l IH]; intros m n H F G; inversion F; subst; inversion G; subst; constructor; eauto.
Qed.
Lemma unrolled_alike t b1 b2 : unrolled t b1 -> unrolled t b2 -> alike b1 b2.
Proof.
  intros H1 H2. split; [exact (unrolled_records t b1 b2 H1 H2)|]. intros id.
  inversion H1 as [bid len body b I1 R1 C1 K1 N1 E1 E2]; subst. inversion H2 as [bid' len' body' b' I2 R2 C2 K2 N2 E1 E2]; subst.
  destruct (id_known id) as [[v M]|M].
  - exact (Forall2_join _ _ _ _ _ _ unrolled_records (C1 v id M) (C2 v id M)).
  - rewrite !under_none; [constructor| |]; intros l X; [apply K2 in X as [v X]|apply K1 in X as [v X]]; now apply (M v).
Qed.
Lemma alike_sym b1 b2 : alike b1 b2 -> alike b2 b1.
Proof.
  intros [R C]. split; [now symmetry|]. intros id. specialize (C id). induction C; constructor; [unfold same_records in *; congruence|assumption].
Qed.
Lemma alike_none b1 b2 id : alike b1 b2 -> blocks_under id b1 = [] -> blocks_under id b2 = [].
Proof. intros [_ C] H. specialize (C id). rewrite H in C. now inversion C. Qed.
Lemma alike_one b1 b2 id x : alike b1 b2 -> blocks_under id b1 = [x] -> exists y, blocks_under id b2 = [y] /\ same_records x y.
Proof.
  intros [_ C] H. specialize (C id). rewrite H in C. inversion C as [|? y ? m S0 C' E1 E2]; subst. inversion C'; subst. eauto.
Qed.
Lemma types_same e x y : same_records x y -> type_table_of e x = type_table_of e y.
Proof. unfold same_records, type_table_of. now intros ->. Qed.
Lemma groups_same x y : same_records x y -> attr_groups_of x = attr_groups_of y.
Proof. unfold same_records, attr_groups_of. now intros ->. Qed.
Lemma attributes_same g x y : same_records x y -> attributes_of g x = attributes_of g y.
Proof. unfold same_records, attributes_of. now intros ->. Qed.

Lemma described_alike e host t b1 b2 m c fns als : alike b1 b2 ->
  module_described e host t b1 m c fns als -> module_described e host t b2 m c fns als.
Proof.
  intros A [[V L S0 G T Ty Sy Gr At Co] Tr As De Fn Bo Al]. pose proof A as [R _].
  unfold sole, absent, texts, all_with in *. rewrite R in *. constructor; [constructor|..]; try assumption.
  - destruct Ty as (x & X & Ty). destruct (alike_one _ _ _ _ A X) as (y & Y & E). exists y. split; [exact Y|].
    now rewrite <- (types_same e x y E).
  - destruct Sy as (x & X). destruct (alike_one _ _ _ _ A X) as (y & Y & _). eauto.
  - destruct Gr as [[X Gr]|(x & X & Gr)]; [left; split; [eapply alike_none; eassumption|exact Gr]|right].
    destruct (alike_one _ _ _ _ A X) as (y & Y & E). exists y. split; [exact Y|]. now rewrite <- (groups_same x y E).
  - destruct At as [[X At]|(x & X & At)]; [left; split; [eapply alike_none; eassumption|exact At]|right].
    destruct (alike_one _ _ _ _ A X) as (y & Y & E). exists y. split; [exact Y|]. now rewrite <- (attributes_same _ x y E).
  - eapply alike_none; eassumption.
Qed.
Lemma option_alike t o1 o2 b1 : option_rel unrolled t o1 -> option_rel unrolled t o2 -> o1 = Some b1 ->
  exists b2, o2 = Some b2 /\ alike b1 b2.
Proof.
  intros H1 H2 ->. destruct t as [t|]; [|contradiction]. destruct o2 as [b2|]; [|contradiction]. exists b2.
  split; [reflexivity|]. exact (unrolled_alike t b1 b2 H1 H2).
Qed.
Lemma bitcode_alike e host tm p1 p2 m : carries tm p1 -> carries tm p2 ->
  bitcode_described e host p1 m -> bitcode_described e host p2 m.
Proof.
  intros (A1 & B1 & C1 & D1) (A2 & B2 & C2 & D2) [I1 (sb & SB & T) (mb & c & fns & als & B & M) S0].
  assert (HB : forall x y t, alike x y -> holds_blob e x t -> holds_blob e y t).
  { intros x y t [R _]. unfold holds_blob. now rewrite R. }
  constructor.
  - destruct (unrolled_alike _ _ _ A1 A2) as [R _]. unfold identifies in *. now rewrite <- R.
  - destruct (option_alike _ _ _ _ C1 C2 SB) as (sb2 & E & A). eauto.
  - destruct (option_alike _ _ _ _ B1 B2 B) as (mb2 & E & A). exists mb2, c, fns, als. split; [exact E|].
    exact (described_alike e host _ mb mb2 _ _ _ _ A M).
  - destruct S0 as [[S1 S2]|(yb & y & S1 & S2 & Y)].
    + left. split; [|exact S2]. rewrite S1 in D1. destruct (tm_symtab tm); [contradiction|]. now destruct (pt_symtab p2).
    + right. destruct (option_alike _ _ _ _ D1 D2 S1) as (yb2 & E & A). exists yb2, y. eauto.
Qed.

(** *** The numbers of a stream *)

Lemma yields_all e (P : entry -> Prop) : forall l s s', parser_reachable e s ->
  (forall s x, parser_reachable e s -> fst (next e cursor_ops s) = Some (Ok x) -> P x) ->
  yields (next e cursor_ops) s l s' -> Forall P l.
Proof.
  induction l as [|x l IH]; intros s s' R H Y; [constructor|]. destruct Y as (s1 & E & Y).
  constructor; [apply (H s); [exact R|now rewrite E]|]. apply (IH s1 s'); [|exact H|exact Y].
  pose proof (PRNext e s R) as K. now rewrite E in K.
Qed.
Definition entry_fits (k : N) (x : entry) : Prop :=
  entry_u64 x /\ match x with ERecord _ _ fields => N.of_nat (length fields) <= k | _ => True end.
Lemma yields_fits e : forall l s s', parser_reachable e s -> yields (next e cursor_ops) s l s' -> Forall (entry_fits (total s)) l.
Proof.
  intros l s s' R Y. 
  assert (H : forall k l s s', parser_reachable e s -> total s = k -> yields (next e cursor_ops) s l s' -> Forall (entry_fits k) l).
  { clear. intros k. induction l as [|x l IH]; intros s s' R T Y; [constructor|]. destruct Y as (s1 & E & Y).
    pose proof (PRNext e s R) as R1. pose proof (next_total e s R) as T1. rewrite E in R1, T1. cbn [snd] in R1, T1.
    constructor; [|apply (IH s1 s'); [exact R1|congruence|exact Y]]. split.
    - apply (next_u64 e s); [exact R|now rewrite E].
    - destruct x; try exact I. rewrite <- T. eapply (fields_bounded e s); [exact R|now rewrite E]. }
  exact (H _ l s s' R eq_refl Y).
Qed.
Definition record_fits (k : N) (r : record) : Prop := fields64 r /\ N.of_nat (length (r_fields r)) <= k.
Lemma records_fit k body : Forall (entry_fits k) (flat_map flat body) -> Forall (record_fits k) (records_in body).
Proof.
  induction body as [|t body IH]; intros F; [constructor|]. cbn [flat_map] in F. apply Forall_app in F as [F1 F2].
  unfold records_in. cbn [flat_map]. apply Forall_app. split; [|exact (IH F2)]. destruct t as [a c f|]; [|constructor].
  cbn [flat] in F1. inversion F1 as [|? ? X _]; subst. destruct X as [[_ X] Y]. apply StreamSize.F1. split; [exact X|exact Y].
Qed.
Lemma unrolled_fits k t b : Forall (entry_fits k) (flat t) -> unrolled t b -> Forall (record_fits k) (b_records b).
Proof.
  intros F H. inversion H as [bid len body b' I1 R1 C1 K1 N1 E1 E2]; subst. rewrite R1. apply records_fit.
  cbn [flat] in F. inversion F as [|? ? _ F']; subst. now apply Forall_app in F' as [F' _].
Qed.
Lemma unrolled_nodup t b : unrolled t b -> NoDup (map fst (b_blocks b)).
Proof. intros H. now inversion H. Qed.
Lemma find_fits k v l t : Forall (entry_fits k) (flat_map flat l) -> find (is_top v) l = Some t -> Forall (entry_fits k) (flat t).
Proof.
  intros F H. apply find_some in H as [H _]. apply Forall_forall. intros x X. rewrite Forall_forall in F. apply F. apply in_flat_map. eauto.
Qed.
Lemma segment_fits k l : Forall (entry_fits k) (flat_map flat l) -> Forall (entry_fits k) (flat_map flat (segment l)).
Proof.
  induction l as [|t l IH]; intros F; [exact F|]. cbn [segment]. destruct (is_top IDENTIFICATION t); [constructor|].
  cbn [flat_map] in *. apply Forall_app in F as [F1 F2]. apply Forall_app. auto.
Qed.
Definition tree_fits (k : N) (t : option tree) : Prop := match t with Some t => Forall (entry_fits k) (flat t) | None => True end.
Lemma modules_fit k l : Forall (entry_fits k) (flat_map flat l) ->
  Forall (fun tm => tree_fits k (tm_module tm) /\ tree_fits k (tm_strtab tm)) (modules_of l).
Proof.
  induction l as [|t l IH]; intros F; [constructor|]. cbn [modules_of flat_map] in *. apply Forall_app in F as [_ F].
  destruct (is_top IDENTIFICATION t); [|exact (IH F)]. constructor; [|exact (IH F)]. cbn [tm_module tm_strtab]. split.
  - destruct (find (is_top MODULE) (segment l)) as [x|] eqn:X; [|exact I]. cbn. eapply find_fits; [|exact X]. now apply segment_fits.
  - destruct (find (is_top STRTAB) l) as [x|] eqn:X; [|exact I]. cbn. eapply find_fits; [|exact X]. exact F.
Qed.

Lemma stream_fits e s forest : parser_reachable e s -> stream_is e s forest -> Forall (entry_fits (total s)) (flat_map flat forest).
Proof. intros R [n H]. apply run_yields in H as (s' & Y & _). exact (yields_fits e _ s s' R Y). Qed.

(** *** Whole streams *)

Lemma blob_length k e b t : Forall (record_fits k) (b_records b) -> holds_blob e b t -> N.of_nat (length t) <= k.
Proof.
  intros F (r & (l1 & l2 & E & _) & [(_ & <- & _)|(_ & _ & ->)]); [|cbn; lia]. rewrite E in F.
  apply Forall_app in F as [_ F]. inversion F as [|? ? L _]; subst. exact (proj2 L).
Qed.
Lemma reify_described e host k tm p m : k < two64 -> tree_fits k (tm_module tm) -> tree_fits k (tm_strtab tm) -> carries tm p ->
  (reify_module e host p = Ok m <-> tree_described e host tm m).
Proof.
  intros K F1 F2 C. assert (MB : forall b, pt_module p = Some b -> NoDup (map fst (b_blocks b)) /\ Forall fields64 (b_records b)).
  { intros b B. destruct C as (_ & C & _). rewrite B in C. destruct (tm_module tm) as [t|]; [|contradiction]. cbn in C, F1.
    split; [exact (unrolled_nodup t b C)|]. eapply Forall_impl; [|exact (unrolled_fits k t b F1 C)]. now intros r [H _]. }
  assert (LT : forall b t, pt_strtab p = Some b -> holds_blob e b t -> N.of_nat (length t) < two64).
  { intros b t B H. destruct C as (_ & _ & C & _). rewrite B in C. destruct (tm_strtab tm) as [x|]; [|contradiction]. cbn in C, F2.
    pose proof (blob_length k e b t (unrolled_fits k x b F2 C) H). lia. }
  split.
  - intros H. exists p. split; [exact C|]. apply reify_iff; [exact MB| |exact H].
    unfold reify_module in H. apply obind_iff in H as (sb & SB & H). apply ok_or_ok in SB.
    apply obind_iff in H as (t & T & H). apply omap_err_iff, strtab_exact in T.
    apply obind_iff in H as (i & _ & H). apply obind_iff in H as (mb & _ & H). apply obind_iff in H as (md & _ & H).
    apply obind_iff in H as (s & _ & H). injection H as <-. exact (LT sb t SB T).
  - intros (p' & C' & D). apply (bitcode_alike e host tm p' p m C' C) in D. apply reify_iff; [exact MB| |exact D].
    destruct (bd_strtab _ _ _ _ D) as (sb & SB & T). exact (LT sb _ SB T).
Qed.
Lemma Forall2_through {A B C} (P : A -> B -> Prop) (Q : B -> C -> Prop) (R : A -> C -> Prop) l m n :
  Forall2 P l m -> (forall a b c, In a l -> P a b -> (Q b c <-> R a c)) -> (Forall2 Q m n <-> Forall2 R l n).
Proof.
  intros F. revert n. induction F as [|a b l m X F IH]; intros n H.
  - split; intros G; inversion G; constructor.
  - split; intros G; inversion G as [|? c ? n' Y G']; subst; constructor.
    + apply (H a b c); [now left|exact X|exact Y].
    + apply IH; [|exact G']. intros a' b' c' I'. apply H. now right.
    + apply (H a b c); [now left|exact X|exact Y].
    + apply IH; [|exact G']. intros a' b' c' I'. apply H. now right.
Qed.
Lemma stream_described e host s forest parts ms : parser_reachable e s -> total s < two64 -> stream_is e s forest ->
  Forall2 carries (modules_of forest) parts ->
  (collect (reify_module e host) parts = Ok ms <-> Forall2 (tree_described e host) (modules_of forest) ms).
Proof.
  intros R T HS F. rewrite collect_iff. apply (Forall2_through carries); [exact F|].
  pose proof (modules_fit _ _ (stream_fits e s forest R HS)) as M. rewrite Forall_forall in M.
  intros tm p m I1 C. destruct (M tm I1) as [M1 M2]. exact (reify_described e host (total s) tm p m T M1 M2 C).
Qed.
Lemma bitcode_stream_exact e host s ms : parser_reachable e s -> total s < two64 ->
  (bitcode_of_stream e host s = Ok ms <->
   exists forest, stream_is e s forest /\ well_grouped forest /\ Forall2 (tree_described e host) (modules_of forest) ms).
Proof.
  intros R T. unfold bitcode_of_stream. split.
  - intros H. apply obind_iff in H as (parts & U & H). apply omap_err_iff in U.
    destruct (unroll_ok e s parts R U) as (forest & HS & W & F). exists forest. split; [exact HS|]. split; [exact W|].
    exact (proj1 (stream_described e host s forest parts ms R T HS F) H).
  - intros (forest & HS & W & D). destruct (unroll_decides e s forest R HS) as [U _]. destruct (U W) as (parts & -> & F).
    cbn [omap_err obind]. exact (proj2 (stream_described e host s forest parts ms R T HS F) D).
Qed.

(** *** Whole inputs *)

Lemma op_bits e c o : reachable e c -> bit_len (apply_op e c o) = bit_len c.
Proof.
  intros R. destruct (apply_good e c o c) as [_ [_ K]]; [split; [exact (reachable_inv e c R)|apply same_data_refl]|].
  unfold bit_len. now rewrite K.
Qed.
Lemma from_cursor_total e c b : reachable e c -> from_cursor c = Ok b -> total (bs_parser b) = bit_len c.
Proof.
  intros R H. unfold from_cursor in H. destruct (negb _); [discriminate H|].
  pose proof (op_bits e c (OReadExact u32t) R) as K. cbn [apply_op] in K.
  destruct (read_exact cursor_ops u32t c) as [[m|x|p|] c']; try discriminate H. injection H as <-. exact K.
Qed.
Lemma from_total e buf w b : from e buf = Ok (w, b) -> total (bs_parser b) <= 8 * N.of_nat (length buf).
Proof.
  unfold from. destruct (omap_err SCursor (fst (read_exact cursor_ops u32t (cur_new buf)))) as [m|x|p|]; try discriminate.
  cbn [obind]. destruct (m =? BITCODE_WRAPPER_MAGIC).
  - destruct (from_wrapped e buf) as [[w' b']|x|p|] eqn:E; try discriminate. intros [= <- <-]. cbn [snd].
    unfold from_wrapped in E. destruct (omap_err SCursor (fst (read_wrapper (cur_new buf)))) as [w2|x|p|]; try discriminate E.
    cbn [obind] in E. destruct (cur_new_with_len buf (wr_size w2 + 20)) as [c|x|p|] eqn:EC; try discriminate E.
    cbn [omap_err obind] in E.
    assert (HR : reachable e c). { exists c, []. split; [right; eauto|reflexivity]. }
    pose proof (reachable_step e c (OSeek (SeekStart (wr_offset w2))) HR) as K. cbn [apply_op] in K.
    pose proof (op_bits e c (OSeek (SeekStart (wr_offset w2))) HR) as L. cbn [apply_op] in L.
    destruct (seek e (SeekStart (wr_offset w2)) c) as [[o|x|p|] c']; try discriminate E.
    destruct (from_cursor c') as [b2|x|p|] eqn:EB; try discriminate E. injection E as <- <-.
    rewrite (from_cursor_total e c' b2 K EB). cbn [snd] in L. rewrite L. unfold cur_new_with_len in EC.
    destruct (N.of_nat (length buf) <? wr_size w2 + 20) eqn:Q; [discriminate EC|]. injection EC as <-. unfold bit_len. cbn [byte_len]. lia.
  - destruct (from_raw buf) as [b'|x|p|] eqn:E; try discriminate. intros [= <- <-].
    rewrite (from_cursor_total e (cur_new buf) b' (new_reachable e buf) E). unfold bit_len, cur_new. cbn [byte_len]. lia.
Qed.

Lemma bitcode_exact e host buf ms : N.of_nat (length buf) < 2 ^ 61 ->
  (bitcode_of e host buf = Ok ms <->
   exists w b forest, from e buf = Ok (w, b) /\ stream_is e (bs_parser b) forest /\ well_grouped forest /\
     Forall2 (tree_described e host) (modules_of forest) ms).
Proof.
  intros L. change (2 ^ 61) with 2305843009213693952 in L. unfold bitcode_of.
  assert (T : forall w b, from e buf = Ok (w, b) -> total (bs_parser b) < two64).
  { intros w b F. pose proof (from_total e buf w b F). unfold two64. change (2 ^ 64) with 18446744073709551616. lia. }
  split.
  - intros H. apply obind_iff in H as ([w b] & F & H). apply omap_err_iff in F. exists w, b.
    apply (bitcode_stream_exact e host _ ms (from_reachable e buf w b F) (T w b F)) in H as (forest & H). exists forest. tauto.
  - intros (w & b & forest & F & H). rewrite F. cbn [omap_err obind].
    apply (bitcode_stream_exact e host _ ms (from_reachable e buf w b F) (T w b F)). eauto.
Qed.
Lemma bitcode_unique e host buf ms1 ms2 : bitcode_of e host buf = Ok ms1 -> bitcode_of e host buf = Ok ms2 -> ms1 = ms2.
Proof. congruence. Qed.

(** Streams as LLVM writes them. *)
Lemma written_stream e magic l bits : write_stream magic l = Some bits -> forallb (item_small (alloc_limit e)) l = true ->
  exists b, from_raw (bytes_of_bits bits) = Ok b /\ bs_magic b = magic /\ stream_is e (bs_parser b) (trees l).
Proof.
  intros H HS. destruct (written_raw e magic l bits H HS) as (s & HF & HRun). exists (mkBitstream magic s).
  split; [exact HF|]. split; [reflexivity|]. exists (length (entries l) + 1)%nat. cbn [bs_parser]. rewrite flat_trees. apply HRun.
Qed.
Lemma from_raw_from e buf b : from_raw buf = Ok b -> bs_magic b <> BITCODE_WRAPPER_MAGIC -> from e buf = Ok (None, b).
Proof.
  intros H NW. unfold from. unfold from_raw in *. rewrite H. unfold from_cursor in H. destruct (negb _); [discriminate H|].
  destruct (read_exact cursor_ops u32t (cur_new buf)) as [[m|x|p|] c']; try discriminate H. injection H as <-. cbn [bs_magic] in NW.
  cbn [fst omap_err obind]. apply N.eqb_neq in NW. now rewrite NW.
Qed.
Lemma written_bitcode e host magic l bits ms :
  write_stream magic l = Some bits -> forallb (item_small (alloc_limit e)) l = true -> well_grouped (trees l) ->
  magic <> BITCODE_WRAPPER_MAGIC -> N.of_nat (length bits) < 2 ^ 64 ->
  (bitcode_of e host (bytes_of_bits bits) = Ok ms <-> Forall2 (tree_described e host) (modules_of (trees l)) ms).
Proof.
  intros H HS W NM L. destruct (written_stream e magic l bits H HS) as (b & F & M & S0).
  assert (F' : from e (bytes_of_bits bits) = Ok (None, b)) by (apply from_raw_from; [exact F|congruence]).
  pose proof (from_reachable _ _ _ _ F') as R. unfold bitcode_of. rewrite F'. cbn [omap_err obind].
  rewrite (bitcode_stream_exact e host (bs_parser b) ms R).
  - split; [|eauto]. intros (forest & S1 & _ & D). now rewrite (stream_unique _ _ _ _ S0 S1).
  - pose proof (from_total _ _ _ _ F') as T. destruct (write_stream_inv _ _ _ H) as (x & st' & _ & _ & -> & A).
    set (bits := fixed_bits 32 magic ++ x) in *.
    assert (HB : (length bits mod 32 = 0)%nat) by (subst bits; rewrite app_length, fixed_bits_length; unfold blen in A; lia).
    destruct (bytes_of_bits_spec bits ltac:(lia)) as [_ B2]. unfold two64. lia.
Qed.
