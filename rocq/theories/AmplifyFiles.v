(** Proofs for C73: whole files. *)
From Verif Require Import Base Strings EnumModel SupportModel SupportSpec LayoutModel LayoutSpec LayoutMain CursorModel CursorSpec CursorProofs StreamModel StreamSpec StreamHist StreamEnd
  UnrollModel UnrollSpec UnrollMain UnrollApi AttributeModel AttributeSpec TablesModel TablesSpec TypeTableModel TypeTableSpec RecordModel RecordSpec ModuleModel
  ModuleSpec PipelineSpec PipelineProofs SourceSpec SourceProofs SourceWriter AmplifySpec AmplifyProofs.
From Coq Require Import Lia ZifyBool ZifyNat ZifyN.
Ltac Zify.zify_post_hook ::= Z.div_mod_to_equations.
Local Open Scope N_scope.

Lemma symtabs_fit k l : Forall (entry_fits k) (flat_map flat l) -> Forall (fun tm => tree_fits k (tm_symtab tm)) (modules_of l).
Proof.
  induction l as [|t l IH]; intros F; [constructor|]. cbn [modules_of flat_map] in *. apply Forall_app in F as [_ F].
  destruct (is_top IDENTIFICATION t); [|exact (IH F)]. constructor; [|exact (IH F)]. cbn [tm_symtab].
  destruct (find (is_top SYMTAB) l) as [x|] eqn:X; [|exact I]. cbn. eapply find_fits; [exact F|exact X].
Qed.
Lemma described_tables e host k tm m : tree_fits k (tm_strtab tm) -> tree_fits k (tm_symtab tm) -> tree_described e host tm m -> table_bytes m <= 2 * k.
Proof.
  intros F1 F2 (p & (_ & _ & C1 & C2) & D). unfold table_bytes.
  destruct (bd_strtab _ _ _ _ D) as (b & B & H). rewrite B in C1. destruct (tm_strtab tm) as [x|]; [|contradiction]. cbn in C1, F1.
  pose proof (blob_length k e b _ (unrolled_fits k x b F1 C1) H) as L1.
  destruct (bd_symtab _ _ _ _ D) as [[_ ->]|(yb & y & Y & -> & HY)]; [lia|].
  rewrite Y in C2. destruct (tm_symtab tm) as [z|]; [|contradiction]. cbn in C2, F2.
  pose proof (blob_length k e yb _ (unrolled_fits k z yb F2 C2) HY). lia.
Qed.
Lemma files_quadratic e host buf ms : N.of_nat (length buf) < 2 ^ 61 -> bitcode_of e host buf = Ok ms ->
  sum (map table_bytes ms) <= (8 * N.of_nat (length buf)) ^ 2.
Proof.
  intros B H. unfold bitcode_of in H. apply obind_iff in H as ([w b] & F & H). apply omap_err_iff in F.
  pose proof (from_total e buf w b F) as T. pose proof (from_reachable e buf w b F) as R.
  assert (T2 : total (bs_parser b) < two64) by (change two64 with 18446744073709551616; change (2 ^ 61) with 2305843009213693952 in B; lia).
  apply (bitcode_stream_exact e host _ ms R T2) in H as (forest & ST & _ & D).
  pose proof (stream_fits e _ forest R ST) as FT. pose proof (modules_fit _ _ FT) as M1. pose proof (symtabs_fit _ _ FT) as M2.
  pose proof (modules_entries forest) as M. rewrite (both_length _ _ _ D) in M. destruct ST as [n ST].
  pose proof (run_leading e n _ R) as L. rewrite ST, leading_map in L. cbn [leading] in L. rewrite app_nil_r in L.
  set (k := total (bs_parser b)) in *.
  assert (G : Forall (fun x => x <= 2 * k) (map table_bytes ms)).
  { apply Forall_map. clear - D M1 M2. induction D as [|tm m tms ms X D IH]; [constructor|]. inversion M1 as [|? ? [_ Y1] Y2]; inversion M2 as [|? ? Z1 Z2]; subst.
    constructor; [exact (described_tables e host k tm m Y1 Z1 X)|now apply IH]. }
  apply sum_le in G. rewrite map_length in G. etransitivity; [exact G|]. rewrite N.pow_2_r.
  transitivity (k * (2 * N.of_nat (length ms))); [lia|]. apply N.mul_le_mono; lia.
Qed.

(** A module with nothing in it. *)
Definition empty_source : source := mkSource [109; 101] 0 None None [] [] [] [] [] [] [] [] [].
Definition copies (k : nat) : list (source * list node) := repeat (empty_source, module_nodes empty_source) k.

Lemma empty_source_ok e t : source_ok e t empty_source [].
Proof.
  constructor; cbn [so_producer so_triple so_layout so_asm so_deplibs so_sections so_gcs so_types so_groups so_functions empty_source app].
  - split; [reflexivity|cbn; lia].
  - discriminate.
  - reflexivity.
  - now left.
  - constructor.
  - intros x name [].
  - exact I.
  - intros T [= <-]. constructor.
  - cbn. lia.
  - constructor.
  - constructor.
  - constructor.
  - intros T L fns [= <- <- <-]. constructor.
Qed.
Lemma copies_ok e t k : Forall (fun p => module_body (fst p) (snd p) /\ source_means (fst p) <> None /\ exists settings, source_ok e t (fst p) settings) (copies k).
Proof.
  apply Forall_forall. intros p P. apply repeat_spec in P. subst p. cbn [fst snd]. split; [reflexivity|]. split; [discriminate|].
  exists []. apply empty_source_ok.
Qed.
Definition file (k m : nat) : list node := file_nodes (copies k) None (repeat 0 m).
Lemma file_weight k m : weights (file k m) = 10000 * N.of_nat k + 400 * N.of_nat m + 2000.
Proof.
  unfold file, file_nodes. cbn [opt_list map app].
  assert (A : forall l x, weights (l ++ x) = weights l + weights x).
  { clear. intros l x. induction l as [|n l IH]; [reflexivity|]. change (weights ((n :: l) ++ x)) with (weight n + weights (l ++ x)). change (weights (n :: l)) with (weight n + weights l). rewrite IH. lia. }
  rewrite A. replace (weights [NBlock 23 [NRecord 1 (repeat 0 m)]]) with (400 * N.of_nat m + 2000).
  2:{ cbn [weights fold_right weight]. rewrite repeat_length. lia. }
  replace (weights (flat_map module_file (copies k))) with (10000 * N.of_nat k); [lia|].
  unfold copies. induction k as [|k IH]; [reflexivity|]. cbn [repeat flat_map]. rewrite A, <- IH.
  change (weights (module_file (empty_source, module_nodes empty_source))) with 10000. lia.
Qed.
Lemma file_fits k m lim : N.of_nat m < lim -> 10 < lim -> Forall (node_fits lim) (file k m).
Proof.
  intros L1 L2. unfold file, file_nodes. cbn [opt_list map app]. apply Forall_app. split.
  - apply Forall_forall. intros n I. apply in_flat_map in I as (p & P & I). apply repeat_spec in P. subst p.
    cbn in I. repeat destruct I as [<-|I]; try destruct I; cbn; repeat split; repeat constructor; try lia.
  - constructor; [|constructor]. cbn [node_fits]. repeat split; try reflexivity; try (rewrite repeat_length; exact L1).
    apply Forall_forall. intros x X. apply repeat_spec in X. now subst.
Qed.
Lemma small_mono lim lim' i : lim <= lim' -> item_small lim i = true -> item_small lim' i = true.
Proof.
  intros L. revert i. fix IH 1. intros i. destruct i as [a|c f|i c f|b w n body]; cbn [item_small]; [trivial|lia|lia|]. rewrite !forallb_forall. intros H.
  induction body as [|x body IHb]; intros z Z; [destruct Z|]. destruct Z as [<-|Z]; [apply IH, H; now left|].
  apply IHb; [intros; apply H; now right|exact Z].
Qed.
Lemma file_mapped e host k m : (2 <= m)%nat -> N.of_nat m < alloc_limit e -> 10 < alloc_limit e -> 10000 * N.of_nat k + 400 * N.of_nat m + 2000 < 2 ^ 36 ->
  exists buf ms, 8 * N.of_nat (length buf) <= 10000 * N.of_nat k + 400 * N.of_nat m + 2032 /\ bitcode_of e host buf = Ok ms /\
    sum (map table_bytes ms) = N.of_nat k * N.of_nat m.
Proof.
  intros M A1 A2 W. set (lim := N.min (alloc_limit e) (2 ^ 64)).
  assert (W' : weights (file k m) < 2 ^ 36) by (rewrite file_weight; exact W).
  assert (F : Forall (node_fits lim) (file k m)).
  { apply file_fits; subst lim; change (2 ^ 64) with 18446744073709551616; change (2 ^ 36) with 68719476736 in W; lia. }
  pose proof (plain_written _ _ (file_goes (copies k) None (repeat 0 m)) F ltac:(subst lim; lia) W') as WS.
  pose proof (plain_short _ _ F ltac:(subst lim; lia) 32) as L. rewrite file_weight in L.
  pose proof (plains_small _ _ F) as SM.
  set (bits := fixed_bits 32 0xdec04342 ++ nodes_bits 2 (file k m) 32) in *.
  assert (LB : N.of_nat (length bits) <= 10000 * N.of_nat k + 400 * N.of_nat m + 2032).
  { unfold bits. rewrite app_length, fixed_bits_length. unfold blen in L. lia. }
  assert (LBT : long_blob (repeat 0 m)).
  { split; [rewrite repeat_length; exact M|]. apply Forall_forall. intros x X. apply repeat_spec in X. now subst. }
  exists (bytes_of_bits bits). eexists. split; [|split].
  2:{ apply (file_round_trip e host 0xdec04342 _ bits (copies k) None (repeat 0 m) WS).
      - rewrite forallb_forall in *. intros i I. apply (small_mono lim); [subst lim; lia|exact (SM i I)].
      - discriminate.
      - change (2 ^ 36) with 68719476736 in W. change (2 ^ 64) with 18446744073709551616. lia.
      - exact (plains_mean _ _ F).
      - exact LBT.
      - discriminate.
      - apply copies_ok. }
  - assert (Q : forall m (l : list bool), (length l <= m)%nat -> (8 * length (bytes_of_bits l) <= length l)%nat).
    { clear. induction m as [|m IH]; intros l H; [destruct l; cbn in *; lia|].
      destruct l as [|b0 [|b1 [|b2 [|b3 [|b4 [|b5 [|b6 [|b7 l]]]]]]]]; try (cbn; lia). cbn [bytes_of_bits length] in *. specialize (IH l ltac:(lia)). lia. }
    specialize (Q _ bits (Nat.le_refl _)). lia.
  - unfold read_file. rewrite map_map. clear. unfold copies. induction k as [|k IH]; [reflexivity|]. cbn [repeat map]. rewrite sum_cons, IH.
    unfold table_bytes. cbn [bm_strtab bm_symtab]. rewrite repeat_length. lia.
Qed.
Lemma files_disproportionate e host c : c <= 3000 -> 2 ^ 30 <= alloc_limit e ->
  exists buf ms, bitcode_of e host buf = Ok ms /\ c * (8 * N.of_nat (length buf)) < sum (map table_bytes ms).
Proof.
  change (2 ^ 30) with 1073741824. intros C A. set (k := 900 * c + 1000).
  destruct (file_mapped e host (N.to_nat k) (N.to_nat (25 * k))) as (buf & ms & L & E & SM); try (subst k; change (2 ^ 36) with 68719476736; lia).
  exists buf, ms. split; [exact E|]. rewrite SM, !N2Nat.id in *.
  apply N.le_lt_trans with (c * (20000 * k + 2032)); [apply N.mul_le_mono_l; lia|]. subst k. nia.
Qed.
