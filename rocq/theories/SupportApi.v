(** Statements of the property theorems of P_Support.v that need a few more steps. *)
From Verif Require Import Base Strings EnumModel SupportModel SupportSpec SupportProofs SupportMain
  LayoutModel LayoutSpec LayoutProofs LayoutMain.
From Coq Require Import Sorted.
From Coq Require Import Lia ZifyBool ZifyNat ZifyN.
Ltac Zify.zify_post_hook ::= Z.div_mod_to_equations.
Local Open Scope N_scope.
Arguments N.add : simpl never.
Arguments N.mul : simpl never.
Arguments N.div : simpl never.
Arguments N.modulo : simpl never.
Arguments N.sub : simpl never.
Arguments N.pow : simpl never.
Arguments ch : simpl never.

Lemma byte_round_trip e v a : v < two64 -> from_byte_align v = Ok a -> @byte_align align_err e a = Ok v.
Proof.
  intros Hv H. rewrite byte_align_held by (eapply AHByte; eassumption).
  apply from_byte_align_ok in H as [-> _]; auto.
Qed.
Lemma byte_round_trip_back e a : align_held a ->
  exists v, @byte_align align_err e a = Ok v /\ v < two64 /\ from_byte_align v = Ok a.
Proof.
  intros H. exists (2 ^ a_shift a). split; [apply byte_align_held, H|]. apply held_shift in H.
  split; [apply pow_lt64; lia|]. rewrite from_byte_align_pow by lia. destruct a; reflexivity.
Qed.
Lemma bit_round_trip e v a : v < two64 -> from_bit_align v = Ok a -> @bit_align align_err e a = Ok v.
Proof. intros Hv H. apply from_bit_align_ok in H as [-> H]; [|assumption]. apply bit_align_small, H. Qed.
Lemma bit_round_trip_back e a : align_held a -> a <> mkAlign 61 -> a <> mkAlign 62 -> a <> mkAlign 63 ->
  exists v, @bit_align align_err e a = Ok v /\ v < two64 /\ from_bit_align v = Ok a.
Proof.
  intros H H1 H2 H3. apply held_shift in H.
  assert (a_shift a <= 60).
  { destruct a as [s]; cbn in *. assert (s <> 61 /\ s <> 62 /\ s <> 63) by (repeat split; congruence). lia. }
  exists (8 * 2 ^ a_shift a). split; [apply bit_align_small; assumption|]. split; [apply pow_bits; assumption|].
  rewrite from_bit_align_pow by assumption. destruct a; reflexivity.
Qed.
Lemma from_bit_align_exact v a : v < two64 ->
  from_bit_align v = Ok a <-> v = 8 * 2 ^ a_shift a /\ a_shift a <= 60.
Proof. apply from_bit_align_iff. Qed.
Lemma from_bit_align_total v : (exists a, from_bit_align v = Ok a) \/ (exists x, from_bit_align v = Err x).
Proof. apply from_bit_align_fine. Qed.

Lemma pointers_last us k s r :
  rev (specs_of k us) = s :: r ->
  exists r', rev (specs_of k (fold_left ptr_specs_update us ptr_specs_default)) = s :: r'.
Proof.
  intros H. rewrite (proj2 (ptr_updates_main us)). eapply collapse_last.
  rewrite specs_of_app, rev_app_distr, H. reflexivity.
Qed.

Lemma at_total_order :
  (forall x y, at_cmp x y = Eq <-> x = y) /\
  (forall x y, at_cmp x y = CompOpp (at_cmp y x)) /\
  (forall x y z c, c <> Eq -> at_cmp x y = c -> at_cmp y z = c -> at_cmp x z = c) /\
  (forall x y, at_cmp x y = Lt <-> key_lt x y) /\
  (forall x y, at_eqb x y = true <-> x = y).
Proof.
  split; [exact at_cmp_eq|]. split.
  { intros x y. destruct (at_cmp y x) eqn:E; cbn.
    - apply at_cmp_eq in E. apply at_cmp_eq. congruence.
    - apply at_cmp_lt in E. apply at_cmp_gt, E.
    - apply at_cmp_gt in E. apply at_cmp_lt, E. }
  split; [|split; [exact at_cmp_lt|exact at_eqb_eq]].
  intros x y z [| |] Hc H1 H2; [congruence| |].
  - apply at_cmp_lt in H1, H2. apply at_cmp_lt. eapply key_lt_trans; eassumption.
  - apply at_cmp_gt in H1, H2. apply at_cmp_gt. eapply key_lt_trans; eassumption.
Qed.

Lemma from_str_no_panic c s : c < 128 ->
  ((exists t, type_spec_from_str (c :: s) = Ok t) \/ (exists x, type_spec_from_str (c :: s) = Err x)) /\
  ((exists t, ptr_spec_from_str (c :: s) = Ok t) \/ (exists x, ptr_spec_from_str (c :: s) = Err x)).
Proof. intros H. split; [apply type_from_str_fine, H|apply ptr_from_str_fine, H]. Qed.

Lemma number_zero n : number (lit "0") n -> n = 0.
Proof.
  intros [(_ & _ & H)|(s & H & _)]; [|discriminate]. vm_compute in H. congruence.
Qed.
Lemma pow_pos a : 0 < 2 ^ a.
Proof. apply N.neq_0_lt_0, N.pow_nonzero. lia. Qed.

Lemma zero_abi_rejected v s : In (lit "a:0" ++ s) (specs v) -> (s = [] \/ exists s', s = ch ":" :: s') ->
  exists x, layout_from_str v = Err x.
Proof.
  intros HI Hs. destruct (layout_fine v) as [[d H]|H]; [|exact H]. exfalso.
  apply layout_main in H as (_ & cs & H & _).
  assert (HM : exists c, means (lit "a:0" ++ s) c).
  { clear Hs. induction H; [destruct HI|]. destruct HI as [->|HI]; eauto. }
  destruct HM as [c HM]. cbn in HM. inversion HM as [| | | | | | |? ? t HI2 HT| | | | |]; subst.
  inversion HT as [s' abi pref a l HP Ha Hp Hl|c' t' s' w n a l abi pref HP Hw Hn Ht Ha Hp Hl]; subst.
  - apply split_pieces in HP.
    assert (a = lit "0").
    { destruct Hs as [->|[s' ->]]; [cbn in HP; vm_compute in HP; injection HP as <- <-; reflexivity|].
      change (ch "0" :: ch ":" :: s') with (lit "0" ++ ch ":" :: s') in HP.
      rewrite split_on_app in HP; [injection HP as <- <-; reflexivity|].
      intros [A|[]]. vm_compute in A. discriminate. }
    subst a. destruct Ha as [Ha _]. apply number_zero in Ha. pose proof (pow_pos (a_shift abi)). lia.
  - destruct Ht as [[Ht _]|[[Ht _]|[Ht _]]]; letter_clash.
Qed.

Lemma enums_main :
  realises reserved_block_id_of reserved_block_id_num reserved_block_id_table /\
  realises ir_block_id_of ir_block_id_num ir_block_id_table /\
  realises identification_code_of identification_code_num identification_code_table /\
  realises module_code_of module_code_num module_code_table /\
  realises type_code_of type_code_num type_code_table /\
  realises strtab_code_of strtab_code_num strtab_code_table /\
  realises symtab_code_of symtab_code_num symtab_code_table /\
  realises attribute_code_of attribute_code_num attribute_code_table /\
  realises function_code_of function_code_num function_code_table /\
  realises unary_opcode_of unary_opcode_num unary_opcode_table /\
  realises binary_opcode_of binary_opcode_num binary_opcode_table /\
  realises rmw_operation_of rmw_operation_num rmw_operation_table /\
  realises attribute_kind_of attribute_kind_num attribute_kind_table /\
  realises attribute_id_of attribute_id_num attribute_id_table /\
  realises visibility_of visibility_num visibility_table /\
  realises dll_storage_class_of dll_storage_class_num dll_storage_class_table /\
  realises calling_convention_of calling_convention_num calling_convention_table.
Proof.
  exact (conj reserved_block_id_realises (conj ir_block_id_realises (conj identification_code_realises
   (conj module_code_realises (conj type_code_realises (conj strtab_code_realises (conj symtab_code_realises
   (conj attribute_code_realises (conj function_code_realises (conj unary_opcode_realises (conj binary_opcode_realises
   (conj rmw_operation_realises (conj attribute_kind_realises (conj attribute_id_realises (conj visibility_realises
   (conj dll_storage_class_realises calling_convention_realises)))))))))))))))).
Qed.

Lemma aggregate_constant v d : layout_from_str v = Ok d -> dl_aggregate d = ALIGN8.
Proof. intros H. apply layout_main in H as (_ & cs & _ & H). apply H. Qed.

Lemma spec_for_key k l t : spec_for k l = Some t -> ts_type t = k.
Proof. intros H. apply find_some in H as [_ H]. destruct (type_key_dec (ts_type t) k); congruence. Qed.

(** The aggregate settings are those of the specifications starting with [a]. *)
Lemma aggregate_settings l cs : Forall2 means l cs -> (forall s, In s l -> is_ascii s = true) ->
  forall t, type_spec_from_str (last (filter about_aggregate l) []) = Ok t ->
  spec_for AtAggregate (rev (flat_map (fun s => match s with SType t => [t] | _ => [] end) cs)) = Some t.
Proof.
  intros H. induction H as [|s c l cs Hs H IH]; intros HA t Ht; [discriminate|].
  cbn [filter] in Ht. cbn [flat_map]. rewrite rev_app_distr, spec_for_app.
  assert (HA' : forall s, In s l -> is_ascii s = true) by (intros; apply HA; right; assumption).
  destruct (filter about_aggregate l) as [|y ys] eqn:F.
  - assert (HN : spec_for AtAggregate (rev (flat_map (fun s => match s with SType t => [t] | _ => [] end) cs)) = None).
    { apply spec_for_none. intros u Hu. apply in_rev in Hu. apply in_flat_map in Hu as (c' & Hc & Hu).
      destruct c'; try destruct Hu as [->|[]]; try destruct Hu.
      assert (HX : exists x, In x l /\ means x (SType u)).
      { clear -H Hc. induction H; [destruct Hc|]. destruct Hc as [->|Hc]; [exists x; split; [left; reflexivity|assumption]|].
        destruct (IHForall2 Hc) as (x' & A & B). exists x'. split; [right; assumption|assumption]. }
      destruct HX as (x & Hx & Hm). assert (HB : about_aggregate x = false).
      { destruct (about_aggregate x) eqn:E; [|reflexivity]. exfalso.
        assert (In x (filter about_aggregate l)) by (apply filter_In; auto). rewrite F in *. contradiction. }
      inversion Hm as [| | | | | | |? ? ? HI HT| | | | |]; subst.
      inversion HT as [s' abi pref a' l' HP Ha Hp Hl|c' t' s' w n a' l' abi pref HP Hw Hn HL Ha Hp Hl]; subst.
      - cbn in HB. discriminate.
      - cbn. destruct HL as [[_ ->]|[[_ ->]|[_ ->]]]; discriminate. }
    rewrite HN. destruct (about_aggregate s) eqn:E; [|discriminate Ht]. cbn [last] in Ht.
    destruct s as [|x s]; [discriminate|]. cbn in E. apply N.eqb_eq in E. subst x.
    assert (HC : ch "a" < 128) by reflexivity.
    apply type_from_str_iff in Ht; [|assumption|cbn; tauto].
    inversion Hs as [| | | | | | |? ? t2 HI HT| | | | |]; subst; letter_clash.
    cbn [rev app]. apply type_from_str_iff in HT; [|assumption|cbn; tauto]. apply type_from_str_iff in Ht; [|assumption|cbn; tauto].
    assert (t2 = t) by congruence. subst t2. rewrite spec_for_cons.
    apply type_from_str_iff in Ht; [|assumption|cbn; tauto].
    inversion Ht as [s' abi pref a' l' HP Ha Hp Hl|c' t' s' w n a' l' abi pref HP Hw Hn HL Ha Hp Hl]; subst.
    + cbn [ts_type]. destruct (type_key_dec AtAggregate AtAggregate); congruence.
    + destruct HL as [[HL _]|[[HL _]|[HL _]]]; letter_clash.
  - rewrite (IH HA' t); [reflexivity|]. destruct (about_aggregate s); [exact Ht|exact Ht].
Qed.

Lemma aggregate_in_types v d s t :
  layout_from_str v = Ok d -> last (filter about_aggregate (specs v)) [] = s -> type_spec_from_str s = Ok t ->
  spec_for AtAggregate (dl_types d) = Some t.
Proof.
  intros H <- Ht. apply layout_main in H as (HA & cs & H & Hd). rewrite (h_types _ _ Hd), spec_for_app.
  erewrite aggregate_settings; [reflexivity|eassumption| |exact Ht].
  intros s Hs. eapply specs_ascii; eassumption.
Qed.

(** *** The two hand-written decoders of the bitstream layer *)
From Verif Require Import StreamModel.

Lemma abbrev_enc_exact v x : abbrev_enc_of v = Some x <->
  In (x, v) [(EncFixed, 1); (EncVbr, 2); (EncArray, 3); (EncChar6, 4); (EncBlob, 5)].
Proof.
  split.
  - unfold abbrev_enc_of. intros H. destruct v as [|p]; [discriminate|].
    repeat (destruct p as [p|p|]; try discriminate); injection H as <-; cbn; tauto.
  - cbn. intros H. repeat destruct H as [H|H]; try tauto; injection H as <- <-; reflexivity.
Qed.
Lemma blockinfo_code_exact v x : blockinfo_code_of v = Some x <->
  In (x, v) [(BiSetBid, 1); (BiBlockName, 2); (BiSetRecordName, 3)].
Proof.
  split.
  - unfold blockinfo_code_of. intros H. destruct v as [|p]; [discriminate|].
    repeat (destruct p as [p|p|]; try discriminate); injection H as <-; cbn; tauto.
  - cbn. intros H. repeat destruct H as [H|H]; try tauto; injection H as <- <-; reflexivity.
Qed.
Lemma abbrev_id_exact v x : abbrev_id_of v = x <->
  In (x, v) [(IdEndBlock, 0); (IdEnterSubBlock, 1); (IdDefineAbbrev, 2); (IdUnabbrevRecord, 3)] \/
  4 <= v /\ x = IdDefined v.
Proof.
  split.
  - intros <-. destruct (N.le_gt_cases 4 v) as [H|H].
    + right. split; [assumption|]. unfold abbrev_id_of. destruct v as [|[[|[]|]|[|[]|]|]]; try lia; reflexivity.
    + left. assert (v = 0 \/ v = 1 \/ v = 2 \/ v = 3) as [-> | [-> | [-> | ->]]] by lia; cbn; tauto.
  - intros [H|[H ->]].
    + cbn in H. repeat destruct H as [H|H]; try tauto; injection H as <- <-; reflexivity.
    + unfold abbrev_id_of. destruct v as [|[[|[]|]|[|[]|]|]]; try lia; reflexivity.
Qed.
