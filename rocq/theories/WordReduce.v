(** The mapper on targets of another word size maps a module as the one with 64-bit words maps the module whose
    positions are reduced. *)
From Verif Require Import Base Strings EnumModel SupportModel LayoutModel LayoutMain
  UnrollModel AttributeModel AttributeSpec AttributeMain
  TablesModel TypeTableModel TypeTableSpec TypeTableMain RecordModel ModuleModel
  WordModel WordSpec WordCursor WordMapper WordSmall.
From Coq Require Import Lia ZifyBool ZifyNat ZifyN.
Ltac Zify.zify_post_hook ::= Z.div_mod_to_equations.
Local Open Scope N_scope.
#[local] Arguments N.add : simpl never.
#[local] Arguments N.mul : simpl never.
#[local] Arguments N.sub : simpl never.
#[local] Arguments N.modulo : simpl never.
#[local] Arguments N.div : simpl never.
#[local] Arguments N.pow : simpl never.

(** The same values, whatever the errors. *)
Definition values {E A} (m m' : outcome E A) : Prop := forall a, m = Ok a <-> m' = Ok a.
Lemma values_eq {E A} (m m' : outcome E A) : m = m' -> values m m'.
Proof. intros -> a. reflexivity. Qed.
Lemma values_refl {E A} (m : outcome E A) : values m m.
Proof. intros a. reflexivity. Qed.
Lemma values_bind {E A B} (m m' : outcome E A) (k k' : A -> outcome E B) :
  values m m' -> (forall a, m = Ok a -> values (k a) (k' a)) -> values (obind m k) (obind m' k').
Proof.
  intros H K b. rewrite !obind_iff. split; intros (a & A1 & X); exists a.
  - split; [now apply H|now apply K].
  - split; [now apply H|]. apply (K a); [now apply H|exact X].
Qed.
Lemma values_map {E F A} (f : E -> F) (m m' : outcome E A) : values m m' -> values (omap_err f m) (omap_err f m').
Proof. intros H a. rewrite !omap_err_iff. apply H. Qed.
Lemma values_or {E A} (o o' : option A) (x y : E) : o = o' -> values (ok_or o x) (ok_or o' y).
Proof. intros -> a. rewrite !ok_or_ok. reflexivity. Qed.
Lemma values_collect {E A B} (f : A -> outcome E B) (f' : A -> outcome E B) (g : A -> A) l :
  (forall a, In a l -> values (f a) (f' (g a))) -> values (collect f l) (collect f' (map g l)).
Proof.
  induction l as [|a l IH]; intros H; [apply values_refl|]. cbn [collect map].
  apply values_bind; [apply H; now left|]. intros b _. apply values_bind; [|intros bs _; apply values_refl]. apply IH. intros x X. apply H. now right.
Qed.

Lemma fields_by_length g l : forall i, length (fields_by g i l) = length l.
Proof. induction l as [|f l IH]; intros i; [reflexivity|]. cbn [fields_by length]. now rewrite IH. Qed.
Lemma fields_by_nth g l : forall i j, nth_error (fields_by g i l) j = option_map (g (i + j)%nat) (nth_error l j).
Proof.
  induction l as [|f l IH]; intros i [|j]; cbn [fields_by nth_error option_map]; try reflexivity.
  - now rewrite Nat.add_0_r.
  - rewrite IH. now replace (S i + j)%nat with (i + S j)%nat by lia.
Qed.
Lemma fields_by_skipn g l : forall i n, skipn n (fields_by g i l) = fields_by g (i + n) (skipn n l).
Proof.
  induction l as [|f l IH]; intros i [|n]; cbn [fields_by skipn]; try reflexivity.
  - now rewrite Nat.add_0_r.
  - rewrite IH. now replace (S i + n)%nat with (i + S n)%nat by lia.
Qed.
Lemma fields_by_id g l : (forall i f, g i f = f) -> forall i, fields_by g i l = l.
Proof. intros H. induction l as [|f l IH]; intros i; [reflexivity|]. cbn [fields_by]. now rewrite H, IH. Qed.
Lemma fields_by_map g h l : forall i, (forall j f, (i <= j)%nat -> g j f = h f) -> fields_by g i l = map h l.
Proof. induction l as [|f l IH]; intros i H; [reflexivity|]. cbn [fields_by map]. rewrite H by lia. f_equal. apply IH. intros j x L. apply H. lia. Qed.
Lemma fld_word g r i : g i 0 = 0 -> fld (word_record g r) i = g i (fld r i).
Proof.
  intros Z. unfold fld, word_record. cbn [r_fields]. rewrite !nth_default_eq || idtac.
  destruct (Nat.lt_ge_cases i (length (r_fields r))) as [L|L].
  - destruct (nth_error (r_fields r) i) as [v|] eqn:E; [|apply nth_error_None in E; lia].
    pose proof (fields_by_nth g (r_fields r) 0 i) as F. rewrite E in F. cbn [option_map] in F.
    rewrite (nth_error_nth _ _ _ F), (nth_error_nth _ _ _ E). reflexivity.
  - rewrite !nth_overflow; [now symmetry|exact L|]. now rewrite fields_by_length.
Qed.
Lemma word_same g r : (forall i f, g i f = f) -> word_record g r = r.
Proof. intros H. unfold word_record. rewrite fields_by_id by exact H. now destruct r. Qed.

Section Reduce.
  Context (U : N) (e : env) (U2 : 8 <= U) (UW : U <= two64).
  Notation c := (cast_refs U).
  Notation tr := (fun r => word_record (type_field_word U (r_code r)) r).
  Notation mr := (fun r => word_record (module_field U (r_code r)) r).

  (** *** Types *)
  Lemma zero_word : 0 mod U = 0.
  Proof. apply N.mod_0_l. lia. Qed.
  Lemma field_word r n : type_field (tr r) n = match type_field r n with Ok v => Ok (type_field_word U (r_code r) n v) | x => x end.
  Proof.
    unfold type_field, word_record. cbn [r_fields]. rewrite fields_by_nth. cbn [Nat.add]. destruct (nth_error (r_fields r) n); reflexivity.
  Qed.
  Lemma split_last_cast l front p : map c l = l -> split_last l = Some (front, p) -> map c front = front /\ c p = p.
  Proof.
    unfold split_last. intros L H. destruct (rev l) as [|a x] eqn:E; [discriminate H|]. injection H as <- <-.
    assert (R : map c (rev l) = rev l) by (rewrite map_rev; now rewrite L). rewrite E in R. cbn [map] in R. injection R as R1 R2. split; [|exact R1].
    rewrite map_rev. now rewrite R2.
  Qed.
  Lemma skip_word r k n : r_code r = k -> (forall i f, (n <= i)%nat -> type_field_word U k i f = us U f) ->
    skipn n (r_fields (tr r)) = map (us U) (skipn n (r_fields r)).
  Proof. intros RC H. unfold word_record. cbn [r_fields]. rewrite fields_by_skipn. cbn [Nat.add]. apply fields_by_map. intros j f L. rewrite RC. now apply H. Qed.
  Lemma type_step_reduce l name r : map c l = l -> type_step_w U e (l, name) r = type_step e (l, name) (tr r).
  Proof.
    intros L. unfold type_step_w, type_step. pose proof (field_word r) as FW. pose proof (skip_word r) as SK.
    pose proof (fields_by_nth (type_field_word U (r_code r)) (r_fields r) 0 2) as NT. change (fields_by _ 0 (r_fields r)) with (r_fields (tr r)) in NT.
    assert (SM : r_code r = 19 -> tr r = r) by (intros X; apply word_same; intros i f; rewrite X; reflexivity).
    cbv beta in *. set (r' := word_record _ r) in *. assert (RC' : r_code r' = r_code r) by reflexivity. clearbody r'. rewrite RC'.
    destruct (type_code_of (r_code r)) as [code|] eqn:C1; cbn [ok_or obind]; [|reflexivity].
    pose proof (proj1 (type_code_exact _ _) C1) as RC. symmetry in RC.
    destruct code; cbn [type_code_num] in RC; try (cbn [obind]; rewrite ?map_app, L; reflexivity); try reflexivity.
    - destruct name as [|h name]; [reflexivity|]. destruct (split_last l) as [[front p]|] eqn:SL.
      + destruct (split_last_cast _ _ _ L SL) as [L1 L2].
        destruct p as [| | | | |n fs packed| | |]; try (cbn [obind]; rewrite map_app, L; reflexivity).
        destruct n; [reflexivity|]. cbn [obind]. rewrite map_app, L1. cbn [map cast_refs] in *. injection L2 as L2. now rewrite L2.
      + cbn [obind]. rewrite map_app, L. reflexivity.
    - rewrite FW, RC. destruct (type_field r 0) as [v| | |]; cbn [obind]; try reflexivity. now rewrite map_app, L.
    - rewrite !FW, RC. destruct (type_field r 0) as [v| | |]; cbn [obind]; try reflexivity.
      destruct (type_field r 1) as [a| | |]; cbn [obind]; try reflexivity. cbn [type_field_word].
      destruct (address_space_of a) as [x| | |]; cbn [omap_err obind]; try reflexivity. now rewrite map_app, L.
    - rewrite !FW, RC. destruct (type_field r 0) as [v| | |]; cbn [obind]; try reflexivity.
      destruct (type_field r 1) as [a| | |]; cbn [obind]; try reflexivity. now rewrite map_app, L.
    - rewrite !FW, RC. destruct (type_field r 0) as [v| | |]; cbn [obind]; try reflexivity.
      destruct (type_field r 1) as [a| | |]; cbn [obind]; try reflexivity. rewrite NT, RC.
      destruct (nth_error (r_fields r) 2) as [x|]; cbn [option_map type_field_word Nat.add].
      + destruct (0 <? x); cbn [obind]; rewrite map_app, L; reflexivity.
      + cbn [obind]. rewrite map_app, L. reflexivity.
    - rewrite FW, RC. destruct (type_field r 0) as [v| | |]; cbn [obind]; try reflexivity.
      rewrite map_app, L. rewrite (SK _ 1%nat RC); [reflexivity|]. intros [|i] f; [lia|reflexivity].
    - rewrite (SM RC). destruct (try_string e r 0) as [x| | |]; cbn [omap_err obind]; try reflexivity. now rewrite L.
    - rewrite FW, RC. destruct (type_field r 0) as [v| | |]; cbn [obind]; try reflexivity. cbv zeta.
      rewrite (SK _ 1%nat RC); [|intros [|i] f; [lia|reflexivity]].
      destruct (split_last l) as [[front p]|] eqn:SL.
      + destruct (split_last_cast _ _ _ L SL) as [L1 L2].
        destruct p as [| | | | |n fs packed| | |]; try (cbn [obind]; rewrite map_app, L; reflexivity).
        destruct n; [reflexivity|]. destruct fs; [|reflexivity]. cbn [obind]. rewrite map_app, L1. reflexivity.
      + cbn [obind]. rewrite map_app, L. reflexivity.
    - rewrite !FW, RC. destruct (type_field r 0) as [v| | |]; cbn [obind]; try reflexivity.
      destruct (type_field r 1) as [a| | |]; cbn [obind]; try reflexivity. rewrite map_app, L.
      rewrite (SK _ 2%nat RC); [reflexivity|]. intros [|i] f; [lia|reflexivity].
    - rewrite FW, RC. destruct (type_field r 0) as [v| | |]; cbn [obind type_field_word]; try reflexivity.
      destruct (address_space_of v) as [x| | |]; cbn [omap_err obind]; try reflexivity. now rewrite map_app, L.
  Qed.
  Lemma type_loop_reduce l : forall p name, map c p = p -> type_loop_w U e l (p, name) = type_loop e (map tr l) (p, name).
  Proof.
    induction l as [|r l IH]; intros p name P; [reflexivity|]. cbn [type_loop_w type_loop map]. rewrite (type_step_reduce p name r P).
    destruct (type_step e (p, name) (tr r)) as [[q name']| | |] eqn:S1; cbn [obind]; try reflexivity. apply IH.
    rewrite <- (type_step_reduce p name r P) in S1. unfold type_step_w in S1. apply obind_iff in S1 as ([q0 n0] & _ & S1). injection S1 as <- _.
    rewrite map_map. apply map_ext. intros x. eapply cast_cast. instantiate (1 := 0). lia.
  Qed.
  Lemma by_code_tr code l : by_code code (map tr l) = map tr (by_code code l).
  Proof. unfold by_code. induction l as [|r l IH]; [reflexivity|]. cbn [map filter]. cbn [word_record r_code]. rewrite IH. destruct (r_code r =? code); reflexivity. Qed.
  Lemma type_table_reduce b : type_table_of_w U e b = type_table_of e (word_types U b).
  Proof.
    unfold type_table_of_w, type_table_of, word_types. cbn [b_records]. unfold one. rewrite by_code_tr.
    destruct (by_code (type_code_num TcNumEntry) (b_records b)) as [|r l] eqn:E; [reflexivity|]. cbn [map hd_error ok_or obind].
    assert (RC : r_code r = 1).
    { assert (I : In r (by_code (type_code_num TcNumEntry) (b_records b))) by (rewrite E; now left). unfold by_code in I. apply filter_In in I as [_ I]. cbn [type_code_num] in I. lia. }
    cbn [r_fields word_record]. rewrite RC. destruct (r_fields r) as [|n fs]; [reflexivity|]. cbn [fields_by hd_error ok_or obind type_field_word]. cbv zeta.
    fold (us U n). destruct (alloc_limit e <? us U n); [reflexivity|]. now rewrite type_loop_reduce.
  Qed.

  (** *** Names *)
  Lemma wrap_lt a b m : m <= a + b -> a < m -> b < m -> (a + b) mod m < a.
  Proof.
    intros H A B. replace (a + b) with (a + b - m + 1 * m) by lia. rewrite N.mod_add by lia. rewrite N.mod_small by lia. lia.
  Qed.
  Lemma last_sum {E} a b (last : N) : @usize_add E e a b = Ok last -> a < U -> b < U -> last = a + b \/ last < a.
  Proof.
    unfold usize_add. destruct (_ <? two64) eqn:E1; [intros H; injection H as <-; now left|]. destruct (overflow_checks e); [discriminate|].
    intros H. injection H as <-. intros A B. right. apply wrap_lt; lia.
  Qed.
  Lemma last_sum_w {E} a b (last : N) : @w_add U e E a b = Ok last -> a < U -> b < U -> last = a + b \/ last < a.
  Proof.
    unfold w_add. destruct (_ <? U) eqn:E1; [intros H; injection H as <-; now left|]. destruct (overflow_checks e); [discriminate|].
    intros H. injection H as <-. intros A B. right. apply wrap_lt; lia.
  Qed.
  Lemma try_get_values t off size : N.of_nat (length t) < U -> values (strtab_try_get_w U e t off size) (strtab_try_get e t (us U off) (us U size)).
  Proof.
    intros L s. unfold strtab_try_get_w, strtab_try_get. cbv zeta.
    assert (OU : us U off < U) by (unfold us; apply N.mod_lt; lia). assert (SU : us U size < U) by (unfold us; apply N.mod_lt; lia).
    set (a := us U off) in *. set (b := us U size) in *. clearbody a b.
    destruct (b =? 0) eqn:E0; [reflexivity|]. destruct (_ <=? a) eqn:E1; [reflexivity|].
    split; intros H; apply obind_iff in H as (last & A1 & H); destruct (_ <? last) eqn:E2; try discriminate H; rewrite A1 in H; cbn [obind] in H;
      destruct (slice t a last) as [raw|] eqn:SL; try discriminate H; pose proof (slice_some 8 0 ltac:(lia) _ _ _ _ SL) as SO.
    - destruct (last_sum_w _ _ _ A1 OU SU) as [->|X]; [|lia]. unfold usize_add. replace (a + b <? two64) with true by lia. cbn [obind]. rewrite E2, SL. exact H.
    - destruct (last_sum _ _ _ A1 OU SU) as [->|X]; [|lia]. unfold w_add. replace (a + b <? U) with true by lia. cbn [obind]. rewrite E2, SL. exact H.
  Qed.

  (** *** Records of the module *)
  Lemma mr_nth r i : nth_error (r_fields (mr r)) i = option_map (module_field U (r_code r) i) (nth_error (r_fields r) i).
  Proof. unfold word_record. cbn [r_fields]. apply fields_by_nth. Qed.
  Lemma mr_fld r i : module_field U (r_code r) i 0 = 0 -> fld (mr r) i = module_field U (r_code r) i (fld r i).
  Proof. apply fld_word. Qed.
  Lemma mr_length r : length (r_fields (mr r)) = length (r_fields r).
  Proof. unfold word_record. cbn [r_fields]. apply fields_by_length. Qed.
  Lemma read_name_values t r : r_code r = 8 \/ r_code r = 14 -> N.of_nat (length t) < U ->
    values (strtab_read_name_w U e t r) (strtab_read_name e t (mr r)).
  Proof.
    intros RC L. unfold strtab_read_name_w, strtab_read_name, word_record. cbn [r_fields]. destruct (r_fields r) as [|a [|b l]]; try apply values_refl. cbn [fields_by].
    destruct RC as [-> | ->]; cbn [module_field]; now apply try_get_values.
  Qed.
  Lemma comdat_values version t r : r_code r = 12 -> N.of_nat (length t) < U -> values (comdat_of_w U e version t r) (comdat_of e version t (mr r)).
  Proof.
    intros RC L. unfold comdat_of_w, comdat_of. destruct (negb _); [apply values_refl|]. unfold word_record. cbn [r_fields].
    destruct (r_fields r) as [|a [|b [|d [|g l]]]]; cbn [fields_by]; try apply values_refl.
    - rewrite RC. cbn [module_field]. apply values_bind; [apply values_map; now apply try_get_values|intros; apply values_refl].
    - intros x. cbn [length]. rewrite fields_by_length. reflexivity.
  Qed.
  Lemma fn_values x r : r_code r = 8 -> N.of_nat (length (cx_strtab x)) < U -> values (fn_of_w U e x r) (fn_of e x (mr r)).
  Proof.
    intros RC L. unfold fn_of_w, fn_of. destruct (negb _); [apply values_refl|]. rewrite mr_length.
    destruct (_ <? 10)%nat; [apply values_refl|]. rewrite !mr_fld by (rewrite RC; cbn [module_field]; rewrite ?zero_word; reflexivity).
    rewrite !mr_nth. pose proof (read_name_values (cx_strtab x) r (or_introl RC) L) as RN. set (r' := mr r) in *. clearbody r'. rewrite RC. cbn [module_field].
    apply values_bind; [now apply values_map|intros name _].
    apply values_bind; [now apply values_or|intros t _]. apply values_bind; [apply values_refl|intros t' _]. apply values_bind; [apply values_refl|intros cc _]. cbv zeta.
    apply values_bind; [|intros attrs _].
    { destruct (fld r 6 =? 0) eqn:E6; [apply values_refl|]. replace ((fld r 6 - 1) mod U + 1 =? 0) with false by lia.
      apply values_bind; [|intros; apply values_refl]. apply values_or. unfold attributes_get_w, us. f_equal. lia. }
    apply values_bind; [apply values_refl|intros al _]. apply values_bind; [apply values_refl|intros sec _]. apply values_bind; [apply values_refl|intros vis _].
    apply values_bind; [|intros gc _].
    { destruct (nth_error (r_fields r) 10); cbn [option_map]; apply values_refl. }
    destruct (nth_error (r_fields r) 11), (nth_error (r_fields r) 13); cbn [option_map]; apply values_refl.
  Qed.
  Lemma alias_values x r : r_code r = 14 -> N.of_nat (length (cx_strtab x)) < U -> values (alias_of_w U e x r) (alias_of e x (mr r)).
  Proof.
    intros RC L. unfold alias_of_w, alias_of. destruct (negb _); [apply values_refl|]. rewrite mr_length.
    destruct (_ <? 5)%nat; [apply values_refl|]. rewrite !mr_fld by (rewrite RC; cbn [module_field]; rewrite ?zero_word; reflexivity).
    rewrite !mr_nth. pose proof (read_name_values (cx_strtab x) r (or_intror RC) L) as RN. set (r' := mr r) in *. clearbody r'. rewrite RC. cbn [module_field].
    apply values_bind; [now apply values_map|intros name _].
    apply values_bind; [now apply values_or|intros t _]. cbv zeta.
    destruct (nth_error (r_fields r) 5), (nth_error (r_fields r) 6), (nth_error (r_fields r) 7), (nth_error (r_fields r) 8), (nth_error (r_fields r) 9); cbn [option_map]; apply values_refl.
  Qed.

  (** *** The module *)
  Lemma by_code_mr code l : by_code code (map mr l) = map mr (by_code code l).
  Proof. unfold by_code. induction l as [|r l IH]; [reflexivity|]. cbn [map filter]. cbn [word_record r_code]. rewrite IH. destruct (r_code r =? code); reflexivity. Qed.
  Lemma by_code_code code l r : In r (by_code code l) -> r_code r = code.
  Proof. unfold by_code. intros H. apply filter_In in H as [_ H]. lia. Qed.
  Lemma by_code_same code l : (forall i f, module_field U code i f = f) -> by_code code (map mr l) = by_code code l.
  Proof.
    intros H. rewrite by_code_mr. rewrite <- (map_id (by_code code l)) at 2. apply map_ext_in. intros r R. apply by_code_code in R.
    apply word_same. intros i f. rewrite R. apply H.
  Qed.
  Lemma by_id_word id b : by_id id (word_module U b) = if block_id_dec id (BIr IbType) then map (word_types U) (by_id id b) else by_id id b.
  Proof.
    unfold by_id, word_module. cbn [b_blocks]. induction (b_blocks b) as [|[k v] l IH]; cbn [map map_get fst snd].
    - destruct (block_id_dec id _); reflexivity.
    - destruct (block_id_dec k id) as [->|]; [destruct (block_id_dec id _); reflexivity|exact IH].
  Qed.
  Lemma fn_block_never_w t b x : fn_block_of_w U e t b <> Ok x.
  Proof.
    unfold fn_block_of_w. intros H. apply obind_iff in H as (r & _ & H). apply obind_iff in H as (n & _ & H). destruct (_ <? _); [discriminate H|].
    apply obind_iff in H as (l & _ & H). discriminate H.
  Qed.
  Lemma records_word b : b_records (word_module U b) = map mr (b_records b).
  Proof. reflexivity. Qed.
  Lemma maybe_word code b : (forall i f, module_field U (module_code_num code) i f = f) -> maybe_record code (word_module U b) = maybe_record code b.
  Proof. intros H. unfold maybe_record, one_or_none. now rewrite records_word, by_code_same. Qed.
  Lemma strings_word code b : (forall i f, module_field U (module_code_num code) i f = f) -> strings_of e code (word_module U b) = strings_of e code b.
  Proof. intros H. unfold strings_of. now rewrite records_word, by_code_same. Qed.
  Lemma types_word b : values (let? tb := sub_block IbType b in omap_err MdTypes (type_table_of_w U e tb))
    (let? tb := sub_block IbType (word_module U b) in omap_err MdTypes (type_table_of e tb)).
  Proof.
    unfold sub_block, exactly_one_block. rewrite by_id_word. destruct (block_id_dec _ _) as [_|N]; [|now destruct N].
    destruct (by_id (BIr IbType) b) as [|tb [|? ?]]; cbn [map exactly_one_of omap_err obind]; try apply values_refl. rewrite type_table_reduce. apply values_refl.
  Qed.
  Lemma ctx_values t b : N.of_nat (length t) < U -> values (module_ctx_w U e t b) (module_ctx e t (word_module U b)).
  Proof.
    intros L. unfold module_ctx_w, module_ctx. unfold exactly_one at 1 2. rewrite records_word.
    rewrite by_code_same by reflexivity. rewrite maybe_word by reflexivity. rewrite !strings_word by reflexivity.
    apply values_bind; [apply values_refl|intros r _]. apply values_bind; [apply values_refl|intros version _].
    apply values_bind; [apply values_refl|intros lr _]. apply values_bind; [apply values_refl|intros lay _].
    apply values_bind; [apply values_refl|intros sections _]. apply values_bind; [apply values_refl|intros gcs _].
    assert (SB : forall id, id <> IbType -> sub_block id (word_module U b) = sub_block id b).
    { intros id N. unfold sub_block, exactly_one_block. rewrite by_id_word. destruct (block_id_dec _ _) as [X|_]; [injection X as X; now destruct N|reflexivity]. }
    assert (MB : forall id, id <> IbType -> maybe_block id (word_module U b) = maybe_block id b).
    { intros id N. unfold maybe_block, one_or_none_block. rewrite by_id_word. destruct (block_id_dec _ _) as [X|_]; [injection X as X; now destruct N|reflexivity]. }
    rewrite (SB IbValueSymtab) by discriminate. rewrite !MB by discriminate.
    assert (BA : forall E A B (m : outcome E block) (f : block -> outcome E A) (k : A -> outcome E B), (let? x := m in let? y := f x in k y) = (let? y := (let? x := m in f x) in k y)).
    { intros E A B [x| | |] f k; reflexivity. }
    rewrite !BA. apply values_bind; [apply types_word|intros types _].
    apply values_bind; [apply values_refl|intros vb _]. cbv zeta. apply values_bind; [apply values_refl|intros gb _].
    apply values_bind; [apply values_refl|intros groups _]. apply values_bind; [apply values_refl|intros ab _]. apply values_bind; [apply values_refl|intros attrs _].
    apply values_bind; [|intros; apply values_refl]. apply values_map. rewrite by_code_mr. apply values_collect. intros r' R. apply by_code_code in R. now apply comdat_values.
  Qed.
  Lemma ctx_strtab t b x : module_ctx_w U e t b = Ok x -> cx_strtab x = t.
  Proof. unfold module_ctx_w. intros H. repeat (apply obind_iff in H as (? & _ & H); cbv zeta in H). now injection H as <-. Qed.
  Theorem module_values host t b : N.of_nat (length t) < U -> values (module_map_w U e host t b) (module_map e host t (word_module U b)).
  Proof.
    intros L. unfold module_map_w, module_map. rewrite !records_word, !maybe_word, !strings_word by reflexivity.
    apply values_bind; [now apply ctx_values|intros x X]. apply ctx_strtab in X.
    apply values_bind; [apply values_refl|intros tr' _]. apply values_bind; [apply values_refl|intros triple _].
    apply values_bind; [apply values_refl|intros ar _]. apply values_bind; [apply values_refl|intros asm _]. apply values_bind; [apply values_refl|intros deplibs _].
    rewrite !by_code_mr. rewrite by_id_word. destruct (block_id_dec _ _) as [N|_]; [discriminate N|].
    apply values_bind; [apply values_map, values_collect; intros r R; apply by_code_code in R; apply fn_values; [exact R|now rewrite X]|intros fns _].
    apply values_bind; [|intros us _].
    { apply values_map. rewrite <- (map_id (by_id (BIr IbFunction) b)) at 2. apply values_collect. intros fb _ u.
      split; intros H; [destruct (fn_block_never_w _ _ _ H)|destruct (fn_block_never _ _ _ _ H)]. }
    apply values_bind; [apply values_map, values_collect; intros r R; apply by_code_code in R; apply alias_values; [exact R|now rewrite X]|intros als _]. apply values_refl.
  Qed.
End Reduce.
