(** The rules of VerdictSpec.v are exactly what the mapping does: records and tables. *)
From Verif Require Import Base Strings StringsProofs EnumModel SupportModel SupportSpec SupportProofs SupportMain LayoutModel LayoutMain CursorModel StreamModel
  UnrollModel UnrollSpec UnrollProofs UnrollMain UnrollApi UnrollStopSpec AttributeModel AttributeSpec AttributeProofs AttributeMain TablesModel TablesSpec
  TablesProofs TypeTableModel TypeTableSpec TypeTableMain RecordModel RecordSpec RecordProofs ModuleModel ModuleSpec ModuleProofs ModuleBodies PipelineSpec
  PipelineProofs PipelinePanics TypeStopSpec TypeStops VerdictSpec.
From Verif Require Export Rules.
From Coq Require Import Lia ZifyBool ZifyNat ZifyN.
Ltac Zify.zify_post_hook ::= Z.div_mod_to_equations.
Local Open Scope N_scope.
#[local] Arguments N.add : simpl never.
#[local] Arguments N.sub : simpl never.
#[local] Arguments N.modulo : simpl never.
#[local] Arguments N.pow : simpl never.

(** *** Text, bytes, names *)

Lemma text_decided e r : decided (try_string e r 0) (text_rule e r).
Proof. apply dec_exact. apply text_exact. Qed.

Lemma fields_two {E} e (bad : N -> N -> E) r : (2 <= length (r_fields r))%nat -> fields_from e bad r 0 = Ok (r_fields r).
Proof.
  intros L. unfold fields_from. destruct (N.of_nat (length (r_fields r)) =? 0) eqn:Z; [lia|]. cbn [obind].
  destruct (_ <=? 0) eqn:Y; [lia|]. destruct (_ <? 0) eqn:X; [lia|]. reflexivity.
Qed.
Lemma blob_decided e r : decided (try_blob e r 0) (blob_rule e r).
Proof.
  assert (T : blob_rule e r (verdict_of (try_blob e r 0))).
  { destruct (try_blob e r 0) as [t|x|p|] eqn:Q.
    - apply blob_iff in Q. now apply BbFine with t.
    - destruct (r_fields r) as [|a [|b l]] eqn:F.
      + unfold try_blob, fields_from in Q. rewrite F in Q. destruct (overflow_checks e); discriminate Q.
      + unfold try_blob, fields_from in Q. rewrite F in Q. injection Q as <-. now apply BbOne with a.
      + assert (L : (2 <= length (r_fields r))%nat) by (rewrite F; cbn; lia).
        assert (NB : ~ Forall (fun x => x < 256) (r_fields r)).
        { intros X. assert (blob_of e r (r_fields r)) as Y by (left; auto). apply blob_iff in Y. rewrite Q in Y. discriminate Y. }
        unfold try_blob in Q. rewrite fields_two in Q by exact L. cbn [obind] in Q.
        assert (x = BlBadByte) as ->; [|now apply BbByte].
        revert Q. generalize (r_fields r). clear. intros fs. induction fs as [|y fs IH]; cbn [collect]; [discriminate|].
        unfold u8_of at 1. destruct (y <? 256); cbn [obind]; [|congruence].
        destruct (collect (u8_of BlBadByte) fs); cbn [obind]; try discriminate. intros [= ->]. now apply IH.
    - apply blob_panic in Q as (-> & O & F). now apply BbEmpty.
    - now apply blob_fuel in Q. }
  apply dec_intro; [exact T|]. intros v V.
  assert (NE : forall t, blob_of e r t -> verdict_of (try_blob e r 0) = Fine) by (intros t H; apply blob_iff in H; now rewrite H).
  assert (NP : overflow_checks e = true -> r_fields r = [] -> verdict_of (try_blob e r 0) = Panics PSubOverflow).
  { intros H1 H2. assert (try_blob e r 0 = Panic PSubOverflow) as -> by (apply blob_panic; auto). reflexivity. }
  destruct V as [t H|H1 H2|x H|H1 H2]; [eauto|eauto| |].
  - inversion T as [t B|B1 B2|y B|B1 B2]; rewrite ?H in *; cbn in *; try lia; try congruence.
    destruct B as [(L & _)|(_ & X & _)]; rewrite H in *; cbn in *; [lia|discriminate].
  - inversion T as [t B|B1 B2|y B|B1 B2]; try reflexivity; exfalso.
    + destruct B as [(L & X & Y)|(_ & X & _)]; [rewrite X in H2; contradiction|rewrite X in H1; cbn in H1; lia].
    + rewrite B2 in H1; cbn in H1; lia.
    + rewrite B in H1; cbn in H1; lia.
Qed.

Lemma app_eq_length {A} (a b c d : list A) : a ++ b = c ++ d -> length a = length c -> a = c /\ b = d.
Proof.
  revert c. induction a as [|x a IH]; intros [|y c] H L; cbn in *; try discriminate L; [auto|]. injection H as -> H.
  destruct (IH c H) as [-> ->]; [lia|auto].
Qed.
Lemma reference_decided e t offset size : offset < two64 -> size < two64 -> N.of_nat (length t) < two64 ->
  decided (strtab_try_get e t offset size) (reference_rule e t offset size).
Proof.
  intros O Z T. pose proof (strtab_lookup e t offset size) as L. pose proof (strtab_overflow e t offset size O Z) as V.
  unfold two64 in *. change (2 ^ 64) with 18446744073709551616 in *.
  assert (SL : forall s, stored t offset size s -> offset + size < 18446744073709551616) by (intros s H; apply stored_slice in H; lia).
  destruct (N.lt_ge_cases (offset + size) 18446744073709551616) as [S0|S0].
  - destruct (L S0) as (OK & RG & [ST _] & NP & NF). apply dec_intro.
    + destruct (strtab_try_get e t offset size) as [s|x|p|] eqn:Q; [| |now destruct (NP p)|now destruct NF].
      * destruct (proj1 (OK s) eq_refl) as [H1 H2]. now apply ReFine with s.
      * cbn. destruct x as [| | |x].
        -- exfalso. unfold strtab_try_get in Q. destruct (size =? 0); [discriminate Q|]. destruct (_ <=? offset); [discriminate Q|].
           unfold usize_add in Q. destruct (offset + size <? two64); cbn [obind] in Q; [|destruct (overflow_checks e); cbn [obind] in Q].
           ++ destruct (_ <? _); [discriminate Q|]. destruct (slice _ _ _); [|discriminate Q]. destruct (utf8_decode _); discriminate Q.
           ++ discriminate Q.
           ++ destruct (_ <? _); [discriminate Q|]. destruct (slice _ _ _); [|discriminate Q]. destruct (utf8_decode _); discriminate Q.
        -- exfalso. unfold strtab_try_get in Q. destruct (size =? 0); [discriminate Q|]. destruct (_ <=? offset); [discriminate Q|].
           unfold usize_add in Q. destruct (offset + size <? two64); cbn [obind] in Q; [|destruct (overflow_checks e); cbn [obind] in Q].
           ++ destruct (_ <? _); [discriminate Q|]. destruct (slice _ _ _); [|discriminate Q]. destruct (utf8_decode _); discriminate Q.
           ++ discriminate Q.
           ++ destruct (_ <? _); [discriminate Q|]. destruct (slice _ _ _); [|discriminate Q]. destruct (utf8_decode _); discriminate Q.
        -- apply ReRange. destruct (proj1 RG eq_refl) as [H|H]; [now left|right; right; lia].
        -- destruct (proj1 (ST x) eq_refl) as (H1 & before & raw & after & E & L1 & L2 & H). now apply (ReText e t offset size before raw after).
    + intros v R. destruct R as [s H1 H2|H|before raw after x E L1 L2 H1 H|H1 H2].
      * now rewrite (proj2 (OK s) (conj H1 H2)).
      * assert (strtab_try_get e t offset size = Err SbBadRange) as ->; [|reflexivity]. destruct H as [->|[H|[H _]]]; [apply RG; auto| |apply RG; auto].
        destruct (N.eq_dec size 0) as [->|NZ]; apply RG; [auto|right; lia].
      * assert (strtab_try_get e t offset size = Err (SbBadString x)) as ->; [|reflexivity]. apply ST. split; [exact H1|]. eauto 10.
      * lia.
  - rewrite (V S0). destruct (N.of_nat (length t) <=? offset) eqn:Q.
    + apply dec_intro; [apply ReRange; lia|]. intros v R. destruct R as [s H1 H2|H|before raw after x E L1 L2 H1 H|H1 H2]; [|reflexivity| |lia].
      * apply SL in H2. lia.
      * exfalso. assert (N.of_nat (length t) = offset + size + N.of_nat (length after)) by (rewrite E, !app_length; lia). lia.
    + apply dec_intro; [apply RePanics; lia|]. intros v R. destruct R as [s H1 H2|H|before raw after x E L1 L2 H1 H|H1 H2]; [| | |reflexivity].
      * apply SL in H2. lia.
      * exfalso. lia.
      * exfalso. assert (N.of_nat (length t) = offset + size + N.of_nat (length after)) by (rewrite E, !app_length; lia). lia.
Qed.

Lemma name_decided e t r : fields64 r -> (2 <= length (r_fields r))%nat -> N.of_nat (length t) < two64 ->
  decided (strtab_read_name e t r) (name_rule e t r).
Proof.
  intros F L T. unfold strtab_read_name, name_rule, field. unfold fields64 in F. destruct (r_fields r) as [|o [|s l]]; cbn in L; [lia|lia|].
  inversion F as [|? ? F1 F']; subst. inversion F' as [|? ? F2 _]; subst.
  apply (dec_ext _ _ _ (reference_decided e t o s F1 F2 T)). intros v. cbn [nth_error]. split; [eauto 6|].
  intros (o' & s' & [= <-] & [= <-] & H). exact H.
Qed.

(** *** Records *)

Lemma in_table {T : Set} (of : N -> option T) num table v : realises of num table -> ((exists x, of v = Some x) <-> In v (map snd table)).
Proof.
  intros R. rewrite in_map_iff. split.
  - intros [x H]. apply (enum_iff _ _ _ _ _ R) in H. exists (x, v). auto.
  - intros ((x & w) & <- & H). exists x. cbn. apply (enum_iff _ _ _ _ _ R). exact H.
Qed.
Lemma opt_demand {E A} (r : record) i d (of : N -> option A) (bad : N -> E) (P : N -> Prop) :
  (forall v, (exists x, of v = Some x) <-> P v) -> P 0 ->
  decided (match nth_error (r_fields r) i with None => Ok d | Some v => ok_or (of v) (bad v) end) (demand (P (field_or 0 r i)) (bad (field_or 0 r i))).
Proof.
  intros H P0. unfold field_or. destruct (nth_error (r_fields r) i) as [v|] eqn:Q.
  - rewrite (nth_error_nth _ _ 0 Q). now apply dec_or.
  - rewrite nth_overflow by (now apply nth_error_None). intros v. cbn. split; [intros <-; now constructor|].
    intros V; inversion V as [|X]; [reflexivity|]. contradiction.
Qed.
Lemma some_index {A} (l : list A) i : (exists a, nth_error l (N.to_nat i) = Some a) <-> i < N.of_nat (length l).
Proof.
  split.
  - intros [a H]. assert (nth_error l (N.to_nat i) <> None) as X by congruence. apply nth_error_Some in X. lia.
  - intros H. destruct (nth_error l (N.to_nat i)) as [a|] eqn:Q; [eauto|]. apply nth_error_None in Q. lia.
Qed.
Lemma entry_decided {E} (bad : N -> E) l i : decided (table_entry bad l i) (demand (refers l i) (bad (i - 1))).
Proof.
  unfold table_entry, refers. apply dec_demand. destruct (i =? 0) eqn:Z; [right; split; [eauto|lia]|].
  destruct (nth_error l (N.to_nat (i - 1))) as [s|] eqn:Q; cbn [ok_or obind].
  - right. split; [eauto|]. assert (i - 1 < N.of_nat (length l)) by (apply some_index; eauto). lia.
  - left. split; [reflexivity|]. apply nth_error_None in Q. lia.
Qed.
Lemma field_or_fld r i : field_or 0 r i = fld r i.
Proof. reflexivity. Qed.

Lemma comdat_decided e version t r : fields64 r -> N.of_nat (length t) < two64 -> decided (comdat_of e version t r) (comdat_rule e version t r).
Proof.
  intros F T. unfold comdat_of, comdat_rule. apply dec_if; [lia|]. intros V2.
  destruct (r_fields r) as [|o [|s [|k [|x l]]]] eqn:Q.
  1,2,3,5: apply dec_stop; cbn; lia.
  apply dec_next; [reflexivity|].
  apply dec_bind.
  { apply dec_map_err. apply (dec_same (strtab_read_name e t r)); [unfold strtab_read_name; now rewrite Q|].
    apply name_decided; [exact F|rewrite Q; cbn; lia|exact T]. }
  intros nm _. apply dec_last. unfold field_or. rewrite Q. cbn [nth].
  apply (dec_pure (ok_or (selection_kind_of k) (CdKind k))). apply dec_or.
  split.
  - intros [y H]. apply selection_iff in H. cbn in H.
    repeat destruct H as [H|H]; try contradiction H; injection H as _ <-; lia.
  - intros H. assert (k = 0 \/ k = 1 \/ k = 2 \/ k = 3 \/ k = 4) as X by lia.
    repeat destruct X as [X|X]; subst; cbn; eauto.
Qed.

Lemma function_decided e c r : fields64 r -> N.of_nat (length (cx_strtab c)) < two64 -> decided (fn_of e c r) (function_rule e c r).
Proof.
  intros F T. unfold fn_of, function_rule. apply dec_if; [unfold use_strtab; lia|]. intros _.
  apply dec_if; [lia|]. intros L.
  apply dec_bind; [apply dec_map_err, name_decided; [exact F|lia|exact T]|]. intros nm _.
  apply dec_bind; [apply dec_or; apply some_index|]. intros ty HT. apply ok_or_ok in HT.
  apply dec_bind.
  { apply dec_demand. unfold at_index. change (field_or 0 r 2) with (fld r 2).
    assert (X : nth_error (cx_types c) (N.to_nat (fld r 2)) = Some ty) by exact HT.
    destruct ty; try (left; split; [reflexivity|]; intros (t & H1 & (a & b & d & H2)); congruence).
    right. split; [eauto|]. eexists. split; [exact X|]. unfold function_type. eauto. }
  intros ty' _. clear HT.
  apply dec_bind; [apply dec_or; apply (in_table _ _ _ _ calling_convention_realises)|]. intros cc _. cbv zeta.
  apply dec_bind.
  { apply dec_demand. change (field_or 0 r 6) with (fld r 6). unfold refers. destruct (fld r 6 =? 0) eqn:Z; [right; split; [eauto|lia]|].
    unfold attributes_get. destruct (nth_error (cx_attributes c) (N.to_nat (fld r 6 - 1))) as [a|] eqn:Q; cbn [ok_or obind].
    - right. split; [eauto|]. assert (fld r 6 - 1 < N.of_nat (length (cx_attributes c))) by (apply some_index; eauto). lia.
    - left. split; [reflexivity|]. apply nth_error_None in Q. lia. }
  intros attrs _.
  apply dec_bind.
  { apply dec_demand. change (field_or 0 r 7) with (fld r 7). unfold maybe_align_of. destruct (fld r 7 mod 256 =? 0) eqn:Z; [right; split; [eexists; reflexivity|lia]|].
    unfold from_shift, MAX_SHIFT. destruct (63 <? fld r 7 mod 256 - 1) eqn:Y; cbn [obind omap_err]; [left; split; [reflexivity|lia]|right; split; [eexists; reflexivity|lia]]. }
  intros al _.
  apply dec_bind; [apply entry_decided|]. intros sec _.
  apply dec_bind; [apply dec_or; apply (in_table _ _ _ _ visibility_realises)|]. intros vis _.
  apply dec_bind.
  { unfold field_or. destruct (nth_error (r_fields r) 10) as [i|] eqn:Q.
    - rewrite (nth_error_nth _ _ 0 Q). apply entry_decided.
    - rewrite nth_overflow by (now apply nth_error_None). apply dec_demand. right. split; [eauto|unfold refers; lia]. }
  intros gc _. apply dec_last.
  match goal with |- decided (obind ?m (fun dll => Ok (@?f dll))) _ => apply (dec_pure m f) end.
  apply (opt_demand r 13 DllDefault dll_storage_class_of FeStorage (fun v => In v (map snd dll_storage_class_table))).
  - intros v. apply (in_table _ _ _ _ dll_storage_class_realises).
  - cbn. auto.
Qed.

Lemma alias_decided e c r : fields64 r -> N.of_nat (length (cx_strtab c)) < two64 -> decided (alias_of e c r) (alias_rule e c r).
Proof.
  intros F T. unfold alias_of, alias_rule. apply dec_if; [unfold use_strtab; lia|]. intros _.
  apply dec_if; [lia|]. intros L.
  apply dec_bind; [apply dec_map_err, name_decided; [exact F|lia|exact T]|]. intros nm _.
  apply dec_bind; [apply dec_or; apply some_index|]. intros ty HT. cbv zeta.
  apply dec_bind.
  { apply (opt_demand r 5 VisDefault visibility_of AlVisibility (fun v => In v (map snd visibility_table))).
    - intros v. apply (in_table _ _ _ _ visibility_realises).
    - cbn. auto. }
  intros vis _. apply dec_last.
  match goal with |- decided (obind ?m (fun dll => Ok (@?f dll))) _ => apply (dec_pure m f) end.
  apply (opt_demand r 6 DllDefault dll_storage_class_of AlStorage (fun v => In v (map snd dll_storage_class_table))).
  - intros v. apply (in_table _ _ _ _ dll_storage_class_realises).
  - cbn. auto.
Qed.
