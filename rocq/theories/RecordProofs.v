(** Facts about function, alias and COMDAT records. *)
From Verif Require Import Base Strings StringsProofs EnumModel SupportModel SupportSpec SupportMain UnrollModel UnrollSpec
  LayoutModel LayoutMain AttributeModel AttributeSpec AttributeProofs AttributeMain TablesModel TablesSpec TablesProofs
  TypeTableModel TypeTableSpec RecordModel RecordSpec.
From Coq Require Import Lia ZifyBool ZifyNat ZifyN.
Ltac Zify.zify_post_hook ::= Z.div_mod_to_equations.
Local Open Scope N_scope.
#[local] Arguments N.add : simpl never.
#[local] Arguments N.sub : simpl never.
#[local] Arguments N.modulo : simpl never.

(** *** Fields *)

Lemma field_fld r i v : field r i v <-> fld r i = v /\ (i < length (r_fields r))%nat.
Proof.
  unfold field, fld. split.
  - intros H. split; [now apply nth_error_nth|]. apply nth_error_Some. congruence.
  - intros [<- L]. now apply nth_error_nth'.
Qed.
Lemma field_fun r i v w : field r i v -> field r i w -> v = w.
Proof. unfold field. congruence. Qed.
Lemma no_field_none r i : no_field r i <-> nth_error (r_fields r) i = None.
Proof. unfold no_field. now rewrite nth_error_None. Qed.
Lemma fld_field r i : (i < length (r_fields r))%nat -> field r i (fld r i).
Proof. intros L. now apply field_fld. Qed.
Lemma at_field r i (P : N -> Prop) : (i < length (r_fields r))%nat -> (P (fld r i) <-> exists v, field r i v /\ P v).
Proof.
  intros L. split; [intros H; exists (fld r i); split; [now apply fld_field|exact H]|].
  intros (v & F & H). apply field_fld in F as [-> _]. exact H.
Qed.

(** *** Decoders *)

Lemma table_dec {T : Set} (table : list (T * list N)) v :
  (exists x l, In (x, l) table /\ In v l) \/ (forall x l, In (x, l) table -> ~ In v l).
Proof.
  induction table as [|[x l] t IH]; [right; intros ? ? []|].
  destruct (in_dec N.eq_dec v l) as [I|I]; [left; exists x, l; split; [now left|exact I]|].
  destruct IH as [(y & m & Y & M)|IH]; [left; exists y, m; split; [now right|exact M]|right].
  intros y m [[= <- <-]|H]; [exact I|exact (IH y m H)].
Qed.
Lemma decodes_iff {T : Set} (of : N -> T) table d : realises_with_default of table d ->
  forall v x, of v = x <-> decodes table d v x.
Proof.
  intros [R1 R2] v x. unfold decodes. split.
  - intros <-. destruct (table_dec table v) as [(y & l & Y & L)|H].
    + left. exists l. rewrite (R1 _ _ _ Y L). auto.
    + right. split; [exact H|now apply R2].
  - intros [(l & Y & L)|[H ->]]; [now apply (R1 _ _ _ Y L)|now apply R2].
Qed.
Lemma table_entry_iff {E} (bad : N -> E) l i o : table_entry bad l i = Ok o <-> one_based l i o.
Proof.
  unfold table_entry, one_based. destruct (i =? 0) eqn:Z.
  - split; [intros [= <-]; left; split; [lia|reflexivity]|]. intros [[_ ->]|(k & x & -> & _)]; [reflexivity|lia].
  - split.
    + intros H. apply obind_iff in H as (s & S & [= <-]). apply ok_or_ok in S. right. exists (i - 1), s. split; [lia|auto].
    + intros [[-> _]|(k & x & -> & H & ->)]; [discriminate|]. replace (k + 1 - 1) with k by lia. now rewrite H.
Qed.
Lemma table_entry_total {E} (bad : N -> E) l i : (forall p, table_entry bad l i <> Panic p) /\ table_entry bad l i <> OutOfFuel.
Proof. unfold table_entry. destruct (i =? 0); [split; discriminate|]. destruct (nth_error _ _); split; discriminate. Qed.
Lemma maybe_align_iff v o : maybe_align_of v = Ok o <-> aligned_to v o.
Proof.
  unfold maybe_align_of, aligned_to, from_shift, MAX_SHIFT. destruct (v =? 0) eqn:Z.
  - split; [intros [= <-]; left; split; [lia|reflexivity]|]. intros [[_ ->]|(k & -> & _)]; [reflexivity|lia].
  - destruct (63 <? v - 1) eqn:B; cbn [obind].
    + split; [discriminate|]. intros [[-> _]|(k & -> & L & _)]; [discriminate|lia].
    + split; [intros [= <-]; right; exists (v - 1); split; [lia|split; [lia|reflexivity]]|].
      intros [[-> _]|(k & -> & L & ->)]; [discriminate|]. now replace (k + 1 - 1) with k by lia.
Qed.
Lemma maybe_align_total v : (forall p, maybe_align_of v <> Panic p) /\ maybe_align_of v <> OutOfFuel.
Proof. unfold maybe_align_of, from_shift. destruct (v =? 0); [split; discriminate|]. destruct (MAX_SHIFT <? _); split; discriminate. Qed.

(** *** Names *)

Lemma name_iff e t r s : fields64 r -> N.of_nat (length t) < two64 -> (2 <= length (r_fields r))%nat ->
  (strtab_read_name e t r = Ok s <-> named t r s).
Proof.
  intros F B L. unfold named, field. destruct (r_fields r) as [|o [|z l]] eqn:R; cbn in L; [lia|lia|].
  destruct (read_name_fields e t r) as [N _]. rewrite (N _ _ _ R). unfold fields64 in F. rewrite R in F.
  inversion F as [|? ? F1 F2]; subst. inversion F2 as [|? ? F3 _]; subst. cbn [nth_error].
  assert (X : (strtab_try_get e t o z = Ok s <-> z <> 0 /\ stored t o z s)).
  { destruct (N.lt_ge_cases (o + z) two64) as [S|S]; [now apply strtab_lookup|].
    rewrite strtab_overflow by assumption. split; [destruct (_ <=? o); discriminate|].
    intros [_ H]. apply stored_slice in H as [H _]. lia. }
  rewrite X. split; [intros [Z S]; exists o, z; auto|]. intros (? & ? & [= <-] & [= <-] & Z & S). auto.
Qed.
Lemma name_panic e t r p : fields64 r -> (2 <= length (r_fields r))%nat ->
  (strtab_read_name e t r = Panic p <->
   p = (if overflow_checks e then PAddOverflow else PSliceRange) /\ bad_reference t r).
Proof.
  intros F L. unfold bad_reference, field. destruct (r_fields r) as [|o [|z l]] eqn:R; cbn in L; [lia|lia|].
  destruct (read_name_fields e t r) as [N _]. rewrite (N _ _ _ R). unfold fields64 in F. rewrite R in F.
  inversion F as [|? ? F1 F2]; subst. inversion F2 as [|? ? F3 _]; subst. cbn [nth_error].
  change (2 ^ 64) with two64.
  destruct (N.lt_ge_cases (o + z) two64) as [S|S].
  - destruct (strtab_lookup e t o z S) as (_ & _ & _ & H & _). split; [intros P; now apply H in P|].
    intros (_ & ? & ? & [= <-] & [= <-] & _ & K). lia.
  - rewrite strtab_overflow by assumption. destruct (N.of_nat (length t) <=? o) eqn:Q.
    + split; [discriminate|]. intros (_ & ? & ? & [= <-] & [= <-] & K & _). lia.
    + split; [intros [= <-]; split; [reflexivity|exists o, z; repeat split; auto; lia]|]. intros [-> _]. reflexivity.
Qed.
Lemma name_fuel e t r : fields64 r -> (2 <= length (r_fields r))%nat -> strtab_read_name e t r <> OutOfFuel.
Proof.
  intros F L. destruct (r_fields r) as [|o [|z l]] eqn:R; cbn in L; [lia|lia|].
  destruct (read_name_fields e t r) as [N _]. rewrite (N _ _ _ R). unfold fields64 in F. rewrite R in F.
  inversion F as [|? ? F1 F2]; subst. inversion F2 as [|? ? F3 _]; subst.
  destruct (N.lt_ge_cases (o + z) two64) as [S|S]; [now apply strtab_lookup|].
  rewrite strtab_overflow by assumption. destruct (_ <=? o); discriminate.
Qed.

(** *** Functions *)

Lemma omap_err_panic {E F A} (f : E -> F) (m : outcome E A) p : omap_err f m = Panic p <-> m = Panic p.
Proof. destruct m; cbn; split; congruence. Qed.
Lemma omap_err_fuel {E F A} (f : E -> F) (m : outcome E A) : omap_err f m = OutOfFuel <-> m = OutOfFuel.
Proof. destruct m; cbn; split; congruence. Qed.

Lemma opt_field {E A} r i (of : N -> outcome E A) (P : N -> A -> Prop) d x :
  (forall v y, of v = Ok y <-> P v y) ->
  (match nth_error (r_fields r) i with None => Ok d | Some v => of v end = Ok x <->
   (exists v, field r i v /\ P v x) \/ (no_field r i /\ x = d)).
Proof.
  intros H. rewrite no_field_none. unfold field. destruct (nth_error (r_fields r) i) as [v|].
  - rewrite H. split; [intros K; left; eauto|]. intros [(? & [= <-] & K)|[K _]]; [exact K|discriminate].
  - split; [intros [= <-]; auto|]. intros [(? & [=] & _)|[_ ->]]. reflexivity.
Qed.
Lemma opt_field_pure {A} r i (of : N -> A) (P : N -> A -> Prop) d x :
  (forall v y, of v = y <-> P v y) ->
  (match nth_error (r_fields r) i with Some v => of v | None => d end = x <->
   (exists v, field r i v /\ P v x) \/ (no_field r i /\ x = d)).
Proof.
  intros H. rewrite no_field_none. unfold field. destruct (nth_error (r_fields r) i) as [v|].
  - rewrite H. split; [intros K; left; eauto|]. intros [(? & [= <-] & K)|[K _]]; [exact K|discriminate].
  - split; [intros <-; auto|]. intros [(? & [=] & _)|[_ ->]]. reflexivity.
Qed.

Lemma function_fields e c r f : use_strtab c = true -> (10 <= length (r_fields r))%nat ->
  (fn_of e c r = Ok f <->
   strtab_read_name e (cx_strtab c) r = Ok (fn_name f) /\
   (types_get (cx_types c) (fld r 2) = Some (fn_ty f) /\ function_type (fn_ty f)) /\
   calling_convention_of (fld r 3) = Some (fn_cc f) /\
   (fn_declaration f = true <-> fld r 4 <> 0) /\
   linkage_of (fld r 5) = fn_linkage f /\
   one_based (cx_attributes c) (fld r 6) (fn_attributes f) /\
   maybe_align_of (fld r 7 mod 256) = Ok (fn_alignment f) /\
   table_entry FeSection (cx_sections c) (fld r 8) = Ok (fn_section f) /\
   visibility_of (fld r 9) = Some (fn_visibility f) /\
   match nth_error (r_fields r) 10 with None => Ok None | Some i => table_entry FeGc (cx_gcs c) i end = Ok (fn_gc f) /\
   match nth_error (r_fields r) 11 with Some v => unnamed_addr_of v | None => UaNone end = fn_unnamed_addr f /\
   match nth_error (r_fields r) 13 with
   | None => Ok DllDefault
   | Some v => ok_or (dll_storage_class_of v) (FeStorage v) end = Ok (fn_storage f)).
Proof.
  intros V L. unfold fn_of. rewrite V. cbn [negb]. replace (length (r_fields r) <? 10)%nat with false by lia.
  split.
  - intros H. apply obind_iff in H as (nm & H1 & H). apply omap_err_iff in H1.
    apply obind_iff in H as (t & H2 & H). apply ok_or_ok in H2.
    apply obind_iff in H as (t' & H3 & H).
    assert (T : t' = t /\ function_type t) by (unfold function_type; destruct t; try discriminate H3; injection H3 as <-; eauto).
    destruct T as [-> T]. clear H3.
    apply obind_iff in H as (cc & H4 & H). apply ok_or_ok in H4.
    cbv zeta in H. apply obind_iff in H as (at_ & H5 & H).
    apply obind_iff in H as (al & H6 & H). apply omap_err_iff in H6.
    apply obind_iff in H as (sec & H7 & H).
    apply obind_iff in H as (vis & H8 & H). apply ok_or_ok in H8.
    apply obind_iff in H as (gc & H9 & H).
    apply obind_iff in H as (dll & H10 & H). injection H as <-. cbn.
    split; [assumption|]. split; [auto|]. split; [assumption|].
    split; [destruct (fld r 4 =? 0) eqn:Z; cbn; split; intros; try discriminate; try reflexivity; lia|].
    split; [reflexivity|].
    split.
    { unfold one_based. destruct (fld r 6 =? 0) eqn:Z; [injection H5 as <-; left; split; [lia|reflexivity]|].
      apply obind_iff in H5 as (a & H5 & [= <-]). apply ok_or_ok in H5. right. exists (fld r 6 - 1), a. split; [lia|auto]. }
    auto 10.
  - intros (H1 & [H2 T] & H4 & HD & HL & H5 & H6 & H7 & H8 & H9 & HU & H10).
    rewrite H1. cbn [omap_err obind]. rewrite H2. cbn [ok_or obind].
    destruct T as (tr & tp & tv & T). rewrite T. cbn [obind]. rewrite H4. cbn [ok_or obind]. cbv zeta.
    assert (A : (if fld r 6 =? 0 then Ok None
                 else let? a := ok_or (attributes_get (cx_attributes c) (fld r 6 - 1)) (FeAttribute (fld r 6)) in Ok (Some a))
                = Ok (fn_attributes f)).
    { destruct H5 as [[-> ->]|(k & x & K & X & ->)]; [reflexivity|]. replace (fld r 6 =? 0) with false by lia.
      unfold attributes_get. replace (fld r 6 - 1) with k by lia. now rewrite X. }
    rewrite A. cbn [obind]. rewrite H6. cbn [omap_err obind]. rewrite H7. cbn [obind]. rewrite H8. cbn [ok_or obind].
    rewrite H9. cbn [obind]. rewrite H10. cbn [obind]. rewrite HL, HU, <- T.
    replace (negb (fld r 4 =? 0)) with (fn_declaration f); [now destruct f|].
    destruct (fn_declaration f) eqn:D, (fld r 4 =? 0) eqn:Z; cbn; try reflexivity.
    + destruct HD as [HD _]. specialize (HD eq_refl). lia.
    + destruct HD as [_ HD]. assert (false = true) by (apply HD; lia). discriminate.
Qed.

Lemma enum_iff {T : Set} (of : N -> option T) num table v x : realises of num table -> (of v = Some x <-> In (x, v) table).
Proof. intros [R _]. apply R. Qed.

Lemma and_intro2 {A A' B B' : Prop} : (A <-> A') -> (B <-> B') -> (A /\ B <-> A' /\ B').
Proof. tauto. Qed.

Lemma function_exact e c r f : fields64 r -> N.of_nat (length (cx_strtab c)) < two64 ->
  (fn_of e c r = Ok f <-> 2 <= cx_version c /\ function_described c r f).
Proof.
  intros F B. destruct (use_strtab c) eqn:V.
  2: { unfold use_strtab in V. unfold fn_of, use_strtab. rewrite V. cbn [negb]. split; [discriminate|]. intros [K _]. lia. }
  destruct (Nat.lt_ge_cases (length (r_fields r)) 10) as [L|L].
  { unfold fn_of. rewrite V. cbn [negb]. replace (length (r_fields r) <? 10)%nat with true by lia.
    split; [discriminate|]. intros [_ K]. destruct (fd_visibility _ _ _ K) as (v & K' & _). apply field_fld in K' as [_ K']. lia. }
  rewrite (function_fields e c r f V L), (name_iff e _ r _ F B) by lia.
  rewrite (enum_iff _ _ _ _ _ calling_convention_realises), (enum_iff _ _ _ _ _ visibility_realises).
  rewrite (decodes_iff _ _ _ linkage_realises), maybe_align_iff, table_entry_iff.
  rewrite (opt_field r 10 _ (one_based (cx_gcs c)) None) by (intros; apply table_entry_iff).
  rewrite (opt_field_pure r 11 _ _ UaNone (fn_unnamed_addr f) (decodes_iff _ _ _ unnamed_addr_realises)).
  rewrite (opt_field r 13 (fun v => ok_or (dll_storage_class_of v) (FeStorage v)) (fun v x => In (x, v) dll_storage_class_table) DllDefault)
    by (intros; rewrite ok_or_ok; apply (enum_iff _ _ _ _ _ dll_storage_class_realises)).
  unfold types_get. fold (at_index (cx_types c) (fld r 2) (fn_ty f)).
  rewrite (at_field r 2 (fun i => at_index (cx_types c) i (fn_ty f) /\ function_type (fn_ty f))) by lia.
  rewrite (at_field r 3 (fun v => In (fn_cc f, v) calling_convention_table)) by lia.
  rewrite (at_field r 4 (fun v => fn_declaration f = true <-> v <> 0)) by lia.
  rewrite (at_field r 5 (fun v => decodes linkage_table LkExternal v (fn_linkage f))) by lia.
  rewrite (at_field r 6 (fun v => one_based (cx_attributes c) v (fn_attributes f))) by lia.
  rewrite (at_field r 7 (fun v => aligned_to (v mod 256) (fn_alignment f))) by lia.
  rewrite (at_field r 8 (fun v => one_based (cx_sections c) v (fn_section f))) by lia.
  rewrite (at_field r 9 (fun v => In (fn_visibility f, v) visibility_table)) by lia.
  split.
  - intros (H1 & H2 & H3 & H4 & H5 & H6 & H7 & H8 & H9 & H10 & H11 & H12). split; [unfold use_strtab in V; lia|].
    constructor; assumption.
  - intros [_ [H1 H2 H3 H4 H5 H6 H7 H8 H9 H10 H11 H12]]. auto 15.
Qed.

Lemma function_short e c r : (length (r_fields r) < 10)%nat ->
  fn_of e c r = Err (if 2 <=? cx_version c then FeTooShort (N.of_nat (length (r_fields r))) else FeV1).
Proof.
  intros L. unfold fn_of, use_strtab. destruct (2 <=? cx_version c); cbn [negb]; [|reflexivity].
  now replace (length (r_fields r) <? 10)%nat with true by lia.
Qed.
Lemma function_old e c r : cx_version c < 2 -> fn_of e c r = Err FeV1.
Proof. intros L. unfold fn_of, use_strtab. now replace (2 <=? cx_version c) with false by lia. Qed.

(** A [let?] whose first part neither panics nor runs out. *)
Lemma function_panic e c r p : fields64 r ->
  (fn_of e c r = Panic p <->
   p = (if overflow_checks e then PAddOverflow else PSliceRange) /\
   2 <= cx_version c /\ (10 <= length (r_fields r))%nat /\ bad_reference (cx_strtab c) r).
Proof.
  intros F. destruct (N.lt_ge_cases (cx_version c) 2) as [V|V].
  { rewrite function_old by exact V. split; [discriminate|lia]. }
  destruct (Nat.lt_ge_cases (length (r_fields r)) 10) as [L|L].
  { rewrite function_short by exact L. split; [destruct (_ <=? _); discriminate|lia]. }
  unfold fn_of, use_strtab. replace (2 <=? cx_version c) with true by lia. cbn [negb].
  replace (length (r_fields r) <? 10)%nat with false by lia.
  pose proof (name_panic e (cx_strtab c) r p F ltac:(lia)) as N.
  assert (K : forall m : outcome fn_err fn_rec, m = Panic p ->
    (forall q, m <> Panic q) -> p = (if overflow_checks e then PAddOverflow else PSliceRange) /\
    2 <= cx_version c /\ (10 <= length (r_fields r))%nat /\ bad_reference (cx_strtab c) r).
  { intros m H Q. now apply Q in H. }
  split.
  - intros H. apply obind_panic in H as [H|(nm & _ & H)].
    { apply omap_err_panic in H. apply N in H as [-> H]. auto. }
    exfalso. clear K N.
    apply obind_panic in H as [H|(t & _ & H)]; [now apply ok_or_panic in H|].
    apply obind_panic in H as [H|(t' & _ & H)]; [destruct t; discriminate H|].
    apply obind_panic in H as [H|(cc & _ & H)]; [now apply ok_or_panic in H|]. cbv zeta in H.
    apply obind_panic in H as [H|(a & _ & H)].
    { destruct (fld r 6 =? 0); [discriminate|]. apply obind_panic in H as [H|(a & _ & H)]; [now apply ok_or_panic in H|discriminate]. }
    apply obind_panic in H as [H|(al & _ & H)]; [apply omap_err_panic in H; now apply maybe_align_total in H|].
    apply obind_panic in H as [H|(s & _ & H)]; [now apply table_entry_total in H|].
    apply obind_panic in H as [H|(v & _ & H)]; [now apply ok_or_panic in H|].
    apply obind_panic in H as [H|(g & _ & H)].
    { destruct (nth_error (r_fields r) 10); [now apply table_entry_total in H|discriminate]. }
    apply obind_panic in H as [H|(d & _ & H)]; [|discriminate].
    destruct (nth_error (r_fields r) 13); [now apply ok_or_panic in H|discriminate].
  - intros (-> & _ & _ & H). assert (N' := proj2 N (conj eq_refl H)). now rewrite N'.
Qed.

Lemma function_fuel e c r : fields64 r -> fn_of e c r <> OutOfFuel.
Proof.
  intros F H. destruct (Nat.lt_ge_cases (length (r_fields r)) 10) as [L|L].
  { rewrite function_short in H by exact L. discriminate. }
  unfold fn_of in H. destruct (negb (use_strtab c)); [discriminate|].
  replace (length (r_fields r) <? 10)%nat with false in H by lia.
  apply obind_fuel in H as [H|(nm & _ & H)]; [apply omap_err_fuel in H; now apply name_fuel in H; [|exact F|lia]|].
  apply obind_fuel in H as [H|(t & _ & H)]; [now apply ok_or_fuel in H|].
  apply obind_fuel in H as [H|(t' & _ & H)]; [destruct t; discriminate H|].
  apply obind_fuel in H as [H|(cc & _ & H)]; [now apply ok_or_fuel in H|]. cbv zeta in H.
  apply obind_fuel in H as [H|(a & _ & H)].
  { destruct (fld r 6 =? 0); [discriminate|]. apply obind_fuel in H as [H|(a & _ & H)]; [now apply ok_or_fuel in H|discriminate]. }
  apply obind_fuel in H as [H|(al & _ & H)]; [apply omap_err_fuel in H; now apply maybe_align_total in H|].
  apply obind_fuel in H as [H|(s & _ & H)]; [now apply table_entry_total in H|].
  apply obind_fuel in H as [H|(v & _ & H)]; [now apply ok_or_fuel in H|].
  apply obind_fuel in H as [H|(g & _ & H)].
  { destruct (nth_error (r_fields r) 10); [now apply table_entry_total in H|discriminate]. }
  apply obind_fuel in H as [H|(d & _ & H)]; [|discriminate].
  destruct (nth_error (r_fields r) 13); [now apply ok_or_fuel in H|discriminate].
Qed.

(** *** Aliases *)

Lemma alias_fields e c r a : use_strtab c = true -> (5 <= length (r_fields r))%nat ->
  (alias_of e c r = Ok a <->
   strtab_read_name e (cx_strtab c) r = Ok (al_name a) /\
   types_get (cx_types c) (fld r 2) = Some (al_ty a) /\
   fld r 3 = al_value a /\
   linkage_of (fld r 4) = al_linkage a /\
   match nth_error (r_fields r) 5 with
   | None => Ok VisDefault
   | Some v => ok_or (visibility_of v) (AlVisibility v) end = Ok (al_visibility a) /\
   match nth_error (r_fields r) 6 with
   | None => Ok DllDefault
   | Some v => ok_or (dll_storage_class_of v) (AlStorage v) end = Ok (al_storage a) /\
   match nth_error (r_fields r) 7 with Some v => tls_mode_of v | None => TlsNotThreadLocal end = al_tls a /\
   match nth_error (r_fields r) 8 with Some v => unnamed_addr_of v | None => UaNone end = al_unnamed_addr a /\
   match nth_error (r_fields r) 9 with Some v => preemption_of v | None => RpDsoPreemptable end = al_preemption a).
Proof.
  intros V L. unfold alias_of. rewrite V. cbn [negb]. replace (length (r_fields r) <? 5)%nat with false by lia.
  split.
  - intros H. apply obind_iff in H as (nm & H1 & H). apply omap_err_iff in H1.
    apply obind_iff in H as (t & H2 & H). apply ok_or_ok in H2. cbv zeta in H.
    apply obind_iff in H as (vis & H3 & H). apply obind_iff in H as (dll & H4 & H). injection H as <-. cbn. auto 15.
  - intros (H1 & H2 & H3 & H4 & H5 & H6 & H7 & H8 & H9). rewrite H1. cbn [omap_err obind]. rewrite H2. cbn [ok_or obind].
    cbv zeta. rewrite H5. cbn [obind]. rewrite H6. cbn [obind]. rewrite H3, H4, H7, H8, H9. now destruct a.
Qed.

Lemma alias_exact e c r a : fields64 r -> N.of_nat (length (cx_strtab c)) < two64 ->
  (alias_of e c r = Ok a <-> 2 <= cx_version c /\ alias_described c r a).
Proof.
  intros F B. destruct (use_strtab c) eqn:V.
  2: { unfold use_strtab in V. unfold alias_of, use_strtab. rewrite V. cbn [negb]. split; [discriminate|]. intros [K _]. lia. }
  destruct (Nat.lt_ge_cases (length (r_fields r)) 5) as [L|L].
  { unfold alias_of. rewrite V. cbn [negb]. replace (length (r_fields r) <? 5)%nat with true by lia.
    split; [discriminate|]. intros [_ K]. destruct (ad_linkage _ _ _ K) as (v & K' & _). apply field_fld in K' as [_ K']. lia. }
  rewrite (alias_fields e c r a V L), (name_iff e _ r _ F B) by lia.
  rewrite (decodes_iff _ _ _ linkage_realises).
  rewrite (opt_field r 5 (fun v => ok_or (visibility_of v) (AlVisibility v)) (fun v x => In (x, v) visibility_table) VisDefault)
    by (intros; rewrite ok_or_ok; apply (enum_iff _ _ _ _ _ visibility_realises)).
  rewrite (opt_field r 6 (fun v => ok_or (dll_storage_class_of v) (AlStorage v)) (fun v x => In (x, v) dll_storage_class_table) DllDefault)
    by (intros; rewrite ok_or_ok; apply (enum_iff _ _ _ _ _ dll_storage_class_realises)).
  rewrite (opt_field_pure r 7 _ _ TlsNotThreadLocal (al_tls a) (decodes_iff _ _ _ tls_realises)).
  rewrite (opt_field_pure r 8 _ _ UaNone (al_unnamed_addr a) (decodes_iff _ _ _ unnamed_addr_realises)).
  rewrite (opt_field_pure r 9 _ _ RpDsoPreemptable (al_preemption a) (decodes_iff _ _ _ preemption_realises)).
  unfold types_get. fold (at_index (cx_types c) (fld r 2) (al_ty a)).
  rewrite (at_field r 2 (fun i => at_index (cx_types c) i (al_ty a))) by lia.
  rewrite (at_field r 4 (fun v => decodes linkage_table LkExternal v (al_linkage a))) by lia.
  split.
  - intros (H1 & H2 & H3 & H4 & H5 & H6 & H7 & H8 & H9). split; [unfold use_strtab in V; lia|].
    constructor; try assumption. apply field_fld. split; [exact H3|lia].
  - intros [_ [H1 H2 H3 H4 H5 H6 H7 H8 H9]]. apply field_fld in H3 as [H3 _]. auto 15.
Qed.
Lemma alias_short e c r : (length (r_fields r) < 5)%nat ->
  alias_of e c r = Err (if 2 <=? cx_version c then AlTooShort (N.of_nat (length (r_fields r))) else AlV1).
Proof.
  intros L. unfold alias_of, use_strtab. destruct (2 <=? cx_version c); cbn [negb]; [|reflexivity].
  now replace (length (r_fields r) <? 5)%nat with true by lia.
Qed.
Lemma alias_old e c r : cx_version c < 2 -> alias_of e c r = Err AlV1.
Proof. intros L. unfold alias_of, use_strtab. now replace (2 <=? cx_version c) with false by lia. Qed.
Lemma alias_panic e c r p : fields64 r ->
  (alias_of e c r = Panic p <->
   p = (if overflow_checks e then PAddOverflow else PSliceRange) /\
   2 <= cx_version c /\ (5 <= length (r_fields r))%nat /\ bad_reference (cx_strtab c) r).
Proof.
  intros F. destruct (N.lt_ge_cases (cx_version c) 2) as [V|V].
  { rewrite alias_old by exact V. split; [discriminate|lia]. }
  destruct (Nat.lt_ge_cases (length (r_fields r)) 5) as [L|L].
  { rewrite alias_short by exact L. split; [destruct (_ <=? _); discriminate|lia]. }
  unfold alias_of, use_strtab. replace (2 <=? cx_version c) with true by lia. cbn [negb].
  replace (length (r_fields r) <? 5)%nat with false by lia.
  pose proof (name_panic e (cx_strtab c) r p F ltac:(lia)) as N. split.
  - intros H. apply obind_panic in H as [H|(nm & _ & H)].
    { apply omap_err_panic in H. apply N in H as [-> H]. auto. }
    exfalso. clear N.
    apply obind_panic in H as [H|(t & _ & H)]; [now apply ok_or_panic in H|]. cbv zeta in H.
    apply obind_panic in H as [H|(v & _ & H)]; [destruct (nth_error (r_fields r) 5); [now apply ok_or_panic in H|discriminate]|].
    apply obind_panic in H as [H|(d & _ & H)]; [|discriminate].
    destruct (nth_error (r_fields r) 6); [now apply ok_or_panic in H|discriminate].
  - intros (-> & _ & _ & H). assert (N' := proj2 N (conj eq_refl H)). now rewrite N'.
Qed.
Lemma alias_fuel e c r : fields64 r -> alias_of e c r <> OutOfFuel.
Proof.
  intros F H. destruct (Nat.lt_ge_cases (length (r_fields r)) 5) as [L|L].
  { rewrite alias_short in H by exact L. discriminate. }
  unfold alias_of in H. destruct (negb (use_strtab c)); [discriminate|].
  replace (length (r_fields r) <? 5)%nat with false in H by lia.
  apply obind_fuel in H as [H|(nm & _ & H)]; [apply omap_err_fuel in H; now apply name_fuel in H; [|exact F|lia]|].
  apply obind_fuel in H as [H|(t & _ & H)]; [now apply ok_or_fuel in H|]. cbv zeta in H.
  apply obind_fuel in H as [H|(v & _ & H)]; [destruct (nth_error (r_fields r) 5); [now apply ok_or_fuel in H|discriminate]|].
  apply obind_fuel in H as [H|(d & _ & H)]; [|discriminate].
  destruct (nth_error (r_fields r) 6); [now apply ok_or_fuel in H|discriminate].
Qed.

(** The aliases of LLVM are read at wrong positions. *)
Lemma alias_misread e c r a space aliasee link : fields64 r -> N.of_nat (length (cx_strtab c)) < two64 ->
  llvm_alias r space aliasee link -> alias_of e c r = Ok a ->
  al_value a = space /\ decodes linkage_table LkExternal aliasee (al_linkage a) /\ In (al_visibility a, link) visibility_table.
Proof.
  intros F B (_ & S & A & L) H. apply alias_exact in H as [_ H]; [|exact F|exact B].
  split; [exact (field_fun _ _ _ _ (ad_value _ _ _ H) S)|]. split.
  - destruct (ad_linkage _ _ _ H) as (v & V & D). now rewrite (field_fun _ _ _ _ A V).
  - destruct (ad_visibility _ _ _ H) as [(v & V & D)|[N _]]; [now rewrite (field_fun _ _ _ _ L V)|].
    apply no_field_none in N. unfold field in L. congruence.
Qed.

(** *** COMDATs *)

Lemma selection_iff v k : selection_kind_of v = Some k <-> In (k, v) selection_table.
Proof.
  split.
  - unfold selection_kind_of. destruct v as [|p]; [intros [= <-]; cbn; auto|].
    repeat (destruct p as [p|p|]; try discriminate); intros [= <-]; cbn; auto 10.
  - cbn. intros [[= <- <-]|[[= <- <-]|[[= <- <-]|[[= <- <-]|[[= <- <-]|[]]]]]]; reflexivity.
Qed.
Lemma comdat_exact e version t r c : fields64 r -> N.of_nat (length t) < two64 ->
  (comdat_of e version t r = Ok c <-> 2 <= version /\ comdat_described selection_table t r c).
Proof.
  intros F B. unfold comdat_of. destruct (2 <=? version) eqn:V; cbn [negb].
  2: { split; [discriminate|]. intros [K _]. lia. }
  unfold comdat_described, named, field. unfold fields64 in F.
  destruct (r_fields r) as [|o [|z [|k [|x l]]]] eqn:R; try (split; [discriminate|intros (_ & [=] & _)]).
  inversion F as [|? ? F1 F2]; subst. inversion F2 as [|? ? F3 _]; subst. cbn [nth_error].
  assert (X : forall s, (strtab_try_get e t o z = Ok s <-> z <> 0 /\ stored t o z s)).
  { intros s. destruct (N.lt_ge_cases (o + z) two64) as [S|S]; [now apply strtab_lookup|].
    rewrite strtab_overflow by assumption. split; [destruct (_ <=? o); discriminate|].
    intros [_ H]. apply stored_slice in H as [H _]. lia. }
  split.
  - intros H. apply obind_iff in H as (s & S & H). apply omap_err_iff in S. apply obind_iff in H as (y & Y & [= <-]).
    apply ok_or_ok in Y. apply selection_iff in Y. apply X in S as [Z S]. cbn. split; [lia|]. split; [reflexivity|].
    split; [exists o, z; auto|exists k; auto].
  - intros (_ & _ & (? & ? & [= <-] & [= <-] & Z & S) & v & [= <-] & K). apply selection_iff in K.
    rewrite (proj2 (X _) (conj Z S)). cbn [omap_err obind]. rewrite K. cbn. now destruct c.
Qed.
Lemma comdat_lengths e version t r : length (r_fields r) <> 3%nat ->
  comdat_of e version t r = Err (if 2 <=? version then CdTooShort (N.of_nat (length (r_fields r))) else CdV1).
Proof.
  intros L. unfold comdat_of. destruct (2 <=? version); cbn [negb]; [|reflexivity].
  destruct (r_fields r) as [|o [|z [|k [|x l]]]]; try reflexivity. now cbn in L.
Qed.
Lemma comdat_old e version t r : version < 2 -> comdat_of e version t r = Err CdV1.
Proof. intros L. unfold comdat_of. now replace (2 <=? version) with false by lia. Qed.
Lemma comdat_panic e version t r p : fields64 r ->
  (comdat_of e version t r = Panic p <->
   p = (if overflow_checks e then PAddOverflow else PSliceRange) /\
   2 <= version /\ length (r_fields r) = 3%nat /\ bad_reference t r).
Proof.
  intros F. destruct (N.lt_ge_cases version 2) as [V|V].
  { rewrite comdat_old by exact V. split; [discriminate|lia]. }
  destruct (Nat.eq_dec (length (r_fields r)) 3) as [L|L].
  2: { rewrite comdat_lengths by exact L. split; [destruct (_ <=? _); discriminate|]. tauto. }
  pose proof (name_panic e t r p F ltac:(lia)) as N. unfold comdat_of. replace (2 <=? version) with true by lia. cbn [negb].
  destruct (r_fields r) as [|o [|z [|k [|x l]]]] eqn:R; try discriminate L.
  destruct (read_name_fields e t r) as [N' _]. rewrite (N' _ _ _ R) in N. split.
  - intros H. apply obind_panic in H as [H|(s & _ & H)].
    { apply omap_err_panic in H. apply N in H as [-> H]. auto. }
    apply obind_panic in H as [H|(y & _ & H)]; [now apply ok_or_panic in H|discriminate].
  - intros (-> & _ & _ & H). assert (N'' := proj2 N (conj eq_refl H)). now rewrite N''.
Qed.
Lemma comdat_fuel e version t r : fields64 r -> comdat_of e version t r <> OutOfFuel.
Proof.
  intros F H. unfold comdat_of in H. destruct (negb _); [discriminate|].
  destruct (r_fields r) as [|o [|z [|k [|x l]]]] eqn:R; try discriminate H.
  apply obind_fuel in H as [H|(s & _ & H)].
  - apply omap_err_fuel in H. destruct (read_name_fields e t r) as [N' _]. apply (name_fuel e t r F); [rewrite R; cbn; lia|].
    now rewrite (N' _ _ _ R).
  - apply obind_fuel in H as [H|(y & _ & H)]; [now apply ok_or_fuel in H|discriminate].
Qed.
(** No kind is read as LLVM writes it. *)
Lemma comdat_misread e version t r c : fields64 r -> N.of_nat (length t) < two64 ->
  comdat_of e version t r = Ok c -> ~ comdat_described llvm_selection_table t r c.
Proof.
  intros F B H (_ & _ & v & V & K). apply comdat_exact in H as (_ & _ & _ & w & W & K'); [|exact F|exact B].
  rewrite <- (field_fun _ _ _ _ V W) in K'. destruct c as [k nm]. cbn in K, K'.
  repeat (destruct K as [K|K]; [injection K as <- <-; repeat (destruct K' as [K'|K']; [discriminate K'|]); contradiction|]).
  contradiction.
Qed.

(** *** The end of a function record *)

Lemma nth_error_firstn {A} n i (l : list A) : (i < n)%nat -> nth_error (firstn n l) i = nth_error l i.
Proof. revert i l. induction n as [|n IH]; intros i l H; [lia|]. destruct l as [|a l], i as [|i]; cbn; try reflexivity. apply IH. lia. Qed.
Lemma function_tail e c r1 r2 : firstn 14 (r_fields r1) = firstn 14 (r_fields r2) -> fn_of e c r1 = fn_of e c r2.
Proof.
  intros H.
  assert (N1 : forall i, (i < 14)%nat -> nth_error (r_fields r1) i = nth_error (r_fields r2) i).
  { intros i L. rewrite <- (nth_error_firstn 14 i (r_fields r1) L), <- (nth_error_firstn 14 i (r_fields r2) L). now rewrite H. }
  assert (FL : forall i, (i < 14)%nat -> fld r1 i = fld r2 i).
  { intros i L. unfold fld. rewrite <- !nth_default_eq. unfold nth_default. now rewrite (N1 i L). }
  assert (L1 : (length (r_fields r1) < 14)%nat -> length (r_fields r1) = length (r_fields r2)).
  { intros L. pose proof (f_equal (@length _) H) as Q. rewrite !firstn_length in Q. lia. }
  assert (L2 : (length (r_fields r2) < 14)%nat -> length (r_fields r1) = length (r_fields r2)).
  { intros L. pose proof (f_equal (@length _) H) as Q. rewrite !firstn_length in Q. lia. }
  assert (NM : strtab_read_name e (cx_strtab c) r1 = strtab_read_name e (cx_strtab c) r2).
  { unfold strtab_read_name. pose proof (N1 0%nat ltac:(lia)) as X. pose proof (N1 1%nat ltac:(lia)) as Y.
    destruct (r_fields r1) as [|a [|b l]], (r_fields r2) as [|a' [|b' l']]; cbn in X, Y; congruence. }
  unfold fn_of. rewrite NM, !FL, !N1 by lia.
  destruct (length (r_fields r1) <? 10)%nat eqn:A, (length (r_fields r2) <? 10)%nat eqn:B; try lia; try reflexivity.
  now rewrite L1 by lia.
Qed.
