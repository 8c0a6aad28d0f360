(** Alias and COMDAT records: llvm-mapper and LLVM's reader. *)
From Coq Require Import Bool Lia ZifyBool ZifyNat ZifyN.
From Verif Require Import Base Strings EnumModel SupportModel SupportSpec UnrollModel AttributeModel TablesSpec TypeTableSpec RecordModel RecordSpec
  AttributeSpec SupportMain LayoutMain RecordProofs ModuleModel ReaderSpec ReaderProofs AliasReaderSpec.
Local Open Scope N_scope.

Lemma tls_llvm v x : decodes tls_table TlsGeneralDynamicTls v x -> llvm_tls v = x.
Proof.
  intros D. apply (proj2 (decodes_iff _ _ _ tls_realises v x)) in D. rewrite <- D. unfold tls_mode_of, llvm_tls.
  destruct v as [|p]; [reflexivity|]. do 3 (destruct p as [p|p|]; try reflexivity).
Qed.
Lemma preemption_llvm v x : decodes preemption_table RpDsoPreemptable v x -> llvm_preemption v = x.
Proof.
  intros D. apply (proj2 (decodes_iff _ _ _ preemption_realises v x)) in D. rewrite <- D. unfold preemption_of, llvm_preemption.
  destruct v as [|p]; [reflexivity|]. do 1 (destruct p as [p|p|]; try reflexivity).
Qed.

(** *** COMDATs *)

Lemma comdat_both e version t r c : fields64 r -> N.of_nat (length t) < two64 -> comdat_of e version t r = Ok c ->
  exists k, llvm_comdat t r = Some (utf8_encode (cd_name c), k) /\ (cd_kind c = k <-> field r 2 0).
Proof.
  intros F B H. apply (comdat_exact _ _ _ _ _ F B) in H as (_ & L & (o & s & F0 & F1 & _ & ST) & v & F2 & K).
  destruct (stored_bytes _ _ _ _ ST) as [X Y]. unfold field in *. unfold llvm_comdat.
  destruct (r_fields r) as [|a0 [|a1 [|a2 [|]]]]; try discriminate L. cbn in F0, F1, F2. injection F0 as ->. injection F1 as ->. injection F2 as ->.
  replace (_ <? o + s) with false by lia. rewrite X. eexists. split; [reflexivity|]. cbn [nth_error].
  destruct c as [k n]. cbn [cd_kind] in *. cbn in K.
  repeat (destruct K as [K|K]; [injection K as <- <-; split; (discriminate || reflexivity)|]). contradiction.
Qed.

Lemma small_selection v : v <= 4 <-> exists k, In (k, v) selection_table.
Proof.
  split.
  - intros L. destruct (selection_kind_of v) as [k|] eqn:E; [exists k; now apply selection_iff|].
    exfalso. unfold selection_kind_of in E. destruct v as [|[[[]|[]|]|[[]|[]|]|]]; (discriminate E || lia).
  - intros (k & K). cbn in K. repeat (destruct K as [K|K]; [injection K as _ <-; lia|]). contradiction.
Qed.
Lemma comdat_accepted e version t r x : fields64 r -> N.of_nat (length t) < two64 -> 2 <= version -> llvm_comdat t r = Some x ->
  ((exists c, comdat_of e version t r = Ok c) <->
   length (r_fields r) = 3%nat /\ (exists s, named t r s) /\ exists v, field r 2 v /\ v <= 4).
Proof.
  intros F B V _. split.
  - intros (c & H). apply (comdat_exact _ _ _ _ _ F B) in H as (_ & L & N & v & F2 & K).
    split; [exact L|]. split; [now exists (cd_name c)|]. exists v. split; [exact F2|]. apply small_selection. now exists (cd_kind c).
  - intros (L & (s & N) & v & F2 & K). apply small_selection in K as (k & K). exists (mkComdat k s).
    apply (comdat_exact _ _ _ _ _ F B). split; [exact V|]. split; [exact L|]. split; [exact N|]. now exists v.
Qed.

(** *** Aliases *)

Lemma llvm_alias_inv c r la : llvm_alias_record c r = Some la ->
  exists a0 a1 a2 a3 a4 a5 more,
    r_fields r = a0 :: a1 :: a2 :: a3 :: a4 :: a5 :: more /\ a0 + a1 <= N.of_nat (length (cx_strtab c)) /\
    nth_error (cx_types c) (N.to_nat a2) = Some (la_ty la) /\
    la_name la = firstn (N.to_nat a1) (skipn (N.to_nat a0) (cx_strtab c)) /\ la_space la = a3 /\ la_value la = a4 /\
    la_linkage la = llvm_linkage a5 /\
    la_visibility la = (if local_linkage (llvm_linkage a5) then VisDefault else llvm_visibility (nth 0 more 0)) /\
    la_storage la = (if (1 <? length more)%nat then llvm_storage (nth 1 more 0)
                     else match a5 with 5 => DllImport | 6 => DllExport | _ => DllDefault end) /\
    la_tls la = llvm_tls (nth 2 more 0) /\ la_unnamed_addr la = llvm_unnamed (nth 3 more 0) /\
    la_preemption la = (if implicit_dso_local (la_linkage la) (la_visibility la) then RpDsoLocal else llvm_preemption (nth 4 more 0)).
Proof.
  unfold llvm_alias_record. destruct (r_fields r) as [|a0 [|a1 [|a2 [|a3 [|a4 [|a5 more]]]]]]; try discriminate.
  destruct (_ <? a0 + a1) eqn:L0; [discriminate|]. destruct (nth_error (cx_types c) _) as [t|] eqn:T; [|discriminate].
  intros [= <-]. exists a0, a1, a2, a3, a4, a5, more.
  cbn [la_name la_ty la_space la_value la_linkage la_visibility la_storage la_tls la_unnamed_addr la_preemption].
  repeat (split; [first [reflexivity|assumption|lia]|]). reflexivity.
Qed.
Lemma llvm_alias_read c r a0 a1 a2 a3 a4 a5 more t : r_fields r = a0 :: a1 :: a2 :: a3 :: a4 :: a5 :: more ->
  a0 + a1 <= N.of_nat (length (cx_strtab c)) -> nth_error (cx_types c) (N.to_nat a2) = Some t -> exists la, llvm_alias_record c r = Some la.
Proof.
  intros E B T. unfold llvm_alias_record. rewrite E. replace (_ <? a0 + a1) with false by lia. rewrite T. now eexists.
Qed.

Lemma six (l : list N) : (6 <= length l)%nat -> exists a0 a1 a2 a3 a4 a5 more, l = a0 :: a1 :: a2 :: a3 :: a4 :: a5 :: more.
Proof. intros L. do 6 (destruct l as [|? l]; [cbn in L; lia|]). now do 7 eexists. Qed.
Lemma alias_long c r a : alias_described c r a -> (5 <= length (r_fields r))%nat.
Proof.
  intros D. destruct (ad_linkage _ _ _ D) as (v & F & _). apply Nat.lt_nge. intros L.
  unfold field in F. rewrite (proj2 (nth_error_None _ _)) in F by lia. discriminate.
Qed.
Lemma without_fields64 r : fields64 r -> fields64 (without_space r).
Proof.
  unfold fields64. intros F. cbn. apply Forall_forall. intros x I. apply (proj1 (Forall_forall _ _) F).
  rewrite <- (firstn_skipn 3 (r_fields r)). apply in_or_app. apply in_app_or in I as [I|I]; [now left|right].
  destruct (r_fields r) as [|? [|? [|? l]]]; try contradiction. cbn in *. destruct l as [|? l]; [contradiction|]. now right.
Qed.
Lemma without_length r : (5 <= length (r_fields (without_space r)))%nat -> (6 <= length (r_fields r))%nat.
Proof. unfold without_space. cbn [r_fields]. rewrite app_length, firstn_length, skipn_length. lia. Qed.

Lemma optional_nth {A} r (l : list N) i k (P : N -> A -> Prop) (f : N -> A) d x : (forall v y, P v y -> f v = y) -> f 0 = d ->
  (forall v, field r i v <-> nth_error l k = Some v) -> (no_field r i <-> (length l <= k)%nat) ->
  (exists v, field r i v /\ P v x) \/ (no_field r i /\ x = d) -> x = f (nth k l 0).
Proof.
  intros PF Z FI NF [(v & F & H)|(N & ->)].
  - apply FI in F. rewrite (nth_error_nth _ _ 0 F). symmetry. now apply PF.
  - apply NF in N. now rewrite nth_overflow.
Qed.

Lemma repaired_both e c r a : fields64 r -> N.of_nat (length (cx_strtab c)) < two64 -> alias_of e c (without_space r) = Ok a ->
  exists la, llvm_alias_record c r = Some la /\ alias_agree a la /\
    (al_visibility a = la_visibility la <-> (al_linkage a = LkInternal \/ al_linkage a = LkPrivate -> al_visibility a = VisDefault)) /\
    (al_storage a = la_storage la <-> ~ ((length (r_fields r) <= 7)%nat /\ (field r 5 5 \/ field r 5 6))) /\
    (al_preemption a = la_preemption la <->
       (al_linkage a = LkInternal \/ al_linkage a = LkPrivate \/ (la_visibility la <> VisDefault /\ al_linkage a <> LkExternalWeak) ->
        al_preemption a = RpDsoLocal)).
Proof.
  intros F B H. apply (alias_exact _ _ _ _ (without_fields64 _ F) B) in H as (_ & D).
  destruct (six _ (without_length _ (alias_long _ _ _ D))) as (a0 & a1 & a2 & a3 & a4 & a5 & more & E).
  assert (W : r_fields (without_space r) = a0 :: a1 :: a2 :: a4 :: a5 :: more) by (cbn; now rewrite E).
  destruct D as [(o & s & F0 & F1 & _ & ST) (i & F2 & AT) F3 (v4 & F4 & LK) VI SO TL UN PR].
  apply (field_of _ _ _ _ W) in F0, F1, F2, F3, F4. cbn in F0, F1, F2, F3, F4.
  injection F0 as <-. injection F1 as <-. injection F2 as <-. injection F3 as X3. injection F4 as <-.
  destruct (stored_bytes _ _ _ _ ST) as [NB BO]. unfold at_index in AT.
  destruct (llvm_alias_read _ _ _ _ _ _ _ _ _ _ E BO AT) as (la & L). exists la. split; [exact L|].
  destruct (llvm_alias_inv _ _ _ L) as (b0 & b1 & b2 & b3 & b4 & b5 & m & E' & _ & T & Xn & Xsp & Xv & Xl & Xvi & Xs & Xt & Xu & Xp).
  rewrite E in E'. injection E' as <- <- <- <- <- <- <-. apply linkage_llvm in LK. rewrite LK in *.
  assert (FI : forall k v, field (without_space r) (5 + k) v <-> nth_error more k = Some v) by (intros k v; now rewrite (field_of _ _ _ _ W)).
  assert (NF : forall k, no_field (without_space r) (5 + k) <-> (length more <= k)%nat).
  { intros k. unfold no_field. rewrite W. cbn [length]. lia. }
  apply (optional_nth _ more 5 0 _ llvm_visibility _ _ (fun v y => visibility_llvm v y) eq_refl (FI 0%nat) (NF 0%nat)) in VI.
  apply (optional_nth _ more 7 2 _ llvm_tls _ _ tls_llvm eq_refl (FI 2%nat) (NF 2%nat)) in TL.
  apply (optional_nth _ more 8 3 _ llvm_unnamed _ _ unnamed_llvm eq_refl (FI 3%nat) (NF 3%nat)) in UN.
  apply (optional_nth _ more 9 4 _ llvm_preemption _ _ preemption_llvm eq_refl (FI 4%nat) (NF 4%nat)) in PR.
  split; [|split; [|split]].
  - constructor; [now rewrite Xn, NB|congruence|congruence|congruence|congruence|congruence].
  - rewrite Xvi, <- VI. destruct (al_linkage a); cbn [local_linkage]; split; auto; intros _ [K|K]; discriminate K.
  - destruct SO as [(v & FV & S)|(N & S)].
    + change (field (without_space r) (5 + 1) v) in FV. apply FI in FV. rewrite Xs, (nth_error_nth _ _ 0 FV).
      assert (K : (1 < length more)%nat) by (apply nth_error_Some; congruence). replace (1 <? length more)%nat with true by lia.
      rewrite (storage_llvm _ _ S). split; [|reflexivity]. intros _ [K' _]. rewrite E in K'. cbn [length] in K'. lia.
    + change (no_field (without_space r) (5 + 1)) in N. apply NF in N. rewrite Xs. replace (1 <? length more)%nat with false by lia. rewrite S.
      unfold field. rewrite E. cbn [nth_error length]. split.
      * intros K [_ [[= K']|[= K']]]; rewrite K' in K; discriminate K.
      * intros K. destruct (N.eq_dec a5 5) as [->|N5]; [exfalso; apply K; split; [lia|now left]|].
        destruct (N.eq_dec a5 6) as [->|N6]; [exfalso; apply K; split; [lia|now right]|].
        destruct a5 as [|[[[]|[]|]|[[]|[]|]|]]; try reflexivity; lia.
  - rewrite Xp, <- PR, Xl. unfold implicit_dso_local. split.
    + intros K A. destruct (al_linkage a), (la_visibility la); cbn in K; try exact K; destruct A as [A|[A|[A1 A2]]]; congruence.
    + intros K. destruct (al_linkage a), (la_visibility la); cbn; try reflexivity; apply K; auto; right; right; split; discriminate.
Qed.

Lemma small_visibility v : v <= 2 <-> exists x, In (x, v) visibility_table.
Proof.
  split.
  - intros L. destruct (N.eq_dec v 0) as [->|]; [exists VisDefault; cbn; auto|]. destruct (N.eq_dec v 1) as [->|]; [exists VisHidden; cbn; auto|].
    replace v with 2 by lia. exists VisProtected. cbn. auto.
  - intros (x & H). cbn in H. destruct H as [[= _ <-]|[[= _ <-]|[[= _ <-]|[]]]]; lia.
Qed.
Lemma small_storage v : v <= 2 <-> exists x, In (x, v) dll_storage_class_table.
Proof.
  split.
  - intros L. destruct (N.eq_dec v 0) as [->|]; [exists DllDefault; cbn; auto|]. destruct (N.eq_dec v 1) as [->|]; [exists DllImport; cbn; auto|].
    replace v with 2 by lia. exists DllExport. cbn. auto.
  - intros (x & H). cbn in H. destruct H as [[= _ <-]|[[= _ <-]|[[= _ <-]|[]]]]; lia.
Qed.
Lemma optional_small {A} r i (table : list (A * N)) d : (forall v, v <= 2 <-> exists x, In (x, v) table) ->
  ((exists x : A, (exists v, field r i v /\ In (x, v) table) \/ (no_field r i /\ x = d)) <-> forall v, field r i v -> v <= 2).
Proof.
  intros S. split.
  - intros (x & [(v & F & I)|(N & _)]) v' F'.
    + assert (v' = v) by (unfold field in *; congruence). subst. apply S. now exists x.
    + apply no_field_none in N. unfold field in F'. congruence.
  - intros H. destruct (nth_error (r_fields r) i) as [v|] eqn:E.
    + destruct (proj1 (S v) (H v E)) as (x & I). exists x. left. now exists v.
    + exists d. right. split; [now apply no_field_none|reflexivity].
Qed.
Lemma optional_any {T : Set} r i (of : N -> T) table d d' : realises_with_default of table d ->
  exists x, (exists v, field r i v /\ decodes table d v x) \/ (no_field r i /\ x = d').
Proof.
  intros R. destruct (nth_error (r_fields r) i) as [v|] eqn:E.
  - exists (of v). left. exists v. split; [exact E|]. now apply (decodes_iff _ _ _ R).
  - exists d'. right. split; [now apply no_field_none|reflexivity].
Qed.

(** When a record with a type is read. *)
Lemma alias_accepted_gen e c r i t : fields64 r -> N.of_nat (length (cx_strtab c)) < two64 -> 2 <= cx_version c -> (5 <= length (r_fields r))%nat ->
  field r 2 i -> at_index (cx_types c) i t ->
  ((exists a, alias_of e c r = Ok a) <->
   (exists s, named (cx_strtab c) r s) /\ (forall v, field r 5 v -> v <= 2) /\ (forall v, field r 6 v -> v <= 2)).
Proof.
  intros F B V LE F2 AT. split.
  - intros (a & H). apply (alias_exact _ _ _ _ F B) in H as (_ & D). split; [exists (al_name a); exact (ad_name _ _ _ D)|]. split.
    + apply (optional_small r 5 _ VisDefault small_visibility). exists (al_visibility a). exact (ad_visibility _ _ _ D).
    + apply (optional_small r 6 _ DllDefault small_storage). exists (al_storage a). exact (ad_storage _ _ _ D).
  - intros ((s & NA) & VI & SO). apply (optional_small r 5 _ VisDefault small_visibility) in VI as (vi & VI).
    apply (optional_small r 6 _ DllDefault small_storage) in SO as (so & SO).
    destruct (optional_any r 7 _ _ _ TlsNotThreadLocal tls_realises) as (tl & TL).
    destruct (optional_any r 8 _ _ _ UaNone unnamed_addr_realises) as (un & UN).
    destruct (optional_any r 9 _ _ _ RpDsoPreemptable preemption_realises) as (pr & PR).
    exists (mkAlias s t (fld r 3) (linkage_of (fld r 4)) vi so tl un pr). apply (alias_exact _ _ _ _ F B). split; [exact V|].
    constructor; cbn [al_name al_ty al_value al_linkage al_visibility al_storage al_tls al_unnamed_addr al_preemption];
      [exact NA|now exists i|apply fld_field; lia| |exact VI|exact SO|exact TL|exact UN|exact PR].
    exists (fld r 4). split; [apply fld_field; lia|]. now apply (decodes_iff _ _ _ linkage_realises).
Qed.

Lemma repaired_accepted e c r la : fields64 r -> N.of_nat (length (cx_strtab c)) < two64 -> 2 <= cx_version c ->
  llvm_alias_record c r = Some la ->
  ((exists a, alias_of e c (without_space r) = Ok a) <->
   (exists s, named (cx_strtab c) r s) /\ (forall v, field r 6 v -> v <= 2) /\ (forall v, field r 7 v -> v <= 2)).
Proof.
  intros F B V L. destruct (llvm_alias_inv _ _ _ L) as (a0 & a1 & a2 & a3 & a4 & a5 & more & E & _ & T & _).
  assert (W : r_fields (without_space r) = a0 :: a1 :: a2 :: a4 :: a5 :: more) by (cbn; now rewrite E).
  rewrite (alias_accepted_gen e c _ a2 (la_ty la) (without_fields64 _ F) B V); [|rewrite W; cbn [length]; lia|now apply (field_of _ _ _ _ W)|exact T].
  unfold named, field. rewrite W, E. reflexivity.
Qed.

(** The record as it is. *)
Lemma alias_both e c r a la : fields64 r -> N.of_nat (length (cx_strtab c)) < two64 -> alias_of e c r = Ok a ->
  llvm_alias_record c r = Some la ->
  utf8_encode (al_name a) = la_name la /\ al_ty a = la_ty la /\ al_value a = la_space la /\ al_linkage a = llvm_linkage (la_value la) /\
  (exists link, field r 5 link /\ al_visibility a = llvm_visibility link /\ la_linkage la = llvm_linkage link).
Proof.
  intros F B H L. apply (alias_exact _ _ _ _ F B) in H as (_ & D).
  destruct (llvm_alias_inv _ _ _ L) as (a0 & a1 & a2 & a3 & a4 & a5 & more & E & _ & T & Xn & Xsp & Xv & Xl & _).
  destruct D as [(o & s & F0 & F1 & _ & ST) (i & F2 & AT) F3 (v4 & F4 & LK) VI _ _ _ _].
  apply (field_of _ _ _ _ E) in F0, F1, F2, F3, F4. cbn in F0, F1, F2, F3, F4.
  injection F0 as <-. injection F1 as <-. injection F2 as <-. injection F3 as X3. injection F4 as <-.
  destruct (stored_bytes _ _ _ _ ST) as [NB _]. unfold at_index in AT. apply linkage_llvm in LK.
  split; [congruence|]. split; [congruence|]. split; [congruence|]. split; [congruence|].
  exists a5. split; [now apply (field_of _ _ _ _ E)|]. split; [|exact Xl]. destruct VI as [(v & FV & VI)|(N & _)].
  - apply (field_of _ _ _ _ E) in FV. cbn in FV. injection FV as <-. symmetry. now apply visibility_llvm.
  - unfold no_field in N. rewrite E in N. cbn [length] in N. lia.
Qed.

Lemma alias_accepted e c r la : fields64 r -> N.of_nat (length (cx_strtab c)) < two64 -> 2 <= cx_version c ->
  llvm_alias_record c r = Some la ->
  ((exists a, alias_of e c r = Ok a) <->
   (exists s, named (cx_strtab c) r s) /\ (exists v, field r 5 v /\ v <= 2) /\ (forall v, field r 6 v -> v <= 2)).
Proof.
  intros F B V L. destruct (llvm_alias_inv _ _ _ L) as (a0 & a1 & a2 & a3 & a4 & a5 & more & E & _ & T & _).
  rewrite (alias_accepted_gen e c _ a2 (la_ty la) F B V); [|rewrite E; cbn [length]; lia|now apply (field_of _ _ _ _ E)|exact T].
  assert (F5 : field r 5 a5) by now apply (field_of _ _ _ _ E).
  assert (X : (forall v, field r 5 v -> v <= 2) <-> exists v, field r 5 v /\ v <= 2).
  { split; [intros H; exists a5; auto|]. intros (v & Fv & Lv) w Fw. unfold field in *. congruence. }
  rewrite X. reflexivity.
Qed.

Lemma alias_read_by_llvm e c r a : fields64 r -> N.of_nat (length (cx_strtab c)) < two64 -> alias_of e c r = Ok a ->
  ((exists la, llvm_alias_record c r = Some la) <-> (6 <= length (r_fields r))%nat).
Proof.
  intros F B H. apply (alias_exact _ _ _ _ F B) in H as (_ & D). split.
  - intros (la & L). destruct (llvm_alias_inv _ _ _ L) as (a0 & a1 & a2 & a3 & a4 & a5 & more & E & _). rewrite E. cbn [length]. lia.
  - intros K. destruct (six _ K) as (a0 & a1 & a2 & a3 & a4 & a5 & more & E).
    destruct (ad_name _ _ _ D) as (o & s & F0 & F1 & _ & ST). destruct (ad_type _ _ _ D) as (i & F2 & AT).
    apply (field_of _ _ _ _ E) in F0, F1, F2. cbn in F0, F1, F2. injection F0 as <-. injection F1 as <-. injection F2 as <-.
    apply (llvm_alias_read _ _ _ _ _ _ _ _ _ (al_ty a) E); [exact (proj2 (stored_bytes _ _ _ _ ST))|exact AT].
Qed.

(** The numbers of the local linkages are no visibilities. *)
Lemma local_refused e c r la : fields64 r -> N.of_nat (length (cx_strtab c)) < two64 -> llvm_alias_record c r = Some la ->
  la_linkage la = LkInternal \/ la_linkage la = LkPrivate -> forall a, alias_of e c r <> Ok a.
Proof.
  intros F B L K a H. assert (V : 2 <= cx_version c) by now apply (alias_exact _ _ _ _ F B) in H as (V & _).
  destruct (proj1 (alias_accepted e c r la F B V L) (ex_intro _ a H)) as (_ & (v & F5 & S) & _).
  destruct (alias_both _ _ _ _ _ F B H L) as (_ & _ & _ & _ & link & F5' & _ & X).
  assert (link = v) by (unfold field in *; congruence). subst link. rewrite X in K.
  destruct (N.eq_dec v 0) as [->|]; [destruct K as [K|K]; discriminate K|].
  destruct (N.eq_dec v 1) as [->|]; [destruct K as [K|K]; discriminate K|].
  replace v with 2 in K by lia. destruct K as [K|K]; discriminate K.
Qed.

(** *** Modules *)

Lemma ctx_strtab e t b c : module_ctx e t b = Ok c -> cx_strtab c = t.
Proof.
  unfold module_ctx. intros H.
  do 14 (let x := fresh in apply obind_iff in H as (x & _ & H)). now injection H as <-.
Qed.
Lemma module_aliases e host t b m c fns aliases r : module_map e host t b = Ok (m, c, fns, aliases) ->
  In r (b_records b) -> r_code r = 14 -> cx_strtab c = t /\ exists a, alias_of e c r = Ok a.
Proof.
  unfold module_map. intros H I K. apply obind_iff in H as (c' & C & H).
  do 7 (let x := fresh in apply obind_iff in H as (x & _ & H)). apply obind_iff in H as (al & A & H). injection H as _ <- _ <-.
  split; [exact (ctx_strtab _ _ _ _ C)|]. apply omap_err_iff in A. apply collect_iff in A.
  assert (J : In r (by_code (module_code_num McAlias) (b_records b))).
  { unfold by_code. apply filter_In. split; [exact I|]. rewrite K. reflexivity. }
  clear -A J. induction A as [|x y l m X _ IH]; [contradiction|]. destruct J as [->|J]; [now exists y|auto].
Qed.
Lemma module_without_local e host t b m c fns aliases r la : Forall fields64 (b_records b) -> N.of_nat (length t) < two64 ->
  module_map e host t b = Ok (m, c, fns, aliases) -> In r (b_records b) -> r_code r = 14 -> llvm_alias_record c r = Some la ->
  la_linkage la <> LkInternal /\ la_linkage la <> LkPrivate.
Proof.
  intros F B H I K L. destruct (module_aliases _ _ _ _ _ _ _ _ _ H I K) as (S & a & A).
  pose proof (proj1 (Forall_forall _ _) F r I) as Fr. rewrite <- S in B.
  split; intros X; apply (local_refused e c r la Fr B L) with (a := a); auto.
Qed.
