(** Function records: llvm-mapper and LLVM's reader. *)
From Coq Require Import Bool Lia ZifyBool ZifyNat ZifyN.
From Verif Require Import Base Strings EnumModel SupportModel SupportSpec UnrollModel AttributeModel TablesSpec TypeTableSpec RecordModel RecordSpec
  AttributeSpec SupportMain RecordProofs ReaderSpec.
Local Open Scope N_scope.

Lemma one_based_exact {A} (l : list A) i o : entry_from_one l i = Some o <-> one_based l i o.
Proof.
  unfold entry_from_one, one_based. destruct (i =? 0) eqn:Z.
  - split; [intros [= <-]; left; split; [lia|reflexivity]|]. intros [(_ & ->)|(k & x & K & _)]; [reflexivity|lia].
  - split.
    + destruct (nth_error l _) as [x|] eqn:X; [|discriminate]. intros [= <-]. right. exists (i - 1), x. split; [lia|auto].
    + intros [(K & _)|(k & x & -> & X & ->)]; [lia|]. replace (k + 1 - 1) with k by lia. now rewrite X.
Qed.

Lemma linkage_llvm v x : decodes linkage_table LkExternal v x -> llvm_linkage v = x.
Proof.
  intros D. apply (proj2 (decodes_iff _ _ _ linkage_realises v x)) in D. rewrite <- D. unfold linkage_of, llvm_linkage.
  destruct v as [|p]; [reflexivity|]. do 5 (destruct p as [p|p|]; try reflexivity).
Qed.
Lemma unnamed_llvm v x : decodes unnamed_addr_table UaNone v x -> llvm_unnamed v = x.
Proof.
  intros D. apply (proj2 (decodes_iff _ _ _ unnamed_addr_realises v x)) in D. rewrite <- D. unfold unnamed_addr_of, llvm_unnamed.
  destruct v as [|p]; [reflexivity|]. do 2 (destruct p as [p|p|]; try reflexivity).
Qed.
Lemma visibility_llvm v x : In (x, v) visibility_table -> llvm_visibility v = x.
Proof. cbn. intros [[= <- <-]|[[= <- <-]|[[= <- <-]|[]]]]; reflexivity. Qed.
Lemma storage_llvm v x : In (x, v) dll_storage_class_table -> llvm_storage v = x.
Proof. cbn. intros [[= <- <-]|[[= <- <-]|[[= <- <-]|[]]]]; reflexivity. Qed.

Lemma stored_bytes t offset size s : stored t offset size s ->
  firstn (N.to_nat size) (skipn (N.to_nat offset) t) = utf8_encode s /\ offset + size <= N.of_nat (length t).
Proof.
  intros (b & a & -> & O & S & _). split.
  - rewrite <- O, <- S, !Nat2N.id, skipn_app, skipn_all, Nat.sub_diag. cbn [app skipn].
    rewrite firstn_app, firstn_all, Nat.sub_diag. cbn [firstn]. apply app_nil_r.
  - rewrite !app_length. lia.
Qed.

(** The fields of a record that is long enough. *)
Lemma ten (l : list N) : (10 <= length l)%nat ->
  exists a0 a1 a2 a3 a4 a5 a6 a7 a8 a9 more, l = a0 :: a1 :: a2 :: a3 :: a4 :: a5 :: a6 :: a7 :: a8 :: a9 :: more.
Proof.
  intros L. do 10 (destruct l as [|? l]; [cbn in L; lia|]). now do 11 eexists.
Qed.
Lemma field_of (r : record) l i v : r_fields r = l -> (field r i v <-> nth_error l i = Some v).
Proof. intros <-. reflexivity. Qed.

Lemma described_long c r f : function_described c r f -> (10 <= length (r_fields r))%nat.
Proof.
  intros D. destruct (fd_visibility _ _ _ D) as (v & F & _). apply Nat.lt_nge. intros L.
  unfold field in F. rewrite (proj2 (nth_error_None _ _)) in F by lia. discriminate.
Qed.

Definition is_some {A} (o : option A) : Prop := match o with Some _ => True | None => False end.

(** Which of the records llvm-mapper reads LLVM reads too. *)
Lemma described_read most c r f : most <= 63 -> Forall (fun v => v < 2 ^ 32) (r_fields r) -> function_described c r f ->
  ((exists lf, llvm_function most c r = Some lf) <->
   (exists v, field r 7 v /\ v <= most + 1) /\ (exists v, field r 3 v /\ v <= 1023) /\
   (forall v, field r 14 v -> v <= N.of_nat (length (cx_comdats c)))).
Proof.
  intros M SM D. destruct (ten _ (described_long _ _ _ D)) as (a0 & a1 & a2 & a3 & a4 & a5 & a6 & a7 & a8 & a9 & more & E).
  destruct D as [(o & s & F0 & F1 & _ & ST) (i & F2 & AT & (fr & fp & fv & FT)) _ _ _ _ _ (v8 & F8 & S8) _ G _ _].
  apply (field_of _ _ _ _ E) in F0, F1, F2, F8. cbn in F0, F1, F2, F8.
  injection F0 as <-. injection F1 as <-. injection F2 as <-. injection F8 as <-.
  destruct (stored_bytes _ _ _ _ ST) as [_ B].
  unfold llvm_function. rewrite E. replace (_ <? a0 + a1) with false by lia. unfold at_index in AT. rewrite AT, FT. cbn [llvm_function_type].
  apply one_based_exact in S8. rewrite S8.
  assert (GC : entry_from_one (cx_gcs c) (nth 0 more 0) = Some (fn_gc f)).
  { destruct G as [(v & F & G)|(L & ->)].
    - apply (field_of _ _ _ _ E) in F. cbn in F. destruct more as [|x more]; [discriminate F|]. cbn in F. injection F as <-.
      now apply one_based_exact in G.
    - unfold no_field in L. rewrite E in L. destruct more as [|x more]; [reflexivity|]. cbn in L. lia. }
  rewrite GC.
  assert (CD : entry_from_one (cx_comdats c) (nth 4 more 0) <> None <-> forall v, field r 14 v -> v <= N.of_nat (length (cx_comdats c))).
  { unfold entry_from_one. split.
    - intros H v F. apply (field_of _ _ _ _ E) in F. change (nth_error more 4 = Some v) in F. rewrite (nth_error_nth _ _ 0 F) in H. destruct (v =? 0) eqn:Z; [lia|].
      destruct (nth_error (cx_comdats c) _) eqn:X; [|now destruct H]. assert (K : (N.to_nat (v - 1) < length (cx_comdats c))%nat) by (apply nth_error_Some; congruence). lia.
    - intros H. destruct (nth 4 more 0 =? 0) eqn:Z; [discriminate|].
      destruct (nth_error more 4) as [v|] eqn:X; [|rewrite nth_overflow in Z; [discriminate Z|now apply nth_error_None]].
      rewrite (nth_error_nth _ _ 0 X) in *. specialize (H v (proj2 (field_of _ _ 14 _ E) X)).
      destruct (nth_error (cx_comdats c) _) eqn:Y; [discriminate|]. apply nth_error_None in Y. lia. }
  split.
  - intros (lf & H). destruct (1023 <? a3) eqn:CC; [discriminate|]. destruct (most + 1 <? a7) eqn:AL; [discriminate|].
    split; [exists a7; split; [now apply (field_of _ _ _ _ E)|lia]|]. split; [exists a3; split; [now apply (field_of _ _ _ _ E)|lia]|].
    apply CD. destruct (entry_from_one (cx_comdats c) _); [discriminate|discriminate H].
  - intros ((v7 & F7 & L7) & (v3 & F3 & L3) & K). apply (field_of _ _ _ _ E) in F7, F3. cbn in F7, F3. injection F7 as <-. injection F3 as <-.
    replace (1023 <? a3) with false by lia. replace (most + 1 <? a7) with false by lia. apply CD in K.
    destruct (entry_from_one (cx_comdats c) _); [now eexists|now destruct K].
Qed.

Lemma llvm_inv most c r lf : llvm_function most c r = Some lf ->
  exists a0 a1 a2 a3 a4 a5 a6 a7 a8 a9 more t,
    r_fields r = a0 :: a1 :: a2 :: a3 :: a4 :: a5 :: a6 :: a7 :: a8 :: a9 :: more /\ a0 + a1 <= N.of_nat (length (cx_strtab c)) /\
    nth_error (cx_types c) (N.to_nat a2) = Some t /\ llvm_function_type t = Some (lf_ty lf) /\ a3 <= 1023 /\ a7 <= most + 1 /\
    entry_from_one (cx_sections c) a8 = Some (lf_section lf) /\ entry_from_one (cx_gcs c) (nth 0 more 0) = Some (lf_gc lf) /\
    lf_name lf = firstn (N.to_nat a1) (skipn (N.to_nat a0) (cx_strtab c)) /\ lf_cc lf = a3 /\ lf_declaration lf = negb (a4 =? 0) /\
    lf_linkage lf = llvm_linkage a5 /\
    lf_attributes lf = match entry_from_one (cx_attributes c) a6 with Some (Some l) => l | _ => [] end /\
    lf_alignment lf = (if a7 =? 0 then None else Some (a7 - 1)) /\
    lf_visibility lf = (if local_linkage (llvm_linkage a5) then VisDefault else llvm_visibility a9) /\
    lf_unnamed_addr lf = llvm_unnamed (nth 1 more 0) /\
    lf_storage lf = (if (3 <? length more)%nat then llvm_storage (nth 3 more 0)
                     else match a5 with 5 => DllImport | 6 => DllExport | _ => DllDefault end).
Proof.
  unfold llvm_function. destruct (r_fields r) as [|a0 [|a1 [|a2 [|a3 [|a4 [|a5 [|a6 [|a7 [|a8 [|a9 more]]]]]]]]]]; try discriminate.
  destruct (_ <? a0 + a1) eqn:L0; [discriminate|]. destruct (nth_error (cx_types c) _) as [t|] eqn:T; [|discriminate].
  destruct (llvm_function_type t) as [ft|] eqn:FT; [|discriminate]. destruct (1023 <? a3) eqn:CC; [discriminate|].
  destruct (most + 1 <? a7) eqn:AL; [discriminate|]. destruct (entry_from_one (cx_sections c) a8) as [se|] eqn:S8; [|discriminate].
  destruct (entry_from_one (cx_gcs c) _) as [gc|] eqn:G; [|discriminate]. destruct (entry_from_one (cx_comdats c) _); [|discriminate].
  intros [= <-]. exists a0, a1, a2, a3, a4, a5, a6, a7, a8, a9, more, t. cbn [lf_name lf_ty lf_cc lf_declaration lf_linkage lf_attributes lf_alignment lf_section lf_visibility lf_gc lf_unnamed_addr lf_storage].
  repeat (split; [first [reflexivity|assumption|lia]|]). reflexivity.
Qed.

Lemma both_agree most c r f lf : most <= 63 -> function_described c r f -> llvm_function most c r = Some lf ->
  agree f lf /\
  (lf_visibility lf = if local_linkage (fn_linkage f) then VisDefault else fn_visibility f) /\
  ((exists v, field r 13 v) -> lf_storage lf = fn_storage f) /\
  (no_field r 13 -> fn_storage f = DllDefault /\
     lf_storage lf = if existsb (N.eqb 5) (firstn 1 (skipn 5 (r_fields r))) then DllImport
                     else if existsb (N.eqb 6) (firstn 1 (skipn 5 (r_fields r))) then DllExport else DllDefault).
Proof.
  intros M D L. destruct (llvm_inv _ _ _ _ L) as (a0 & a1 & a2 & a3 & a4 & a5 & a6 & a7 & a8 & a9 & more & t & E & _ & T & FT & CC & AL & SE & GC & Xn & Xc & Xd & Xl & Xa & Xal & Xv & Xu & Xs).
  destruct D as [(o & s & F0 & F1 & _ & ST) (i & F2 & AT & (fr & fp & fv & FTy)) (v3 & F3 & C3) (v4 & F4 & C4) (v5 & F5 & C5) (v6 & F6 & C6) (v7 & F7 & C7)
    (v8 & F8 & S8) (v9 & F9 & C9) G U S].
  apply (field_of _ _ _ _ E) in F0, F1, F2, F3, F4, F5, F6, F7, F8, F9. cbn in F0, F1, F2, F3, F4, F5, F6, F7, F8, F9.
  injection F0 as <-. injection F1 as <-. injection F2 as <-. injection F3 as <-. injection F4 as <-. injection F5 as <-. injection F6 as <-. injection F7 as <-.
  injection F8 as <-. injection F9 as <-.
  apply linkage_llvm in C5. apply visibility_llvm in C9.
  split; [|split; [|split]].
  - constructor.
    + rewrite Xn. symmetry. exact (proj1 (stored_bytes _ _ _ _ ST)).
    + unfold at_index in AT. rewrite AT in T. injection T as <-. rewrite FTy in FT. cbn in FT. injection FT as <-. exact FTy.
    + rewrite Xc. apply (proj1 (proj2 calling_convention_realises)). exact C3.
    + rewrite Xd. destruct (fn_declaration f), (a4 =? 0) eqn:Z; cbn; try reflexivity; exfalso.
      * destruct C4 as [K _]. specialize (K eq_refl). lia.
      * destruct C4 as [_ K]. assert (false = true) by (apply K; lia). discriminate.
    + now rewrite Xl, C5.
    + rewrite Xa. apply one_based_exact in C6. rewrite C6. now destruct (fn_attributes f).
    + rewrite Xal. rewrite N.mod_small in C7 by lia. destruct C7 as [(-> & ->)|(k & -> & _ & ->)]; [reflexivity|].
      replace (k + 1 =? 0) with false by lia. cbn. f_equal. lia.
    + apply one_based_exact in S8. congruence.
    + destruct G as [(v & F & G)|(N10 & ->)].
      * apply (field_of _ _ _ _ E) in F. change (nth_error more 0 = Some v) in F. rewrite (nth_error_nth _ _ 0 F) in GC.
        apply one_based_exact in G. congruence.
      * unfold no_field in N10. rewrite E in N10. destruct more; [cbn in GC; congruence|cbn in N10; lia].
    + destruct U as [(v & F & U)|(N11 & ->)].
      * apply (field_of _ _ _ _ E) in F. change (nth_error more 1 = Some v) in F. rewrite Xu, (nth_error_nth _ _ 0 F). symmetry. now apply unnamed_llvm.
      * unfold no_field in N11. rewrite E in N11. rewrite Xu. destruct more as [|? [|? ?]]; [reflexivity|reflexivity|cbn in N11; lia].
  - rewrite Xv, C5. now rewrite C9.
  - intros (v & F). destruct S as [(v' & F' & S)|(N13 & _)].
    + apply (field_of _ _ _ _ E) in F'. change (nth_error more 3 = Some v') in F'. rewrite Xs, (nth_error_nth _ _ 0 F').
      assert (K : (3 < length more)%nat) by (apply nth_error_Some; congruence). replace (3 <? length more)%nat with true by lia. now apply storage_llvm.
    + unfold no_field in N13. unfold field in F. apply nth_error_None in N13. congruence.
  - intros N13. destruct S as [(v' & F' & S)|(_ & ->)].
    + unfold no_field in N13. unfold field in F'. apply nth_error_None in N13. congruence.
    + split; [reflexivity|]. rewrite Xs. unfold no_field in N13. rewrite E in *. cbn [length] in N13. replace (3 <? length more)%nat with false by lia.
      cbn [skipn firstn existsb]. rewrite !orb_false_r.
      destruct a5 as [|[[[]|[]|]|[[]|[]|]|]]; try reflexivity.
Qed.

Lemma accepted_exactly e most c r lf : most <= 63 -> fields64 r -> N.of_nat (length (cx_strtab c)) < two64 -> 2 <= cx_version c ->
  llvm_function most c r = Some lf -> ((exists f, fn_of e c r = Ok f) <-> strict c r).
Proof.
  intros M F64 LT V L. split.
  - intros (f & H). apply (function_exact e c r f F64 LT) in H as (_ & D). constructor.
    + exists (fn_name f). exact (fd_name _ _ _ D).
    + destruct (fd_type _ _ _ D) as (i & F & A & T). now exists i, (fn_ty f).
    + destruct (fd_cc _ _ _ D) as (v & F & C). now exists (fn_cc f), v.
    + destruct (fd_attributes _ _ _ D) as (v & F & O). exists v. split; [exact F|].
      destruct O as [(-> & _)|(k & x & -> & X & _)]; [lia|]. assert (K : (N.to_nat k < length (cx_attributes c))%nat) by (apply nth_error_Some; congruence). lia.
    + destruct (fd_visibility _ _ _ D) as (v & F & O). exists v. split; [exact F|]. cbn in O. destruct O as [[= _ <-]|[[= _ <-]|[[= _ <-]|[]]]]; lia.
    + intros v F. destruct (fd_storage _ _ _ D) as [(v' & F' & O)|(NF & _)].
      * unfold field in F, F'. assert (v' = v) by congruence. subst v'. cbn in O. destruct O as [[= _ <-]|[[= _ <-]|[[= _ <-]|[]]]]; lia.
      * unfold no_field in NF. unfold field in F. apply nth_error_None in NF. congruence.
  - intros [(s & NA) (i & t & F2 & AT & TF) (cc & v3 & F3 & C3) (v6 & F6 & C6) (v9 & F9 & C9) SO].
    destruct (llvm_inv _ _ _ _ L) as (a0 & a1 & a2 & a3 & a4 & a5 & a6 & a7 & a8 & a9 & more & t' & E & _ & T & FT & CC & AL & SE & GC & _).
    assert (OA : exists o, one_based (cx_attributes c) v6 o).
    { destruct (N.eq_dec v6 0) as [->|Z]; [exists None; now left|].
      destruct (nth_error (cx_attributes c) (N.to_nat (v6 - 1))) as [x|] eqn:X; [|apply nth_error_None in X; lia].
      exists (Some x). right. exists (v6 - 1), x. split; [lia|auto]. }
    destruct OA as (oa & OA).
    assert (VI : exists x, In (x, v9) visibility_table).
    { destruct (N.eq_dec v9 0) as [->|]; [exists VisDefault; cbn; auto|]. destruct (N.eq_dec v9 1) as [->|]; [exists VisHidden; cbn; auto|].
      replace v9 with 2 by lia. exists VisProtected. cbn. auto. }
    destruct VI as (vi & VI).
    assert (ST : exists x, (exists v, field r 13 v /\ In (x, v) dll_storage_class_table) \/ (no_field r 13 /\ x = DllDefault)).
    { destruct (nth_error (r_fields r) 13) as [v|] eqn:X; [|exists DllDefault; right; split; [now apply nth_error_None|reflexivity]].
      specialize (SO v X). destruct (N.eq_dec v 0) as [->|]; [exists DllDefault; left; exists 0; cbn; auto|].
      destruct (N.eq_dec v 1) as [->|]; [exists DllImport; left; exists 1; cbn; auto|]. exists DllExport. left. exists v. replace v with 2 in * by lia. cbn; auto. }
    destruct ST as (st & ST).
    assert (UA : exists x, (exists v, field r 11 v /\ decodes unnamed_addr_table UaNone v x) \/ (no_field r 11 /\ x = UaNone)).
    { destruct (nth_error (r_fields r) 11) as [v|] eqn:X; [|exists UaNone; right; split; [now apply nth_error_None|reflexivity]].
      exists (unnamed_addr_of v). left. exists v. split; [exact X|]. now apply (decodes_iff _ _ _ unnamed_addr_realises). }
    destruct UA as (ua & UA).
    assert (ALI : exists o, aligned_to (a7 mod 256) o).
    { rewrite N.mod_small by lia. destruct (N.eq_dec a7 0) as [->|]; [exists None; now left|]. exists (Some (mkAlign (a7 - 1))). right. exists (a7 - 1). split; [lia|]. split; [lia|reflexivity]. }
    destruct ALI as (al & ALI).
    exists (mkFn s t cc (negb (a4 =? 0)) (linkage_of a5) oa al (lf_section lf) vi (lf_gc lf) ua st).
    apply (function_exact e c r _ F64 LT). split; [exact V|].
    assert (FI : forall k v, nth_error (a0 :: a1 :: a2 :: a3 :: a4 :: a5 :: a6 :: a7 :: a8 :: a9 :: more) k = Some v -> field r k v)
      by (intros k v H; now apply (field_of _ _ _ _ E)).
    constructor; cbn [fn_name fn_ty fn_cc fn_declaration fn_linkage fn_attributes fn_alignment fn_section fn_visibility fn_gc fn_unnamed_addr fn_storage].
    + exact NA.
    + now exists i.
    + now exists v3.
    + exists a4. split; [now apply FI|]. destruct (a4 =? 0) eqn:Z; cbn; split; intros; try discriminate; try reflexivity; lia.
    + exists a5. split; [now apply FI|]. now apply (decodes_iff _ _ _ linkage_realises).
    + now exists v6.
    + exists a7. split; [now apply FI|exact ALI].
    + exists a8. split; [now apply FI|]. now apply one_based_exact.
    + now exists v9.
    + destruct more as [|x more].
      * right. split; [unfold no_field; rewrite E; cbn; lia|]. cbn in GC. congruence.
      * left. exists x. split; [now apply FI|]. now apply one_based_exact.
    + exact UA.
    + exact ST.
Qed.

Lemma storage_split r f lf : ((exists v, field r 13 v) -> lf_storage lf = fn_storage f) ->
  (no_field r 13 -> fn_storage f = DllDefault /\
     lf_storage lf = if existsb (N.eqb 5) (firstn 1 (skipn 5 (r_fields r))) then DllImport
                     else if existsb (N.eqb 6) (firstn 1 (skipn 5 (r_fields r))) then DllExport else DllDefault) ->
  (fn_storage f = lf_storage lf <-> ~ ((length (r_fields r) <= 13)%nat /\ (field r 5 5 \/ field r 5 6))).
Proof.
  intros S1 S2. destruct (nth_error (r_fields r) 13) as [v|] eqn:E.
  - split; [|intros _; symmetry; apply S1; now exists v]. intros _ [K _]. apply nth_error_None in K. congruence.
  - apply nth_error_None in E. destruct (S2 E) as [-> ->]. unfold field.
    assert (X : firstn 1 (skipn 5 (r_fields r)) = match nth_error (r_fields r) 5 with Some v => [v] | None => [] end).
    { destruct (r_fields r) as [|? [|? [|? [|? [|? [|? ?]]]]]]; reflexivity. }
    rewrite X. destruct (nth_error (r_fields r) 5) as [v|].
    + cbn [existsb]. rewrite !orb_false_r. destruct (5 =? v) eqn:A, (6 =? v) eqn:B; split; try discriminate.
      * lia.
      * intros K. exfalso. apply K. split; [exact E|]. left. f_equal. lia.
      * intros K. exfalso. apply K. split; [exact E|]. right. f_equal. lia.
      * intros _ [_ [[= K]|[= K]]]; lia.
      * reflexivity.
    + cbn. split; [|reflexivity]. intros _ [_ [K|K]]; discriminate.
Qed.

Lemma conventions_known v :
  (llvm_convention v /\ ~ In v [18; 19; 20; 97; 98; 99; 100; 101]) <-> exists x, In (x, v) calling_convention_table.
Proof.
  split.
  - intros [C N]. destruct (calling_convention_of v) as [x|] eqn:E.
    + exists x. now apply (enum_iff _ _ _ v x calling_convention_realises).
    + exfalso. assert (K : v <= 101) by (destruct C as [C|[C|C]]; lia).
      assert (A : forall n, (n <= 101)%nat -> calling_convention_of (N.of_nat n) = None -> llvm_convention (N.of_nat n) ->
                  In (N.of_nat n) [18; 19; 20; 97; 98; 99; 100; 101]).
      { intros n L. do 102 (destruct n as [|n]; [vm_compute; intros; first [discriminate|tauto|exfalso; intuition congruence]|]). lia. }
      apply N. specialize (A (N.to_nat v)). rewrite N2Nat.id in A. apply A; [lia|exact E|exact C].
  - intros [x H]. unfold llvm_convention. cbn in H.
    repeat (destruct H as [[= _ <-]|H]; [split; [lia|intros K; cbn in K; repeat (destruct K as [K|K]; [discriminate K|]); exact K]|]). destruct H.
Qed.

Lemma read_by_llvm e most c r f : most <= 63 -> Forall (fun v => v < 2 ^ 32) (r_fields r) ->
  N.of_nat (length (cx_strtab c)) < 2 ^ 64 -> fn_of e c r = Ok f ->
  ((exists lf, llvm_function most c r = Some lf) <->
   (exists v, field r 7 v /\ v <= most + 1) /\ (forall v, field r 14 v -> v <= N.of_nat (length (cx_comdats c)))).
Proof.
  intros M F B H.
  assert (F64 : fields64 r).
  { unfold fields64. revert F. apply Forall_impl. intros a K. apply N.lt_trans with (2 ^ 32); [exact K|reflexivity]. }
  apply (function_exact e c r f F64 B) in H as [_ D]. rewrite (described_read _ _ _ _ M F D).
  assert (CC : exists v, field r 3 v /\ v <= 1023).
  { destruct (fd_cc _ _ _ D) as (v & F3 & I). exists v. split; [exact F3|].
    destruct (proj2 (conventions_known v) (ex_intro (fun x => In (x, v) calling_convention_table) _ I)) as [[C|[C|C]] _]; lia. }
  tauto.
Qed.
