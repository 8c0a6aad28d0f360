(** Proofs for C79. *)
From Verif Require Import Base Strings EnumModel SupportModel LayoutModel CursorModel StreamModel StreamSpec UnrollModel UnrollSpec
  AttributeModel TablesModel TypeTableModel RecordModel ModuleModel StreamHist StreamMain UnrollProofs UnrollMain UnrollApi PipelineProofs SupportMain CompatSpec.
From Coq Require Import Lia ZifyBool ZifyNat ZifyN.
Local Open Scope N_scope.

(** *** Records *)

Definition pair_of (r : record) : N * list N := (r_code r, r_fields r).
Definition rec_of (x : N * list N) : record := mkRecord None (fst x) (snd x).
Definition plain (r : record) : record := rec_of (pair_of r).

Lemma contents_records body : contents body = map pair_of (records_in body).
Proof.
  induction body as [|[a c f|v l b] body IH]; [reflexivity| |exact IH].
  change (contents (TRec a c f :: body)) with ((c, f) :: contents body). rewrite IH. reflexivity.
Qed.
Lemma by_code_pairs c l : map pair_of (by_code c l) = filter (fun x => fst x =? c) (map pair_of l).
Proof.
  unfold by_code. induction l as [|r l IH]; [reflexivity|]. cbn [filter map pair_of fst]. destruct (r_code r =? c); cbn [map]; now rewrite IH.
Qed.
Lemma of_kind_records c body : of_kind c body = map r_fields (by_code c (records_in body)).
Proof. unfold of_kind. rewrite contents_records, <- by_code_pairs, map_map. reflexivity. Qed.

Lemma collect_map {E A B C} (f : B -> outcome E C) (g : A -> B) l : collect f (map g l) = collect (fun x => f (g x)) l.
Proof. induction l as [|x l IH]; [reflexivity|]. cbn [map collect]. destruct (f (g x)); cbn [obind]; [now rewrite IH|reflexivity..]. Qed.
Lemma collect_ext {E A C} (f g : A -> outcome E C) l : (forall x, f x = g x) -> collect f l = collect g l.
Proof. intros H. induction l as [|x l IH]; [reflexivity|]. cbn [collect]. now rewrite H, IH. Qed.
Lemma collect_ext_in {E A C} (f g : A -> outcome E C) l : (forall x, In x l -> f x = g x) -> collect f l = collect g l.
Proof.
  intros H. induction l as [|x l IH]; [reflexivity|]. cbn [collect]. rewrite H by now left. rewrite IH by (intros; apply H; now right). reflexivity.
Qed.
(** Functions of the known fields of the records of a kind. *)
Lemma collect_known {E A} (f : record -> outcome E A) c k l1 l2 :
  (forall r, r_code r = c -> f r = f (mkRecord None c (k (r_fields r)))) ->
  map k (map r_fields (by_code c l1)) = map k (map r_fields (by_code c l2)) ->
  collect f (by_code c l1) = collect f (by_code c l2).
Proof.
  intros H E0.
  assert (X : forall l, collect f (by_code c l) = collect (fun g => f (mkRecord None c g)) (map k (map r_fields (by_code c l)))).
  { intros l. rewrite !collect_map. apply collect_ext_in. intros r I. apply H. apply filter_In in I. lia. }
  now rewrite !X, E0.
Qed.
Lemma codes_of c l r : In r (by_code c l) -> r_code r = c.
Proof. intros I. apply filter_In in I. lia. Qed.

(** The cardinalities. *)
Lemma exactly_one_known {E A} (f : record -> outcome E A) (w : cons_err -> E) c k l1 l2 :
  (forall r, r_code r = c -> f r = f (mkRecord None c (k (r_fields r)))) ->
  map k (map r_fields (by_code c l1)) = map k (map r_fields (by_code c l2)) ->
  obind (omap_err w (exactly_one c l1)) f = obind (omap_err w (exactly_one c l2)) f.
Proof.
  intros H E0. unfold exactly_one, exactly_one_of.
  pose proof (codes_of c l1) as C1. pose proof (codes_of c l2) as C2.
  destruct (by_code c l1) as [|x [|x' t1]], (by_code c l2) as [|y [|y' t2]]; try discriminate E0; try reflexivity.
  cbn [map] in E0. injection E0 as E0. cbn [omap_err obind]. rewrite (H x), (H y), E0; [reflexivity|apply C2; now left|apply C1; now left].
Qed.
Lemma one_or_none_known {E A} (f : option record -> outcome E A) (w : cons_err -> E) c k l1 l2 :
  (forall r, r_code r = c -> f (Some r) = f (Some (mkRecord None c (k (r_fields r))))) ->
  map k (map r_fields (by_code c l1)) = map k (map r_fields (by_code c l2)) ->
  obind (omap_err w (one_or_none c l1)) f = obind (omap_err w (one_or_none c l2)) f.
Proof.
  intros H E0. unfold one_or_none, one_or_none_of.
  pose proof (codes_of c l1) as C1. pose proof (codes_of c l2) as C2.
  destruct (by_code c l1) as [|x [|x' t1]], (by_code c l2) as [|y [|y' t2]]; try discriminate E0; try reflexivity.
  cbn [map] in E0. injection E0 as E0. cbn [omap_err obind]. rewrite (H x), (H y), E0; [reflexivity|apply C2; now left|apply C1; now left].
Qed.

(** *** What the records of a module say *)

Lemma nth_firstn {A} k : forall n (l : list A), (n < k)%nat -> nth_error (firstn k l) n = nth_error l n.
Proof.
  induction k as [|k IH]; intros n l H; [lia|]. destruct l as [|x l]; [now destruct n|]. destruct n as [|n]; [reflexivity|].
  cbn [firstn nth_error]. apply IH. lia.
Qed.
Lemma nth_firstn_d {A} k (d : A) : forall n l, (n < k)%nat -> nth n (firstn k l) d = nth n l d.
Proof.
  induction k as [|k IH]; intros n l H; [lia|]. destruct l as [|x l]; [now destruct n|]. destruct n as [|n]; [reflexivity|].
  cbn [firstn nth]. apply IH. lia.
Qed.
Lemma head_known r a c : hd_error (r_fields r) = hd_error (r_fields (mkRecord a c (firstn 1 (r_fields r)))).
Proof. cbn [r_fields]. now destruct (r_fields r). Qed.

Lemma name_known e t r c k : (2 <= k)%nat -> strtab_read_name e t r = strtab_read_name e t (mkRecord None c (firstn k (r_fields r))).
Proof.
  intros H. unfold strtab_read_name. cbn [r_fields]. destruct k as [|[|k]]; [lia|lia|].
  destruct (r_fields r) as [|x [|y l]]; reflexivity.
Qed.
Lemma fn_known e c r : fn_of e c r = fn_of e c (mkRecord None 8 (firstn 14 (r_fields r))).
Proof.
  unfold fn_of, fld. rewrite <- (name_known e (cx_strtab c) r 8 14) by lia. cbn [r_fields].
  rewrite firstn_length, !nth_firstn_d, !nth_firstn by lia.
  replace (Nat.min 14 (length (r_fields r)) <? 10)%nat with (length (r_fields r) <? 10)%nat by lia.
  destruct (length (r_fields r) <? 10)%nat eqn:L; [|reflexivity]. now replace (Nat.min 14 (length (r_fields r))) with (length (r_fields r)) by lia.
Qed.
Lemma alias_known e c r : alias_of e c r = alias_of e c (mkRecord None 14 (firstn 10 (r_fields r))).
Proof.
  unfold alias_of, fld. rewrite <- (name_known e (cx_strtab c) r 14 10) by lia. cbn [r_fields].
  rewrite firstn_length, !nth_firstn_d, !nth_firstn by lia.
  replace (Nat.min 10 (length (r_fields r)) <? 5)%nat with (length (r_fields r) <? 5)%nat by lia.
  destruct (length (r_fields r) <? 5)%nat eqn:L; [|reflexivity]. now replace (Nat.min 10 (length (r_fields r))) with (length (r_fields r)) by lia.
Qed.

(** *** TYPE blocks *)

Definition known_type (r : record) : record := mkRecord None (r_code r) (known_type_fields (r_code r) (r_fields r)).
Lemma type_code_back v x : type_code_of v = Some x -> v = type_code_num x.
Proof. revert v x. assert (H : forall v x, type_code_of v = Some x -> type_code_num x = v) by of_num. intros v x E. symmetry. now apply H. Qed.
Lemma type_step_known e st r : type_step e st r = type_step e st (known_type r).
Proof.
  unfold type_step, known_type. cbn [r_code r_fields]. destruct st as [partials name].
  destruct (type_code_of (r_code r)) as [code|] eqn:E; [|reflexivity]. apply type_code_back in E. rewrite E. cbn [ok_or obind].
  unfold type_field. cbn [r_fields].
  destruct code; cbn [type_code_num known_type_fields]; rewrite ?nth_firstn by lia; reflexivity.
Qed.
Lemma type_loop_known e l : forall st, type_loop e l st = type_loop e (map known_type l) st.
Proof. induction l as [|r l IH]; intros st; [reflexivity|]. cbn [map type_loop]. rewrite <- type_step_known. destruct (type_step e st r); cbn [obind]; [apply IH|reflexivity..]. Qed.
Lemma by_code_map c g l : (forall r, r_code (g r) = r_code r) -> by_code c (map g l) = map g (by_code c l).
Proof.
  intros H. unfold by_code. induction l as [|r l IH]; [reflexivity|]. cbn [map filter]. rewrite H. destruct (r_code r =? c); cbn [map]; now rewrite IH.
Qed.
Lemma type_table_known e b1 b2 : map known_type (b_records b1) = map known_type (b_records b2) -> type_table_of e b1 = type_table_of e b2.
Proof.
  intros H.
  assert (X : forall b, type_table_of e b =
    let? r := ok_or (one 1 (map known_type (b_records b))) TtBadTable in
    let? n := ok_or (hd_error (r_fields r)) TtBadTable in
    if alloc_limit e <? n then Panic PAlloc
    else let? (partials, _) := type_loop e (map known_type (b_records b)) ([], []) in reify n partials).
  { intros b. unfold type_table_of. rewrite <- type_loop_known. unfold one. rewrite by_code_map by reflexivity.
    change (type_code_num TcNumEntry) with 1. pose proof (codes_of 1 (b_records b)) as C.
    destruct (by_code 1 (b_records b)) as [|x l]; [reflexivity|]. cbn [hd_error map ok_or obind]. unfold known_type.
    rewrite (C x) by now left. cbn [known_type_fields]. now rewrite <- (head_known x None 1). }
  now rewrite !X, H.
Qed.

(** *** The other blocks *)

Lemma by_code_plain c l : by_code c (map plain l) = map plain (by_code c l).
Proof. apply by_code_map. reflexivity. Qed.
Lemma plain_pairs l1 l2 : map pair_of l1 = map pair_of l2 -> map plain l1 = map plain l2.
Proof. intros H. unfold plain. rewrite <- !(map_map pair_of rec_of). now rewrite H. Qed.

Lemma groups_loop_plain l : forall m, groups_loop l m = groups_loop (map plain l) m.
Proof.
  induction l as [|r l IH]; intros m; [reflexivity|]. cbn [map groups_loop]. change (group_of_record (plain r)) with (group_of_record r).
  destruct (group_of_record r); cbn [obind]; [apply IH|reflexivity..].
Qed.
Lemma attr_groups_plain b1 b2 : map plain (b_records b1) = map plain (b_records b2) -> attr_groups_of b1 = attr_groups_of b2.
Proof. intros H. unfold attr_groups_of. rewrite (groups_loop_plain (b_records b1)), (groups_loop_plain (b_records b2)). now rewrite H. Qed.
Lemma attributes_plain m b1 b2 : map plain (b_records b1) = map plain (b_records b2) -> attributes_of m b1 = attributes_of m b2.
Proof.
  intros H. unfold attributes_of.
  assert (X : forall l, collect (entry_of_record m) l = collect (entry_of_record m) (map plain l)) by (intros l; rewrite collect_map; reflexivity).
  rewrite (X (b_records b1)), (X (b_records b2)). now rewrite H.
Qed.
Lemma fn_block_plain e t b1 b2 : map plain (b_records b1) = map plain (b_records b2) -> fn_block_of e t b1 = fn_block_of e t b2.
Proof.
  intros H.
  assert (X : forall b, fn_block_of e t b = fn_block_of e t (mkBlock (b_id b) (map plain (b_records b)) [])).
  { intros b. unfold fn_block_of, exactly_one, exactly_one_of. cbn [b_records]. rewrite by_code_plain.
    assert (Y : collect (fb_step t) (map plain (b_records b)) = collect (fb_step t) (b_records b)) by (rewrite collect_map; reflexivity).
    rewrite Y. destruct (by_code _ (b_records b)) as [|x [|y l]]; reflexivity. }
  rewrite (X b1), (X b2), H. reflexivity.
Qed.

(** *** Modules *)

Record like_module (b1 b2 : block) : Prop := mkLikeModule {
  lm_records : forall c, In c module_kinds ->
    map (known_fields c) (map r_fields (by_code c (b_records b1))) = map (known_fields c) (map r_fields (by_code c (b_records b2)));
  lm_blocks : forall i, In i [IbParamAttr; IbParamAttrGroup; IbFunction] ->
    Forall2 (fun x y => map plain (b_records x) = map plain (b_records y)) (by_id (BIr i) b1) (by_id (BIr i) b2);
  lm_types : Forall2 (fun x y => map known_type (b_records x) = map known_type (b_records y)) (by_id (BIr IbType) b1) (by_id (BIr IbType) b2);
  lm_symbols : length (by_id (BIr IbValueSymtab) b1) = length (by_id (BIr IbValueSymtab) b2)
}.

Ltac known := unfold module_kinds; cbn [In]; tauto.
Lemma obind_ext {E A B} (m : outcome E A) (f g : A -> outcome E B) : (forall x, f x = g x) -> obind m f = obind m g.
Proof. intros H. destruct m; [apply H|reflexivity..]. Qed.

Lemma strings_known e code b1 b2 : like_module b1 b2 -> In (module_code_num code) [5; 6; 11] ->
  strings_of e code b1 = strings_of e code b2.
Proof.
  intros L I. unfold strings_of. f_equal.
  apply (collect_known _ (module_code_num code) (known_fields (module_code_num code))).
  - intros r _. cbn [In] in I. destruct I as [<-|[<-|[<-|[]]]]; reflexivity.
  - apply (lm_records _ _ L). cbn [In] in I. unfold module_kinds. cbn [In]. tauto.
Qed.
Lemma maybe_known {A} (f : option record -> outcome module_err A) code b1 b2 : like_module b1 b2 -> In (module_code_num code) [2; 3; 4] ->
  (forall r, f (Some r) = f (Some (plain r))) ->
  obind (maybe_record code b1) f = obind (maybe_record code b2) f.
Proof.
  intros L I H. unfold maybe_record. apply (one_or_none_known _ _ _ (known_fields (module_code_num code))).
  - intros r C. rewrite H. unfold plain, rec_of, pair_of. cbn [fst snd]. rewrite C.
    cbn [In] in I. destruct I as [<-|[<-|[<-|[]]]]; reflexivity.
  - apply (lm_records _ _ L). cbn [In] in I. unfold module_kinds. cbn [In]. tauto.
Qed.
Lemma sub_known {A} (P : block -> block -> Prop) (f : block -> outcome module_err A) i b1 b2 :
  Forall2 P (by_id (BIr i) b1) (by_id (BIr i) b2) -> (forall x y, P x y -> f x = f y) ->
  obind (sub_block i b1) f = obind (sub_block i b2) f.
Proof.
  intros F H. unfold sub_block, exactly_one_block, exactly_one_of. destruct F as [|x y l1 l2 P1 F]; [reflexivity|].
  destruct F as [|x' y' l1 l2 P2 F]; [|reflexivity]. cbn [omap_err obind]. exact (H x y P1).
Qed.
Lemma maybe_block_known {A} (P : block -> block -> Prop) (f : option block -> outcome module_err A) i b1 b2 :
  Forall2 P (by_id (BIr i) b1) (by_id (BIr i) b2) -> (forall x y, P x y -> f (Some x) = f (Some y)) ->
  obind (maybe_block i b1) f = obind (maybe_block i b2) f.
Proof.
  intros F H. unfold maybe_block, one_or_none_block, one_or_none_of. destruct F as [|x y l1 l2 P1 F]; [reflexivity|].
  destruct F as [|x' y' l1 l2 P2 F]; [|reflexivity]. cbn [omap_err obind]. exact (H x y P1).
Qed.
Lemma Forall2_length_only {A B} (l1 : list A) (l2 : list B) : length l1 = length l2 -> Forall2 (fun _ _ => True) l1 l2.
Proof. revert l2. induction l1 as [|x l1 IH]; intros [|y l2] H; try discriminate H; constructor; [exact I|]. apply IH. now injection H. Qed.

Lemma module_ctx_like e t b1 b2 : like_module b1 b2 -> module_ctx e t b1 = module_ctx e t b2.
Proof.
  intros L. unfold module_ctx.
  rewrite !(strings_known e _ b1 b2 L) by (cbn; tauto).
  assert (CD : forall version, collect (comdat_of e version t) (by_code (module_code_num McComdat) (b_records b1)) =
                               collect (comdat_of e version t) (by_code (module_code_num McComdat) (b_records b2))).
  { intros version. apply (collect_known _ 12 (known_fields 12)); [reflexivity|apply (lm_records _ _ L); known]. }
  etransitivity; [apply obind_ext; intros r; apply obind_ext; intros version|].
  { etransitivity; [apply (maybe_known _ McDataLayout b1 b2 L); [cbn; tauto|reflexivity]|].
    apply obind_ext. intros r0. apply obind_ext. intros lay. apply obind_ext. intros sections. apply obind_ext. intros gcs.
    etransitivity; [apply (sub_known _ _ IbType b1 b2 (lm_types _ _ L)); intros x y E; rewrite (type_table_known e x y E); reflexivity|].
    apply obind_ext. intros tb. apply obind_ext. intros types.
    etransitivity; [apply (sub_known _ _ IbValueSymtab b1 b2 (Forall2_length_only _ _ (lm_symbols _ _ L))); reflexivity|].
    apply obind_ext. intros vb. cbv zeta.
    etransitivity; [apply (maybe_block_known _ _ IbParamAttrGroup b1 b2 (lm_blocks _ _ L IbParamAttrGroup ltac:(cbn; tauto)));
                    intros x y E; rewrite (attr_groups_plain x y E); reflexivity|].
    apply obind_ext. intros gb. apply obind_ext. intros groups.
    etransitivity; [apply (maybe_block_known _ _ IbParamAttr b1 b2 (lm_blocks _ _ L IbParamAttr ltac:(cbn; tauto)));
                    intros x y E; rewrite (attributes_plain groups x y E); reflexivity|].
    apply obind_ext. intros ab. apply obind_ext. intros attrs. rewrite CD. reflexivity. }
  apply (exactly_one_known _ _ 1 (known_fields 1)); [|apply (lm_records _ _ L); known].
  intros r _. cbn [known_fields]. now rewrite <- (head_known r None 1).
Qed.

Lemma collect_like {E A} (f : block -> outcome E A) (P : block -> block -> Prop) l1 l2 :
  Forall2 P l1 l2 -> (forall x y, P x y -> f x = f y) -> collect f l1 = collect f l2.
Proof. intros F H. induction F as [|x y l1 l2 P1 F IH]; [reflexivity|]. cbn [collect]. now rewrite (H x y P1), IH. Qed.

Lemma module_map_like e host t b1 b2 : like_module b1 b2 -> module_map e host t b1 = module_map e host t b2.
Proof.
  intros L. unfold module_map. rewrite (module_ctx_like e t b1 b2 L). apply obind_ext. intros c.
  rewrite (strings_known e McDepLib b1 b2 L) by (cbn; tauto).
  etransitivity; [apply (maybe_known _ McTriple b1 b2 L); [cbn; tauto|reflexivity]|]. apply obind_ext. intros r. apply obind_ext. intros triple.
  etransitivity; [apply (maybe_known _ McAsm b1 b2 L); [cbn; tauto|reflexivity]|]. apply obind_ext. intros r'. apply obind_ext. intros asm.
  apply obind_ext. intros deplibs.
  rewrite (collect_known (fn_of e c) (module_code_num McFunction) (known_fields 8) (b_records b1) (b_records b2));
    [|intros r0 _; apply fn_known|apply (lm_records _ _ L); known].
  apply obind_ext. intros fns.
  rewrite (collect_like (fn_block_of e (cx_types c)) _ _ _ (lm_blocks _ _ L IbFunction ltac:(cbn; tauto))) by (intros x y; apply fn_block_plain).
  apply obind_ext. intros bodies.
  rewrite (collect_known (alias_of e c) (module_code_num McAlias) (known_fields 14) (b_records b1) (b_records b2));
    [reflexivity|intros r0 _; apply alias_known|apply (lm_records _ _ L); known].
Qed.
Lemma module_like e host t b1 b2 : like_module b1 b2 -> module_of e host t b1 = module_of e host t b2.
Proof. intros L. unfold module_of. now rewrite (module_map_like e host t b1 b2 L). Qed.

(** *** The tables *)

Definition like_first (c : N) (k : list N -> list N) (b1 b2 : block) : Prop :=
  option_map (fun r => k (r_fields r)) (one c (b_records b1)) = option_map (fun r => k (r_fields r)) (one c (b_records b2)).
Lemma first_like {E A} (f : record -> outcome E A) x c k b1 b2 : like_first c k b1 b2 ->
  (forall r r', k (r_fields r) = k (r_fields r') -> f r = f r') ->
  obind (ok_or (one c (b_records b1)) x) f = obind (ok_or (one c (b_records b2)) x) f.
Proof.
  unfold like_first. intros L H. destruct (one c (b_records b1)) as [r|], (one c (b_records b2)) as [r'|]; try discriminate L; [|reflexivity].
  cbn [option_map ok_or obind] in *. apply H. now injection L.
Qed.
Lemma blob_fields e r r' : r_fields r = r_fields r' -> try_blob e r 0 = try_blob e r' 0.
Proof. intros H. unfold try_blob, fields_from. now rewrite H. Qed.
Lemma string_fields e r r' : r_fields r = r_fields r' -> try_string e r 0 = try_string e r' 0.
Proof. intros H. unfold try_string, fields_from. now rewrite H. Qed.
Lemma strtab_like e b1 b2 : like_first 1 (fun f => f) b1 b2 -> strtab_of e b1 = strtab_of e b2.
Proof. intros L. unfold strtab_of. apply (first_like _ _ _ _ _ _ L). intros r r' H. now rewrite (blob_fields e r r' H). Qed.
Lemma symtab_like e b1 b2 : like_first 1 (fun f => f) b1 b2 -> symtab_of e b1 = symtab_of e b2.
Proof. intros L. unfold symtab_of. apply (first_like _ _ _ _ _ _ L). intros r r' H. now rewrite (blob_fields e r r' H). Qed.
Lemma identification_like e b1 b2 : like_first 1 (fun f => f) b1 b2 -> like_first 2 (firstn 1) b1 b2 ->
  identification_of e b1 = identification_of e b2.
Proof.
  intros L1 L2. unfold identification_of.
  etransitivity; [apply (first_like _ _ _ _ _ _ L1); intros r r' H; rewrite (string_fields e r r' H); reflexivity|].
  apply obind_ext. intros r. apply obind_ext. intros producer.
  apply (first_like _ _ _ _ _ _ L2). intros r1 r2 H. now destruct (r_fields r1), (r_fields r2); try discriminate H; [|injection H as <-].
Qed.

(** *** Streams *)

Inductive like_top : block -> block -> Prop :=
| LtIdentification b1 b2 : b_id b1 = BIr IbIdentification -> b_id b2 = BIr IbIdentification ->
    like_first 1 (fun f => f) b1 b2 -> like_first 2 (firstn 1) b1 b2 -> like_top b1 b2
| LtModule b1 b2 : b_id b1 = BIr IbModule -> b_id b2 = BIr IbModule -> like_module b1 b2 -> like_top b1 b2
| LtStrtab b1 b2 : b_id b1 = BIr IbStrtab -> b_id b2 = BIr IbStrtab -> like_first 1 (fun f => f) b1 b2 -> like_top b1 b2
| LtSymtab b1 b2 : b_id b1 = BIr IbSymtab -> b_id b2 = BIr IbSymtab -> like_first 1 (fun f => f) b1 b2 -> like_top b1 b2
| LtOther b1 b2 : b_id b1 = b_id b2 -> ~ In (b_id b1) [BIr IbIdentification; BIr IbModule; BIr IbStrtab; BIr IbSymtab] -> like_top b1 b2.

Definition opt_like {A} (P : A -> A -> Prop) (x y : option A) : Prop :=
  match x, y with Some a, Some b => P a b | None, None => True | _, _ => False end.
Record like_partial (p q : partial) : Prop := mkLikePartial {
  lp_ident1 : like_first 1 (fun f => f) (pt_identification p) (pt_identification q);
  lp_ident2 : like_first 2 (firstn 1) (pt_identification p) (pt_identification q);
  lp_module : opt_like like_module (pt_module p) (pt_module q);
  lp_strtab : opt_like (like_first 1 (fun f => f)) (pt_strtab p) (pt_strtab q);
  lp_symtab : opt_like (like_first 1 (fun f => f)) (pt_symtab p) (pt_symtab q)
}.

Lemma reify_like e host p q : like_partial p q -> reify_module e host p = reify_module e host q.
Proof.
  intros [I1 I2 M S Y]. unfold reify_module. rewrite (identification_like e _ _ I1 I2).
  destruct (pt_strtab p) as [s|], (pt_strtab q) as [s'|]; try contradiction S; [|reflexivity]. cbn [ok_or obind]. rewrite (strtab_like e s s' S).
  apply obind_ext. intros t. apply obind_ext. intros i.
  destruct (pt_module p) as [m|], (pt_module q) as [m'|]; try contradiction M; [|reflexivity]. cbn [ok_or obind]. rewrite (module_like e host t m m' M).
  apply obind_ext. intros md.
  destruct (pt_symtab p) as [y|], (pt_symtab q) as [y'|]; try contradiction Y; [|reflexivity]. now rewrite (symtab_like e y y' Y).
Qed.

Definition both {A} (P : A -> A -> Prop) (x y : outcome unroll_err A) : Prop :=
  match x, y with Ok a, Ok b => P a b | Err u, Err v => u = v | Panic u, Panic v => u = v | OutOfFuel, OutOfFuel => True | _, _ => False end.

Lemma update_like (sel : partial -> option block) f g l1 l2 : Forall2 like_partial l1 l2 ->
  (forall p q, like_partial p q -> is_none (sel p) = is_none (sel q)) -> (forall p q, like_partial p q -> like_partial (f p) (g q)) ->
  Forall2 like_partial (update_while (fun p => is_none (sel p)) f l1) (update_while (fun p => is_none (sel p)) g l2).
Proof.
  intros F S H. induction F as [|p q l1 l2 L F IH]; [constructor|]. cbn [update_while]. rewrite (S p q L).
  destruct (is_none (sel q)); constructor; auto.
Qed.
Lemma group_like b1 b2 l1 l2 : like_top b1 b2 -> Forall2 like_partial l1 l2 -> both (Forall2 like_partial) (group b1 l1) (group b2 l2).
Proof.
  intros T F. unfold group. destruct T as [b1 b2 E1 E2 L1 L2|b1 b2 E1 E2 L|b1 b2 E1 E2 L|b1 b2 E1 E2 L|b1 b2 E N].
  - rewrite E1, E2. cbn. constructor; [|exact F]. constructor; cbn; auto.
  - rewrite E1, E2. destruct F as [|p q l1 l2 LP F]; [reflexivity|]. destruct LP as [I1 I2 M S Y].
    destruct (pt_module p), (pt_module q); try contradiction M; [reflexivity|]. cbn. constructor; [|exact F]. constructor; cbn; auto.
  - rewrite E1, E2. cbn. apply (update_like pt_strtab); [exact F| |].
    + intros p q [I1 I2 M S Y]. now destruct (pt_strtab p), (pt_strtab q).
    + intros p q [I1 I2 M S Y]. constructor; cbn; auto.
  - rewrite E1, E2. cbn. apply (update_like pt_symtab); [exact F| |].
    + intros p q [I1 I2 M S Y]. now destruct (pt_symtab p), (pt_symtab q).
    + intros p q [I1 I2 M S Y]. constructor; cbn; auto.
  - rewrite <- E. destruct (b_id b1) as [r|i|u]; [reflexivity| |reflexivity].
    destruct i; try reflexivity; exfalso; apply N; cbn; auto.
Qed.
Lemma groups_like t1 t2 : Forall2 like_top t1 t2 -> forall l1 l2, Forall2 like_partial l1 l2 ->
  both (Forall2 like_partial) (groups t1 l1) (groups t2 l2).
Proof.
  intros T. induction T as [|b1 b2 t1 t2 L T IH]; intros l1 l2 F; [exact F|]. cbn [groups].
  pose proof (group_like b1 b2 l1 l2 L F) as G. destruct (group b1 l1), (group b2 l2); cbn in G |- *; try contradiction G; auto.
Qed.

(** *** From trees to blocks *)

Lemma plain_contents body body' : contents body = contents body' -> map plain (records_in body) = map plain (records_in body').
Proof. rewrite !contents_records. apply plain_pairs. Qed.
Lemma built_records v l body : b_records (build (TBlk v l body)) = records_in body.
Proof. rewrite build_blk, steps_records. reflexivity. Qed.
Lemma built_id v l body : b_id (build (TBlk v l body)) = block_id_of v.
Proof. rewrite build_blk, steps_id. reflexivity. Qed.
Lemma built_children v l body w i : ir_block_id_num i = w -> by_id (BIr i) (build (TBlk v l body)) = map build (children w body).
Proof.
  intros M. rewrite build_blk.
  assert (K0 : keyed (block_new v)) by (split; cbn; [constructor|tauto]).
  destruct (steps_under body _ K0) as [[K1 K2] U]. rewrite map_get_under by exact K1. rewrite (U w (BIr i) M). reflexivity.
Qed.
Lemma built_first v1 v2 l1 l2 a b c k : option_map k (first_of c a) = option_map k (first_of c b) ->
  like_first c k (build (TBlk v1 l1 a)) (build (TBlk v2 l2 b)).
Proof.
  unfold like_first, first_of, one. rewrite !built_records, !of_kind_records.
  destruct (by_code c (records_in a)), (by_code c (records_in b)); cbn [map hd_error option_map]; auto.
Qed.
Lemma Forall2_weaken {A B} (P Q : A -> B -> Prop) l1 l2 : (forall x y, P x y -> Q x y) -> Forall2 P l1 l2 -> Forall2 Q l1 l2.
Proof. intros H F. induction F; constructor; auto. Qed.
Lemma Forall2_map_both {A B} (P : B -> B -> Prop) (f : A -> B) l1 l2 : Forall2 (fun x y => P (f x) (f y)) l1 l2 -> Forall2 P (map f l1) (map f l2).
Proof. intros F. induction F; constructor; auto. Qed.
Lemma known_pairs l : map (fun x => rec_of (fst x, known_type_fields (fst x) (snd x))) (map pair_of l) = map known_type l.
Proof. rewrite map_map. reflexivity. Qed.
Lemma built_module v l1 l2 a b : same_module a b -> like_module (build (TBlk v l1 a)) (build (TBlk v l2 b)).
Proof.
  intros [R B T S]. constructor.
  - intros c I. specialize (R c I). rewrite !built_records. rewrite !of_kind_records in R. exact R.
  - intros i I.
    assert (F : Forall2 same_contents (children (ir_block_id_num i) a) (children (ir_block_id_num i) b)).
    { apply B. cbn [In] in I. destruct I as [<-|[<-|[<-|[]]]]; cbn; tauto. }
    rewrite !(built_children _ _ _ (ir_block_id_num i) i eq_refl). apply Forall2_map_both.
    eapply Forall2_weaken; [|exact F]. intros [|v1 n1 x] [|v2 n2 y] H; try contradiction H. rewrite !built_records. exact (plain_contents x y H).
  - rewrite !(built_children _ _ _ 17 IbType eq_refl). apply Forall2_map_both.
    eapply Forall2_weaken; [|exact T]. intros [|v1 n1 x] [|v2 n2 y] H; try contradiction H. rewrite !built_records.
    cbn [same_types] in H. rewrite !contents_records in H. apply (f_equal (map rec_of)) in H. rewrite !map_map in H.
    rewrite <- !known_pairs, !map_map. exact H.
  - rewrite !(built_children _ _ _ 14 IbValueSymtab eq_refl), !map_length. exact S.
Qed.
Lemma built_top t1 t2 : same_top t1 t2 -> like_top (build t1) (build t2).
Proof.
  intros T. destruct T as [l1 l2 a b F1 F2|l1 l2 a b M|l1 l2 a b F|l1 l2 a b F|v l1 l2 a b N].
  - apply LtIdentification; [apply built_id|apply built_id|apply built_first; now rewrite F1|apply built_first; exact F2].
  - apply LtModule; [apply built_id|apply built_id|apply built_module; exact M].
  - apply LtStrtab; [apply built_id|apply built_id|apply built_first; now rewrite F].
  - apply LtSymtab; [apply built_id|apply built_id|apply built_first; now rewrite F].
  - apply LtOther; rewrite !built_id; [reflexivity|]. intros I. apply N. cbn [In] in *.
    pose proof (block_id_matches v) as M. destruct I as [E|[E|[E|[E|[]]]]]; rewrite <- E in M; cbn in M; auto.
Qed.
Lemma top_is_block t1 t2 : same_top t1 t2 -> is_blk t1 /\ is_blk t2.
Proof. now destruct 1. Qed.

Lemma unroll_groups e s forest : parser_reachable e s -> stream_is e s forest -> Forall is_blk forest ->
  unroll e s = let? rp := groups (map build forest) [] in Ok (rev rp).
Proof.
  intros HR [n HS] B. apply run_yields in HS as (s' & Y & N). pose proof (reach_bounded e s HR _ _ Y) as L. unfold total in L.
  unfold unroll. now rewrite (tops_complete _ _ forest [] s s' Y N B) by lia.
Qed.

Lemma streams_like e host s1 s2 f1 f2 : parser_reachable e s1 -> parser_reachable e s2 -> stream_is e s1 f1 -> stream_is e s2 f2 ->
  Forall2 same_top f1 f2 -> bitcode_of_stream e host s1 = bitcode_of_stream e host s2.
Proof.
  intros R1 R2 S1 S2 F.
  assert (B : Forall is_blk f1 /\ Forall is_blk f2).
  { clear - F. induction F as [|t1 t2 f1 f2 T F [IH1 IH2]]; [auto|]. destruct (top_is_block _ _ T). auto. }
  unfold bitcode_of_stream. rewrite (unroll_groups e s1 f1 R1 S1), (unroll_groups e s2 f2 R2 S2) by apply B.
  assert (G : both (Forall2 like_partial) (groups (map build f1) []) (groups (map build f2) [])).
  { apply groups_like; [|constructor]. apply Forall2_map_both. eapply Forall2_weaken; [|exact F]. exact built_top. }
  destruct (groups (map build f1) []), (groups (map build f2) []); cbn in G |- *; try contradiction G; try congruence.
  assert (H : Forall2 like_partial (rev a) (rev a0)).
  { clear - G. induction G as [|p q l1 l2 P G IH]; [constructor|]. cbn [rev]. apply Forall2_app; [exact IH|]. constructor; [exact P|constructor]. }
  clear - H. induction H as [|p q l1 l2 P H IH]; [reflexivity|]. cbn [collect]. now rewrite (reify_like e host p q P), IH.
Qed.
Lemma buffers_like e host buf1 buf2 w1 w2 b1 b2 f1 f2 : from e buf1 = Ok (w1, b1) -> from e buf2 = Ok (w2, b2) ->
  stream_is e (bs_parser b1) f1 -> stream_is e (bs_parser b2) f2 -> Forall2 same_top f1 f2 ->
  bitcode_of e host buf1 = bitcode_of e host buf2.
Proof.
  intros E1 E2 S1 S2 F. unfold bitcode_of. rewrite E1, E2. cbn [omap_err obind].
  apply (streams_like e host _ _ f1 f2); try assumption; eapply from_reachable; eassumption.
Qed.

(** *** What may be added or exchanged *)

Lemma contents_app a b : contents (a ++ b) = contents a ++ contents b.
Proof. unfold contents. apply flat_map_app. Qed.
Lemma of_kind_app c a b : of_kind c (a ++ b) = of_kind c a ++ of_kind c b.
Proof. unfold of_kind. now rewrite contents_app, filter_app, map_app. Qed.
Lemma children_app v a b : children v (a ++ b) = children v a ++ children v b.
Proof. unfold children. apply filter_app. Qed.
Lemma Forall2_self {A} (P : A -> A -> Prop) l : (forall x, In x l -> P x x) -> Forall2 P l l.
Proof. intros H. induction l as [|x l IH]; constructor; [apply H; now left|]. apply IH. intros y I. apply H. now right. Qed.
Lemma child_block v body t : In t (children v body) -> is_blk t.
Proof. intros I. apply filter_In in I as [_ I]. now destruct t. Qed.
Lemma same_contents_self v body : Forall2 same_contents (children v body) (children v body).
Proof. apply Forall2_self. intros x I. pose proof (child_block _ _ _ I). now destruct x. Qed.
Lemma same_types_self v body : Forall2 same_types (children v body) (children v body).
Proof. apply Forall2_self. intros x I. pose proof (child_block _ _ _ I). now destruct x. Qed.

(** Bodies in which every kind of record and of block is the same list. *)
Lemma same_lists a b : (forall c, In c module_kinds -> of_kind c a = of_kind c b) ->
  (forall v, In v [9; 10; 12; 14; 17] -> children v a = children v b) -> same_module a b.
Proof.
  intros R C. constructor.
  - intros c I. now rewrite (R c I).
  - intros v I. rewrite (C v) by (cbn [In] in *; tauto). apply same_contents_self.
  - rewrite (C 17) by (cbn; tauto). apply same_types_self.
  - now rewrite (C 14) by (cbn; tauto).
Qed.
Lemma kind_single c x : of_kind c [x] = match x with TRec _ c' f => if c' =? c then [f] else [] | TBlk _ _ _ => [] end.
Proof. destruct x as [ab c' f|]; [|reflexivity]. unfold of_kind. cbn [contents flat_map filter app fst]. now destruct (c' =? c). Qed.
Lemma child_single v x : children v [x] = match x with TBlk v' _ _ => if v' =? v then [x] else [] | TRec _ _ _ => [] end.
Proof. destruct x; reflexivity. Qed.
Lemma unknown_skipped a x b : unknown_part x -> same_module (a ++ b) (a ++ x :: b).
Proof.
  intros U. change (x :: b) with ([x] ++ b). apply same_lists.
  - intros c I. rewrite !of_kind_app. rewrite (kind_single c x). destruct x as [ab c' f|v l body]; [|reflexivity].
    destruct (N.eqb_spec c' c) as [->|]; [contradiction|reflexivity].
  - intros v I. rewrite !children_app. rewrite (child_single v x). destruct x as [ab c' f|v' l body]; [reflexivity|].
    destruct (N.eqb_spec v' v) as [->|]; [|reflexivity]. contradiction.
Qed.
Lemma exchange_order a x y b : exchangeable x y -> same_module (a ++ x :: y :: b) (a ++ y :: x :: b).
Proof.
  intros X. change (x :: y :: b) with ([x; y] ++ b). change (y :: x :: b) with ([y; x] ++ b). apply same_lists.
  - intros c I. rewrite !of_kind_app. f_equal. f_equal. destruct x as [a1 c1 f1|v1 l1 b1], y as [a2 c2 f2|v2 l2 b2]; try reflexivity.
    cbn in X. unfold of_kind. cbn [contents flat_map filter app fst].
    destruct (N.eqb_spec c1 c), (N.eqb_spec c2 c); try reflexivity. congruence.
  - intros v I. rewrite !children_app. f_equal. f_equal. destruct x as [a1 c1 f1|v1 l1 b1], y as [a2 c2 f2|v2 l2 b2]; try reflexivity.
    cbn in X. unfold children. cbn [filter]. destruct (N.eqb_spec v1 v), (N.eqb_spec v2 v); try reflexivity. congruence.
Qed.

Lemma firstn_more {A} k (l m : list A) : (k <= length l)%nat -> firstn k (l ++ m) = firstn k l.
Proof. intros H. rewrite firstn_app. replace (k - length l)%nat with 0%nat by lia. cbn. apply app_nil_r. Qed.
Lemma more_fields a b ab ab' c n f more : In (c, n) [(1, 1%nat); (8, 14%nat); (14, 10%nat)] -> (n <= length f)%nat ->
  same_module (a ++ TRec ab c f :: b) (a ++ TRec ab' c (f ++ more) :: b).
Proof.
  intros H L.
  assert (K : known_fields c (f ++ more) = known_fields c f).
  { cbn [In] in H. destruct H as [[= <- <-]|[[= <- <-]|[[= <- <-]|[]]]]; cbn [known_fields]; apply firstn_more; lia. }
  change (TRec ab c f :: b) with ([TRec ab c f] ++ b). change (TRec ab' c (f ++ more) :: b) with ([TRec ab' c (f ++ more)] ++ b). constructor.
  - intros k I. rewrite !of_kind_app, !map_app. do 2 f_equal. unfold of_kind. cbn [contents flat_map filter app fst].
    destruct (N.eqb_spec c k) as [<-|]; [|reflexivity]. cbn [map snd]. now rewrite K.
  - intros v I. rewrite !children_app. apply Forall2_app; [apply same_contents_self|]. exact (same_contents_self v b).
  - rewrite !children_app. apply Forall2_app; [apply same_types_self|]. exact (same_types_self 17 b).
  - now rewrite !children_app.
Qed.

(** Types in a TYPE block. *)
Lemma more_type_fields v1 v2 l1 l2 a b ab ab' c n f more :
  In (c, n) [(1, 1%nat); (2, 0%nat); (3, 0%nat); (4, 0%nat); (5, 0%nat); (6, 0%nat); (7, 1%nat); (8, 2%nat); (10, 0%nat); (11, 2%nat);
             (12, 3%nat); (13, 0%nat); (14, 0%nat); (15, 0%nat); (16, 0%nat); (17, 0%nat); (22, 0%nat); (23, 0%nat); (24, 0%nat); (25, 1%nat)] ->
  (n <= length f)%nat ->
  same_types (TBlk v1 l1 (a ++ TRec ab c f :: b)) (TBlk v2 l2 (a ++ TRec ab' c (f ++ more) :: b)).
Proof.
  intros H L.
  assert (K : known_type_fields c (f ++ more) = known_type_fields c f).
  { cbn [In] in H. repeat (destruct H as [[= <- <-]|H]; [cbn [known_type_fields]; first [reflexivity|apply firstn_more; lia]|]). contradiction. }
  unfold same_types. rewrite !contents_app, !map_app. f_equal. cbn [contents flat_map app map fst snd]. now rewrite K.
Qed.
(** Sub-blocks of TYPE, PARAMATTR, PARAMATTR_GROUP and FUNCTION blocks. *)
Lemma sub_blocks_skipped v1 v2 l1 l2 a w l body b :
  same_contents (TBlk v1 l1 (a ++ b)) (TBlk v2 l2 (a ++ TBlk w l body :: b)) /\
  same_types (TBlk v1 l1 (a ++ b)) (TBlk v2 l2 (a ++ TBlk w l body :: b)).
Proof. unfold same_contents, same_types. rewrite !contents_app. split; reflexivity. Qed.

(** *** What is refused *)

Lemma type_loop_refuses e l r : In r l -> type_code_of (r_code r) = None -> forall st out, type_loop e l st <> Ok out.
Proof.
  intros I N. induction l as [|x l IH]; [contradiction|]. intros st out H. cbn [type_loop] in H. destruct I as [->|I].
  - unfold type_step in H. rewrite N in H. destruct st. discriminate H.
  - destruct (type_step e st x) as [st'| | |]; try discriminate H. exact (IH I st' out H).
Qed.
Lemma types_refused e b r t : In r (b_records b) -> 25 < r_code r \/ r_code r = 0 -> type_table_of e b <> Ok t.
Proof.
  intros I C. assert (N : type_code_of (r_code r) = None).
  { destruct (type_code_of (r_code r)) as [x|] eqn:E; [|reflexivity]. apply type_code_back in E. rewrite E in C. exfalso.
    destruct x; cbn in C; lia. }
  unfold type_table_of. intros H. destruct (ok_or _ _) as [r0| | |]; try discriminate H. cbn [obind] in H.
  destruct (ok_or _ _) as [n| | |]; try discriminate H. cbn [obind] in H. destruct (alloc_limit e <? n); [discriminate H|].
  destruct (type_loop e (b_records b) ([], [])) as [out| | |] eqn:E; try discriminate H. exact (type_loop_refuses e _ r I N _ _ E).
Qed.
Lemma attribute_code_back v x : attribute_code_of v = Some x -> v = attribute_code_num x.
Proof. revert v x. assert (H : forall v x, attribute_code_of v = Some x -> attribute_code_num x = v) by of_num. intros v x E. symmetry. now apply H. Qed.
Lemma groups_refused b r m : In r (b_records b) -> r_code r <> 3 -> attr_groups_of b <> Ok m.
Proof.
  intros I C. unfold attr_groups_of. generalize (@nil (N * attr_group)). induction (b_records b) as [|x l IH]; [contradiction|].
  intros g H. cbn [groups_loop] in H. destruct I as [->|I].
  - unfold group_of_record in H. destruct (attribute_code_of (r_code r)) as [y|] eqn:E; [|discriminate H]. apply attribute_code_back in E.
    destruct y; try discriminate H. now cbn in E.
  - destruct (group_of_record x); try discriminate H. exact (IH I _ H).
Qed.
Lemma attributes_refused g b r l : In r (b_records b) -> r_code r <> 2 -> attributes_of g b <> Ok l.
Proof.
  intros I C. unfold attributes_of. revert l. induction (b_records b) as [|x t IH]; [contradiction|].
  intros l H. cbn [collect] in H. destruct I as [->|I].
  - unfold entry_of_record in H. destruct (attribute_code_of (r_code r)) as [y|] eqn:E; [|discriminate H]. apply attribute_code_back in E.
    destruct y; try discriminate H. now cbn in E.
  - destruct (entry_of_record g x); try discriminate H. destruct (collect (entry_of_record g) t) as [y| | |] eqn:E; try discriminate H.
    exact (IH I y eq_refl).
Qed.
Lemma comdat_exact_length e version t r d : length (r_fields r) <> 3%nat -> comdat_of e version t r <> Ok d.
Proof.
  intros L. unfold comdat_of. destruct (negb _); [discriminate|]. destruct (r_fields r) as [|x [|y [|z [|u l]]]]; try discriminate.
  now destruct L.
Qed.

(** *** Written streams *)

Lemma written_like e host m1 m2 l1 l2 bits1 bits2 : write_stream m1 l1 = Some bits1 -> write_stream m2 l2 = Some bits2 ->
  forallb (item_small (alloc_limit e)) l1 = true -> forallb (item_small (alloc_limit e)) l2 = true ->
  m1 <> BITCODE_WRAPPER_MAGIC -> m2 <> BITCODE_WRAPPER_MAGIC -> Forall2 same_top (trees l1) (trees l2) ->
  bitcode_of e host (bytes_of_bits bits1) = bitcode_of e host (bytes_of_bits bits2).
Proof.
  intros H1 H2 I1 I2 N1 N2 F.
  destruct (written_stream e m1 l1 bits1 H1 I1) as (b1 & F1 & M1 & S1). destruct (written_stream e m2 l2 bits2 H2 I2) as (b2 & F2 & M2 & S2).
  assert (G1 : from e (bytes_of_bits bits1) = Ok (None, b1)) by (apply from_raw_from; [exact F1|congruence]).
  assert (G2 : from e (bytes_of_bits bits2) = Ok (None, b2)) by (apply from_raw_from; [exact F2|congruence]).
  exact (buffers_like e host _ _ _ _ _ _ _ _ G1 G2 S1 S2 F).
Qed.
Lemma same_module_self a : same_module a a.
Proof. apply same_lists; reflexivity. Qed.
Lemma same_top_self v l1 l2 a : same_top (TBlk v l1 a) (TBlk v l2 a).
Proof.
  destruct (in_dec N.eq_dec v [IDENTIFICATION; MODULE; STRTAB; SYMTAB]) as [I|I]; [|now apply StOther].
  cbn [In] in I. destruct I as [<-|[<-|[<-|[<-|[]]]]]; constructor; try reflexivity. apply same_module_self.
Qed.
