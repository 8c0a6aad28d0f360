(** Modules whose fields are small: every outcome of the mapper is that with 64-bit words, the errors included. *)
From Verif Require Import Base Strings EnumModel SupportModel LayoutModel LayoutMain
  UnrollModel AttributeModel AttributeSpec AttributeMain
  TablesModel TypeTableModel RecordModel ModuleModel
  WordModel WordSpec WordCursor WordMapper.
From Coq Require Import Lia ZifyBool ZifyNat ZifyN.
Ltac Zify.zify_post_hook ::= Z.div_mod_to_equations.
Local Open Scope N_scope.
#[local] Arguments N.add : simpl never.
#[local] Arguments N.mul : simpl never.
#[local] Arguments N.sub : simpl never.
#[local] Arguments N.modulo : simpl never.
#[local] Arguments N.div : simpl never.
#[local] Arguments N.pow : simpl never.

Lemma obind_same {E A B} (m m' : outcome E A) (k k' : A -> outcome E B) : m' = m -> (forall a, m = Ok a -> k' a = k a) -> obind m' k' = obind m k.
Proof. intros -> H. destruct m; cbn [obind]; auto. Qed.
Lemma collect_same {E A B} (f f' : A -> outcome E B) l : (forall a, In a l -> f' a = f a) -> collect f' l = collect f l.
Proof.
  induction l as [|a l IH]; intros H; [reflexivity|]. cbn [collect]. rewrite (H a) by now left. rewrite IH; [reflexivity|]. intros x X. apply H. now right.
Qed.

Lemma try_get_below U k e t off size : 2 * k <= U -> U <= two64 -> off < k -> size < k -> strtab_try_get_w U e t off size = strtab_try_get e t off size.
Proof.
  intros KU KU2 H1 H2. unfold strtab_try_get_w, strtab_try_get. rewrite !us_small by lia. unfold w_add, usize_add.
  replace (off + size <? U) with true by lia. replace (off + size <? two64) with true by lia. reflexivity.
Qed.
Lemma try_get_64 e t off size : off < two64 -> size < two64 -> strtab_try_get_w two64 e t off size = strtab_try_get e t off size.
Proof. intros H1 H2. unfold strtab_try_get_w, strtab_try_get. rewrite !us_small by assumption. reflexivity. Qed.

Section Small.
  Context (U k : N) (e : env) (KU : k <= U) (K1 : 1 < k).
  Context (try_get_small : forall t off size, off < k -> size < k -> strtab_try_get_w U e t off size = strtab_try_get e t off size).
  Lemma us_k v : v < k -> us U v = v.
  Proof. intros H. apply us_small. lia. Qed.
  Lemma fld_k r i : fields_below k r -> fld r i < k.
  Proof.
    intros F. unfold fld. destruct (nth_in_or_default i (r_fields r) 0) as [I| ->]; [|lia]. unfold fields_below in F. rewrite Forall_forall in F. now apply F.
  Qed.
  Lemma nth_k r i v : fields_below k r -> nth_error (r_fields r) i = Some v -> v < k.
  Proof. intros F H. unfold fields_below in F. rewrite Forall_forall in F. apply F. exact (nth_error_In _ _ H). Qed.
  Lemma read_name_small t r : fields_below k r -> strtab_read_name_w U e t r = strtab_read_name e t r.
  Proof.
    intros F. unfold strtab_read_name_w, strtab_read_name, fields_below in *. destruct (r_fields r) as [|a [|b l]]; try reflexivity.
    inversion F as [|? ? F1 F']; subst. inversion F'; subst. now apply try_get_small.
  Qed.
  Notation c := (cast_refs U).
  Definition refs_small (p : ptype) : Prop :=
    match p with
    | PtFunction r ps _ => r < k /\ Forall (fun x => x < k) ps
    | PtPointer r _ | PtArray _ r | PtFixedVector _ r | PtScalableVector _ r => r < k
    | PtStruct _ fs _ => Forall (fun x => x < k) fs
    | _ => True
    end.
  Lemma map_us_k l : Forall (fun x => x < k) l -> map (us U) l = l.
  Proof. induction 1 as [|x l X _ IH]; [reflexivity|]. cbn [map]. now rewrite IH, us_k. Qed.
  Lemma cast_small p : refs_small p -> c p = p.
  Proof.
    destruct p; cbn [refs_small cast_refs]; intros H; try reflexivity; try (now rewrite us_k); try (now rewrite map_us_k).
    destruct H as [H1 H2]. now rewrite us_k, map_us_k.
  Qed.
  Lemma map_cast_small l : Forall refs_small l -> map c l = l.
  Proof. induction 1 as [|x l X _ IH]; [reflexivity|]. cbn [map]. now rewrite IH, cast_small. Qed.
  Lemma skipn_k n r : fields_below k r -> Forall (fun x => x < k) (skipn n (r_fields r)).
  Proof.
    unfold fields_below. intros F. apply Forall_forall. intros x X. rewrite Forall_forall in F. apply F.
    rewrite <- (firstn_skipn n (r_fields r)). apply in_or_app. now right.
  Qed.
  Lemma type_field_k r n v : fields_below k r -> type_field r n = Ok v -> v < k.
  Proof. intros F H. unfold type_field in H. apply ok_or_ok in H. exact (nth_k _ _ _ F H). Qed.
  Lemma split_last_in {A} (P : A -> Prop) l front p : Forall P l -> split_last l = Some (front, p) -> Forall P front /\ P p.
  Proof.
    unfold split_last. intros F H. assert (R : Forall P (rev l)) by now apply Forall_rev. destruct (rev l) as [|a x]; [discriminate H|]. injection H as <- <-.
    inversion R; subst. split; [now apply Forall_rev|assumption].
  Qed.
  Lemma F1 {A} (P : A -> Prop) x : P x -> Forall P [x].
  Proof. intros H. constructor; [exact H|constructor]. Qed.
  Lemma type_step_small l name r q name' : fields_below k r -> Forall refs_small l -> type_step e (l, name) r = Ok (q, name') -> Forall refs_small q.
  Proof.
    intros F L X. unfold type_step in X. apply obind_iff in X as (code & _ & X).
    destruct code;
      repeat match type of X with
      | obind ?m _ = Ok _ => let a := fresh "a" in let A := fresh "A" in apply obind_iff in X as (a & A & X)
      end;
      repeat match goal with A : type_field r _ = Ok _ |- _ => apply (type_field_k _ _ _ F) in A end;
      try discriminate X;
      try (injection X as <- <-; first [exact L | apply Forall_app; split; [exact L|apply F1; first [exact (skipn_k 1 r F) | split; [assumption|exact (skipn_k 2 r F)] | assumption | exact Logic.I]]]).
    - destruct name as [|h name]; [discriminate X|]. destruct (split_last l) as [[front p]|] eqn:SL.
      + destruct (split_last_in _ _ _ _ L SL) as [L1 L2].
        destruct p as [| | | | |n fs packed| | |]; try (injection X as <- <-; apply Forall_app; split; [exact L|apply F1; cbn; constructor]).
        destruct n; [discriminate X|]. injection X as <- <-. apply Forall_app. split; [exact L1|apply F1; exact L2].
      + injection X as <- <-; apply Forall_app; split; [exact L|apply F1; cbn; constructor].
    - cbv zeta in *. destruct (match nth_error (r_fields r) 2 with None => false | Some f => 0 <? f end);
        injection X as <- <-; (apply Forall_app; split; [exact L|apply F1; assumption]).
    - destruct (split_last l) as [[front p]|] eqn:SL.
      + destruct (split_last_in _ _ _ _ L SL) as [L1 L2].
        destruct p as [| | | | |n fs packed| | |]; try (injection X as <- <-; apply Forall_app; split; [exact L|apply F1; exact (skipn_k 1 r F)]).
        destruct n; [discriminate X|]. destruct fs; [|discriminate X]. injection X as <- <-. apply Forall_app. split; [exact L1|apply F1; exact (skipn_k 1 r F)].
      + injection X as <- <-; apply Forall_app; split; [exact L|apply F1; exact (skipn_k 1 r F)].
  Qed.
  Lemma type_loop_small l : Forall (fields_below k) l -> forall p name, Forall refs_small p -> type_loop_w U e l (p, name) = type_loop e l (p, name).
  Proof.
    induction 1 as [|r l F _ IH]; intros p name P; [reflexivity|]. cbn [type_loop_w type_loop]. unfold type_step_w.
    destruct (type_step e (p, name) r) as [[q name']| | |] eqn:S1; cbn [obind]; try reflexivity.
    pose proof (type_step_small _ _ _ _ _ F P S1) as Q. rewrite map_cast_small by exact Q. now apply IH.
  Qed.
  Lemma one_in code l r : one code l = Some r -> In r l.
  Proof. unfold one, by_code. intros H. destruct (filter _ l) as [|x m] eqn:E; [discriminate H|]. injection H as ->. assert (I : In r (filter (fun r => r_code r =? code) l)) by (rewrite E; now left). now apply filter_In in I. Qed.
  Lemma hd_k r n : fields_below k r -> hd_error (r_fields r) = Some n -> n < k.
  Proof. unfold fields_below. intros F H. destruct (r_fields r); [discriminate H|]. injection H as ->. now inversion F. Qed.
  Lemma type_table_small b : Forall (fields_below k) (b_records b) -> type_table_of_w U e b = type_table_of e b.
  Proof.
    intros F. unfold type_table_of_w, type_table_of. apply obind_same; [reflexivity|]. intros r R. apply ok_or_ok, one_in in R.
    apply obind_same; [reflexivity|]. intros n N1. apply ok_or_ok in N1. cbv zeta.
    rewrite us_k by (rewrite Forall_forall in F; exact (hd_k r n (F r R) N1)). destruct (_ <? n); [reflexivity|].
    rewrite type_loop_small; [reflexivity|exact F|constructor].
  Qed.
  Lemma types_get_small t i : i < k -> types_get_w U t i = types_get t i.
  Proof. intros H. unfold types_get_w. now rewrite us_k. Qed.
  Lemma comdat_small v t r : fields_below k r -> comdat_of_w U e v t r = comdat_of e v t r.
  Proof.
    intros F. unfold comdat_of_w, comdat_of, fields_below in *. destruct (negb _); [reflexivity|].
    destruct (r_fields r) as [|a [|b [|d [|g l]]]]; try reflexivity. inversion F as [|? ? Fa F']; subst. inversion F'; subst. now rewrite try_get_small.
  Qed.
  Lemma fn_small x r : fields_below k r -> fn_of_w U e x r = fn_of e x r.
  Proof.
    intros F. unfold fn_of_w, fn_of. destruct (negb _); [reflexivity|]. destruct (_ <? 10)%nat; [reflexivity|].
    rewrite read_name_small by exact F. rewrite types_get_small by (now apply fld_k).
    apply obind_same; [reflexivity|intros name _]. apply obind_same; [reflexivity|intros t _]. apply obind_same; [reflexivity|intros t' _].
    apply obind_same; [reflexivity|intros cc _]. cbv zeta.
    apply obind_same; [|intros attrs _].
    { destruct (fld r 6 =? 0); [reflexivity|]. unfold attributes_get_w. rewrite us_k; [reflexivity|]. pose proof (fld_k r 6 F). lia. }
    apply obind_same; [reflexivity|intros al _]. rewrite us_k by (now apply fld_k). apply obind_same; [reflexivity|intros sec _].
    apply obind_same; [reflexivity|intros vis _]. destruct (nth_error (r_fields r) 10) as [i|] eqn:E; [|reflexivity].
    rewrite us_k by (exact (nth_k _ _ _ F E)). reflexivity.
  Qed.
  Lemma alias_small x r : fields_below k r -> alias_of_w U e x r = alias_of e x r.
  Proof.
    intros F. unfold alias_of_w, alias_of. destruct (negb _); [reflexivity|]. destruct (_ <? 5)%nat; [reflexivity|].
    rewrite read_name_small by exact F. rewrite types_get_small by (now apply fld_k). reflexivity.
  Qed.
  Lemma fb_step_small t r : fields_below k r -> fb_step_w U t r = fb_step t r.
  Proof.
    intros F. unfold fb_step_w, fb_step, inst_type_w, inst_type. apply obind_same; [reflexivity|]. intros code _.
    rewrite types_get_small by (now apply fld_k). reflexivity.
  Qed.
  Lemma fn_block_small t b : Forall (fields_below k) (b_records b) -> fn_block_of_w U e t b = fn_block_of e t b.
  Proof.
    intros F. unfold fn_block_of_w, fn_block_of. apply obind_same; [reflexivity|]. intros r R. apply omap_err_iff in R.
    apply obind_same; [reflexivity|]. intros n N1. apply ok_or_ok in N1.
    assert (I : In r (b_records b)).
    { unfold exactly_one, exactly_one_of, by_code in R. destruct (filter _ (b_records b)) as [|x [|y m]] eqn:E; try discriminate R. injection R as ->.
      assert (I : In r (filter (fun r => r_code r =? function_code_num FcDeclareBlocks) (b_records b))) by (rewrite E; now left). now apply filter_In in I. }
    rewrite us_k by (rewrite Forall_forall in F; exact (hd_k r n (F r I) N1)). destruct (_ <? n); [reflexivity|].
    rewrite (collect_same (fb_step t)); [reflexivity|]. intros a A. apply fb_step_small. rewrite Forall_forall in F. now apply F.
  Qed.
  Lemma by_code_below code l r : Forall (fields_below k) l -> In r (by_code code l) -> fields_below k r.
  Proof. intros H R. rewrite Forall_forall in H. apply H. unfold by_code in R. now apply filter_In in R. Qed.
  Lemma module_map_alike host t b : module_below k b -> module_map_w U e host t b = module_map e host t b.
  Proof.
    intros [B1 B2]. unfold module_map_w, module_map. apply obind_same.
    - unfold module_ctx_w, module_ctx. cbv zeta.
      do 6 (apply obind_same; [reflexivity|intros ? _]). apply obind_same; [reflexivity|intros tb TB].
      rewrite type_table_small by (exact (B2 _ _ (sub_block_in _ _ _ TB))).
      do 6 (apply obind_same; [reflexivity|intros ? _]).
      match goal with |- context [comdat_of_w U e ?v t] => rewrite (collect_same (comdat_of e v t)) end; [reflexivity|]. intros r R. apply comdat_small. exact (by_code_below _ _ _ B1 R).
    - intros x _. do 5 (apply obind_same; [reflexivity|intros ? _]).
      rewrite (collect_same (fn_of e x)) by (intros r R; apply fn_small; exact (by_code_below _ _ _ B1 R)).
      rewrite (collect_same (fn_block_of e (cx_types x))) by (intros r R; apply fn_block_small; exact (B2 _ _ R)).
      rewrite (collect_same (alias_of e x)) by (intros r R; apply alias_small; exact (by_code_below _ _ _ B1 R)).
      reflexivity.
  Qed.
End Small.

Lemma module_map_small U k e host t b : 2 * k <= U -> U <= two64 -> 1 < k -> module_below k b -> module_map_w U e host t b = module_map e host t b.
Proof. intros H1 H2 H3. apply module_map_alike; [lia|exact H3|]. intros t' off size. now apply try_get_below. Qed.
Lemma module_map_64 e host t b : module_below two64 b -> module_map_w two64 e host t b = module_map e host t b.
Proof. apply module_map_alike; [reflexivity|reflexivity|apply try_get_64]. Qed.
