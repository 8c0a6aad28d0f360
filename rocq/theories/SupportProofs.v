(** Lemmas about llvm-support. *)
From Verif Require Import Base Strings EnumModel SupportModel SupportSpec.
From Coq Require Import Lia ZifyBool ZifyNat ZifyN Sorted.
Ltac Zify.zify_post_hook ::= Z.div_mod_to_equations.
Local Open Scope N_scope.
Arguments N.add : simpl never.
Arguments N.mul : simpl never.
Arguments N.div : simpl never.
Arguments N.modulo : simpl never.
Arguments N.sub : simpl never.
Arguments N.pow : simpl never.

(** *** Alignments *)

Lemma pow_lt64 s : s < 64 -> 2 ^ s < two64.
Proof. intros H. change two64 with (2 ^ 64). apply N.pow_lt_mono_r; lia. Qed.
Lemma pow_lt64_inv s : 2 ^ s < two64 -> s < 64.
Proof. change two64 with (2 ^ 64). intros H. apply N.pow_lt_mono_r_iff in H; lia. Qed.

Lemma is_pow2_spec v : is_pow2 v = true <-> exists s, v = 2 ^ s.
Proof.
  unfold is_pow2. split.
  - intros H. apply andb_true_iff in H as [H0 H1]. apply N.eqb_eq in H1. apply N.ltb_lt in H0.
    exists (N.log2 v). destruct (N.log2_spec v H0) as [HL HU].
    destruct (N.eq_dec v (2 ^ N.log2 v)) as [|n]; [assumption|exfalso].
    assert (HE : N.log2 (v - 1) = N.log2 v).
    { apply N.log2_unique; [apply N.le_0_l|]. split; lia. }
    assert (HB : N.testbit (N.land v (v - 1)) (N.log2 v) = true).
    { rewrite N.land_spec, N.bit_log2 by lia. rewrite <- HE. apply N.bit_log2.
      intros E. rewrite E in HE. cbn in HE. assert (v = 1) by lia. subst v. cbn in n. lia. }
    rewrite H1, N.bits_0 in HB. discriminate.
  - intros [s ->]. apply andb_true_iff. split.
    + apply N.ltb_lt. apply N.neq_0_lt_0, N.pow_nonzero. lia.
    + apply N.eqb_eq. replace (2 ^ s - 1) with (N.ones s) by (rewrite N.ones_equiv; lia).
      rewrite N.land_ones. apply N.mod_same. apply N.pow_nonzero. lia.
Qed.

Lemma align_log2_pow s : s < 64 -> align_log2 (2 ^ s) = s.
Proof.
  intros H. unfold align_log2, leading_zeros.
  rewrite N.size_log2 by (apply N.pow_nonzero; lia). rewrite N.log2_pow2 by lia.
  rewrite N.mod_small; lia.
Qed.

Lemma from_byte_align_pow s : s < 64 -> from_byte_align (2 ^ s) = Ok (mkAlign s).
Proof.
  intros H. unfold from_byte_align.
  rewrite (proj2 (is_pow2_spec _)) by eauto. rewrite align_log2_pow by assumption.
  unfold from_shift, MAX_SHIFT. destruct (63 <? s) eqn:E; [lia|reflexivity].
Qed.

Lemma from_byte_align_ok v a : v < two64 -> from_byte_align v = Ok a ->
  v = 2 ^ a_shift a /\ a_shift a < 64.
Proof.
  intros Hv H. unfold from_byte_align in H. destruct (is_pow2 v) eqn:E; [|discriminate].
  apply is_pow2_spec in E as [s ->]. apply pow_lt64_inv in Hv.
  rewrite align_log2_pow in H by assumption. unfold from_shift, MAX_SHIFT in H.
  destruct (63 <? s) eqn:E; [discriminate|]. injection H as <-. cbn. lia.
Qed.

Lemma from_byte_align_main v : v < two64 ->
  (forall a, from_byte_align v = Ok a <-> (v = 2 ^ a_shift a /\ a_shift a <= 63)) /\
  ((forall s, v <> 2 ^ s) -> from_byte_align v = Err (ANotPowerOfTwo v)).
Proof.
  intros Hv. split.
  - intros [s]. split.
    + intros H. apply from_byte_align_ok in H; cbn in *; [lia|assumption].
    + cbn. intros [-> H]. apply from_byte_align_pow. lia.
  - intros H. unfold from_byte_align. destruct (is_pow2 v) eqn:E; [|reflexivity].
    apply is_pow2_spec in E as [s E]. exfalso. eapply H, E.
Qed.

Lemma from_bit_align_ok v a : v < two64 -> from_bit_align v = Ok a ->
  v = 8 * 2 ^ a_shift a /\ a_shift a <= 60.
Proof.
  intros Hv H. unfold from_bit_align in H. destruct (v mod 8 =? 0) eqn:E; [|discriminate].
  apply N.eqb_eq in E. unfold two64 in Hv. apply from_byte_align_ok in H; [|unfold two64; lia].
  destruct H as [H1 H2]. assert (HV : v = 8 * (v / 8)) by lia.
  split; [rewrite <- H1; exact HV|].
  assert (H3 : 2 ^ a_shift a < 2 ^ 61) by (rewrite <- H1; change (2 ^ 61) with 2305843009213693952; lia).
  apply N.pow_lt_mono_r_iff in H3; lia.
Qed.

Lemma from_bit_align_pow s : s <= 60 -> from_bit_align (8 * 2 ^ s) = Ok (mkAlign s).
Proof.
  intros H. unfold from_bit_align.
  rewrite (N.mul_comm 8), N.mod_mul, N.div_mul by lia. cbn [N.eqb].
  apply from_byte_align_pow. lia.
Qed.

Lemma held_shift a : align_held a -> a_shift a <= 63.
Proof.
  intros [s x _ H|v x Hv H|v x Hv H|v x _ H|x H].
  - unfold from_shift, MAX_SHIFT in H. destruct (63 <? s) eqn:E; [discriminate|]. injection H as <-. cbn. lia.
  - apply from_byte_align_ok in H; [lia|assumption].
  - apply from_bit_align_ok in H; [lia|assumption].
  - unfold maybe_align_of in H. destruct (v =? 0); [discriminate|]. cbn in H.
    unfold from_shift, MAX_SHIFT in H. destruct (63 <? v - 1) eqn:E; [discriminate|].
    injection H as <-. cbn. lia.
  - cbn in H. repeat (destruct H as [<-|H]; [cbn; lia|]). contradiction.
Qed.

Lemma held_of_shift s : s <= 63 -> align_held (mkAlign s).
Proof.
  intros H. apply (AHShift s); [lia|]. unfold from_shift, MAX_SHIFT.
  destruct (63 <? s) eqn:E; [lia|reflexivity].
Qed.

Lemma byte_align_held E e a : align_held a -> @byte_align E e a = Ok (2 ^ a_shift a).
Proof.
  intros H. apply held_shift in H. unfold byte_align.
  destruct (a_shift a <? 64) eqn:X; [reflexivity|lia].
Qed.

Lemma bit_align_small E e a : a_shift a <= 60 -> @bit_align E e a = Ok (8 * 2 ^ a_shift a).
Proof.
  intros H. unfold bit_align, byte_align.
  destruct (a_shift a <? 64) eqn:X; [|lia]. cbn [obind].
  assert (HL : 2 ^ a_shift a < 2 ^ 61) by (apply N.pow_lt_mono_r; lia).
  change (2 ^ 61) with 2305843009213693952 in HL. unfold two64.
  destruct (2 ^ a_shift a * 8 <? 18446744073709551616) eqn:Y; [|lia].
  f_equal. lia.
Qed.

Lemma bit_align_big E e a : align_held a -> 60 < a_shift a ->
  @bit_align E e a = if overflow_checks e then Panic PMulOverflow else Ok 0.
Proof.
  intros H H1. apply held_shift in H. unfold bit_align, byte_align.
  destruct (a_shift a <? 64) eqn:X; [|lia]. cbn [obind].
  assert (a_shift a = 61 \/ a_shift a = 62 \/ a_shift a = 63) as [-> | [-> | ->]] by lia; reflexivity.
Qed.

Lemma align_order E e a b : align_held a -> align_held b ->
  exists x y, @byte_align E e a = Ok x /\ @byte_align E e b = Ok y /\
    (align_le a b = true <-> x <= y) /\ (align_lt a b = true <-> x < y) /\ (a = b <-> x = y).
Proof.
  intros Ha Hb. exists (2 ^ a_shift a), (2 ^ a_shift b). rewrite !byte_align_held by assumption.
  destruct a as [s], b as [t]. cbn. repeat split.
  - unfold align_le. cbn. intros H. apply N.leb_le in H. apply N.pow_le_mono_r; lia.
  - unfold align_le. cbn. intros H. apply N.leb_le. apply N.pow_le_mono_r_iff in H; lia.
  - unfold align_lt. cbn. intros H. apply N.ltb_lt in H. apply N.pow_lt_mono_r; lia.
  - unfold align_lt. cbn. intros H. apply N.ltb_lt. apply N.pow_lt_mono_r_iff in H; lia.
  - intros [= ->]. reflexivity.
  - intros H. apply N.pow_inj_r in H; [congruence|lia].
Qed.

(** *** Keys *)

Lemma at_cmp_eq x y : at_cmp x y = Eq <-> x = y.
Proof.
  destruct x, y; cbn; try (split; congruence); rewrite N.compare_eq_iff; split; congruence.
Qed.
Lemma at_cmp_lt x y : at_cmp x y = Lt <-> key_lt x y.
Proof.
  unfold key_lt. destruct x, y; cbn; rewrite ?N.compare_lt_iff; try (split; [intros; try discriminate; lia|intros; try reflexivity; lia]).
Qed.
Lemma at_cmp_gt x y : at_cmp x y = Gt <-> key_lt y x.
Proof.
  unfold key_lt. destruct x, y; cbn; rewrite ?N.compare_gt_iff; try (split; [intros; try discriminate; lia|intros; try reflexivity; lia]).
Qed.
Lemma at_eqb_eq x y : at_eqb x y = true <-> x = y.
Proof. destruct x, y; cbn; try (split; congruence); rewrite N.eqb_eq; split; congruence. Qed.

Lemma key_lt_irrefl x : ~ key_lt x x.
Proof. unfold key_lt. lia. Qed.
Lemma key_lt_trans x y z : key_lt x y -> key_lt y z -> key_lt x z.
Proof. unfold key_lt. lia. Qed.
Lemma key_trichotomy x y : key_lt x y \/ x = y \/ key_lt y x.
Proof.
  destruct (at_cmp x y) eqn:E.
  - right. left. apply at_cmp_eq, E.
  - left. apply at_cmp_lt, E.
  - right. right. apply at_cmp_gt, E.
Qed.

(** *** Lists of type specifications *)

Lemma rposition_split {A} (p : A -> bool) l i : rposition p l = Some i ->
  exists l1 x l2, l = l1 ++ x :: l2 /\ length l1 = i /\ p x = true /\ forallb (fun y => negb (p y)) l2 = true.
Proof.
  revert i. induction l as [|a l IH]; cbn; intros i H; [discriminate|].
  destruct (rposition p l) as [j|] eqn:E.
  - injection H as <-. destruct (IH j eq_refl) as (l1 & x & l2 & -> & <- & Hx & Hl).
    exists (a :: l1), x, l2. repeat split; assumption.
  - destruct (p a) eqn:Ha; [|discriminate]. injection H as <-.
    exists [], a, l. repeat split; try assumption.
    clear -E. induction l as [|b l IH]; [reflexivity|]. cbn in *.
    destruct (rposition p l); [discriminate|]. destruct (p b); [discriminate|]. cbn. apply IH. reflexivity.
Qed.
Lemma rposition_none {A} (p : A -> bool) l : rposition p l = None -> forallb (fun y => negb (p y)) l = true.
Proof.
  induction l as [|b l IH]; [reflexivity|]. cbn. destruct (rposition p l); [discriminate|].
  destruct (p b); [discriminate|]. cbn. intros _. apply IH. reflexivity.
Qed.
Lemma nth_error_mid {A} (l1 : list A) x l2 : nth_error (l1 ++ x :: l2) (length l1) = Some x.
Proof. induction l1; [reflexivity|assumption]. Qed.
Lemma modify_mid {A} f (l1 : list A) x l2 : modify_at (length l1) f (l1 ++ x :: l2) = l1 ++ f x :: l2.
Proof. induction l1 as [|a l1 IH]; cbn; [reflexivity|f_equal; apply IH]. Qed.
Lemma insert_mid {A} (a : A) l1 x l2 : insert_at (S (length l1)) a (l1 ++ x :: l2) = l1 ++ x :: a :: l2.
Proof.
  unfold insert_at. induction l1 as [|b l1 IH]; cbn; [reflexivity|].
  f_equal. cbn in IH. exact IH.
Qed.

Lemma ts_le_spec x y : ts_le x y = true <-> key_lt (ts_type x) (ts_type y) \/ ts_type x = ts_type y.
Proof.
  unfold ts_le. destruct (at_cmp (ts_type x) (ts_type y)) eqn:E.
  - apply at_cmp_eq in E. intuition.
  - apply at_cmp_lt in E. intuition.
  - apply at_cmp_gt in E. split; [discriminate|]. intros [H|H].
    + exfalso. eapply key_lt_irrefl, key_lt_trans; eassumption.
    + rewrite H in E. exfalso. eapply key_lt_irrefl, E.
Qed.
Lemma ts_le_false x y : negb (ts_le x y) = true <-> key_lt (ts_type y) (ts_type x).
Proof.
  rewrite negb_true_iff. split.
  - intros H. destruct (key_trichotomy (ts_type x) (ts_type y)) as [L|[L|L]]; [| |exact L];
      exfalso; assert (ts_le x y = true) by (apply ts_le_spec; auto); congruence.
  - intros H. destruct (ts_le x y) eqn:E; [|reflexivity]. apply ts_le_spec in E as [E|E].
    + exfalso. eapply key_lt_irrefl, key_lt_trans; eassumption.
    + rewrite E in H. exfalso. eapply key_lt_irrefl, H.
Qed.

(** The result of an update, in terms of the list before. *)
Lemma type_update_cases l s :
  (exists l1 x l2, l = l1 ++ x :: l2 /\ ts_type x = ts_type s /\
     (forall y, In y l2 -> key_lt (ts_type s) (ts_type y)) /\
     type_specs_update l s = l1 ++ s :: l2) \/
  (exists l1 l2, l = l1 ++ l2 /\
     (l1 = [] \/ exists l0 x, l1 = l0 ++ [x] /\ key_lt (ts_type x) (ts_type s)) /\
     (forall y, In y l2 -> key_lt (ts_type s) (ts_type y)) /\
     type_specs_update l s = l1 ++ s :: l2).
Proof.
  unfold type_specs_update. destruct (rposition _ l) as [i|] eqn:E.
  - apply rposition_split in E as (l1 & x & l2 & -> & <- & Hx & Hl).
    assert (HL : forall y, In y l2 -> key_lt (ts_type s) (ts_type y)).
    { intros y Hy. apply ts_le_false. rewrite forallb_forall in Hl. apply Hl, Hy. }
    rewrite nth_error_mid. destruct (ts_eqb x s) eqn:X.
    + left. exists l1, x, l2. apply at_eqb_eq in X. repeat split; try assumption.
      rewrite modify_mid. rewrite X. destruct s; reflexivity.
    + right. exists (l1 ++ [x]), l2. rewrite <- app_assoc. repeat split; try assumption.
      * right. exists l1, x. split; [reflexivity|]. apply ts_le_spec in Hx as [Hx|Hx]; [exact Hx|].
        apply at_eqb_eq in Hx. unfold ts_eqb in X. congruence.
      * rewrite insert_mid. rewrite <- app_assoc. reflexivity.
  - right. exists [], l. cbn. repeat split; auto.
    intros y Hy. apply ts_le_false. apply rposition_none in E. rewrite forallb_forall in E. apply E, Hy.
Qed.

Definition ts_lt (x y : type_spec) : Prop := key_lt (ts_type x) (ts_type y).
Lemma ssorted_app l1 l2 : StronglySorted ts_lt (l1 ++ l2) <->
  StronglySorted ts_lt l1 /\ StronglySorted ts_lt l2 /\ (forall x y, In x l1 -> In y l2 -> ts_lt x y).
Proof.
  induction l1 as [|a l1 IH]; cbn.
  - intuition. constructor.
  - split.
    + intros H. inversion H as [|? ? H1 H2]; subst. apply IH in H1 as (A & B & D).
      rewrite Forall_app in H2. destruct H2 as [H2 H3]. rewrite Forall_forall in H3.
      repeat split; [constructor; assumption|assumption|].
      intros x y [<-|Hx] Hy; auto.
    + intros (A & B & D). inversion A as [|? ? A1 A2]; subst. constructor.
      * apply IH. auto.
      * apply Forall_app. split; [assumption|]. apply Forall_forall. intros y Hy. auto.
Qed.

Lemma spec_for_app k l1 l2 : spec_for k (l1 ++ l2) =
  match spec_for k l1 with Some s => Some s | None => spec_for k l2 end.
Proof.
  unfold spec_for. induction l1 as [|a l1 IH]; cbn; [reflexivity|].
  destruct (type_key_dec (ts_type a) k); [reflexivity|apply IH].
Qed.
Lemma spec_for_cons k a l : spec_for k (a :: l) = if type_key_dec (ts_type a) k then Some a else spec_for k l.
Proof. unfold spec_for. cbn. destruct (type_key_dec (ts_type a) k); reflexivity. Qed.
Lemma spec_for_none k l : (forall y, In y l -> ts_type y <> k) -> spec_for k l = None.
Proof.
  intros H. unfold spec_for. destruct (find _ l) eqn:E; [|reflexivity].
  apply find_some in E as [E1 E2]. destruct (type_key_dec (ts_type t) k); [|discriminate].
  exfalso. eapply H; eassumption.
Qed.

Lemma type_update_sorted l s : StronglySorted ts_lt l -> StronglySorted ts_lt (type_specs_update l s).
Proof.
  intros H. destruct (type_update_cases l s) as [(l1 & x & l2 & -> & Hx & Hl & ->)|(l1 & l2 & -> & H1 & Hl & ->)].
  - apply ssorted_app in H as (A & B & D). inversion B as [|? ? B1 B2]; subst.
    apply ssorted_app. repeat split; [assumption| |].
    + constructor; [assumption|]. apply Forall_forall. intros y Hy. apply Hl, Hy.
    + intros a b Ha [<-|Hb].
      * unfold ts_lt. rewrite <- Hx. apply D; [assumption|left; reflexivity].
      * apply D; [assumption|right; assumption].
  - apply ssorted_app in H as (A & B & D). apply ssorted_app. repeat split; [assumption| |].
    + constructor; [assumption|]. apply Forall_forall. intros y Hy. apply Hl, Hy.
    + intros a b Ha [<-|Hb]; [|apply D; assumption].
      destruct H1 as [->|(l0 & x & -> & Hx)]; [contradiction|].
      apply in_app_iff in Ha as [Ha|[<-|[]]]; [|exact Hx].
      apply ssorted_app in A as (A1 & A2 & A3). unfold ts_lt. eapply key_lt_trans; [|exact Hx].
      apply A3; [assumption|left; reflexivity].
Qed.

Lemma type_update_lookup l s k : StronglySorted ts_lt l ->
  spec_for k (type_specs_update l s) = if type_key_dec (ts_type s) k then Some s else spec_for k l.
Proof.
  intros H. destruct (type_update_cases l s) as [(l1 & x & l2 & -> & Hx & Hl & ->)|(l1 & l2 & -> & H1 & Hl & ->)].
  - apply ssorted_app in H as (A & B & D). rewrite !spec_for_app, !spec_for_cons. rewrite Hx.
    destruct (type_key_dec (ts_type s) k) as [<-|n]; [|reflexivity].
    rewrite spec_for_none; [reflexivity|]. intros y Hy E.
    specialize (D y x Hy (or_introl eq_refl)). unfold ts_lt in D. rewrite E, Hx in D.
    eapply key_lt_irrefl, D.
  - apply ssorted_app in H as (A & B & D). rewrite !spec_for_app, !spec_for_cons.
    destruct (type_key_dec (ts_type s) k) as [<-|n]; [|reflexivity].
    rewrite spec_for_none; [reflexivity|]. intros y Hy E.
    destruct H1 as [->|(l0 & x & -> & Hx)]; [contradiction|].
    apply in_app_iff in Hy as [Hy|[<-|[]]].
    + apply ssorted_app in A as (A1 & A2 & A3). specialize (A3 y x Hy (or_introl eq_refl)).
      unfold ts_lt in A3. rewrite E in A3. eapply key_lt_irrefl, key_lt_trans; eassumption.
    + rewrite E in Hx. eapply key_lt_irrefl, Hx.
Qed.

Lemma type_default_sorted : StronglySorted ts_lt type_specs_default.
Proof.
  unfold type_specs_default.
  repeat first [apply SSorted_nil | apply SSorted_cons | apply Forall_nil | apply Forall_cons
               | unfold ts_lt, key_lt; cbn; lia].
Qed.

Lemma type_updates_main us :
  StronglySorted (fun x y => key_lt (ts_type x) (ts_type y)) (fold_left type_specs_update us type_specs_default) /\
  forall k, spec_for k (fold_left type_specs_update us type_specs_default) = spec_for k (rev us ++ type_specs_default).
Proof.
  induction us as [|s us IH] using rev_ind.
  - split; [apply type_default_sorted|reflexivity].
  - rewrite fold_left_app. cbn [fold_left]. destruct IH as [A B]. split.
    + apply (type_update_sorted _ s A).
    + intros k. rewrite (type_update_lookup _ s k A), B.
      rewrite rev_app_distr. cbn [rev app]. rewrite spec_for_cons. reflexivity.
Qed.

(** *** Lists of pointer specifications *)

Lemma ps_eqb_eq x y : ps_eqb x y = true <-> x = y.
Proof.
  unfold ps_eqb. rewrite !andb_true_iff, !N.eqb_eq.
  destruct x as [a [b] [c] d f], y as [a' [b'] [c'] d' f']; cbn. split; [|intros [= -> -> -> -> ->]; auto].
  intros ((((-> & ->) & ->) & ->) & ->). reflexivity.
Qed.

Lemma ptr_update_cases l s :
  (exists l1 l2, l = l1 ++ s :: l2 /\ (forall y, In y l2 -> ps_space s < ps_space y) /\
     ptr_specs_update l s = l) \/
  (exists l1 l2, l = l1 ++ l2 /\
     (l1 = [] \/ exists l0 x, l1 = l0 ++ [x] /\ ps_space x <= ps_space s /\ x <> s) /\
     (forall y, In y l2 -> ps_space s < ps_space y) /\
     ptr_specs_update l s = l1 ++ s :: l2).
Proof.
  unfold ptr_specs_update. destruct (rposition _ l) as [i|] eqn:E.
  - apply rposition_split in E as (l1 & x & l2 & -> & <- & Hx & Hl).
    assert (HL : forall y, In y l2 -> ps_space s < ps_space y).
    { intros y Hy. rewrite forallb_forall in Hl. specialize (Hl y Hy). unfold ps_le in Hl. lia. }
    rewrite nth_error_mid. destruct (ps_eqb x s) eqn:X.
    + left. apply ps_eqb_eq in X. subst x. exists l1, l2. repeat split; try assumption.
      rewrite modify_mid. destruct s; reflexivity.
    + right. exists (l1 ++ [x]), l2. rewrite <- app_assoc. repeat split; try assumption.
      * right. exists l1, x. split; [reflexivity|]. unfold ps_le in Hx. split; [lia|].
        intros ->. assert (ps_eqb s s = true) by (apply ps_eqb_eq; reflexivity). congruence.
      * rewrite insert_mid. rewrite <- app_assoc. reflexivity.
  - right. exists [], l. cbn. repeat split; auto.
    intros y Hy. apply rposition_none in E. rewrite forallb_forall in E. specialize (E y Hy).
    unfold ps_le in E. lia.
Qed.

Definition ps_ordered (x y : ptr_spec) : Prop := ps_space x <= ps_space y.
Lemma psorted_app l1 l2 : StronglySorted ps_ordered (l1 ++ l2) <->
  StronglySorted ps_ordered l1 /\ StronglySorted ps_ordered l2 /\
  (forall x y, In x l1 -> In y l2 -> ps_ordered x y).
Proof.
  induction l1 as [|a l1 IH]; cbn.
  - intuition. constructor.
  - split.
    + intros H. inversion H as [|? ? H1 H2]; subst. apply IH in H1 as (A & B & D).
      rewrite Forall_app in H2. destruct H2 as [H2 H3]. rewrite Forall_forall in H3.
      repeat split; [constructor; assumption|assumption|].
      intros x y [<-|Hx] Hy; auto.
    + intros (A & B & D). inversion A as [|? ? A1 A2]; subst. constructor.
      * apply IH. auto.
      * apply Forall_app. split; [assumption|]. apply Forall_forall. intros y Hy. auto.
Qed.

Lemma ptr_update_sorted l s : StronglySorted ps_ordered l -> StronglySorted ps_ordered (ptr_specs_update l s).
Proof.
  intros H. destruct (ptr_update_cases l s) as [(l1 & l2 & -> & Hl & ->)|(l1 & l2 & -> & H1 & Hl & ->)]; [assumption|].
  apply psorted_app in H as (A & B & D). apply psorted_app. repeat split; [assumption| |].
  - constructor; [assumption|]. apply Forall_forall. intros y Hy. specialize (Hl y Hy). unfold ps_ordered. lia.
  - intros a b Ha [<-|Hb]; [|apply D; assumption].
    destruct H1 as [->|(l0 & x & -> & Hx & _)]; [contradiction|].
    apply in_app_iff in Ha as [Ha|[<-|[]]]; [|exact Hx].
    apply psorted_app in A as (A1 & A2 & A3). specialize (A3 a x Ha (or_introl eq_refl)).
    unfold ps_ordered in *. lia.
Qed.

Lemma specs_of_app k l1 l2 : specs_of k (l1 ++ l2) = specs_of k l1 ++ specs_of k l2.
Proof. apply filter_app. Qed.
Lemma specs_of_none k l : (forall y, In y l -> ps_space y <> k) -> specs_of k l = [].
Proof.
  induction l as [|a l IH]; intros H; [reflexivity|]. cbn.
  destruct (ps_space a =? k) eqn:E.
  - exfalso. apply (H a); [left; reflexivity|lia].
  - apply IH. intros y Hy. apply H. right. assumption.
Qed.
Lemma collapse_snoc l s : collapse (l ++ [s]) =
  match rev l with
  | x :: _ => if ptr_spec_dec x s then collapse l else collapse l ++ [s]
  | [] => [s]
  end.
Proof.
  induction l as [|a l IH]; [reflexivity|].
  destruct l as [|b l].
  - cbn. destruct (ptr_spec_dec a s); [subst|]; reflexivity.
  - change (collapse ((a :: b :: l) ++ [s])) with
      (if ptr_spec_dec a b then collapse ((b :: l) ++ [s]) else a :: collapse ((b :: l) ++ [s])).
    rewrite IH. cbn [rev]. destruct (rev l ++ [b]) as [|x r] eqn:E; [destruct (rev l); discriminate|].
    cbn [app]. change (collapse (a :: b :: l)) with (if ptr_spec_dec a b then collapse (b :: l) else a :: collapse (b :: l)).
    destruct (ptr_spec_dec x s), (ptr_spec_dec a b); reflexivity.
Qed.
(** The last element survives collapsing. *)
Lemma collapse_last l x r : rev l = x :: r -> exists r', rev (collapse l) = x :: r'.
Proof.
  revert x r. induction l as [|s l IH] using rev_ind; intros x r; [discriminate|].
  rewrite rev_app_distr. cbn. intros [= <- <-].
  rewrite collapse_snoc. destruct (rev l) as [|y q] eqn:E; [exists []; reflexivity|].
  destruct (ptr_spec_dec y s) as [->|].
  - eapply IH. reflexivity.
  - rewrite rev_app_distr. cbn. eauto.
Qed.
