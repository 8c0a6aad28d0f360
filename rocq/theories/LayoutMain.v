(** The data layout parser accepts exactly the language of [means], with its meaning. *)
From Verif Require Import Base Strings SupportModel SupportSpec SupportProofs SupportMain LayoutModel LayoutSpec
  LayoutProofs.
From Coq Require Import Sorted.
From Coq Require Import Lia ZifyBool ZifyNat ZifyN.
Ltac Zify.zify_post_hook ::= Z.div_mod_to_equations.
Local Open Scope N_scope.
Arguments N.add : simpl never.
Arguments N.mul : simpl never.
Arguments N.div : simpl never.
Arguments N.modulo : simpl never.
Arguments N.sub : simpl never.
Arguments N.pow : simpl never.
Arguments ch : simpl never.

(** *** Pieces *)

Lemma join_cons c s l : l <> [] -> join c (s :: l) = s ++ c :: join c l.
Proof. destruct l; [congruence|reflexivity]. Qed.
Lemma split_on_join c s : join c (split_on c s) = s.
Proof.
  induction s as [|x s IH]; cbn; [reflexivity|].
  destruct (x =? c) eqn:E.
  - apply N.eqb_eq in E. subst x. rewrite join_cons by apply split_on_nonempty. rewrite IH. reflexivity.
  - destruct (split_on c s) as [|p ps] eqn:P; [exfalso; eapply split_on_nonempty, P|].
    destruct ps; cbn in *; rewrite <- IH; reflexivity.
Qed.
Lemma split_pieces c s l : split_on c s = l <-> pieces c s l.
Proof.
  split.
  - intros <-. split; [apply split_on_nonempty|]. split; [symmetry; apply split_on_join|].
    apply Forall_forall. intros p Hp. apply (split_on_pieces c s p Hp).
  - intros (Hn & -> & Hf). induction l as [|p l IH]; [congruence|]. inversion Hf as [|? ? H1 H2]; subst.
    destruct l as [|q l]; [apply split_on_none, H1|].
    rewrite join_cons by discriminate. rewrite split_on_app by assumption. f_equal. apply IH; [discriminate|assumption].
Qed.

Lemma Forall2_weaken {A B} (P Q : A -> B -> Prop) l m :
  (forall a b, P a b -> Q a b) -> Forall2 P l m -> Forall2 Q l m.
Proof. intros H. induction 1; constructor; auto. Qed.

(** *** Numbers *)

Lemma parse_u64_iff s n : parse_u64 s = Ok n <-> number s n /\ n < two64.
Proof.
  unfold parse_u64. rewrite parse_uint_ok. unfold number, u64_max, two64. intuition lia.
Qed.
Lemma parse_u32_iff s n : parse_u32 s = Ok n <-> number s n /\ n < two32.
Proof.
  unfold parse_u32. rewrite parse_uint_ok. unfold number, u32_max, two32. intuition lia.
Qed.
Lemma obind_iff {E A B} (m : outcome E A) (k : A -> outcome E B) b :
  obind m k = Ok b <-> exists a, m = Ok a /\ k a = Ok b.
Proof. split; [apply obind_ok|]. intros (a & -> & H). exact H. Qed.
Lemma omap_err_iff {E F A} (f : E -> F) (m : outcome E A) a : omap_err f m = Ok a <-> m = Ok a.
Proof. split; [apply omap_err_ok|]. intros ->. reflexivity. Qed.

Lemma from_bit_align_iff v a : v < two64 ->
  from_bit_align v = Ok a <-> v = 8 * 2 ^ a_shift a /\ a_shift a <= 60.
Proof.
  intros Hv. split; [apply from_bit_align_ok, Hv|]. intros [-> H]. rewrite from_bit_align_pow by assumption.
  destruct a; reflexivity.
Qed.
Lemma pow_bits s : s <= 60 -> 8 * 2 ^ s < two64.
Proof.
  intros H. assert (2 ^ s <= 2 ^ 60) by (apply N.pow_le_mono_r; lia).
  change (2 ^ 60) with 1152921504606846976 in *. unfold two64. lia.
Qed.
Lemma bits_iff s a : (exists v, parse_u64 s = Ok v /\ from_bit_align v = Ok a) <-> bits s a.
Proof.
  unfold bits. split.
  - intros (v & H & H1). apply parse_u64_iff in H as [H H2]. apply from_bit_align_iff in H1 as [-> H1]; auto.
  - intros [H H1]. exists (8 * 2 ^ a_shift a). pose proof (pow_bits _ H1).
    split; [apply parse_u64_iff; auto|]. apply from_bit_align_iff; auto.
Qed.
Lemma parse_bit_align_iff s a : parse_bit_align s = Ok a <-> bits s a.
Proof.
  unfold parse_bit_align. rewrite obind_iff, <- bits_iff.
  split; intros (v & H & H1); exists v; rewrite ?omap_err_iff in *; auto.
Qed.
Lemma parse_abi_iff s a : parse_abi s = Ok a <-> bits s a.
Proof.
  unfold parse_abi. rewrite obind_iff, <- bits_iff.
  split; intros (v & H & H1); exists v; rewrite ?omap_err_iff in *; auto.
Qed.
Lemma parse_pref_iff s a : parse_pref s = Ok a <-> bits s a.
Proof.
  unfold parse_pref. rewrite obind_iff, <- bits_iff.
  split; intros (v & H & H1); exists v; rewrite ?omap_err_iff in *; auto.
Qed.
Lemma parse_pref_opt_iff l abi a : parse_pref_opt (nth_error l 0) abi = Ok a <-> pref_text abi l a.
Proof. destruct l as [|s l]; cbn; [split; congruence|apply parse_pref_iff]. Qed.
Lemma address_space_iff v n : address_space_of v = Ok n <-> v = n /\ n <= 8388607.
Proof.
  unfold address_space_of, MAX_SPACE. destruct (v <=? 8388607) eqn:E; split; intros H.
  - injection H as <-. lia.
  - destruct H as [-> _]. reflexivity.
  - discriminate.
  - lia.
Qed.
Lemma parse_space_iff s n : parse_space s = Ok n <-> space s n.
Proof.
  unfold parse_space, space. rewrite obind_iff. split.
  - intros (v & H & H1). rewrite ?omap_err_iff in *. apply parse_u32_iff in H as [H _].
    apply address_space_iff in H1 as [-> H1]. auto.
  - intros [H H1]. exists n. rewrite !omap_err_iff. rewrite parse_u32_iff, address_space_iff. unfold two32. repeat split; auto; lia.
Qed.
Lemma width_iff v n : aligned_width_of v = Ok n <-> v = n /\ 1 <= n <= 8388607.
Proof.
  unfold aligned_width_of, MAX_WIDTH. destruct (_ && _) eqn:E; split; intros H.
  - injection H as <-. lia.
  - destruct H as [-> _]. reflexivity.
  - discriminate.
  - lia.
Qed.
Lemma type_new_iff t a p s : type_spec_new t a p = Ok s <-> s = mkTypeSpec t a p /\ a_shift a <= a_shift p <= 15.
Proof.
  split; [apply type_spec_new_ok|]. intros [-> H]. unfold type_spec_new, align_lt, align_le, MAX_ALIGN. cbn.
  destruct (a_shift p <? a_shift a) eqn:E; [lia|]. destruct (_ && _) eqn:F; [reflexivity|lia].
Qed.
Lemma collect_iff {E A B} (f : A -> outcome E B) l m : collect f l = Ok m <-> Forall2 (fun a b => f a = Ok b) l m.
Proof.
  revert m. induction l as [|a l IH]; intros m; cbn.
  - split; [intros [= <-]; constructor|intros H; inversion H; reflexivity].
  - rewrite obind_iff. split.
    + intros (b & H & H1). apply obind_iff in H1 as (bs & H1 & H2). injection H2 as <-. constructor; [assumption|]. apply IH, H1.
    + intros H. inversion H; subst. eexists. split; [eassumption|]. apply obind_iff. eexists. split; [apply IH; eassumption|reflexivity].
Qed.

(** *** Specifications *)

Lemma tail_iff {E} c s r : c < 128 -> @tail_from_1 E (c :: s) = Ok r <-> r = s.
Proof. intros H. rewrite tail_fine by assumption. split; [intros [= <-]; reflexivity|intros ->; reflexivity]. Qed.

Ltac letter_clash := repeat match goal with
  | H : ch _ = ch _ |- _ => exfalso; revert H; vm_compute; discriminate
  end.

Lemma type_from_str_iff c s t : c < 128 -> In c [ch "i"; ch "v"; ch "f"; ch "a"] ->
  type_spec_from_str (c :: s) = Ok t <-> type_text (c :: s) t.
Proof.
  intros Hc HI. unfold type_spec_from_str. rewrite tail_fine by assumption. cbn [obind].
  destruct (c =? ch "a") eqn:EA.
  - apply N.eqb_eq in EA. subst c. destruct s as [|x s].
    { split; [discriminate|]. intros H. inversion H; subst.
      match goal with H : pieces _ [] _ |- _ => apply split_pieces in H; discriminate end. }
    destruct (x =? ch ":") eqn:EX.
    + apply N.eqb_eq in EX. subst x. destruct (split_on (ch ":") s) as [|p0 ps] eqn:P.
      { exfalso. eapply split_on_nonempty, P. }
      rewrite obind_iff. split.
      * intros (abi & H & H1). apply obind_iff in H1 as (pref & H1 & H2).
        rewrite parse_abi_iff in H. rewrite parse_pref_opt_iff in H1. apply type_new_iff in H2 as [-> H2].
        eapply TtAggregate; eauto. apply split_pieces, P.
      * intros H. inversion H as [s' abi pref a l HP Ha Hp Hl|c' t' s' w n a l abi pref HP Hw Hn Ht Ha Hp Hl]; subst.
        -- apply split_pieces in HP. rewrite HP in P. injection P as -> ->.
           exists abi. rewrite parse_abi_iff. split; [assumption|]. apply obind_iff. exists pref.
           rewrite parse_pref_opt_iff, type_new_iff. auto.
        -- destruct Ht as [[Ht _]|[[Ht _]|[Ht _]]]; letter_clash.
    + split; [discriminate|]. intros H. inversion H as [s' abi pref a l HP Ha Hp Hl|c' t' s' w n a l abi pref HP Hw Hn Ht Ha Hp Hl]; subst.
      * rewrite N.eqb_refl in EX. discriminate.
      * destruct Ht as [[Ht _]|[[Ht _]|[Ht _]]]; letter_clash.
  - apply N.eqb_neq in EA.
    destruct (split_on (ch ":") s) as [|p0 [|p1 ps]] eqn:P.
    { exfalso. eapply split_on_nonempty, P. }
    { split; [discriminate|]. intros H. inversion H as [|c' t' s' w n a l abi pref HP]; subst; [congruence|].
      apply split_pieces in HP. congruence. }
    rewrite obind_iff. split.
    + intros (w & H & H1). rewrite omap_err_iff in H. apply parse_u32_iff in H as [H _].
      apply obind_iff in H1 as (n & H1 & H2). rewrite omap_err_iff, width_iff in H1. destruct H1 as [-> H1].
      apply obind_iff in H2 as (abi & H2 & H3). apply obind_iff in H3 as (pref & H3 & H4).
      rewrite parse_abi_iff in H2. rewrite parse_pref_opt_iff in H3.
      apply split_pieces in P.
      destruct (c =? ch "i") eqn:EI; [|destruct (c =? ch "v") eqn:EV; [|destruct (c =? ch "f") eqn:EF; [|discriminate]]];
        apply type_new_iff in H4 as [-> H4]; eapply TtScalar; eauto; unfold type_of_letter;
        rewrite ?N.eqb_eq in *; intuition.
    + intros H. inversion H as [|c' t' s' w n a l abi pref HP Hw Hn Ht Ha Hp Hl]; subst; [congruence|].
      apply split_pieces in HP. rewrite HP in P. injection P as -> -> ->.
      exists n. rewrite omap_err_iff, parse_u32_iff. unfold two32. split; [split; [assumption|lia]|].
      apply obind_iff. exists n. rewrite omap_err_iff, width_iff. split; [auto|].
      apply obind_iff. exists abi. rewrite parse_abi_iff. split; [assumption|].
      apply obind_iff. exists pref. rewrite parse_pref_opt_iff. split; [assumption|].
      destruct Ht as [[-> ->]|[[-> ->]|[-> ->]]].
      * rewrite N.eqb_refl. apply type_new_iff; auto.
      * change (ch "v" =? ch "i") with false. rewrite N.eqb_refl. apply type_new_iff; auto.
      * change (ch "f" =? ch "i") with false. change (ch "f" =? ch "v") with false. rewrite N.eqb_refl. apply type_new_iff; auto.
Qed.

Lemma ptr_from_str_iff c s t : c < 128 -> ptr_spec_from_str (c :: s) = Ok t <-> ptr_text (c :: s) t.
Proof.
  intros Hc. unfold ptr_spec_from_str. rewrite tail_fine by assumption. cbn [obind].
  destruct (split_on (ch ":") s) as [|p0 [|p1 [|p2 ps]]] eqn:P;
    try (split; [discriminate|]; intros H; inversion H as [? ? ? ? ? ? ? ? ? ? ? HP]; subst; apply split_pieces in HP; congruence).
  assert (HS : forall sp, match p0 with [] => Ok 0 | _ => obind (omap_err SeBadInt (parse_u32 p0))
                 (fun n => omap_err SeBadAddressSpace (address_space_of n)) end = Ok sp <->
               (p0 = [] /\ sp = 0 \/ number p0 sp /\ sp <= 8388607)).
  { intros sp. destruct p0 as [|x p0].
    - split; [intros [= <-]; auto|]. intros [[_ ->]|[H _]]; [reflexivity|].
      destruct H as [(H & _)|(s' & H & _)]; congruence.
    - rewrite obind_iff. split.
      + intros (n & H & H1). rewrite ?omap_err_iff in *. apply parse_u32_iff in H as [H _].
        apply address_space_iff in H1 as [-> H1]. auto.
      + intros [[H _]|[H H1]]; [discriminate|]. exists sp.
        rewrite !omap_err_iff, parse_u32_iff, address_space_iff. unfold two32. repeat split; auto; lia. }
  assert (HI : forall size index, match nth_error ps 1 with Some p => omap_err SeBadInt (parse_u64 p) | None => Ok size end = Ok index <->
     match ps with _ :: x :: _ => number x index /\ index < two64 | _ => index = size end).
  { intros size index. destruct ps as [|a [|b ps]]; cbn; try (split; congruence). rewrite omap_err_iff. apply parse_u64_iff. }
  rewrite obind_iff. split.
  - intros (sp & H & H1). apply HS in H. apply obind_iff in H1 as (size & H1 & H2).
    rewrite omap_err_iff, parse_u64_iff in H1. destruct H1 as [H1 H1'].
    apply obind_iff in H2 as (abi & H2 & H3). apply obind_iff in H3 as (pref & H3 & H4).
    apply obind_iff in H4 as (index & H4 & H5). injection H5 as <-.
    rewrite parse_abi_iff in H2. rewrite parse_pref_opt_iff in H3. apply HI in H4.
    apply split_pieces in P. eapply PtText; eauto.
  - intros H. inversion H as [c' s' q0 q1 q2 l sp size abi pref index HP H0 H1 H1' H2 H3 H4]; subst.
    apply split_pieces in HP. rewrite HP in P. injection P as -> -> -> ->.
    exists sp. split; [apply HS, H0|]. apply obind_iff. exists size. rewrite omap_err_iff, parse_u64_iff. split; [auto|].
    apply obind_iff. exists abi. rewrite parse_abi_iff. split; [assumption|].
    apply obind_iff. exists pref. rewrite parse_pref_opt_iff. split; [assumption|].
    apply obind_iff. exists index. split; [apply HI, H4|reflexivity].
Qed.

Lemma mangling_iff c m : mangling_of c = Some m <-> In (m, c) mangling_letter.
Proof.
  unfold mangling_of, mangling_letter. split.
  - repeat match goal with |- context [if ?c =? ?b then _ else _] => destruct (c =? b) eqn:?E end;
      intros [= <-]; rewrite ?N.eqb_eq in *; subst; cbn; tauto.
  - cbn. intros H. repeat match goal with H : _ \/ _ |- _ => destruct H as [H|H] end; try tauto; injection H as <- <-; reflexivity.
Qed.

(** *** One specification *)

Definition apply_setting (c : setting) (d : layout) : layout :=
  match c with
  | SEndian v => set_endianness v d
  | SStack a => set_stack (Some a) d
  | SProgram n => set_program n d
  | SGlobal n => set_global n d
  | SAlloca n => set_alloca n d
  | SPointer s => set_pointers (ptr_specs_update (dl_pointers d) s) d
  | SType s => set_types (type_specs_update (dl_types d) s) d
  | SFn f => set_fn_ptr (Some f) d
  | SMangling m => set_mangling (Some m) d
  | SNonIntegral l => set_non_integral l d
  | SNative l => set_native l d
  end.

Lemma means_layout_spec s d c : is_ascii s = true -> means s c -> layout_spec s d = Ok (apply_setting c d).
Proof.
  intros HA H. destruct H; cbn in HA; apply andb_true_iff in HA as [HC HA]; apply N.ltb_lt in HC;
    unfold layout_spec; rewrite tail_fine by assumption; cbn [obind apply_setting].
  - reflexivity.
  - reflexivity.
  - apply parse_bit_align_iff in H. change (ch "S" =? ch "e") with false. cbn. rewrite H. reflexivity.
  - apply parse_space_iff in H. cbn. rewrite H. reflexivity.
  - apply parse_space_iff in H. cbn. rewrite H. reflexivity.
  - apply parse_space_iff in H. cbn. rewrite H. reflexivity.
  - apply ptr_from_str_iff in H; [|assumption].
    change (ch "p" =? ch "e") with false. change (ch "p" =? ch "E") with false. change (ch "p" =? ch "S") with false.
    change (ch "p" =? ch "P") with false. change (ch "p" =? ch "G") with false. change (ch "p" =? ch "A") with false.
    change (ch "p" =? ch "p") with true. rewrite H. reflexivity.
  - apply type_from_str_iff in H0; [|assumption|assumption]. rewrite H0.
    destruct H as [<-|[<-|[<-|[<-|[]]]]]; reflexivity.
  - apply parse_bit_align_iff in H. cbn in HA. apply andb_true_iff in HA as [HD HA]. apply N.ltb_lt in HD.
    rewrite tail_fine by assumption. cbn. rewrite H. reflexivity.
  - apply parse_bit_align_iff in H. cbn in HA. apply andb_true_iff in HA as [HD HA]. apply N.ltb_lt in HD.
    rewrite tail_fine by assumption. cbn. rewrite H. reflexivity.
  - apply mangling_iff in H. cbn. rewrite H. reflexivity.
  - cbn in HA. apply andb_true_iff in HA as [HD HA]. apply andb_true_iff in HA as [HX HA]. apply N.ltb_lt in HD, HX.
    apply split_pieces in H. rewrite (tail_fine (ch "i")) by assumption. cbn [obind].
    rewrite (tail_fine x) by assumption. cbn [obind]. rewrite H.
    assert (HL : collect parse_non_integral l = Ok ns).
    { apply collect_iff. eapply Forall2_weaken; [|exact H0]. intros p n [Hp Hn]. unfold parse_non_integral.
      apply parse_space_iff in Hp. rewrite Hp. cbn [obind]. destruct (n =? 0) eqn:E; [lia|reflexivity]. }
    rewrite HL. reflexivity.
  - destruct s as [|x s]; [congruence|]. apply split_pieces in H1.
    assert (X : x =? ch "i" = false) by (apply N.eqb_neq; intros ->; eapply H; reflexivity).
    rewrite X, H1.
    assert (HL : collect (fun s => omap_err LeBadInt (parse_u32 s)) l = Ok ns).
    { apply collect_iff. eapply Forall2_weaken; [|exact H2]. intros p n Hp. cbv beta. apply omap_err_iff, parse_u32_iff, Hp. }
    rewrite HL. reflexivity.
Qed.

Lemma layout_spec_means s d d' : is_ascii s = true -> layout_spec s d = Ok d' ->
  exists c, means s c /\ d' = apply_setting c d.
Proof.
  intros HA. destruct s as [|c s]; [discriminate|]. cbn in HA. apply andb_true_iff in HA as [HC HA]. apply N.ltb_lt in HC.
  unfold layout_spec. rewrite tail_fine by assumption. cbn [obind].
  destruct (c =? ch "e") eqn:E1.
  { intros [= <-]. apply N.eqb_eq in E1; subst c. exists (SEndian Little). split; [constructor|reflexivity]. }
  destruct (c =? ch "E") eqn:E2.
  { intros [= <-]. apply N.eqb_eq in E2; subst c. exists (SEndian Big). split; [constructor|reflexivity]. }
  destruct (c =? ch "S") eqn:E3.
  { intros H. apply obind_ok in H as (a & H & [= <-]). apply N.eqb_eq in E3; subst c. apply parse_bit_align_iff in H.
    exists (SStack a). split; [constructor; assumption|reflexivity]. }
  destruct (c =? ch "P") eqn:E4.
  { intros H. apply obind_ok in H as (a & H & [= <-]). apply N.eqb_eq in E4; subst c. apply parse_space_iff in H.
    exists (SProgram a). split; [constructor; assumption|reflexivity]. }
  destruct (c =? ch "G") eqn:E5.
  { intros H. apply obind_ok in H as (a & H & [= <-]). apply N.eqb_eq in E5; subst c. apply parse_space_iff in H.
    exists (SGlobal a). split; [constructor; assumption|reflexivity]. }
  destruct (c =? ch "A") eqn:E6.
  { intros H. apply obind_ok in H as (a & H & [= <-]). apply N.eqb_eq in E6; subst c. apply parse_space_iff in H.
    exists (SAlloca a). split; [constructor; assumption|reflexivity]. }
  destruct (c =? ch "p") eqn:E7.
  { intros H. apply obind_ok in H as (a & H & [= <-]). apply N.eqb_eq in E7; subst c.
    apply omap_err_ok, ptr_from_str_iff in H; [|assumption]. exists (SPointer a). split; [constructor; assumption|reflexivity]. }
  destruct (_ || _ || _ || _) eqn:E8.
  { intros H. apply obind_ok in H as (a & H & [= <-]). apply omap_err_ok in H.
    assert (HI : In c [ch "i"; ch "v"; ch "f"; ch "a"]) by (rewrite !orb_true_iff, !N.eqb_eq in E8; cbn; intuition).
    apply type_from_str_iff in H; [|assumption|assumption].
    exists (SType a). split; [constructor; assumption|reflexivity]. }
  destruct (c =? ch "F") eqn:E9.
  { apply N.eqb_eq in E9; subst c. destruct s as [|x s]; [discriminate|].
    cbn in HA. apply andb_true_iff in HA as [HD HA]. apply N.ltb_lt in HD. rewrite tail_fine by assumption. cbn [obind].
    intros H. apply obind_ok in H as (a & H & H1). apply parse_bit_align_iff in H.
    destruct (x =? ch "i") eqn:X; [|destruct (x =? ch "n") eqn:Y; [|discriminate]]; injection H1 as <-.
    - apply N.eqb_eq in X; subst x. exists (SFn (FpIndependent a)). split; [constructor; assumption|reflexivity].
    - apply N.eqb_eq in Y; subst x. exists (SFn (FpMultiple a)). split; [constructor; assumption|reflexivity]. }
  destruct (c =? ch "m") eqn:E10.
  { apply N.eqb_eq in E10; subst c. destruct s as [|x s]; [discriminate|]. destruct (x =? ch ":") eqn:X; [|discriminate].
    apply N.eqb_eq in X; subst x.
    destruct s as [|y s]; [discriminate|]. destruct (mangling_of y) as [m|] eqn:M; [|discriminate].
    intros [= <-]. apply mangling_iff in M. exists (SMangling m). split; [constructor; assumption|reflexivity]. }
  destruct (c =? ch "n") eqn:E11; [|discriminate]. apply N.eqb_eq in E11; subst c.
  destruct s as [|x s]; [discriminate|]. cbn in HA. apply andb_true_iff in HA as [HX HA]. apply N.ltb_lt in HX.
  destruct (x =? ch "i") eqn:I.
  - apply N.eqb_eq in I; subst x. destruct s as [|y s]; [discriminate|]. cbn in HA. apply andb_true_iff in HA as [HY HA]. apply N.ltb_lt in HY.
    rewrite !tail_fine by assumption. cbn [obind]. rewrite tail_fine by assumption. cbn [obind].
    intros H. apply obind_ok in H as (l & H & [= <-]).
    exists (SNonIntegral l). split; [|reflexivity]. eapply MeNonIntegral; [apply split_pieces; reflexivity|].
    apply collect_iff in H. eapply Forall2_weaken; [|exact H]. intros p n. cbv beta. unfold parse_non_integral. intros Hp.
    apply obind_ok in Hp as (a & Hp & H1). apply parse_space_iff in Hp. destruct (a =? 0) eqn:E; [discriminate|].
    injection H1 as <-. split; [assumption|lia].
  - intros H. apply obind_ok in H as (l & H & [= <-]).
    exists (SNative l). split; [|reflexivity]. eapply MeNative; [|discriminate|apply split_pieces; reflexivity|].
    + intros s' [= -> _]. rewrite N.eqb_refl in I. discriminate.
    + apply collect_iff in H. eapply Forall2_weaken; [|exact H]. intros p n. cbv beta. intros Hp.
      apply omap_err_ok, parse_u32_iff in Hp. exact Hp.
Qed.

(** *** The whole string *)

Lemma layout_loop_iff l d d' : (forall s, In s l -> is_ascii s = true) ->
  layout_loop l d = Ok d' <-> exists cs, Forall2 means l cs /\ d' = fold_left (fun d c => apply_setting c d) cs d.
Proof.
  revert d. induction l as [|s l IH]; intros d HA; cbn.
  - split; [intros [= <-]; exists []; auto|]. intros (cs & H & ->). inversion H. reflexivity.
  - rewrite obind_iff. split.
    + intros (d1 & H & H1). apply layout_spec_means in H as (c & Hc & ->); [|apply HA; left; reflexivity].
      apply IH in H1 as (cs & H1 & ->); [|intros; apply HA; right; assumption].
      exists (c :: cs). auto.
    + intros (cs & H & ->). inversion H as [|? c ? cs' Hc Hcs]; subst.
      exists (apply_setting c d). split; [apply means_layout_spec; [apply HA; left; reflexivity|assumption]|].
      apply IH; [intros; apply HA; right; assumption|]. eauto.
Qed.
Lemma layout_iff v d : layout_from_str v = Ok d <->
  is_ascii v = true /\ exists cs, Forall2 means (specs v) cs /\ d = fold_left (fun d c => apply_setting c d) cs layout_default.
Proof.
  unfold layout_from_str. destruct (is_ascii v) eqn:E; [|intuition discriminate].
  rewrite layout_loop_iff by (intros s Hs; eapply specs_ascii; eassumption). intuition.
Qed.

Lemma fold_component {A} (get : layout -> A) (f : setting -> option A) :
  (forall c d, get (apply_setting c d) = match f c with Some v => v | None => get d end) ->
  forall cs d, get (fold_left (fun d c => apply_setting c d) cs d) = last_of f cs (get d).
Proof.
  intros H cs. induction cs as [|c cs IH]; intros d; cbn; [reflexivity|]. rewrite IH, H. reflexivity.
Qed.
Lemma fold_types cs d : dl_types (fold_left (fun d c => apply_setting c d) cs d) =
  fold_left type_specs_update (flat_map (fun s => match s with SType t => [t] | _ => [] end) cs) (dl_types d).
Proof.
  revert d. induction cs as [|c cs IH]; intros d; cbn; [reflexivity|]. rewrite IH. destruct c, d; reflexivity.
Qed.
Lemma fold_pointers cs d : dl_pointers (fold_left (fun d c => apply_setting c d) cs d) =
  fold_left ptr_specs_update (flat_map (fun s => match s with SPointer t => [t] | _ => [] end) cs) (dl_pointers d).
Proof.
  revert d. induction cs as [|c cs IH]; intros d; cbn; [reflexivity|]. rewrite IH. destruct c, d; reflexivity.
Qed.
Lemma fold_aggregate cs d : dl_aggregate (fold_left (fun d c => apply_setting c d) cs d) = dl_aggregate d.
Proof. revert d. induction cs as [|c cs IH]; intros d; cbn; [reflexivity|]. rewrite IH. destruct c, d; reflexivity. Qed.

Lemma fold_holds cs : holds (fold_left (fun d c => apply_setting c d) cs layout_default) cs.
Proof.
  constructor.
  1-9: match goal with |- ?get (fold_left _ _ _) = last_of ?f _ ?v => exact (fold_component get f ltac:(intros [] []; reflexivity) cs layout_default) end.
  - intros k. rewrite fold_types. apply type_updates_main.
  - rewrite fold_types. apply type_updates_main.
  - intros k. rewrite fold_pointers. apply ptr_updates_main.
  - rewrite fold_pointers. apply ptr_updates_main.
  - rewrite fold_aggregate. reflexivity.
Qed.

Lemma layout_main v d : layout_from_str v = Ok d ->
  is_ascii v = true /\ exists cs, Forall2 means (specs v) cs /\ holds d cs.
Proof.
  intros H. apply layout_iff in H as (HA & cs & H & ->). split; [assumption|]. exists cs. split; [assumption|apply fold_holds].
Qed.
Lemma layout_accepts v cs : is_ascii v = true -> Forall2 means (specs v) cs ->
  exists d, layout_from_str v = Ok d /\ holds d cs.
Proof.
  intros HA H. eexists. split; [apply layout_iff; eauto|apply fold_holds].
Qed.
Lemma layout_total v : (exists d, layout_from_str v = Ok d) \/ (exists x, layout_from_str v = Err x).
Proof. apply layout_fine. Qed.
