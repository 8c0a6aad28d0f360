(** The type table: main lemmas. *)
From Verif Require Import Base Strings StringsProofs EnumModel SupportModel SupportSpec SupportMain UnrollModel UnrollApi
  AttributeModel AttributeSpec AttributeProofs AttributeMain LayoutMain TablesSpec TablesProofs TypeTableModel TypeTableSpec RecursionSpec TypeTableProofs.
From Coq Require Import Lia ZifyBool ZifyNat ZifyN.
Ltac Zify.zify_post_hook ::= Z.div_mod_to_equations.
Local Open Scope N_scope.
#[local] Arguments N.add : simpl never.
#[local] Arguments N.sub : simpl never.
#[local] Arguments N.modulo : simpl never.
#[local] Arguments N.pow : simpl never.

Lemma type_code_exact v c : type_code_of v = Some c <-> type_code_num c = v.
Proof. destruct type_code_realises as (H1 & H2 & _). now rewrite H1, H2. Qed.

Lemma split_last_some {A} (l : list A) f a : split_last l = Some (f, a) <-> l = f ++ [a].
Proof.
  unfold split_last. destruct (rev l) as [|x r] eqn:E.
  - split; [discriminate|]. intros ->. rewrite rev_app_distr in E. discriminate E.
  - assert (L : l = rev r ++ [x]) by (rewrite <- (rev_involutive l), E; reflexivity). split.
    + intros [= <- <-]. exact L.
    + intros ->. apply app_inj_tail in L as [-> ->]. reflexivity.
Qed.
Lemma split_last_none {A} (l : list A) : split_last l = None <-> l = [].
Proof.
  unfold split_last. destruct (rev l) as [|x r] eqn:E.
  - split; [|reflexivity]. intros _. rewrite <- (rev_involutive l), E. reflexivity.
  - split; [discriminate|]. intros ->. discriminate E.
Qed.

Lemma space_exact f a b : omap_err (fun x => TtInvalid (f x)) (address_space_of a) = Ok b <-> space_rule a /\ b = a.
Proof.
  unfold address_space_of, space_rule, MAX_SPACE. change (2 ^ 23) with 8388608.
  destruct (a <=? 8388607) eqn:E; cbn; split; try discriminate; try lia; [intros [= <-]; split; [lia|reflexivity]|intros [_ ->]; reflexivity].
Qed.
Lemma field_at r n x : type_field r n = Ok x <-> nth_error (r_fields r) n = Some x.
Proof. apply ok_or_ok. Qed.

Lemma name_ok e r s : r_fields r <> [] ->
  (try_string e r 0 = Ok s <->
   r_fields r = utf8_encode s /\ forallb is_scalar_value s = true /\ (2 <= length (r_fields r))%nat).
Proof.
  intros NE. split.
  - intros H. assert (L : (2 <= length (r_fields r))%nat).
    { destruct (r_fields r) as [|y [|z l]] eqn:G; [congruence| |cbn; lia].
      destruct (strings_out e r 0) as [K _]; [congruence|rewrite G; cbn; lia|]. congruence. }
    apply (try_string_in e r 0) in H; [|lia]. change (N.to_nat 0) with 0%nat in H. cbn [skipn] in H. destruct H as (_ & H1 & H2). auto.
  - intros (F & S & L). apply (try_string_in e r 0); [lia|]. change (N.to_nat 0) with 0%nat. cbn [skipn].
    split; [|auto]. rewrite F. now apply encode_bytes.
Qed.

(** The invariant of the entries. *)
Lemma simple_in c t : In (c, t) simple_types -> exists c, In (c, t) simple_types.
Proof. eauto. Qed.
Lemma step_ok e P name r P' name' : Forall pt_ok P -> type_step e (P, name) r = Ok (P', name') -> Forall pt_ok P'.
Proof.
  intros O H. cbn [type_step] in H. apply obind_iff in H as (c & C & H).
  assert (A : forall p, pt_ok p -> @Ok tt_err _ (P ++ [p], name) = Ok (P', name') -> Forall pt_ok P').
  { intros p K [= <- <-]. apply Forall_app. auto. }
  destruct c; try discriminate;
    try (apply A in H; [exact H|eexists; cbn; auto 20]);
    repeat match goal with
      | H : obind (type_field _ _) _ = Ok _ |- _ => apply obind_iff in H as (? & _ & H)
      | H : obind (omap_err _ (address_space_of _)) _ = Ok _ |- _ => let K := fresh "K" in apply obind_iff in H as (? & K & H); apply space_exact in K as [? ->]
      | H : obind (omap_err _ (try_string _ _ _)) _ = Ok _ |- _ => apply obind_iff in H as (? & ? & H)
      end;
    try (injection H as <- <-; exact O);
    try (apply A in H; [exact H|exact I || assumption]).
  - destruct name; [discriminate|]. destruct (split_last P) as [[f x]|] eqn:S.
    + apply split_last_some in S as ->. apply Forall_app in O as [O1 O2].
      destruct x as [| | | | |[] fs pk| | |]; try discriminate; injection H as <- <-; rewrite ?Forall_app; repeat split; auto; constructor; cbn; auto; now inversion O2.
    + injection H as <- <-. apply Forall_app. split; [exact O|]. constructor; cbn; auto.
  - destruct (match nth_error (r_fields r) 2 with None => false | Some f => 0 <? f end); (apply A in H; [exact H|exact I]).
  - destruct (split_last P) as [[f y]|] eqn:S.
    + apply split_last_some in S as ->. apply Forall_app in O as [O1 O2].
      destruct y as [| | | | |[] [] pk| | |]; try discriminate; injection H as <- <-; rewrite ?Forall_app; repeat split; auto; constructor; cbn; auto; now inversion O2.
    + injection H as <- <-. apply Forall_app. split; [exact O|]. constructor; cbn; auto.
Qed.
Lemma loop_ok e l P name P' name' : Forall pt_ok P -> type_loop e l (P, name) = Ok (P', name') -> Forall pt_ok P'.
Proof.
  revert P name. induction l as [|r l IH]; intros P name O H; cbn [type_loop] in H; [injection H as <- <-; exact O|].
  apply obind_iff in H as ([P1 n1] & S & H). apply step_ok in S; [|exact O]. now apply IH in H.
Qed.

(** One record. *)
Section Step.
  Variables (e : env) (T : list ty).
  Definition entry_for (p : ptype) (t : ty) : Prop := pt_ok p /\ pdesc (at_index T) p t.

  Lemma struct_entry p t : entry_for p t -> (struct_type t <-> exists n fs pk, p = PtStruct n fs pk).
  Proof.
    intros [O D]. unfold struct_type. split.
    - intros (n & fs & pk & ->). destruct p; cbn in D;
        repeat match goal with K : exists _, _ |- _ => destruct K | K : _ /\ _ |- _ => destruct K end; try discriminate; eauto.
      exfalso. subst. destruct O as (c & O). cbn in O. intuition discriminate.
    - intros (n & fs & pk & ->). destruct D as (xs & _ & _ & ->). eauto.
  Qed.
  Lemma last_struct P acc : Forall2 entry_for P acc ->
    (forall front x, acc = front ++ [x] -> ~ struct_type x) ->
    match split_last P with Some (_, PtStruct _ _ _) => False | _ => True end.
  Proof.
    intros F H. destruct (split_last P) as [[f x]|] eqn:S; [|exact I]. apply split_last_some in S as ->.
    apply Forall2_app_inv_l in F as (a1 & a2 & F1 & F2 & ->). inversion F2 as [|? t ? ? D F3]; subst. inversion F3; subst.
    destruct x; try exact I. apply (H a1 t eq_refl). apply (struct_entry _ _ D). eauto.
  Qed.

  (** The entry for a record that adds one. *)
  Definition entry_of (name : str) (r : record) : outcome tt_err ptype :=
    match type_step e ([], name) r with
    | Ok ([p], _) => Ok p
    | Err x => Err x
    | Panic x => Panic x
    | _ => OutOfFuel
    end.

  Lemma space_eq a : space_rule a -> address_space_of a = Ok a.
  Proof.
    unfold address_space_of, space_rule, MAX_SPACE. change (2 ^ 23) with 8388608. intros H.
    now replace (a <=? 8388607) with true by lia.
  Qed.
  Lemma pos_negb p : (0 <? p) = negb (p =? 0). Proof. destruct p; reflexivity. Qed.

  Lemma step_plain P name r : ~ takes_name r -> ~ adds_nothing r ->
    forall P' name', type_step e (P, name) r = Ok (P', name') <->
      name' = name /\ exists p, entry_of name r = Ok p /\ P' = P ++ [p].
  Proof.
    unfold takes_name, adds_nothing, entry_of. intros N1 N2 P' name'. cbn [type_step].
    destruct (type_code_of (r_code r)) as [c|] eqn:C; cbn [ok_or obind]; [|split; [discriminate|intros (_ & p & K & _); discriminate K]].
    apply type_code_exact in C.
    assert (A : forall p, @Ok tt_err _ (P ++ [p], name) = Ok (P', name') <-> name' = name /\ exists q, @Ok tt_err _ p = Ok q /\ P' = P ++ [q]).
    { intros p. split; [intros [= <- <-]; eauto|]. intros (-> & q & [= <-] & ->). reflexivity. }
    destruct c; cbn in C; rewrite <- C in N1, N2; try (exfalso; cbn in N1, N2; tauto); try (apply A);
      try (split; [discriminate|intros (_ & q & K & _); discriminate K]);
      repeat (match goal with
      | |- context [type_field r ?n] => destruct (type_field r n); cbn [obind]
      | |- context [omap_err ?f (address_space_of ?a)] => destruct (omap_err f (address_space_of a)); cbn [obind]
      | |- context [match nth_error (r_fields r) 2 with _ => _ end] => destruct (match nth_error (r_fields r) 2 with None => false | Some f => 0 <? f end)
      end;
      try (split; [discriminate|intros (_ & q & K & _); discriminate K])); apply A.
  Qed.

  Lemma entry_describes name r t : ~ takes_name r -> ~ adds_nothing r ->
    ((exists p, entry_of name r = Ok p /\ entry_for p t) <-> describes T name r t).
  Proof.
    intros N1 N2. split.
    - intros (p & H & D). unfold entry_of in H. destruct (type_step e ([], name) r) as [[[|q []] n']|?|?|] eqn:S; try discriminate.
      injection H as ->. cbn [type_step] in S. apply obind_iff in S as (c & C & S). apply ok_or_ok, type_code_exact in C.
      unfold takes_name, adds_nothing in N1, N2. destruct D as [O D].
      destruct c; cbn in C; rewrite <- C in N1, N2; try (exfalso; cbn in N1, N2; tauto); try discriminate;
        try (injection S as <- <-; cbn in D; subst t; apply D_simple; rewrite <- C; cbn; auto 20);
        repeat match goal with
        | H : obind (type_field _ _) _ = Ok _ |- _ => let K := fresh "K" in apply obind_iff in H as (? & K & H); apply field_at in K
        | H : obind (omap_err _ (address_space_of _)) _ = Ok _ |- _ => let K := fresh "K" in apply obind_iff in H as (? & K & H); apply space_exact in K as [? ->]
        end;
        destruct (r_fields r) as [|f0 l0] eqn:F; cbn in *; try discriminate;
        repeat match goal with H : Some _ = Some _ |- _ => injection H as <- end.
      + injection S as <- <-. destruct D as [D ->]. unfold as_u32 in *. change two32 with (2 ^ 32) in *. now apply (D_integer _ _ _ _ l0).
      + destruct l0 as [|f1 l0]; cbn in *; [discriminate|]. injection K0 as <-. injection S as <- <-. destruct D as (x & X & D & ->).
        now apply (D_pointer _ _ _ f0 f1 l0).
      + destruct l0 as [|f1 l0]; cbn in *; [discriminate|]. injection K0 as <-. injection S as <- <-. destruct D as (x & X & D & ->).
        now apply (D_array _ _ _ f0 f1 l0).
      + destruct l0 as [|f1 l0]; cbn in *; [discriminate|]. injection K0 as <-.
        destruct (match l0 with [] => None | x :: _ => Some x end) as [f2|] eqn:L.
        * destruct l0 as [|y l0]; [discriminate|]. injection L as ->. destruct (0 <? f2) eqn:Z; injection S as <- <-; destruct D as (x & X & D & ->).
          -- apply (D_scalable _ _ _ f0 f1 (f2 :: l0)); auto. cbn. lia.
          -- apply (D_vector _ _ _ f0 f1 (f2 :: l0)); auto. cbn. lia.
        * destruct l0 as [|y l0]; [|discriminate]. injection S as <- <-. destruct D as (x & X & D & ->).
          now apply (D_vector _ _ _ f0 f1 []).
      + injection S as <- <-. destruct D as (xs & X & D & ->). rewrite pos_negb. now apply (D_struct _ _ _ f0 l0).
      + destruct l0 as [|f1 l0]; cbn in *; [discriminate|]. injection K0 as <-. injection S as <- <-. destruct D as (x & xs & X & XS & D1 & D2 & ->).
        rewrite pos_negb. now apply (D_function _ _ _ f0 f1 l0).
      + injection S as <- <-. cbn in D. subst t. now apply (D_opaque_pointer _ _ _ f0 l0).
    - intros H. unfold entry_of, takes_name, adds_nothing in *. cbn [type_step].
      inversion H as [t' I | w l C F W | i a l x C F S X R | a l C F S | n i l x C F Z X R | n i l x C F Z X R | n i l x C F Z X R
                     | va i js x xs C F X R XS RS | pk js xs C F XS RS | pk js xs C F XS RS | C NE]; try subst t.
      + clear H. cbn in I.
        repeat (destruct I as [I | I];
          [injection I as I I'; subst; rewrite <- I; cbn [type_code_of ok_or obind app];
           eexists; split; [reflexivity|]; split; [eexists; cbn; auto 20|reflexivity]|]).
        destruct I.
      + rewrite C. cbn [type_code_of ok_or obind]. unfold type_field. rewrite F. cbn. eexists. split; [reflexivity|].
        split; [exact I|]. cbn. auto.
      + rewrite C. cbn [type_code_of ok_or obind]. unfold type_field. rewrite F. cbn [nth_error ok_or obind]. rewrite (space_eq a S). cbn.
        eexists. split; [reflexivity|]. split; [exact S|]. cbn. eauto.
      + rewrite C. cbn [type_code_of ok_or obind]. unfold type_field. rewrite F. cbn [nth_error ok_or obind]. rewrite (space_eq a S). cbn.
        eexists. split; [reflexivity|]. split; [exact S|]. reflexivity.
      + rewrite C. cbn [type_code_of ok_or obind]. unfold type_field. rewrite F. cbn [nth_error ok_or obind app].
        eexists. split; [reflexivity|]. split; [exact I|]. cbn. eauto.
      + rewrite C. cbn [type_code_of ok_or obind]. unfold type_field. rewrite F. cbn [nth_error ok_or obind app].
        destruct l as [|f l]; cbn in Z |- *; [|subst f; cbn]; (eexists; split; [reflexivity|]; split; [exact I|]; cbn; eauto).
      + rewrite C. cbn [type_code_of ok_or obind]. unfold type_field. rewrite F. cbn [nth_error ok_or obind app].
        destruct l as [|f l]; cbn in Z |- *; [congruence|]. replace (0 <? f) with true by lia. eexists. split; [reflexivity|]. split; [exact I|]. cbn. eauto.
      + rewrite C. cbn [type_code_of ok_or obind]. unfold type_field. rewrite F. cbn [nth_error ok_or obind app skipn].
        eexists. split; [reflexivity|]. split; [exact I|]. cbn [pdesc]. rewrite pos_negb. eauto 10.
      + rewrite C. cbn [type_code_of ok_or obind]. unfold type_field. rewrite F. cbn [nth_error ok_or obind app skipn].
        eexists. split; [reflexivity|]. split; [exact I|]. cbn [pdesc]. rewrite pos_negb. eauto 10.
      + exfalso. apply N1. rewrite C. cbn. auto.
      + exfalso. apply N1. rewrite C. cbn. auto.
  Qed.

  Lemma Forall2_snoc_l {A B} (R : A -> B -> Prop) l a m : Forall2 R (l ++ [a]) m <->
    exists m' b, m = m' ++ [b] /\ Forall2 R l m' /\ R a b.
  Proof.
    split.
    - intros F. apply Forall2_app_inv_l in F as (m1 & m2 & F1 & F2 & ->). inversion F2 as [|? b ? ? D F3]; subst. inversion F3; subst. eauto.
    - intros (m' & b & -> & F & D). apply Forall2_app; auto.
  Qed.
  Lemma Forall2_snoc_r {A B} (R : A -> B -> Prop) l m b : Forall2 R l (m ++ [b]) <->
    exists l' a, l = l' ++ [a] /\ Forall2 R l' m /\ R a b.
  Proof.
    split.
    - intros F. apply Forall2_app_inv_r in F as (m1 & m2 & F1 & F2 & ->). inversion F2 as [|a ? ? ? D F3]; subst. inversion F3; subst. eauto.
    - intros (m' & a & -> & F & D). apply Forall2_app; auto.
  Qed.

  Lemma code_cases r : r_code r = 1 \/ r_code r = 19 \/ r_code r = 6 \/ r_code r = 20 \/ (~ takes_name r /\ ~ adds_nothing r).
  Proof.
    unfold takes_name, adds_nothing. destruct (N.eq_dec (r_code r) 1); [auto|]. destruct (N.eq_dec (r_code r) 19); [auto|].
    destruct (N.eq_dec (r_code r) 6); [auto|]. destruct (N.eq_dec (r_code r) 20); [auto|]. right; right; right; right. cbn. intuition congruence.
  Qed.

  Lemma turn_forward P name r P' name' acc' : named_fields r -> type_step e (P, name) r = Ok (P', name') ->
    Forall2 entry_for P' acc' -> exists acc, Forall2 entry_for P acc /\ type_turn T acc name r acc' name'.
  Proof.
    intros NF H F. destruct (code_cases r) as [C | [C | [C | [C | [N1 N2]]]]].
    - cbn [type_step] in H. rewrite C in H. injection H as <- <-. exists acc'. split; [exact F|now apply TU_num].
    - cbn [type_step] in H. rewrite C in H. cbn [type_code_of ok_or obind] in H. apply obind_iff in H as (s & S & H). apply omap_err_iff in S.
      injection H as <- <-. exists acc'. split; [exact F|]. apply TU_name. apply name_ok in S; [|now apply NF]. unfold spells. tauto.
    - cbn [type_step] in H. rewrite C in H. cbn [type_code_of ok_or obind] in H.
      assert (TN : takes_name r) by (unfold takes_name; rewrite C; cbn; auto).
      destruct name as [|c0 name0] eqn:EN; [discriminate|]. rewrite <- EN in *. assert (NE : name <> []) by (rewrite EN; discriminate). clear EN c0 name0.
      destruct (split_last P) as [[f x]|] eqn:S.
      + apply split_last_some in S as ->.
        assert (Y : (forall n fs pk, x <> PtStruct n fs pk) -> Ok ((f ++ [x]) ++ [PtStruct (Some name) [] false], []) = @Ok tt_err _ (P', name') ->
          exists acc, Forall2 entry_for (f ++ [x]) acc /\ type_turn T acc name r acc' name').
        { intros NS [= <- <-]. apply Forall2_snoc_l in F as (acc & t & -> & F & D). exists acc. split; [exact F|].
          destruct D as [_ (xs & X & _ & ->)]. inversion X; subst. apply TU_named; [exact TN|now apply D_opaque|].
          intros fr y E K. subst acc. apply Forall2_snoc_r in F as (l & a & E & F & D'). apply app_inj_tail in E as [<- <-].
          apply (struct_entry _ _ D') in K as (n & fs & pk & ->). now apply (NS n fs pk). }
        destruct x as [| | | | |n fs pk| | |]; try (apply Y; [discriminate|exact H]).
        clear Y. destruct n; [discriminate|]. injection H as <- <-. apply Forall2_snoc_l in F as (acc & t & -> & F & D).
        destruct D as [_ (xs & X & R & ->)]. exists (acc ++ [TStruct None xs pk]). split; [|now apply TU_rename].
        apply Forall2_snoc_l. exists acc, (TStruct None xs pk). split; [reflexivity|]. split; [exact F|]. split; [exact I|]. cbn. eauto.
      + apply split_last_none in S as ->. injection H as <- <-. inversion F as [|? t ? ? D F' ]; subst. inversion F'; subst. exists []. split; [constructor|].
        destruct D as [_ (xs & X & _ & ->)]. inversion X; subst. apply (TU_named T [] name); [exact TN|now apply D_opaque|].
        intros fr y E. now destruct fr.
    - cbn [type_step] in H. rewrite C in H. cbn [type_code_of ok_or obind] in H. apply obind_iff in H as (p & K & H). apply field_at in K.
      assert (TN : takes_name r) by (unfold takes_name; rewrite C; cbn; auto).
      destruct (r_fields r) as [|p' js] eqn:FI; [discriminate|]. injection K as ->. cbn [skipn] in H.
      destruct (split_last P) as [[f x]|] eqn:S.
      + apply split_last_some in S as ->.
        assert (Y : (forall n fs pk, x <> PtStruct n fs pk) -> Ok ((f ++ [x]) ++ [PtStruct (Some name) js (0 <? p)], []) = @Ok tt_err _ (P', name') ->
          exists acc, Forall2 entry_for (f ++ [x]) acc /\ type_turn T acc name r acc' name').
        { intros NS [= <- <-]. apply Forall2_snoc_l in F as (acc & t & -> & F & D). exists acc. split; [exact F|].
          destruct D as [_ (xs & X & R & ->)]. apply TU_named; [exact TN|rewrite pos_negb; now apply (D_named _ _ _ p js)|].
          intros fr y E K. subst acc. apply Forall2_snoc_r in F as (l & a & E & F & D'). apply app_inj_tail in E as [<- <-].
          apply (struct_entry _ _ D') in K as (n & fs & pk & ->). now apply (NS n fs pk). }
        destruct x as [| | | | |n fs pk| | |]; try (apply Y; [discriminate|exact H]).
        clear Y. destruct n; [discriminate|]. destruct fs; [|discriminate]. injection H as <- <-. apply Forall2_snoc_l in F as (acc & t & -> & F & D).
        destruct D as [_ (xs & X & R & ->)]. exists (acc ++ [TStruct None [] pk]). split; [|now apply (TU_fill _ _ _ _ _ p js)].
        apply Forall2_snoc_l. exists acc, (TStruct None [] pk). split; [reflexivity|]. split; [exact F|]. split; [exact I|]. cbn. eauto.
      + apply split_last_none in S as ->. injection H as <- <-. inversion F as [|? t ? ? D F' ]; subst. inversion F'; subst. exists []. split; [constructor|].
        destruct D as [_ (xs & X & R & ->)]. rewrite pos_negb. apply (TU_named T [] name); [exact TN|now apply (D_named _ _ _ p js)|].
        intros fr y E. now destruct fr.
    - apply step_plain in H as (-> & p & H & ->); [|exact N1|exact N2]. apply Forall2_snoc_l in F as (acc & t & -> & F & D).
      exists acc. split; [exact F|]. apply TU_plain; [exact N1|]. apply entry_describes; eauto.
  Qed.

  Lemma turn_backward P acc name r acc' name' : Forall2 entry_for P acc -> type_turn T acc name r acc' name' ->
    exists P', type_step e (P, name) r = Ok (P', name') /\ Forall2 entry_for P' acc'.
  Proof.
    intros F H. inversion H as [? ? ? C | ? ? ? s SP | ? ? ? t N1 D | ? ? ? t TN D L | front ? ? pk pk' js ts C FI X R | front ? ? ts pk C NE]; subst.
    - exists P. cbn [type_step]. rewrite C. auto.
    - exists P. destruct SP as (C & FI & S & L). cbn [type_step]. rewrite C. cbn [type_code_of ok_or obind].
      rewrite (proj2 (name_ok e r s ltac:(intros K; rewrite K in L; cbn in L; lia))) by auto. auto.
    - assert (N2 : ~ adds_nothing r).
      { unfold adds_nothing. intros K. cbn in K. inversion D as [? I|? ? C|? ? ? ? C|? ? C|? ? ? ? C|? ? ? ? C|? ? ? ? C|? ? ? ? ? C|? ? ? C|? ? ? C|C]; subst; try (rewrite C in K; intuition discriminate).
        cbn in I. destruct K as [K | [K | []]]; rewrite <- K in I; intuition discriminate. }
      destruct (proj2 (entry_describes name' r t N1 N2) D) as (p & Q1 & Q2).
      exists (P ++ [p]). split; [apply step_plain; eauto|]. apply Forall2_app; auto.
    - pose proof (last_struct _ _ F L) as LS. unfold takes_name in TN. cbn in TN.
      inversion D as [? I|? ? C|? ? ? ? C|? ? C|? ? ? ? C|? ? ? ? C|? ? ? ? C|? ? ? ? ? C|? ? ? C|pk js xs C FI X R|C NE]; subst;
        try (exfalso; rewrite C in TN; intuition discriminate).
      + exfalso. cbn in I. destruct TN as [K | [K | []]]; rewrite <- K in I; intuition discriminate.
      + exists (P ++ [PtStruct (Some name) js (0 <? pk)]). cbn [type_step]. rewrite C. cbn [type_code_of ok_or obind]. unfold type_field. rewrite FI. cbn [nth_error ok_or obind skipn].
        split; [destruct (split_last P) as [[f x]|]; [destruct x; try reflexivity; destruct LS|reflexivity]|].
        apply Forall2_app; [exact F|]. constructor; [|constructor]. split; [exact I|]. cbn. rewrite pos_negb. eauto.
      + exists (P ++ [PtStruct (Some name) [] false]). cbn [type_step]. rewrite C. cbn [type_code_of ok_or obind].
        split; [destruct name; [congruence|]; destruct (split_last P) as [[f x]|]; [destruct x; try reflexivity; destruct LS|reflexivity]|].
        apply Forall2_app; [exact F|]. constructor; [|constructor]. split; [exact I|]. cbn. eauto.
    - apply Forall2_snoc_r in F as (l & a & -> & F & D).
      destruct (proj1 (struct_entry _ _ D)) as (n & fs & pk0 & ->); [unfold struct_type; eauto|]. destruct D as [_ (xs & XS & _ & E)]. injection E as <- <- <-. inversion XS; subst.
      exists (l ++ [PtStruct (Some name) js pk]). cbn [type_step]. rewrite C. cbn [type_code_of ok_or obind]. unfold type_field. rewrite FI. cbn [nth_error ok_or obind skipn].
      rewrite (proj2 (split_last_some _ l _) eq_refl). split; [reflexivity|].
      apply Forall2_app; [exact F|]. constructor; [|constructor]. split; [exact I|]. cbn. eauto.
    - apply Forall2_snoc_r in F as (l & a & -> & F & D).
      destruct (proj1 (struct_entry _ _ D)) as (n & fs & pk0 & ->); [unfold struct_type; eauto|]. destruct D as [_ (xs & XS & RR & E)]. injection E as <- <- <-.
      exists (l ++ [PtStruct (Some name) fs pk]). cbn [type_step]. rewrite C. cbn [type_code_of ok_or obind].
      rewrite (proj2 (split_last_some _ l _) eq_refl). split; [destruct name; [congruence|reflexivity]|].
      apply Forall2_app; [exact F|]. constructor; [|constructor]. split; [exact I|]. cbn. eauto.
  Qed.

  Lemma turns_forward l : Forall named_fields l -> forall P name P' name' acc', type_loop e l (P, name) = Ok (P', name') ->
    Forall2 entry_for P' acc' -> exists acc, Forall2 entry_for P acc /\ type_turns T acc name l acc'.
  Proof.
    induction 1 as [|r l NF N IH]; intros P name P' name' acc' H F; cbn [type_loop] in H.
    - injection H as <- <-. exists acc'. split; [exact F|constructor].
    - apply obind_iff in H as ([P1 n1] & S & H). destruct (IH _ _ _ _ _ H F) as (acc1 & F1 & H1).
      destruct (turn_forward _ _ _ _ _ _ NF S F1) as (acc & F0 & H0). exists acc. split; [exact F0|]. econstructor; eauto.
  Qed.
  Lemma turns_backward l : forall P acc name acc', Forall2 entry_for P acc -> type_turns T acc name l acc' ->
    exists P' name', type_loop e l (P, name) = Ok (P', name') /\ Forall2 entry_for P' acc'.
  Proof.
    induction l as [|r l IH]; intros P acc name acc' F H; inversion H; subst; cbn [type_loop].
    - eauto.
    - destruct (turn_backward _ _ _ _ _ _ F ltac:(eassumption)) as (P1 & S & F1). rewrite S. cbn [obind]. eapply IH; eauto.
  Qed.
End Step.

Lemma F2_length {A B} (R : A -> B -> Prop) l m : Forall2 R l m -> length l = length m.
Proof. induction 1; cbn; congruence. Qed.

Lemma entries_both T P ts : Forall pt_ok P -> Forall2 (pdesc (at_index T)) P ts -> Forall2 (entry_for T) P ts.
Proof. intros OK H. induction H; constructor; inversion OK; subst; [split; assumption|auto]. Qed.

(** The table. *)
Lemma type_table_exact e b T : Forall named_fields (b_records b) ->
  (type_table_of e b = Ok T <->
   announced e b (N.of_nat (length T)) /\ type_turns T [] [] (b_records b) T).
Proof.
  intros NF. unfold type_table_of, announced. cbn [type_code_num]. split.
  - intros H. apply obind_iff in H as (r & R & H). apply ok_or_ok, one_first in R.
    apply obind_iff in H as (n & N & H). apply ok_or_ok in N. destruct (alloc_limit e <? n) eqn:A; [discriminate|].
    apply obind_iff in H as ([P name] & L & H). unfold reify, reify_with in H.
    destruct (_ =? n) eqn:E in H; [|discriminate]. apply table_exact in H as H'.
    assert (Len : length P = length T) by (now apply F2_length in H').
    destruct (r_fields r) as [|n' l] eqn:F; [discriminate|]. injection N as ->. split.
    + exists r, l. split; [exact R|]. split; [rewrite F; f_equal; lia|lia].
    + pose proof (loop_ok _ _ _ _ _ _ (Forall_nil _) L) as OK.
      assert (F2 : Forall2 (entry_for T) P T).
      { now apply entries_both. }
      destruct (turns_forward e T _ NF _ _ _ _ _ L F2) as (acc & F0 & K). inversion F0; subst. exact K.
  - intros ((r & l & R & F & A) & K). apply one_first in R. rewrite R. cbn [ok_or obind]. rewrite F. cbn [hd_error ok_or obind].
    replace (alloc_limit e <? N.of_nat (length T)) with false by lia.
    destruct (turns_backward e T _ _ _ _ _ (Forall2_nil _) K) as (P & name & L & F2). unfold str in *. rewrite L. cbn [obind].
    unfold reify, reify_with. assert (Len : length P = length T) by (now apply F2_length in F2). rewrite Len, N.eqb_refl, <- Len.
    apply table_exact. eapply Forall2_weaken; [|exact F2]. intros p t [_ D]. exact D.
Qed.

(** Without the quirk: every record that makes an entry describes its type. *)
Definition ends_in_struct (acc : list ty) : Prop := exists f x, acc = f ++ [x] /\ struct_type x.

Lemma snoc_struct acc t : ends_in_struct (acc ++ [t]) <-> struct_type t.
Proof.
  unfold ends_in_struct. split; [|eauto]. intros (f & x & E & S). apply app_inj_tail in E as [_ ->]. exact S.
Qed.
Lemma plain_struct T name r t : ~ takes_name r -> describes T name r t ->
  r_code r <> 1 /\ r_code r <> 19 /\ (struct_type t <-> r_code r = 18).
Proof.
  unfold takes_name. intros N D. cbn in N.
  inversion D as [? I|? ? C|? ? ? ? C|? ? C|? ? ? ? C|? ? ? ? C|? ? ? ? C|? ? ? ? ? C|? ? ? C|? ? ? C|C]; subst;
    try (exfalso; apply N; rewrite C; auto; fail); try rewrite C.
  1: { unfold struct_type. cbn in I. repeat (destruct I as [I | I]; [injection I as I I'; subst; rewrite <- I; repeat split; try discriminate; intros (? & ? & ? & K); discriminate K|]). destruct I. }
  all: unfold struct_type; repeat split; try discriminate; try (intros (? & ? & ? & K); discriminate K); eauto.
Qed.
Lemma named_code T name r t : takes_name r -> describes T name r t -> (r_code r = 6 \/ r_code r = 20) /\ struct_type t.
Proof.
  unfold takes_name, struct_type. intros N D. cbn in N.
  inversion D as [? I|? ? C|? ? ? ? C|? ? C|? ? ? ? C|? ? ? ? C|? ? ? ? C|? ? ? ? ? C|? ? ? C|? ? ? C|C]; subst;
    try (exfalso; rewrite C in N; intuition discriminate); try (split; [intuition congruence|eauto]).
  exfalso. cbn in I. destruct N as [K | [K | []]]; rewrite <- K in I; intuition discriminate.
Qed.

Lemma turns_lists T l : forall acc after name, (after = true <-> ends_in_struct acc) -> apart after l -> forall fin,
  (type_turns T acc name l fin <-> exists ts, fin = acc ++ ts /\ lists T name l ts).
Proof.
  induction l as [|r l IH]; intros acc after name EA AP fin.
  - split; [intros H; inversion H; subst; exists []; rewrite app_nil_r; split; [reflexivity|constructor]|].
    intros (ts & -> & H). inversion H; subst. rewrite app_nil_r. constructor.
  - cbn [apart] in AP. split.
    + intros H. inversion H as [|? ? ? acc1 n1 ? ? ST K]; subst. clear H.
      inversion ST as [? ? ? C | ? ? ? s SP | ? ? ? t N1 D | ? ? ? t TN D L | front ? ? pk pk' js ts C FI X R | front ? ? ts pk C NE]; subst.
      * rewrite C in AP. cbn in AP. apply (IH _ _ _ EA AP) in K as (ts & -> & K). exists ts. split; [reflexivity|]. now apply LI_num.
      * destruct (SP) as (C & _). rewrite C in AP. cbn in AP. apply (IH _ _ _ EA AP) in K as (ts & -> & K). exists ts. split; [reflexivity|]. now apply (LI_name _ _ _ s).
      * destruct (plain_struct _ _ _ _ N1 D) as (C1 & C2 & C3).
        replace (r_code r =? 1) with false in AP by lia. replace (r_code r =? 19) with false in AP by lia. cbn in AP.
        replace (r_code r =? 6) with false in AP by (unfold takes_name in N1; cbn in N1; lia).
        replace (r_code r =? 20) with false in AP by (unfold takes_name in N1; cbn in N1; lia). cbn in AP.
        apply (IH _ (r_code r =? 18)) in K as (ts & -> & K); [|rewrite snoc_struct, C3; apply N.eqb_eq|exact AP].
        exists (t :: ts). rewrite <- app_assoc. split; [reflexivity|]. now apply LI_plain.
      * destruct (named_code _ _ _ _ TN D) as [C S].
        replace (r_code r =? 1) with false in AP by lia. replace (r_code r =? 19) with false in AP by lia. cbn in AP.
        replace ((r_code r =? 6) || (r_code r =? 20))%bool with true in AP by lia. destruct AP as [-> AP].
        apply (IH _ true) in K as (ts & -> & K); [|rewrite snoc_struct; tauto|exact AP].
        exists (t :: ts). rewrite <- app_assoc. split; [reflexivity|]. now apply LI_named.
      * exfalso. rewrite C in AP. cbn in AP. destruct AP as [-> _]. assert (X' : false = true); [|discriminate X'].
        apply EA. unfold ends_in_struct, struct_type. eauto 10.
      * exfalso. rewrite C in AP. cbn in AP. destruct AP as [-> _]. assert (X' : false = true); [|discriminate X'].
        apply EA. unfold ends_in_struct, struct_type. eauto 10.
    + intros (ts & -> & H). inversion H as [|? ? ? ? C K|? ? s ? ? SP K|? ? t ? ts' N1 D K|? ? t ? ts' TN D K]; subst.
      * rewrite C in AP. cbn in AP. econstructor; [now apply TU_num|]. apply (IH _ _ _ EA AP). eauto.
      * destruct (SP) as (C & _). rewrite C in AP. cbn in AP. econstructor; [now apply TU_name; exact SP|]. apply (IH _ _ _ EA AP). eauto.
      * destruct (plain_struct _ _ _ _ N1 D) as (C1 & C2 & C3).
        replace (r_code r =? 1) with false in AP by lia. replace (r_code r =? 19) with false in AP by lia. cbn in AP.
        replace (r_code r =? 6) with false in AP by (unfold takes_name in N1; cbn in N1; lia).
        replace (r_code r =? 20) with false in AP by (unfold takes_name in N1; cbn in N1; lia). cbn in AP.
        econstructor; [apply TU_plain; [exact N1|exact D]|].
        apply (IH _ (r_code r =? 18)); [rewrite snoc_struct, C3; apply N.eqb_eq|exact AP|].
        exists ts'. split; [now rewrite <- app_assoc|exact K].
      * destruct (named_code _ _ _ _ TN D) as [C S].
        replace (r_code r =? 1) with false in AP by lia. replace (r_code r =? 19) with false in AP by lia. cbn in AP.
        replace ((r_code r =? 6) || (r_code r =? 20))%bool with true in AP by lia. destruct AP as [-> AP].
        econstructor; [apply TU_named; [exact TN|exact D|]|].
        { intros f x -> SX. assert (X' : false = true); [|discriminate X']. apply EA. unfold ends_in_struct. eauto. }
        apply (IH _ true); [rewrite snoc_struct; tauto|exact AP|].
        exists ts'. split; [now rewrite <- app_assoc|exact K].
Qed.

Lemma type_table_lists e b T : Forall named_fields (b_records b) -> apart false (b_records b) ->
  (type_table_of e b = Ok T <-> announced e b (N.of_nat (length T)) /\ lists T [] (b_records b) T).
Proof.
  intros NF AP. rewrite type_table_exact by exact NF.
  enough (X : type_turns T [] [] (b_records b) T <-> lists T [] (b_records b) T) by tauto.
  rewrite (turns_lists T _ [] false []); [|split; [discriminate|intros (f & x & E & _); now destruct f]|exact AP].
  cbn [app]. split; [intros (ts & -> & H); exact H|eauto].
Qed.

(** Rules. *)
Lemma accepted_entries e b T : type_table_of e b = Ok T -> exists P, Forall2 (entry_for T) P T.
Proof.
  unfold type_table_of. intros H. apply obind_iff in H as (r & R & H). apply obind_iff in H as (n & N & H).
  destruct (alloc_limit e <? n); [discriminate|]. apply obind_iff in H as ([P name] & L & H). unfold reify, reify_with in H.
  destruct (_ =? n) in H; [|discriminate]. apply table_exact in H. exists P. apply entries_both; [|exact H].
  exact (loop_ok _ _ _ _ _ _ (Forall_nil _) L).
Qed.

Lemma entries_built P T : Forall2 (entry_for T) P T -> forall t, In t T -> well_built t.
Proof.
  intros F. assert (E : forall t, In t T -> exists p, entry_for T p t) by (intros t I; destruct (Forall2_in _ _ _ _ F I) as (p & _ & D); eauto).
  assert (IN : forall i x, at_index T i x -> In x T) by (intros i x A; eapply nth_error_In, A).
  assert (INS : forall js xs, Forall2 (at_index T) js xs -> Forall (fun x => In x T) xs) by (induction 1; constructor; eauto).
  assert (ALL : forall (Q : ty -> Prop) xs, Forall (fun t => In t T -> Q t) xs -> Forall (fun x => In x T) xs -> Forall Q xs).
  { intros Q xs. induction 1; intros K; inversion K; subst; constructor; auto. }
  assert (SI : forall t, (exists c, In (c, t) simple_types) -> well_built t) by (intros t (c & C); now apply (WB_simple c)).
  induction t using ty_rect'; intros IT; destruct (E _ IT) as (p & O & D); destruct p; cbn in O, D;
    repeat match goal with
      | K : exists _, _ /\ _ |- _ => destruct K
      | K : exists _ _, _ /\ _ |- _ => destruct K
      | K : _ /\ _ |- _ => destruct K
      end; subst; try discriminate; try (now apply SI);
    try match goal with K : In (_, _) simple_types |- _ => exfalso; cbn in K; intuition discriminate end.
  - match goal with K : TInteger _ = _ |- _ => injection K as <- end. now apply WB_integer.
  - match goal with K : TFunction _ _ _ = _ |- _ => injection K as <- <- <- end. apply WB_function; eauto.
  - match goal with K : TPointer _ _ = _ |- _ => injection K as <- <- end. apply WB_pointer; eauto.
  - match goal with K : TOpaquePointer _ = _ |- _ => injection K as <- end. now apply WB_opaque_pointer.
  - match goal with K : TStruct _ _ _ = _ |- _ => injection K as <- <- <- end. apply WB_struct; eauto.
  - match goal with K : TArray _ _ = _ |- _ => injection K as <- <- end. apply WB_array; eauto.
  - match goal with K : TFixedVector _ _ = _ |- _ => injection K as <- <- end. apply WB_vector; eauto.
  - match goal with K : TScalableVector _ _ = _ |- _ => injection K as <- <- end. apply WB_scalable; eauto.
Qed.
Lemma accepted_built e b T : type_table_of e b = Ok T -> Forall well_built T.
Proof. intros H. apply accepted_entries in H as (P & F). apply Forall_forall. exact (entries_built P T F). Qed.

(** Termination. *)
Lemma body_fuel g p : (forall j, In j (prefs p) -> g j <> OutOfFuel) -> resolve_body g p <> OutOfFuel.
Proof.
  assert (O : forall (x : outcome ty_err ty), x <> OutOfFuel -> omap_err TtType x <> OutOfFuel) by (intros [| | |]; cbn; congruence).
  assert (X : forall (f : ty -> outcome ty_err ty) j, (forall t, f t <> OutOfFuel) -> g j <> OutOfFuel ->
    (let? t := g j in omap_err TtType (f t)) <> OutOfFuel).
  { intros f j F G H. apply obind_fuel in H as [H | (t & _ & H)]; [now apply G|]. revert H. apply O, F. }
  intros G. destruct p; cbn [resolve_body prefs] in *; try discriminate.
  - apply O. unfold new_integer. destruct (_ && _)%bool; discriminate.
  - intros H. apply obind_fuel in H as [H | (t & _ & H)]; [revert H; apply G; cbn; auto|].
    apply obind_fuel in H as [H | (ts & _ & H)].
    + revert H. apply collect_fuel. intros a A. apply G. cbn. auto.
    + revert H. apply O. unfold new_function. destruct (negb _); [discriminate|]. destruct (find _ _); discriminate.
  - apply (X (fun t => new_pointer t address_space)); [|apply G; cbn; auto]. intros t. unfold new_pointer. destruct (is_pointee t); discriminate.
  - intros H. apply obind_fuel in H as [H | (ts & _ & H)].
    + revert H. apply collect_fuel. intros a A. apply G. exact A.
    + revert H. apply O. unfold new_struct. destruct (find _ _); discriminate.
  - apply (X (fun t => new_array num_elements t)); [|apply G; cbn; auto]. intros t. unfold new_array. destruct (is_array_element t); discriminate.
  - apply (X (fun t => new_vector num_elements t)); [|apply G; cbn; auto]. intros t. unfold new_vector. destruct (is_vector_element t); discriminate.
  - apply (X (fun t => new_scalable_vector num_elements t)); [|apply G; cbn; auto]. intros t. unfold new_scalable_vector. destruct (is_vector_element t); discriminate.
Qed.
Lemma ranked_resolves P (rank : nat -> nat) :
  (forall k p i, nth_error P k = Some p -> In i (prefs p) -> (N.to_nat i < length P)%nat -> (rank (N.to_nat i) < rank k)%nat) ->
  forall m k p, nth_error P k = Some p -> (rank k < m)%nat -> resolve m P p <> OutOfFuel.
Proof.
  intros H. induction m as [|m IH]; intros k p K L; [lia|]. rewrite resolve_S. apply body_fuel. intros j J. unfold rref_of.
  destruct (nth_error P (N.to_nat j)) as [q|] eqn:Q; cbn [ok_or obind]; [|discriminate]. apply (IH (N.to_nat j)); [exact Q|].
  assert (B : (N.to_nat j < length P)%nat) by (apply nth_error_Some; congruence). specialize (H k p j K J B). lia.
Qed.
Lemma ranked_reifies n P (rank : nat -> nat) :
  (forall k p i, nth_error P k = Some p -> In i (prefs p) -> (N.to_nat i < length P)%nat -> (rank (N.to_nat i) < rank k)%nat) ->
  reify n P <> OutOfFuel.
Proof.
  intros H. unfold reify, reify_with. destruct (_ =? n); [|discriminate]. apply collect_fuel. intros p I.
  apply In_nth_error in I as (k & K). pose proof (ranked_resolves P rank H (S (rank k)) k p K ltac:(lia)) as R. now rewrite (resolve_any _ _ _ R).
Qed.

(** The references of the entries are those of the records. *)
Definition ends_struct (P : list ptype) : Prop := exists f n js pk, P = f ++ [PtStruct n js pk].
Lemma loop_refs e l : forall after P name P' name', (after = true <-> ends_struct P) -> apart after l ->
  type_loop e l (P, name) = Ok (P', name') ->
  exists Q, P' = P ++ Q /\ Forall2 (fun r p => incl (prefs p) (references r)) (entry_records l) Q.
Proof.
  induction l as [|r l IH]; intros after P name P' name' EA AP H; cbn [type_loop] in H.
  - injection H as <- <-. exists []. rewrite app_nil_r. split; [reflexivity|constructor].
  - apply obind_iff in H as ([P1 n1] & S & H). cbn [apart] in AP.
    destruct (code_cases r) as [C | [C | CC]].
    + rewrite C in AP. cbn in AP. cbn [type_step] in S. rewrite C in S. injection S as <- <-.
      unfold entry_records. cbn [filter]. rewrite C. cbn [N.eqb Pos.eqb orb negb]. eapply IH; eauto.
    + rewrite C in AP. cbn in AP. cbn [type_step] in S. rewrite C in S. cbn [type_code_of ok_or obind] in S.
      apply obind_iff in S as (s & _ & S). injection S as <- <-.
      unfold entry_records. cbn [filter]. rewrite C. cbn [N.eqb Pos.eqb orb negb]. eapply IH; eauto.
    + assert (N1 : r_code r <> 1 /\ r_code r <> 19) by (unfold adds_nothing in CC; cbn in CC; lia).
      replace ((r_code r =? 1) || (r_code r =? 19))%bool with false in AP by lia.
      assert (ER : entry_records (r :: l) = r :: entry_records l).
      { unfold entry_records. cbn [filter]. now replace ((r_code r =? 1) || (r_code r =? 19))%bool with false by lia. }
      rewrite ER. clear ER.
      assert (G : exists p after', P1 = P ++ [p] /\ incl (prefs p) (references r) /\ apart after' l /\
        (after' = true <-> exists n js pk, p = PtStruct n js pk)).
      { destruct CC as [C | [C | [TN NN]]].
        - rewrite C in AP. cbn in AP. destruct AP as [-> AP]. cbn [type_step] in S. rewrite C in S. cbn [type_code_of ok_or obind] in S.
          destruct name; [discriminate|].
          assert (NL : match split_last P with Some (_, PtStruct _ _ _) => False | _ => True end).
          { destruct (split_last P) as [[f x]|] eqn:SL; [|exact I]. apply split_last_some in SL. destruct x; try exact I.
            assert (false = true) as X by (apply EA; unfold ends_struct; eauto). discriminate X. }
          exists (PtStruct (Some (n :: name)) [] false), true. split; [|split; [intros x []|split; [exact AP|split; eauto]]].
          destruct (split_last P) as [[f x]|]; [destruct x; try (now destruct NL)|]; now injection S as <- <-.
        - rewrite C in AP. cbn in AP. destruct AP as [-> AP]. cbn [type_step] in S. rewrite C in S. cbn [type_code_of ok_or obind] in S.
          apply obind_iff in S as (p & K & S).
          assert (NL : match split_last P with Some (_, PtStruct _ _ _) => False | _ => True end).
          { destruct (split_last P) as [[f x]|] eqn:SL; [|exact I]. apply split_last_some in SL. destruct x; try exact I.
            assert (false = true) as X by (apply EA; unfold ends_struct; eauto). discriminate X. }
          exists (PtStruct (Some name) (skipn 1 (r_fields r)) (0 <? p)), true.
          split; [|split; [unfold references; rewrite C; apply incl_refl|split; [exact AP|split; eauto]]].
          destruct (split_last P) as [[f x]|]; [destruct x; try (now destruct NL)|]; now injection S as <- <-.
        - apply step_plain in S as (-> & p & S & ->); [|exact TN|exact NN]. exists p, (r_code r =? 18). split; [reflexivity|].
          replace ((r_code r =? 6) || (r_code r =? 20))%bool with false in AP by (unfold takes_name in TN; cbn in TN; lia).
          unfold entry_of in S. destruct (type_step e ([], name) r) as [[[|q []] n']|?|?|] eqn:S'; try discriminate.
          injection S as ->. cbn [type_step] in S'. apply obind_iff in S' as (c & C & S). apply ok_or_ok, type_code_exact in C.
          unfold takes_name, adds_nothing in TN, NN. unfold references.
          destruct c; cbn in C; rewrite <- C in *; try (exfalso; cbn in TN, NN; tauto); try discriminate;
            repeat match goal with
            | H : obind (type_field _ _) _ = Ok _ |- _ => let K := fresh "K" in apply obind_iff in H as (? & K & H); apply field_at in K
            | H : obind (omap_err _ (address_space_of _)) _ = Ok _ |- _ => let K := fresh "K" in apply obind_iff in H as (? & K & H); apply space_exact in K as [? ->]
            end;
            destruct (r_fields r) as [|f0 l0]; cbn [nth_error skipn] in *; try discriminate;
            try (destruct l0 as [|f1 l1]; cbn [nth_error skipn] in *; try discriminate);
            repeat match goal with H : Some _ = Some _ |- _ => injection H as <- end;
            try match type of S with context [if ?x then _ else _] => destruct x end;
            injection S as <- <-; cbn [prefs firstn skipn];
            (split; [first [apply incl_refl|intros ? []]|split; [exact AP|cbn; split; [try discriminate; eauto|intros (? & ? & ? & X); try discriminate X; try reflexivity]]]). }
      destruct G as (p & after' & -> & IN & AP' & EA').
      apply (IH after') in H as (Q & -> & F); [|rewrite EA'; unfold ends_struct; split|exact AP'].
      * exists (p :: Q). rewrite <- app_assoc. split; [reflexivity|]. now constructor.
      * intros (n & js & pk & ->). eauto.
      * intros (f & n & js & pk & E). apply app_inj_tail in E as [_ ->]. eauto.
Qed.

Lemma try_string_fuel e r : try_string e r 0 <> OutOfFuel.
Proof.
  destruct (r_fields r) as [|a [|b l]] eqn:F.
  - destruct (strings_empty e r 0 F ltac:(reflexivity)) as [-> _]. destruct (overflow_checks e); discriminate.
  - destruct (strings_out e r 0) as [-> _]; [congruence|rewrite F; cbn; lia|discriminate].
  - destruct (try_string_in e r 0 []) as (_ & _ & _ & _ & H); [rewrite F; cbn; lia|exact H].
Qed.
Lemma step_fuel e P name r : type_step e (P, name) r <> OutOfFuel.
Proof.
  intros H. cbn [type_step] in H. apply obind_fuel in H as [H | (c & _ & H)]; [now apply ok_or_fuel in H|].
  destruct c; try discriminate;
    repeat match goal with
    | H : obind (type_field _ _) _ = OutOfFuel |- _ => apply obind_fuel in H as [H | (? & _ & H)]; [now apply ok_or_fuel in H|]
    | H : obind (omap_err _ (address_space_of ?a)) _ = OutOfFuel |- _ => apply obind_fuel in H as [H | (? & _ & H)]; [unfold address_space_of in H; destruct (a <=? MAX_SPACE); discriminate H|]
    end; try discriminate.
  - destruct name; [discriminate|]. destruct (split_last P) as [[f x]|]; [destruct x; try discriminate; destruct name0; discriminate|discriminate].
  - destruct (match nth_error (r_fields r) 2 with None => false | Some f => 0 <? f end); discriminate.
  - apply obind_fuel in H as [H | (? & _ & H)]; [|discriminate]. pose proof (try_string_fuel e r) as K. now destruct (try_string e r 0).
  - destruct (split_last P) as [[f y]|]; [destruct y; try discriminate; destruct name0, field_types; discriminate|discriminate].
Qed.
Lemma loop_fuel e l st : type_loop e l st <> OutOfFuel.
Proof.
  revert st. induction l as [|r l IH]; intros [P name]; cbn [type_loop]; [discriminate|]. intros H.
  apply obind_fuel in H as [H | (st & _ & H)]; [now apply step_fuel in H|now apply IH in H].
Qed.

Lemma acyclic_terminates e b : apart false (b_records b) -> acyclic (b_records b) -> type_table_of e b <> OutOfFuel.
Proof.
  intros AP (rank & R) H. unfold type_table_of in H. apply obind_fuel in H as [H | (r & _ & H)]; [now apply ok_or_fuel in H|].
  apply obind_fuel in H as [H | (n & _ & H)]; [now apply ok_or_fuel in H|]. destruct (alloc_limit e <? n); [discriminate|].
  apply obind_fuel in H as [H | ([P name] & L & H)]; [now apply loop_fuel in H|].
  apply (loop_refs e _ false) in L as (Q & -> & F); [|split; [discriminate|intros (f & ? & ? & ? & E); now destruct f]|exact AP].
  cbn [app] in H. revert H. apply (ranked_reifies n Q rank). intros k p i K I B.
  destruct (Forall2_nth_r _ _ _ F _ _ K) as (x & X & IN). apply (R k x); [exact X|now apply IN|]. now rewrite (F2_length _ _ _ F).
Qed.

(** Panics. *)
Lemma body_panic g p x : (forall j, g j <> Panic x) -> resolve_body g p <> Panic x.
Proof.
  assert (O : forall (y : outcome ty_err ty), y <> Panic x -> omap_err TtType y <> Panic x) by (intros [| | |]; cbn; congruence).
  assert (X : forall (f : ty -> outcome ty_err ty) j, (forall t, f t <> Panic x) -> g j <> Panic x ->
    (let? t := g j in omap_err TtType (f t)) <> Panic x).
  { intros f j F G H. apply obind_panic in H as [H | (t & _ & H)]; [now apply G|]. revert H. apply O, F. }
  intros G. destruct p; cbn [resolve_body] in *; try discriminate.
  - apply O. unfold new_integer. destruct (_ && _)%bool; discriminate.
  - intros H. apply obind_panic in H as [H | (t & _ & H)]; [now apply G in H|].
    apply obind_panic in H as [H | (ts & _ & H)].
    + apply collect_panic in H as (l1 & a & l2 & _ & _ & H). now apply G in H.
    + revert H. apply O. unfold new_function. destruct (negb _); [discriminate|]. destruct (find _ _); discriminate.
  - apply (X (fun t => new_pointer t address_space)); [|apply G]. intros t. unfold new_pointer. destruct (is_pointee t); discriminate.
  - intros H. apply obind_panic in H as [H | (ts & _ & H)].
    + apply collect_panic in H as (l1 & a & l2 & _ & _ & H). now apply G in H.
    + revert H. apply O. unfold new_struct. destruct (find _ _); discriminate.
  - apply (X (fun t => new_array num_elements t)); [|apply G]. intros t. unfold new_array. destruct (is_array_element t); discriminate.
  - apply (X (fun t => new_vector num_elements t)); [|apply G]. intros t. unfold new_vector. destruct (is_vector_element t); discriminate.
  - apply (X (fun t => new_scalable_vector num_elements t)); [|apply G]. intros t. unfold new_scalable_vector. destruct (is_vector_element t); discriminate.
Qed.
Lemma resolve_panic f P p x : resolve f P p <> Panic x.
Proof.
  revert p. induction f as [|f IH]; intros p; [discriminate|]. rewrite resolve_S. apply body_panic. intros j. unfold rref_of. intros H.
  apply obind_panic in H as [H | (q & _ & H)]; [now apply ok_or_panic in H|now apply IH in H].
Qed.
Lemma step_panic e P name r x : type_step e (P, name) r = Panic x <->
  x = PSubOverflow /\ overflow_checks e = true /\ r_code r = 19 /\ r_fields r = [].
Proof.
  split.
  - intros H. cbn [type_step] in H. apply obind_panic in H as [H | (c & C & H)]; [now apply ok_or_panic in H|].
    apply ok_or_ok, type_code_exact in C.
    destruct c; try discriminate;
      repeat match goal with
      | H : obind (type_field _ _) _ = Panic _ |- _ => apply obind_panic in H as [H | (? & _ & H)]; [now apply ok_or_panic in H|]
      | H : obind (omap_err _ (address_space_of ?a)) _ = Panic _ |- _ => apply obind_panic in H as [H | (? & _ & H)]; [unfold address_space_of in H; destruct (a <=? MAX_SPACE); discriminate H|]
      end; try discriminate.
    + destruct name; [discriminate|]. destruct (split_last P) as [[f y]|]; [destruct y; try discriminate; destruct name0; discriminate|discriminate].
    + destruct (match nth_error (r_fields r) 2 with None => false | Some f => 0 <? f end); discriminate.
    + apply obind_panic in H as [H | (? & _ & H)]; [|discriminate].
      destruct (r_fields r) as [|a [|b l]] eqn:F.
      * destruct (strings_empty e r 0 F ltac:(reflexivity)) as [K _]. rewrite K in H. destruct (overflow_checks e); [|discriminate].
        injection H as <-. auto.
      * destruct (strings_out e r 0) as [K _]; [congruence|rewrite F; cbn; lia|]. rewrite K in H. discriminate H.
      * destruct (try_string_in e r 0 []) as (_ & _ & _ & K & _); [rewrite F; cbn; lia|]. destruct (try_string e r 0) as [| |q|] eqn:Q; try discriminate. now destruct (K q).
    + destruct (split_last P) as [[f y]|]; [destruct y; try discriminate; destruct name0, field_types; discriminate|discriminate].
  - intros (-> & O & C & F). cbn [type_step]. rewrite C. cbn [type_code_of ok_or obind].
    destruct (strings_empty e r 0 F ltac:(reflexivity)) as [-> _]. now rewrite O.
Qed.
Lemma loop_panics e l st x : type_loop e l st = Panic x ->
  x = PSubOverflow /\ overflow_checks e = true /\ exists r, In r l /\ r_code r = 19 /\ r_fields r = [].
Proof.
  revert st. induction l as [|r l IH]; intros [P name]; cbn [type_loop]; [discriminate|]. intros H.
  apply obind_panic in H as [H | (st & _ & H)].
  - apply step_panic in H as (-> & O & C & F). split; [reflexivity|]. split; [exact O|]. exists r. cbn. auto.
  - apply IH in H as (-> & O & r' & I & C). split; [reflexivity|]. split; [exact O|]. exists r'. cbn. auto.
Qed.
Lemma type_table_panics e b x : type_table_of e b = Panic x ->
  (x = PAlloc /\ exists r n l, first_record 1 (b_records b) r /\ r_fields r = n :: l /\ alloc_limit e < n) \/
  (x = PSubOverflow /\ overflow_checks e = true /\ exists r, In r (b_records b) /\ r_code r = 19 /\ r_fields r = []).
Proof.
  unfold type_table_of. cbn [type_code_num]. intros H. apply obind_panic in H as [H | (r & R & H)]; [now apply ok_or_panic in H|].
  apply ok_or_ok, one_first in R.
  apply obind_panic in H as [H | (n & N & H)]; [now apply ok_or_panic in H|]. apply ok_or_ok in N.
  destruct (alloc_limit e <? n) eqn:A.
  - injection H as <-. left. split; [reflexivity|]. destruct (r_fields r) as [|y l] eqn:F; [discriminate|]. injection N as ->. exists r, n, l.
    split; [exact R|]. split; [exact F|lia].
  - right. apply obind_panic in H as [H | ([P name] & L & H)]; [now apply loop_panics in H|].
    exfalso. unfold reify, reify_with in H. destruct (_ =? n) in H; [|discriminate].
    apply collect_panic in H as (l1 & p & l2 & _ & _ & H). now apply resolve_panic in H.
Qed.
Lemma type_table_alloc e b r n l : first_record 1 (b_records b) r -> r_fields r = n :: l -> alloc_limit e < n ->
  type_table_of e b = Panic PAlloc.
Proof.
  intros R F A. apply one_first in R. unfold type_table_of. cbn [type_code_num]. rewrite R. cbn [ok_or obind]. rewrite F. cbn [hd_error ok_or obind].
  now replace (alloc_limit e <? n) with true by lia.
Qed.

(** A struct that takes a name directly after another one. *)
Lemma turn_after_named T acc name r acc' name' : type_turn T acc name r acc' name' -> takes_name r ->
  exists f n fs pk, acc' = f ++ [TStruct (Some n) fs pk].
Proof.
  unfold takes_name. cbn. intros H TN.
  inversion H as [? ? ? C | ? ? ? s SP | ? ? ? t N1 D | ? ? ? t TN' D L | front ? ? pk pk' js ts C FI X R | front ? ? ts pk C NE]; subst; eauto.
  - exfalso. rewrite C in TN. intuition discriminate.
  - exfalso. destruct SP as (C & _). rewrite C in TN. intuition discriminate.
  - exfalso. apply N1. exact TN.
  - inversion D as [? I|? ? C|? ? ? ? C|? ? C|? ? ? ? C|? ? ? ? C|? ? ? ? C|? ? ? ? ? C|? ? ? C|? ? ? C|C]; subst; eauto;
      try (exfalso; rewrite C in TN; intuition discriminate).
    exfalso. cbn in I. destruct TN as [K | [K | []]]; rewrite <- K in I; intuition discriminate.
Qed.
Lemma turns_app T l1 l2 : forall acc name fin, type_turns T acc name (l1 ++ l2) fin ->
  exists acc' name', type_turns T acc' name' l2 fin.
Proof. induction l1 as [|r l1 IH]; intros acc name fin H; [eauto|]. inversion H; subst. eauto. Qed.
Lemma no_turn_twice T mid r l : Forall adds_nothing mid -> takes_name r -> forall f n fs pk name fin,
  ~ type_turns T (f ++ [TStruct (Some n) fs pk]) name (mid ++ r :: l) fin.
Proof.
  intros A TN. induction A as [|x mid A1 A IH]; intros f n fs pk name fin H; cbn [app] in H.
  - inversion H as [|? ? ? ? ? ? ? ST K]; subst. clear H K. unfold takes_name in TN. cbn in TN.
    inversion ST as [? ? ? C | ? ? ? s SP | ? ? ? t N1 D | ? ? ? t TN' D L | front ? ? pk1 pk' js ts C FI X R E | front ? ? ts pk1 C NE E]; subst.
    + rewrite C in TN. intuition discriminate.
    + destruct SP as (C & _). rewrite C in TN. intuition discriminate.
    + apply N1. exact TN.
    + apply (L f _ eq_refl). unfold struct_type. eauto.
    + apply app_inj_tail in E as [_ E]. discriminate E.
    + apply app_inj_tail in E as [_ E]. discriminate E.
  - inversion H as [|? ? ? ? ? ? ? ST K]; subst. clear H. unfold adds_nothing in A1. cbn in A1.
    inversion ST as [? ? ? C | ? ? ? s SP | ? ? ? t N1 D | ? ? ? t TN' D L | front ? ? pk1 pk' js ts C FI X R E | front ? ? ts pk1 C NE E]; subst;
      try (now apply IH in K).
    + destruct (plain_struct _ _ _ _ N1 D) as (C1 & C2 & _). intuition.
    + destruct (named_code _ _ _ _ TN' D) as [C1 _]. destruct A1 as [A1 | [A1 | []]], C1 as [C1 | C1]; rewrite C1 in A1; discriminate A1.
Qed.
Lemma adjacent_rejected e b l1 r1 mid r2 l2 : Forall named_fields (b_records b) ->
  b_records b = l1 ++ r1 :: mid ++ r2 :: l2 -> takes_name r1 -> takes_name r2 -> Forall adds_nothing mid ->
  forall T, type_table_of e b <> Ok T.
Proof.
  intros NF E T1 T2 M T H. apply type_table_exact in H as [_ H]; [|exact NF]. rewrite E in H.
  apply turns_app in H as (acc & name & H). inversion H as [|? ? ? ? ? ? ? ST K]; subst.
  apply turn_after_named in ST as (f & n & fs & pk & ->); [|exact T1]. now apply no_turn_twice in K.
Qed.

(** Witnesses. *)
Lemma no_pointer_vectors e b n a T : type_table_of e b = Ok T ->
  ~ In (TFixedVector n (TOpaquePointer a)) T /\ ~ In (TScalableVector n (TOpaquePointer a)) T.
Proof.
  intros H. apply accepted_built in H. rewrite Forall_forall in H.
  assert (V : ~ vector_rule (TOpaquePointer a)).
  { intros [K | [[w K] | (p & x & K)]]; try discriminate K. cbn in K. intuition discriminate. }
  split; intros K; apply H in K; inversion K; subst; auto; match goal with I : In _ simple_types |- _ => cbn in I; intuition discriminate end.
Qed.
Lemma merging_happens : exists e b T, Forall named_fields (b_records b) /\
  type_table_of e b = Ok T /\ length (entry_records (b_records b)) <> length T /\ ~ lists T [] (b_records b) T.
Proof.
  exists debug_env, (mkBlock (BIr IbType) [mkRecord None 1 [1]; mkRecord None 18 [1]; mkRecord None 19 [97; 98]; mkRecord None 20 [0]] []),
    [TStruct (Some [97; 98]) [] true].
  split; [repeat constructor; discriminate|]. split; [reflexivity|]. split; [discriminate|]. intros H.
  cbn in H. inversion H as [|? ? ? ? C K|? ? s ? ? SP K|? ? t ? ts' N1 D K|? ? t ? ts' TN D K]; subst.
  - clear H. inversion K as [|? ? ? ? C' K'|? ? s ? ? SP K'|? ? t ? ts' N1 D K'|? ? t ? ts' TN D K']; subst.
    + discriminate C'.
    + destruct SP as (SP & _). discriminate SP.
    + inversion D as [? I|? ? C'|? ? ? ? C'|? ? C'|? ? ? ? C'|? ? ? ? C'|? ? ? ? C'|? ? ? ? ? C'|? ? ? C'|? ? ? C'|C']; subst; try discriminate C'.
      cbn in I. intuition discriminate.
    + unfold takes_name in TN. cbn in TN. intuition discriminate.
  - destruct SP as (SP & _). discriminate SP.
  - inversion D as [? I|? ? C'|? ? ? ? C'|? ? C'|? ? ? ? C'|? ? ? ? C'|? ? ? ? C'|? ? ? ? ? C'|? ? ? C'|? ? ? C'|C']; subst; try discriminate C'.
    cbn in I. intuition discriminate.
  - unfold takes_name in TN. cbn in TN. intuition discriminate.
Qed.
Lemma recursion_diverges : exists b P, Forall fields64 (b_records b) /\
  type_loop debug_env (b_records b) ([], []) = Ok (P, []) /\ type_table_of debug_env b = OutOfFuel /\
  forall n f, n = N.of_nat (length P) -> reify_with f n P = OutOfFuel.
Proof.
  exists (mkBlock (BIr IbType) [mkRecord None 1 [3]; mkRecord None 7 [32]; mkRecord None 19 [97; 98]; mkRecord None 20 [0; 0; 2]; mkRecord None 8 [1; 0]] []),
    [PtInteger 32; PtStruct (Some [97; 98]) [0; 2] false; PtPointer 1 0].
  split; [repeat constructor|]. split; [reflexivity|]. split; [reflexivity|]. intros n f ->.
  set (P := [PtInteger 32; PtStruct (Some [97; 98]) [0; 2] false; PtPointer 1 0]).
  destruct (reify_more_fuel 3 P) as [H _]. specialize (H f). change (N.of_nat (length P)) with 3.
  destruct (reify_with f 3 P) eqn:R; [| | |reflexivity];
    (assert (X : reify 3 P = reify_with f 3 P) by (rewrite R; apply H; discriminate); rewrite R in X; vm_compute in X; discriminate X).
Qed.

(** %ab = { i32 }, %cd = { float }: described by its records, but rejected. *)
Definition two_structs : block := mkBlock (BIr IbType) [mkRecord None 1 [4]; mkRecord None 7 [32]; mkRecord None 3 [];
  mkRecord None 19 [97; 98]; mkRecord None 20 [0; 0]; mkRecord None 19 [99; 100]; mkRecord None 20 [0; 1]] [].
Lemma two_structs_rejected : exists b T, Forall named_fields (b_records b) /\
  announced debug_env b (N.of_nat (length T)) /\ lists T [] (b_records b) T /\ type_table_of debug_env b = Err (TtInvalid TfFull).
Proof.
  exists two_structs, [TInteger 32; TFloat; TStruct (Some [97; 98]) [TInteger 32] false; TStruct (Some [99; 100]) [TFloat] false].
  assert (NT : forall r, ~ In (r_code r) [6; 20] -> ~ takes_name r) by auto.
  assert (simple_field : forall t, match t with TInteger _ | TFloat => true | _ => false end = true -> field_rule t).
  { intros t H. split; [intros K; cbn in K|intros (? & ? & ? & ->); discriminate H].
    destruct K as [<-|[<-|[<-|[<-|[]]]]]; discriminate H. }
  split; [repeat constructor; discriminate|]. split; [|split; [|vm_compute; reflexivity]].
  - exists (mkRecord None 1 [4]), []. split; [|split; [reflexivity|vm_compute; discriminate]].
    exists []. eexists. split; [reflexivity|]. split; [reflexivity|constructor].
  - unfold two_structs. cbn [b_records].
    apply LI_num; [reflexivity|].
    apply LI_plain; [apply NT; cbn; intuition discriminate| |].
    { refine (D_integer _ _ _ 32 [] _ _ _); [reflexivity|reflexivity|]. vm_compute. split; [intros H; discriminate H|reflexivity]. }
    apply LI_plain; [apply NT; cbn; intuition discriminate| |].
    { apply D_simple. vm_compute. tauto. }
    apply LI_name with (s := [97; 98]); [repeat split; cbn; lia|].
    apply LI_named; [cbn; unfold takes_name; cbn; tauto| |].
    { refine (D_named _ [97; 98] _ 0 [0] [TInteger 32] _ _ _ _); [reflexivity|reflexivity|constructor; [reflexivity|constructor]|constructor; [apply simple_field; reflexivity|constructor]]. }
    apply LI_name with (s := [99; 100]); [repeat split; cbn; lia|].
    apply LI_named; [unfold takes_name; cbn; tauto| |constructor].
    refine (D_named _ [99; 100] _ 0 [1] [TFloat] _ _ _ _); [reflexivity|reflexivity|constructor; [reflexivity|constructor]|constructor; [apply simple_field; reflexivity|constructor]].
Qed.
