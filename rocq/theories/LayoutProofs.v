(** Lemmas about strings, integer parsing and data layouts. *)
From Verif Require Import Base Strings SupportModel SupportSpec SupportProofs SupportMain LayoutModel LayoutSpec.
From Coq Require Import Lia ZifyBool ZifyNat ZifyN.
Ltac Zify.zify_post_hook ::= Z.div_mod_to_equations.
Local Open Scope N_scope.
Arguments N.add : simpl never.
Arguments N.mul : simpl never.
Arguments N.div : simpl never.
Arguments N.modulo : simpl never.
Arguments N.sub : simpl never.
Arguments N.pow : simpl never.

(** *** Integers *)

Definition fine {E A} (m : outcome E A) : Prop := (exists a, m = Ok a) \/ (exists x, m = Err x).
Lemma fine_ok {E A} (a : A) : fine (E := E) (Ok a).
Proof. left. eauto. Qed.
Lemma fine_err {E A} (x : E) : fine (A := A) (Err x).
Proof. right. eauto. Qed.
Lemma fine_bind {E A B} (m : outcome E A) (k : A -> outcome E B) :
  fine m -> (forall a, m = Ok a -> fine (k a)) -> fine (obind m k).
Proof. intros [[a ->]|[x ->]] H; cbn; [apply H; reflexivity|apply fine_err]. Qed.
Lemma fine_map {E F A} (f : E -> F) (m : outcome E A) : fine m -> fine (omap_err f m).
Proof. intros [[a ->]|[x ->]]; [apply fine_ok|apply fine_err]. Qed.
Lemma fine_collect {E A B} (f : A -> outcome E B) l : (forall a, In a l -> fine (f a)) -> fine (collect f l).
Proof.
  induction l as [|a l IH]; intros H; cbn; [apply fine_ok|].
  apply fine_bind; [apply H; left; reflexivity|]. intros b _.
  apply fine_bind; [apply IH; intros x Hx; apply H; right; exact Hx|]. intros. apply fine_ok.
Qed.

Lemma parse_digits_fine max acc s : fine (parse_digits max acc s).
Proof.
  revert acc. induction s as [|c s IH]; intros acc; cbn; [apply fine_ok|].
  destruct (_ && _); [|apply fine_err]. destruct (_ <? _); [apply fine_err|].
  destruct (_ <? _); [apply fine_err|apply IH].
Qed.
Lemma parse_uint_fine max s : fine (parse_uint max s).
Proof.
  unfold parse_uint. destruct s as [|c s]; [apply fine_err|].
  destruct (c =? ch "+"); [|apply parse_digits_fine]. destruct s; [apply fine_err|apply parse_digits_fine].
Qed.

Definition dval (acc : N) (s : str) : N := fold_left (fun acc c => acc * 10 + (c - 48)) s acc.
Arguments dval : simpl never.
Lemma dval_ge acc s : acc <= dval acc s.
Proof.
  unfold dval. revert acc. induction s as [|c s IH]; intros acc; cbn; [lia|].
  specialize (IH (acc * 10 + (c - 48))). lia.
Qed.
Lemma parse_digits_ok max acc s n : acc <= max ->
  parse_digits max acc s = Ok n <-> Forall digit s /\ dval acc s = n /\ n <= max.
Proof.
  revert acc. induction s as [|c s IH]; intros acc Ha; cbn.
  - change (dval acc []) with acc. split; [intros [= ->]; auto|intros (_ & -> & _); reflexivity].
  - split.
    + destruct ((48 <=? c) && (c <=? 57)) eqn:D; [|discriminate].
      destruct (max <? acc * 10) eqn:E1; [discriminate|].
      destruct (max <? acc * 10 + (c - 48)) eqn:E2; [discriminate|].
      intros H. apply IH in H; [|lia]. destruct H as (H1 & H2 & H3).
      repeat split; [|exact H2|exact H3]. constructor; [unfold digit; lia|exact H1].
    + intros (H1 & H2 & H3). inversion H1 as [|? ? Hd Hf]; subst. unfold digit in Hd.
      destruct ((48 <=? c) && (c <=? 57)) eqn:D; [|lia].
      assert (G : acc * 10 + (c - 48) <= dval acc (c :: s)) by (apply (dval_ge (acc * 10 + (c - 48)) s)).
      destruct (max <? acc * 10) eqn:E1; [lia|].
      destruct (max <? acc * 10 + (c - 48)) eqn:E2; [lia|].
      apply IH; [lia|]. auto.
Qed.
Lemma parse_uint_ok max s n : parse_uint max s = Ok n <->
  n <= max /\ (numeral s n \/ exists s', s = ch "+" :: s' /\ numeral s' n).
Proof.
  unfold parse_uint, numeral. change numeral_value with (dval 0). destruct s as [|c s].
  - split; [discriminate|]. intros (_ & [(H & _)|(s' & H & _)]); [congruence|discriminate].
  - destruct (c =? ch "+") eqn:P.
    + apply N.eqb_eq in P. subst c. destruct s as [|c s].
      * split; [discriminate|]. intros (_ & [(_ & H & _)|(s' & [= <-] & H & _)]); [|congruence].
        inversion H as [|? ? Hd _]; subst. unfold digit in Hd. cbn in Hd. lia.
      * rewrite parse_digits_ok by lia. split.
        -- intros (H1 & H2 & H3). split; [assumption|]. right. exists (c :: s). repeat split; try assumption. discriminate.
        -- intros (H0 & [(_ & H & _)|(s' & [= <-] & H1 & H2 & H3)]); [|auto].
           inversion H as [|? ? Hd _]; subst. unfold digit in Hd. cbn in Hd. lia.
    + rewrite parse_digits_ok by lia. split.
      * intros (H1 & H2 & H3). split; [assumption|]. left. repeat split; try assumption. discriminate.
      * intros (H0 & [(H1 & H2 & H3)|(s' & [= -> <-] & H1)]); [auto|]. rewrite N.eqb_refl in P. discriminate.
Qed.
Lemma parse_u64_numeral s n : numeral s n -> n < two64 -> parse_u64 s = Ok n.
Proof. intros H Hn. apply parse_uint_ok. unfold u64_max, two64 in *. split; [lia|auto]. Qed.
Lemma parse_u32_numeral s n : numeral s n -> n < two32 -> parse_u32 s = Ok n.
Proof. intros H Hn. apply parse_uint_ok. unfold u32_max, two32 in *. split; [lia|auto]. Qed.

(** *** Splitting *)

Lemma split_on_nonempty c s : split_on c s <> [].
Proof. destruct s as [|x s]; cbn; [discriminate|]. destruct (x =? c); [discriminate|]. destruct (split_on c s); discriminate. Qed.
Lemma split_on_none c s : ~ In c s -> split_on c s = [s].
Proof.
  induction s as [|x s IH]; cbn; intros H; [reflexivity|].
  destruct (x =? c) eqn:E; [apply N.eqb_eq in E; intuition|].
  rewrite IH by intuition. reflexivity.
Qed.
Lemma split_on_app c s t : ~ In c s -> split_on c (s ++ c :: t) = s :: split_on c t.
Proof.
  induction s as [|x s IH]; cbn; intros H; [rewrite N.eqb_refl; reflexivity|].
  destruct (x =? c) eqn:E; [apply N.eqb_eq in E; intuition|].
  rewrite IH by intuition. reflexivity.
Qed.
Lemma split_on_pieces c s p : In p (split_on c s) -> ~ In c p /\ (forall x, In x p -> In x s).
Proof.
  revert p. induction s as [|x s IH]; cbn; intros p H.
  - destruct H as [<-|[]]. cbn. intuition.
  - destruct (x =? c) eqn:E.
    + destruct H as [<-|H]; [cbn; intuition|]. apply IH in H as [H1 H2]. split; [assumption|].
      intros y Hy. right. auto.
    + destruct (split_on c s) as [|q qs] eqn:S.
      * destruct H as [<-|[]]. split; [intros [H|[]]; subst; lia|]. intros y [<-|[]]. left. reflexivity.
      * destruct H as [<-|H].
        -- destruct (IH q (or_introl eq_refl)) as [H1 H2]. split.
           ++ intros [H|H]; [subst; lia|contradiction].
           ++ intros y [<-|Hy]; [left; reflexivity|right; auto].
        -- destruct (IH p (or_intror H)) as [H1 H2]. split; [assumption|]. intros y Hy. right. auto.
Qed.
Lemma numeral_free s n c : numeral s n -> c < 48 \/ 57 < c -> ~ In c s.
Proof.
  intros (_ & H & _) Hc HI. rewrite Forall_forall in H. specialize (H c HI). unfold digit in H. lia.
Qed.

(** *** No panics *)

Lemma tail_fine {E} c s : c < 128 -> @tail_from_1 E (c :: s) = Ok s.
Proof. intros H. cbn. destruct (c <? 128) eqn:X; [reflexivity|lia]. Qed.
Lemma from_shift_fine s : fine (from_shift s).
Proof. unfold from_shift. destruct (_ <? _); [apply fine_err|apply fine_ok]. Qed.
Lemma from_bit_align_fine v : fine (from_bit_align v).
Proof.
  unfold from_bit_align, from_byte_align. destruct (_ =? _); [|apply fine_err].
  destruct (is_pow2 _); [apply from_shift_fine|apply fine_err].
Qed.
Lemma parse_abi_fine s : fine (parse_abi s).
Proof. unfold parse_abi. apply fine_bind; [apply fine_map, parse_uint_fine|]. intros. apply fine_map, from_bit_align_fine. Qed.
Lemma parse_pref_fine s : fine (parse_pref s).
Proof. unfold parse_pref. apply fine_bind; [apply fine_map, parse_uint_fine|]. intros. apply fine_map, from_bit_align_fine. Qed.
Lemma parse_pref_opt_fine s a : fine (parse_pref_opt s a).
Proof. destruct s; [apply parse_pref_fine|apply fine_ok]. Qed.
Lemma type_spec_new_fine t a p : fine (type_spec_new t a p).
Proof. unfold type_spec_new. destruct (align_lt _ _); [apply fine_err|]. destruct (_ && _); [apply fine_ok|apply fine_err]. Qed.
Lemma aligned_width_fine v : fine (aligned_width_of v).
Proof. unfold aligned_width_of. destruct (_ && _); [apply fine_ok|apply fine_err]. Qed.
Lemma address_space_fine v : fine (address_space_of v).
Proof. unfold address_space_of. destruct (_ <=? _); [apply fine_ok|apply fine_err]. Qed.

Lemma type_from_str_fine c s : c < 128 -> fine (type_spec_from_str (c :: s)).
Proof.
  intros H. unfold type_spec_from_str. rewrite tail_fine by assumption. cbn [obind].
  destruct (c =? ch "a").
  - destruct s as [|x s]; [apply fine_err|]. destruct (x =? ch ":"); [|apply fine_err].
    destruct (split_on _ s); [apply fine_err|].
    apply fine_bind; [apply parse_abi_fine|intros]. apply fine_bind; [apply parse_pref_opt_fine|intros].
    apply type_spec_new_fine.
  - destruct (split_on _ s) as [|p0 [|p1 ps]]; try apply fine_err.
    apply fine_bind; [apply fine_map, parse_uint_fine|intros].
    apply fine_bind; [apply fine_map, aligned_width_fine|intros].
    apply fine_bind; [apply parse_abi_fine|intros]. apply fine_bind; [apply parse_pref_opt_fine|intros].
    repeat (destruct (_ =? _); [apply type_spec_new_fine|]). apply fine_err.
Qed.
Lemma ptr_from_str_fine c s : c < 128 -> fine (ptr_spec_from_str (c :: s)).
Proof.
  intros H. unfold ptr_spec_from_str. rewrite tail_fine by assumption. cbn [obind].
  destruct (split_on _ s) as [|p0 [|p1 [|p2 ps]]]; try apply fine_err.
  apply fine_bind.
  { destruct p0; [apply fine_ok|]. apply fine_bind; [apply fine_map, parse_uint_fine|intros].
    apply fine_map, address_space_fine. }
  intros. apply fine_bind; [apply fine_map, parse_uint_fine|intros].
  apply fine_bind; [apply parse_abi_fine|intros]. apply fine_bind; [apply parse_pref_opt_fine|intros].
  apply fine_bind; [|intros; apply fine_ok].
  destruct (nth_error ps 1); [apply fine_map, parse_uint_fine|apply fine_ok].
Qed.
Lemma parse_bit_align_fine s : fine (parse_bit_align s).
Proof. unfold parse_bit_align. apply fine_bind; [apply fine_map, parse_uint_fine|intros]. apply fine_map, from_bit_align_fine. Qed.
Lemma parse_space_fine s : fine (parse_space s).
Proof. unfold parse_space. apply fine_bind; [apply fine_map, parse_uint_fine|intros]. apply fine_map, address_space_fine. Qed.

Lemma layout_spec_fine s d : is_ascii s = true -> fine (layout_spec s d).
Proof.
  intros H. destruct s as [|c s]; [apply fine_err|]. cbn in H. apply andb_true_iff in H as [Hc H].
  apply N.ltb_lt in Hc. unfold layout_spec. rewrite tail_fine by assumption. cbn [obind].
  destruct (c =? ch "e"); [apply fine_ok|].
  destruct (c =? ch "E"); [apply fine_ok|].
  destruct (c =? ch "S"); [apply fine_bind; [apply parse_bit_align_fine|intros; apply fine_ok]|].
  destruct (c =? ch "P"); [apply fine_bind; [apply parse_space_fine|intros; apply fine_ok]|].
  destruct (c =? ch "G"); [apply fine_bind; [apply parse_space_fine|intros; apply fine_ok]|].
  destruct (c =? ch "A"); [apply fine_bind; [apply parse_space_fine|intros; apply fine_ok]|].
  destruct (c =? ch "p"); [apply fine_bind; [apply fine_map, ptr_from_str_fine, Hc|intros; apply fine_ok]|].
  destruct (_ || _ || _ || _); [apply fine_bind; [apply fine_map, type_from_str_fine, Hc|intros; apply fine_ok]|].
  destruct (c =? ch "F").
  { destruct s as [|x s]; [apply fine_err|]. cbn in H. apply andb_true_iff in H as [Hx H]. apply N.ltb_lt in Hx.
    rewrite tail_fine by assumption. cbn [obind]. apply fine_bind; [apply parse_bit_align_fine|intros].
    destruct (_ =? _); [apply fine_ok|]. destruct (_ =? _); [apply fine_ok|apply fine_err]. }
  destruct (c =? ch "m").
  { destruct s as [|x s]; [apply fine_err|]. destruct (_ =? _); [|apply fine_err].
    destruct s; [apply fine_err|]. destruct (mangling_of _); [apply fine_ok|apply fine_err]. }
  destruct (c =? ch "n"); [|apply fine_err].
  destruct s as [|x s]; [apply fine_err|]. cbn in H. apply andb_true_iff in H as [Hx H]. apply N.ltb_lt in Hx.
  destruct (x =? ch "i").
  - destruct s as [|y s]; [apply fine_err|]. cbn in H. apply andb_true_iff in H as [Hy H]. apply N.ltb_lt in Hy.
    rewrite !tail_fine by assumption. cbn [obind]. rewrite tail_fine by assumption. cbn [obind].
    apply fine_bind; [|intros; apply fine_ok]. apply fine_collect. intros p _.
    unfold parse_non_integral. apply fine_bind; [apply parse_space_fine|intros].
    destruct (_ =? _); [apply fine_err|apply fine_ok].
  - apply fine_bind; [|intros; apply fine_ok]. apply fine_collect. intros p _. apply fine_map, parse_uint_fine.
Qed.

Lemma layout_loop_fine l d : (forall s, In s l -> is_ascii s = true) -> fine (layout_loop l d).
Proof.
  revert d. induction l as [|s l IH]; intros d H; cbn; [apply fine_ok|].
  apply fine_bind; [apply layout_spec_fine, H; left; reflexivity|]. intros. apply IH.
  intros x Hx. apply H. right. exact Hx.
Qed.
Lemma specs_ascii v s : is_ascii v = true -> In s (specs v) -> is_ascii s = true.
Proof.
  intros H HI. apply split_on_pieces in HI as [_ HI]. unfold is_ascii in *. rewrite forallb_forall in *. auto.
Qed.
Lemma layout_fine v : fine (layout_from_str v).
Proof.
  unfold layout_from_str. destruct (is_ascii v) eqn:E; [|apply fine_err].
  apply layout_loop_fine. intros s Hs. eapply specs_ascii; eassumption.
Qed.

