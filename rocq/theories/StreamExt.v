(** Appending whole words to the input does not change the entries already found. *)
From Verif Require Import Base CursorModel CursorSpec CursorHist CursorProofs CursorSim CursorVbr CursorMain
  StreamModel StreamSpec StreamHist StreamProofs StreamPres StreamEffect StreamRound StreamMain StreamEnd StreamBox.
From Coq Require Import Lia ZifyBool ZifyNat ZifyN.
Ltac Zify.zify_post_hook ::= Z.div_mod_to_equations.
Local Open Scope N_scope.
Arguments N.add : simpl never.
Arguments N.mul : simpl never.
Arguments N.div : simpl never.
Arguments N.modulo : simpl never.
Arguments N.sub : simpl never.
Arguments N.pow : simpl never.

(** [m2] succeeds whenever [m1] does, with the same value. *)
Definition okx {C D E A} (R : C -> D -> Prop) (m1 : M C E A) (m2 : M D E A) : Prop :=
  forall c d a c', R c d -> m1 c = (Ok a, c') -> exists d', m2 d = (Ok a, d') /\ R c' d'.

Section OkxGen.
  Context {C D : Type} (R : C -> D -> Prop).
  Lemma okx_bind {E A B} (m1 : M C E A) (m2 : M D E A) (k1 : A -> M C E B) (k2 : A -> M D E B) :
    okx R m1 m2 -> (forall a, okx R (k1 a) (k2 a)) -> okx R (bind m1 k1) (bind m2 k2).
  Proof.
    intros H1 H2 c d b c' HR H. unfold bind in *. destruct (m1 c) as [[a|x|p|] c1] eqn:E1; try discriminate.
    destruct (H1 c d a c1 HR E1) as (d1 & -> & R1). exact (H2 a c1 d1 b c' R1 H).
  Qed.
  Lemma okx_ret {E A} (a : A) : okx R (ret (E := E) a) (ret a).
  Proof. intros c d b c' HR [= <- <-]. eexists. split; [reflexivity|exact HR]. Qed.
  Lemma okx_fail {E A} (x y : E) : okx (A := A) R (fail x) (fail y).
  Proof. intros c d b c' HR H. discriminate. Qed.
  Lemma okx_crash {E A} p q : okx (E := E) (A := A) R (crash p) (crash q).
  Proof. intros c d b c' HR H. discriminate. Qed.
  Lemma okx_lift {E F A} (f : E -> F) (m1 : M C E A) (m2 : M D E A) : okx R m1 m2 -> okx R (lift_err f m1) (lift_err f m2).
  Proof.
    intros H c d a c' HR K. unfold lift_err in *. destruct (m1 c) as [[b|x|p|] c1] eqn:E1; try discriminate.
    injection K as -> ->. destruct (H c d a c' HR E1) as (d1 & -> & R1). eauto.
  Qed.
  Lemma okx_times {E A} (m1 : M C E (list A)) (m2 : M D E (list A)) n : okx R m1 m2 -> okx R (times n m1) (times n m2).
  Proof.
    intros H. assert (G : forall k, okx R (times_n k m1) (times_n k m2)).
    { induction k as [|k IH]; cbn [times_n]; [apply okx_ret|].
      apply okx_bind; [exact H|]. intros b. apply okx_bind; [exact IH|]. intros ?. apply okx_ret. }
    intros c d a c' HR K. rewrite times_nat in K. setoid_rewrite times_nat. exact (G _ c d a c' HR K).
  Qed.
End OkxGen.

Record ops_ext {C D} (R : C -> D -> Prop) (o1 : cops C) (o2 : cops D) : Prop := {
  oe_read : forall n, okx R (op_read o1 n) (op_read o2 n);
  oe_align : forall c d, R c d -> R (op_align32 o1 c) (op_align32 o2 d);
  oe_exhausted : forall c d, R c d -> op_exhausted o1 c = false -> op_exhausted o2 d = false;
  oe_fuel : forall c d, R c d -> (op_fuel o1 c <= op_fuel o2 d)%nat
}.

Section Ext.
  Context {C D : Type} (R : C -> D -> Prop) (o1 : cops C) (o2 : cops D) (HE : ops_ext R o1 o2) (e : env).

  Lemma vbr_loop_ext f g w r s : (f <= g)%nat -> okx R (vbr_loop e o1 f w r s) (vbr_loop e o2 g w r s).
  Proof.
    revert g r s. induction f as [|f IH]; intros g r s Hg; [intros ? ? ? ? ? H; discriminate|].
    destruct g as [|g]; [lia|]. cbn [vbr_loop]. apply okx_bind; [apply (oe_read _ _ _ HE)|]. intros b.
    destruct (_ && _); [apply okx_crash|]. destruct (_ =? 0); [apply okx_ret|]. apply IH. lia.
  Qed.
  Lemma read_vbr_ext w : okx R (read_vbr e o1 w) (read_vbr e o2 w).
  Proof.
    intros c d a c' HR H. unfold read_vbr in *. destruct (_ && _); [|discriminate].
    eapply vbr_loop_ext; [apply (oe_fuel _ _ _ HE), HR|exact HR|exact H].
  Qed.
  Lemma c_read_ext n : okx R (c_read o1 n) (c_read o2 n).
  Proof. apply okx_lift, (oe_read _ _ _ HE). Qed.
  Lemma c_vbr_ext n : okx R (c_vbr e o1 n) (c_vbr e o2 n).
  Proof. apply okx_lift, read_vbr_ext. Qed.
  Lemma c_read_as_ext t n : okx R (c_read_as o1 t n) (c_read_as o2 t n).
  Proof.
    apply okx_lift. unfold read_as. apply okx_bind; [apply (oe_read _ _ _ HE)|]. intros v.
    destruct (num_cast t v); [apply okx_ret|apply okx_fail].
  Qed.
  Lemma c_align_ext : okx R (c_align o1) (c_align o2).
  Proof. intros c d a c' HR [= <- <-]. eexists. split; [reflexivity|]. now apply (oe_align _ _ _ HE). Qed.
  Lemma with_capacity_ext {X Y} (Q : X -> Y -> Prop) n : okx (E := serr) Q (with_capacity e n) (with_capacity e n).
  Proof. unfold with_capacity. destruct (_ <=? _); [apply okx_ret|apply okx_crash]. Qed.
  Hint Resolve c_read_ext c_vbr_ext c_read_as_ext c_align_ext with_capacity_ext okx_ret okx_fail okx_crash : okx.
  Ltac bnd := apply okx_bind; [auto with okx|intros ?].
  Lemma op_parse_ext op : okx R (op_parse e o1 op) (op_parse e o2 op).
  Proof.
    induction op; cbn [op_parse]; repeat (bnd || apply okx_times || auto with okx).
    unfold decode_char6. destruct (nth_error _ _); auto with okx.
  Qed.
  Lemma read_enc_ext : okx R (read_enc o1) (read_enc o2).
  Proof. unfold read_enc. bnd. destruct (abbrev_enc_of _); auto with okx. Qed.
  Hint Resolve read_enc_ext : okx.
  Lemma array_elem_ext : okx R (array_elem e o1) (array_elem e o2).
  Proof. unfold array_elem. bnd. bnd. destruct a0; try bnd; auto with okx. Qed.
  Hint Resolve array_elem_ext : okx.
  Lemma abbrev_loop_ext f g num idx acc : (f <= g)%nat -> okx R (abbrev_loop e o1 f num idx acc) (abbrev_loop e o2 g num idx acc).
  Proof.
    revert g idx acc. induction f as [|f IH]; intros g idx acc Hg; [intros ? ? ? ? ? H; discriminate|].
    destruct g as [|g]; [lia|]. assert (Hf : (f <= g)%nat) by lia. cbn [abbrev_loop].
    destruct (_ <=? _); [auto with okx|]. bnd. destruct (_ =? 1); [bnd; auto|]. bnd. destruct a0.
    - bnd. auto.
    - bnd. auto.
    - destruct (_ && _); [auto with okx|]. destruct (negb _); [auto with okx|]. bnd. auto with okx.
    - auto.
    - destruct (negb _); auto with okx.
  Qed.
  Lemma abbrev_new_ext : okx R (abbrev_new e o1) (abbrev_new e o2).
  Proof.
    unfold abbrev_new. bnd. destruct (_ <? _); [auto with okx|].
    intros c d b c' HR H. eapply abbrev_loop_ext; [|exact HR|exact H].
    pose proof (oe_fuel _ _ _ HE c d HR). lia.
  Qed.
  Lemma abbrev_parse_ext a : okx R (abbrev_parse e o1 a) (abbrev_parse e o2 a).
  Proof.
    induction a as [|op a IH]; cbn [abbrev_parse]; [auto with okx|].
    apply okx_bind; [apply op_parse_ext|]. intros ?. bnd. auto with okx.
  Qed.

  Notation PRR := (PR R).
  Lemma on_cur_ext {A} (m1 : M C serr A) (m2 : M D serr A) : okx R m1 m2 -> okx PRR (on_cur m1) (on_cur m2).
  Proof.
    intros H s t a s' (HR & HS & HI) K. unfold on_cur in *. destruct (m1 (p_cur s)) as [r c1] eqn:E1.
    injection K as -> <-. destruct (H _ _ _ _ HR E1) as (d1 & -> & R1). eexists. split; [reflexivity|].
    split; [exact R1|]. split; assumption.
  Qed.
  Lemma get_scope_ext : okx PRR get_scope get_scope.
  Proof.
    intros s t a s' HP K. pose proof HP as (HR & HS & HI). unfold get_scope in *. rewrite <- HS. destruct (p_scopes s); [discriminate|].
    injection K as <- <-. eauto.
  Qed.
  Lemma set_scope_ext sc : okx PRR (set_scope sc) (set_scope sc).
  Proof.
    intros s t a s' HP K. pose proof HP as (HR & HS & HI). unfold set_scope in *. rewrite <- HS. destruct (p_scopes s); [discriminate|].
    injection K as <- <-. eexists. split; [reflexivity|]. split; [exact HR|]. split; [reflexivity|exact HI].
  Qed.
  Lemma push_scope_ext sc : okx PRR (push_scope sc) (push_scope sc).
  Proof.
    intros s t a s' (HR & HS & HI) [= <- <-]. eexists. split; [reflexivity|]. split; [exact HR|]. split; [cbn; congruence|exact HI].
  Qed.
  Hint Resolve on_cur_ext get_scope_ext set_scope_ext push_scope_ext abbrev_new_ext abbrev_parse_ext : okx.
  Lemma extend_scope_ext l : okx PRR (extend_scope l) (extend_scope l).
  Proof. unfold extend_scope. bnd. destruct (sc_extend _ _); auto with okx. Qed.
  Hint Resolve extend_scope_ext : okx.
  Lemma body_ext v : okx PRR (body e o1 v) (body e o2 v).
  Proof.
    unfold body. destruct (abbrev_id_of v).
    - unfold exit_block. bnd. intros s t x s' (HR & HS & HI) K. rewrite <- HS. destruct (p_scopes s) as [|? [|]]; try discriminate.
      injection K as <- <-. eexists. split; [reflexivity|]. split; [exact HR|]. split; [reflexivity|exact HI].
    - unfold enter_block. bnd. bnd. bnd. destruct (_ <? _); [auto with okx|]. bnd. bnd.
      apply okx_bind; [|intros ?; bnd; destruct (sc_is_blockinfo _); auto with okx].
      intros s t x s' HP K. pose proof HP as (HR & HS & HI). rewrite <- HI.
      destruct (info_get _ _); [eapply extend_scope_ext; eassumption|]. injection K as <- <-. eexists. split; [reflexivity|exact HP].
    - apply okx_bind; [|auto with okx]. unfold define_abbrev. bnd. bnd.
      destruct (sc_is_blockinfo _); [|auto with okx]. destruct (sc_blockinfo_bid _); [|auto with okx].
      intros s t x s' (HR & HS & HI) [= <- <-]. eexists. split; [reflexivity|]. split; [exact HR|]. split; [exact HS|cbn; congruence].
    - unfold parse_unabbrev. bnd. destruct a; [auto with okx|]. bnd. bnd. bnd.
      apply okx_bind; [apply on_cur_ext, okx_times; bnd; auto with okx|]. intros ?. bnd.
      destruct (sc_is_blockinfo _); [|auto with okx]. destruct (blockinfo_code_of _) as [[]|]; auto with okx.
      match goal with |- context [match ?l with [] => _ | _ :: _ => _ end] => destruct l end; [auto with okx|].
      destruct (sc_set_bid _ _); [|auto with okx]. bnd. auto with okx.
    - unfold parse_with_abbrev. bnd. apply okx_bind.
      { unfold get_abbrev. destruct a; [auto with okx|]. destruct (_ <? _); [auto with okx|]. destruct (nth_error _ _); auto with okx. }
      intros ?. bnd. match goal with |- context [match ?l with [] => _ | _ :: _ => _ end] => destruct l end; [auto with okx|].
      bnd. destruct (sc_is_blockinfo _); auto with okx.
  Qed.
  Lemma step_ext : okx PRR (step e o1) (step e o2).
  Proof.
    intros s t x s' HP K. unfold step in *. destruct (op_exhausted o1 (p_cur s)) eqn:E; [discriminate|].
    pose proof (oe_exhausted _ _ _ HE _ _ (proj1 HP) E) as E2. rewrite E2. revert K.
    enough (okx PRR (bind get_scope (fun sc => bind (on_cur (c_read o1 (sc_width sc))) (body e o1)))
      (bind get_scope (fun sc => bind (on_cur (c_read o2 (sc_width sc))) (body e o2)))) as X by (exact (X s t x s' HP)).
    bnd. bnd. apply body_ext.
  Qed.
  Lemma advance_loop_ext f g : (f <= g)%nat -> okx PRR (advance_loop e o1 f) (advance_loop e o2 g).
  Proof.
    revert g. induction f as [|f IH]; intros g Hg; [intros ? ? ? ? ? H; discriminate|].
    destruct g as [|g]; [lia|]. cbn [advance_loop]. apply okx_bind; [apply step_ext|]. intros [x|]; [auto with okx|]. apply IH. lia.
  Qed.
  Lemma advance_ext : okx PRR (advance e o1) (advance e o2).
  Proof.
    intros s t x s' HP K. unfold advance in *. eapply advance_loop_ext; [apply (oe_fuel _ _ _ HE), HP|exact HP|exact K].
  Qed.
  Lemma leading_ext n s t : PRR s t -> exists more, leading (run e o2 n t) = leading (run e o1 n s) ++ more.
  Proof.
    revert s t. induction n as [|n IH]; intros s t HP; [exists []; reflexivity|]. cbn [run].
    destruct (next e o1 s) as [r s'] eqn:E. 
    destruct r as [[x|y|p|]|]; try (eexists; reflexivity).
    assert (K : advance e o1 s = (Ok x, s')).
    { unfold next in E. destruct (advance e o1 s) as [[?|[]|?|] ?]; inversion E; reflexivity. }
    destruct (advance_ext s t x s' HP K) as (t' & K2 & HP2).
    assert (next e o2 t = (Some (Ok x), t')) as -> by (unfold next; rewrite K2; reflexivity).
    destruct (IH s' t' HP2) as [more IH']. exists more. cbn [leading app]. now rewrite IH'.
  Qed.
End Ext.

(** Lists with a suffix of whole words. *)
Definition suffixed (suf l m : list bool) : Prop := m = l ++ suf.

Lemma list_ext suf : (length suf mod 32 = 0)%nat -> ops_ext (suffixed suf) list_ops list_ops.
Proof.
  intros H. split.
  - intros n l m a l' -> K. cbn [op_read list_ops] in *. unfold list_read in *.
    destruct (_ || _); [discriminate|]. destruct (n <=? N.of_nat (length l)) eqn:E; [|destruct l; discriminate].
    injection K as <- <-. rewrite app_length. replace (n <=? _) with true by lia.
    rewrite firstn_app, skipn_app. replace (N.to_nat n - length l)%nat with 0%nat by lia.
    rewrite firstn_O, skipn_O, app_nil_r. eexists. split; [reflexivity|reflexivity].
  - intros l m ->. cbn [op_align32 list_ops]. unfold list_align32, suffixed.
    rewrite app_length. replace ((length l + length suf) mod 32)%nat with (length l mod 32)%nat.
    + rewrite skipn_app. pose proof (Nat.mod_le (length l) 32). replace (length l mod 32 - length l)%nat with 0%nat by lia. reflexivity.
    + rewrite Nat.add_mod by discriminate. rewrite H, Nat.add_0_r. symmetry. apply Nat.mod_mod. discriminate.
  - intros l m ->. cbn. destruct l; [discriminate|reflexivity].
  - intros l m ->. cbn. rewrite app_length. lia.
Qed.

Lemma leading_upto l : leading (upto_stop l) = leading l.
Proof. induction l as [|[[x|x|p|]|] l IH]; cbn; congruence. Qed.

Lemma raw_extended e buf suf b1 : from_raw buf = Ok b1 -> N.of_nat (length suf) mod 4 = 0 ->
  exists b2, from_raw (buf ++ suf) = Ok b2 /\ bs_magic b2 = bs_magic b1 /\
    forall n, exists more, leading (run e cursor_ops n (bs_parser b2)) = leading (run e cursor_ops n (bs_parser b1)) ++ more.
Proof.
  intros H HS. pose proof (from_raw_spec buf) as K1. pose proof (from_raw_spec (buf ++ suf)) as K2.
  destruct (_ && _) eqn:E1 in K1; [|congruence]. destruct K1 as (c1 & K1 & T1).
  rewrite app_length in K2. replace (_ && _) with true in K2 by lia. destruct K2 as (c2 & K2 & T2).
  rewrite H in K1. injection K1 as ->. eexists. split; [exact K2|]. cbn [bs_magic bs_parser].
  assert (L : (32 <= length (bits_of_bytes buf))%nat) by (rewrite bits_of_bytes_length; lia).
  assert (Z : (32 - length (bits_of_bytes buf) = 0)%nat) by lia.
  rewrite bits_of_bytes_app in *. rewrite skipn_app, Z, skipn_O in T2.
  split; [rewrite firstn_app, Z, firstn_O, app_nil_r; reflexivity|].
  intros n.
  destruct (leading_ext (suffixed (bits_of_bytes suf)) list_ops list_ops (list_ext (bits_of_bytes suf) ltac:(rewrite bits_of_bytes_length; lia)) e n
    (parser_new (skipn 32 (bits_of_bytes buf))) (parser_new (skipn 32 (bits_of_bytes buf) ++ bits_of_bytes suf))) as [more K].
  { split; [reflexivity|]. split; reflexivity. }
  exists more. 
  rewrite <- (leading_upto (run e cursor_ops n (parser_new c1))), <- (leading_upto (run e cursor_ops n (parser_new c2))).
  rewrite (sim_run _ _ _ (cursor_sim buf (N.of_nat (length buf))) e n (parser_new c1) (parser_new (skipn 32 (bits_of_bytes buf)))) by (split; [exact T1|]; split; reflexivity).
  rewrite (sim_run _ _ _ (cursor_sim (buf ++ suf) (N.of_nat (length buf + length suf))) e n (parser_new c2) (parser_new (skipn 32 (bits_of_bytes buf) ++ bits_of_bytes suf))) by (split; [exact T2|]; split; reflexivity).
  rewrite !leading_upto. exact K.
Qed.
