(** Generic facts about the stream parser: loops, simulation, preservation, progress. *)
From Verif Require Import Base CursorModel CursorSpec CursorProofs CursorSim CursorVbr CursorMain StreamModel.
From Coq Require Import Lia ZifyBool ZifyNat ZifyN.
Ltac Zify.zify_post_hook ::= Z.div_mod_to_equations.
Local Open Scope N_scope.
Arguments N.add : simpl never.
Arguments N.mul : simpl never.
Arguments N.div : simpl never.
Arguments N.modulo : simpl never.
Arguments N.sub : simpl never.
Arguments N.pow : simpl never.

(** ** [times] as a plain loop *)

Fixpoint times_n {St E A} (n : nat) (m : M St E (list A)) : M St E (list A) :=
  match n with
  | O => ret []
  | S n' => bind m (fun a => bind (times_n n' m) (fun b => ret (a ++ b)))
  end.

Lemma times_n_add {St E A} (m : M St E (list A)) a b s :
  times_n (a + b) m s = bind (times_n a m) (fun x => bind (times_n b m) (fun y => ret (x ++ y))) s.
Proof.
  revert s. induction a as [|a IH]; intros s; cbn [Nat.add times_n].
  - unfold bind, ret. destruct (times_n b m s) as [[]]; reflexivity.
  - unfold bind in *. destruct (m s) as [[x| | |] s1]; try reflexivity.
    rewrite IH. destruct (times_n a m s1) as [[y| | |] s2]; try reflexivity. unfold ret.
    destruct (times_n b m s2) as [[z| | |] s3]; try reflexivity. now rewrite app_assoc.
Qed.

Lemma times_n_1 {St E A} (m : M St E (list A)) s : times_n 1 m s = m s.
Proof.
  cbn [times_n]. unfold bind, ret. destruct (m s) as [[x| | |] s1]; try reflexivity. now rewrite app_nil_r.
Qed.

Lemma times_pos_nat {St E A} (m : M St E (list A)) p s : times_pos m p s = times_n (Pos.to_nat p) m s.
Proof.
  revert s. induction p as [q IH|q IH|]; intros s; cbn [times_pos].
  - replace (Pos.to_nat q~1) with (Pos.to_nat q + (Pos.to_nat q + 1))%nat by lia.
    rewrite times_n_add. unfold bind. rewrite IH. destruct (times_n (Pos.to_nat q) m s) as [[x| | |] s1]; try reflexivity.
    rewrite times_n_add. unfold bind. rewrite IH. destruct (times_n (Pos.to_nat q) m s1) as [[y| | |] s2]; try reflexivity.
    rewrite times_n_1. destruct (m s2) as [[z| | |] s3]; reflexivity.
  - replace (Pos.to_nat q~0) with (Pos.to_nat q + Pos.to_nat q)%nat by lia.
    rewrite times_n_add. unfold bind. rewrite IH. destruct (times_n (Pos.to_nat q) m s) as [[x| | |] s1]; try reflexivity.
    rewrite IH. destruct (times_n (Pos.to_nat q) m s1) as [[y| | |] s2]; reflexivity.
  - now rewrite times_n_1.
Qed.

Lemma times_nat {St E A} (m : M St E (list A)) n s : times n m s = times_n (N.to_nat n) m s.
Proof. destruct n as [|p]; [reflexivity|]. apply times_pos_nat. Qed.

(** ** Simulation *)

Lemma sim_ret {C D E A} (R : C -> D -> Prop) (a : A) c d : R c d -> sim_res R (ret (E := E) a c) (ret a d).
Proof. intros H. split; auto. Qed.
Lemma sim_fail {C D E A} (R : C -> D -> Prop) (x : E) c d : sim_res (A := A) R (fail x c) (fail x d).
Proof. reflexivity. Qed.
Lemma sim_crash {C D E A} (R : C -> D -> Prop) p c d : sim_res (E := E) (A := A) R (crash p c) (crash p d).
Proof. reflexivity. Qed.

Lemma sim_times {C D E A} (R : C -> D -> Prop) (m1 : M C E (list A)) (m2 : M D E (list A)) n c d :
  (forall c d, R c d -> sim_res R (m1 c) (m2 d)) -> R c d -> sim_res R (times n m1 c) (times n m2 d).
Proof.
  intros Hm. rewrite !times_nat. generalize (N.to_nat n). intros k. revert c d.
  induction k as [|k IH]; intros c d H; cbn [times_n]; [now apply sim_ret|].
  apply sim_bind; [now apply Hm|]. intros a c1 d1 H1.
  apply sim_bind; [now apply IH|]. intros b c2 d2 H2. now apply sim_ret.
Qed.

Section Sim.
  Context {C D : Type} (R : C -> D -> Prop) (o1 : cops C) (o2 : cops D) (HS : ops_sim R o1 o2) (e : env).
  Let HR := os_read _ _ _ HS.

  Lemma c_read_sim n c d : R c d -> sim_res R (c_read o1 n c) (c_read o2 n d).
  Proof. intros H. apply sim_lift. now apply (rs_read _ _ _ HR). Qed.
  Lemma c_vbr_sim w c d : R c d -> sim_res R (c_vbr e o1 w c) (c_vbr e o2 w d).
  Proof. intros H. apply sim_lift. now apply (read_vbr_sim R). Qed.
  Lemma c_read_as_sim t n c d : R c d -> sim_res R (c_read_as o1 t n c) (c_read_as o2 t n d).
  Proof. intros H. apply sim_lift. now apply (read_as_sim R). Qed.
  Lemma c_align_sim c d : R c d -> sim_res R (c_align o1 c) (c_align o2 d).
  Proof. intros H. split; [reflexivity|]. now apply (os_align _ _ _ HS). Qed.
  Lemma with_capacity_sim n c d : R c d -> sim_res (E := serr) R (with_capacity e n c) (with_capacity e n d).
  Proof. intros H. unfold with_capacity. destruct (_ <=? _); [now apply sim_ret|reflexivity]. Qed.

  Hint Resolve c_read_sim c_vbr_sim c_read_as_sim c_align_sim with_capacity_sim sim_ret sim_fail sim_crash : sim.
  Ltac bnd := apply sim_bind; [auto with sim|intros ? ? ? ?].

  Lemma decode_char6_sim v c d : R c d -> sim_res (E := serr) R (decode_char6 v c) (decode_char6 v d).
  Proof. intros H. unfold decode_char6. destruct (nth_error _ _); auto with sim. Qed.
  Hint Resolve decode_char6_sim : sim.

  Lemma op_parse_sim op c d : R c d -> sim_res R (op_parse e o1 op c) (op_parse e o2 op d).
  Proof.
    revert c d. induction op as [v|w|w|el IH| |]; intros c d H; cbn [op_parse].
    - auto with sim.
    - bnd. auto with sim.
    - bnd. auto with sim.
    - bnd. bnd. now apply sim_times.
    - bnd. bnd. auto with sim.
    - bnd. bnd. bnd. apply sim_bind.
      + apply sim_times; [|assumption]. intros c3 d3 H3. bnd. auto with sim.
      + intros ? ? ? ?. bnd. auto with sim.
  Qed.

  Lemma read_enc_sim c d : R c d -> sim_res R (read_enc o1 c) (read_enc o2 d).
  Proof. intros H. unfold read_enc. bnd. destruct (abbrev_enc_of _); auto with sim. Qed.
  Hint Resolve read_enc_sim : sim.

  Lemma array_elem_sim c d : R c d -> sim_res R (array_elem e o1 c) (array_elem e o2 d).
  Proof. intros H. unfold array_elem. bnd. bnd. destruct a0; auto with sim; bnd; auto with sim. Qed.
  Hint Resolve array_elem_sim : sim.

  Lemma abbrev_loop_sim f num idx acc c d :
    R c d -> sim_res R (abbrev_loop e o1 f num idx acc c) (abbrev_loop e o2 f num idx acc d).
  Proof.
    revert idx acc c d. induction f as [|f IH]; intros idx acc c d H; cbn [abbrev_loop]; [exact I|].
    destruct (num <=? idx); [auto with sim|]. bnd.
    destruct (_ =? 1); [bnd; auto|]. bnd. destruct a0.
    - bnd. auto.
    - bnd. auto.
    - destruct (_ && _); [auto with sim|]. destruct (negb _); [auto with sim|]. bnd. auto with sim.
    - auto.
    - destruct (negb _); auto with sim.
  Qed.

  Lemma abbrev_new_sim c d : R c d -> sim_res R (abbrev_new e o1 c) (abbrev_new e o2 d).
  Proof.
    intros H. unfold abbrev_new. bnd. destruct (_ <? _); [auto with sim|].
    rewrite (rs_fuel _ _ _ HR _ _ H0). now apply abbrev_loop_sim.
  Qed.

  Lemma abbrev_parse_sim a c d : R c d -> sim_res R (abbrev_parse e o1 a c) (abbrev_parse e o2 a d).
  Proof.
    revert c d. induction a as [|op a IH]; intros c d H; cbn [abbrev_parse]; [auto with sim|].
    apply sim_bind; [now apply op_parse_sim|]. intros x c1 d1 H1.
    apply sim_bind; [now apply IH|]. intros y c2 d2 H2. auto with sim.
  Qed.

  (** Parser states. *)
  Definition PR (s : sparser C) (t : sparser D) : Prop :=
    R (p_cur s) (p_cur t) /\ p_scopes s = p_scopes t /\ p_info s = p_info t.

  Lemma on_cur_sim {A} (m1 : M C serr A) (m2 : M D serr A) s t :
    PR s t -> sim_res R (m1 (p_cur s)) (m2 (p_cur t)) -> sim_res PR (on_cur m1 s) (on_cur m2 t).
  Proof.
    intros (H1 & H2 & H3) H. unfold on_cur, sim_res in *.
    destruct (m1 (p_cur s)) as [[] c']; destruct (m2 (p_cur t)) as [[] d']; cbn [fst snd] in *; try contradiction; auto.
    destruct H as [-> H]. split; [reflexivity|]. split; [exact H|]. split; assumption.
  Qed.

  Lemma get_scope_sim s t : PR s t -> sim_res PR (get_scope s) (get_scope t).
  Proof.
    intros H. pose proof H as (H1 & H2 & H3). unfold get_scope. rewrite H2. destruct (p_scopes t); [reflexivity|].
    split; auto.
  Qed.
  Lemma set_scope_sim sc s t : PR s t -> sim_res PR (set_scope sc s) (set_scope sc t).
  Proof.
    intros H. pose proof H as (H1 & H2 & H3). unfold set_scope. rewrite H2. destruct (p_scopes t); [reflexivity|].
    split; [reflexivity|]. split; [exact H1|]. split; [reflexivity|exact H3].
  Qed.
  Lemma push_scope_sim sc s t : PR s t -> sim_res PR (push_scope sc s) (push_scope sc t).
  Proof.
    intros (H1 & H2 & H3). split; [reflexivity|]. split; [exact H1|]. cbn. split; [congruence|exact H3].
  Qed.
  Hint Resolve get_scope_sim set_scope_sim push_scope_sim : sim.
  Lemma PR_cur s t : PR s t -> R (p_cur s) (p_cur t).
  Proof. intros H. apply H. Qed.
  Hint Resolve PR_cur : sim.
  Ltac cur := apply sim_bind; [apply on_cur_sim; auto 6 with sim|intros ? ? ? ?].

  Lemma extend_scope_sim l s t : PR s t -> sim_res PR (extend_scope l s) (extend_scope l t).
  Proof. intros H. unfold extend_scope. bnd. destruct (sc_extend _ _); auto with sim. Qed.
  Hint Resolve extend_scope_sim : sim.

  Lemma enter_block_sim s t : PR s t -> sim_res PR (enter_block e o1 s) (enter_block e o2 t).
  Proof.
    intros H. unfold enter_block. cur. cur. cur. destruct (_ <? 1); [auto with sim|].
    cur. bnd. apply sim_bind.
    - match goal with Q : PR ?x ?y |- sim_res PR (match info_get (p_info ?x) _ with _ => _ end) _ =>
        pose proof Q as (_ & _ & Q3); rewrite Q3 end.
      destruct (info_get _ _); auto with sim.
    - intros ? ? ? ?. bnd. destruct (sc_is_blockinfo _); auto with sim.
  Qed.

  Lemma exit_block_sim s t : PR s t -> sim_res PR (exit_block o1 s) (exit_block o2 t).
  Proof.
    intros H. unfold exit_block. cur. destruct H0 as (H1 & H2 & H3). rewrite H2.
    destruct (p_scopes d') as [|sc [|]]; try reflexivity.
    split; [reflexivity|]. split; [exact H1|]. split; [reflexivity|exact H3].
  Qed.

  Lemma define_abbrev_sim s t : PR s t -> sim_res PR (define_abbrev e o1 s) (define_abbrev e o2 t).
  Proof.
    intros H. unfold define_abbrev. apply sim_bind; [apply on_cur_sim; [exact H|now apply abbrev_new_sim, H]|].
    intros a c1 d1 H1. bnd. destruct (sc_is_blockinfo _); [|auto with sim].
    destruct (sc_blockinfo_bid _); [|auto with sim].
    destruct H0 as (K1 & K2 & K3). split; [reflexivity|]. split; [exact K1|]. cbn. split; congruence.
  Qed.

  Lemma parse_unabbrev_sim s t : PR s t -> sim_res PR (parse_unabbrev e o1 s) (parse_unabbrev e o2 t).
  Proof.
    intros H. unfold parse_unabbrev. bnd. destruct a; [auto with sim|]. cur. cur.
    apply sim_bind.
    { unfold with_capacity. destruct (_ <=? _); auto with sim. }
    intros ? ? ? ?. apply sim_bind.
    { apply on_cur_sim; [assumption|]. apply sim_times; [|auto with sim]. intros. bnd. auto with sim. }
    intros ? ? ? ?. bnd. destruct (sc_is_blockinfo _); [|auto with sim].
    destruct (blockinfo_code_of _) as [[]|]; auto with sim.
    match goal with |- context [match ?l with [] => _ | _ :: _ => _ end] => destruct l end; [auto with sim|].
    destruct (sc_set_bid _ _); [|auto with sim]. bnd. auto with sim.
  Qed.

  Lemma get_abbrev_sim sc id s t : PR s t -> sim_res PR (get_abbrev sc id s) (get_abbrev sc id t).
  Proof.
    intros H. unfold get_abbrev. destruct sc; [auto with sim|]. destruct (_ <? _); [auto with sim|].
    destruct (nth_error _ _); auto with sim.
  Qed.

  Lemma parse_with_abbrev_sim id s t :
    PR s t -> sim_res PR (parse_with_abbrev e o1 id s) (parse_with_abbrev e o2 id t).
  Proof.
    intros H. unfold parse_with_abbrev. bnd.
    apply sim_bind; [now apply get_abbrev_sim|]. intros ? ? ? ?.
    apply sim_bind; [apply on_cur_sim; [assumption|apply abbrev_parse_sim; auto with sim]|]. intros ? ? ? ?.
    match goal with |- context [match ?l with [] => _ | _ :: _ => _ end] => destruct l end; [auto with sim|].
    bnd. destruct (sc_is_blockinfo _); auto with sim.
  Qed.

  Lemma step_sim s t : PR s t -> sim_res PR (step e o1 s) (step e o2 t).
  Proof.
    intros H. unfold step. rewrite (os_exhausted _ _ _ HS _ _ (PR_cur _ _ H)).
    destruct (op_exhausted _ _); [reflexivity|]. bnd. cur.
    destruct (abbrev_id_of _).
    - now apply exit_block_sim.
    - now apply enter_block_sim.
    - apply sim_bind; [now apply define_abbrev_sim|]. intros. auto with sim.
    - now apply parse_unabbrev_sim.
    - now apply parse_with_abbrev_sim.
  Qed.

  Lemma advance_loop_sim f s t : PR s t -> sim_res PR (advance_loop e o1 f s) (advance_loop e o2 f t).
  Proof.
    revert s t. induction f as [|f IH]; intros s t H; cbn [advance_loop]; [exact I|].
    apply sim_bind; [now apply step_sim|]. intros [x|] s1 t1 H1; auto with sim.
  Qed.

  Lemma advance_sim s t : PR s t -> sim_res PR (advance e o1 s) (advance e o2 t).
  Proof.
    intros H. unfold advance. rewrite (rs_fuel _ _ _ HR _ _ (PR_cur _ _ H)). now apply advance_loop_sim.
  Qed.
End Sim.
