(** What the build and the machine ([env]) can change: nothing but which inputs panic. *)
From Coq Require Import Lia ZifyBool ZifyNat ZifyN.
From Verif Require Import Base Strings EnumModel SupportModel CursorModel StreamModel UnrollModel TablesModel TypeTableModel
  RecordModel ModuleModel ExtraModel ResourceModel.
Local Open Scope N_scope.

(** [e1] panics wherever [e2] does: it has overflow checks if [e2] has them, and no more memory. *)
Definition harder (e1 e2 : env) : Prop :=
  (overflow_checks e2 = true -> overflow_checks e1 = true) /\ alloc_limit e1 <= alloc_limit e2.

(** The panics that [e1] can have and [e2] not: those of overflow checks which only [e1] has, and
    those of a request for memory if [e1] has less. *)
Definition extra_panic (e1 e2 : env) (p : panic) : Prop :=
  (overflow_checks e1 = true /\ overflow_checks e2 = false /\
   In p [PShiftOverflow; PAddOverflow; PSubOverflow; PAbbrevCount; PMulOverflow]) \/
  (alloc_limit e1 < alloc_limit e2 /\ p = PAlloc).

Section Agree.
  Context (e1 e2 : env) (HD : harder e1 e2).

  Definition agrees {E A} (a b : outcome E A) : Prop :=
    a = b \/ exists p, extra_panic e1 e2 p /\ a = Panic p.
  Definition magrees {St E A} (m1 m2 : M St E A) : Prop :=
    forall s, m1 s = m2 s \/ exists p s', extra_panic e1 e2 p /\ m1 s = (Panic p, s').

  Lemma ag_refl E A (a : outcome E A) : agrees a a.
  Proof. now left. Qed.
  Lemma ag_panic E A p (b : outcome E A) : extra_panic e1 e2 p -> agrees (Panic p) b.
  Proof. right; eauto. Qed.
  Lemma ag_bind E A B (a b : outcome E A) (k l : A -> outcome E B) :
    agrees a b -> (forall x, agrees (k x) (l x)) -> agrees (obind a k) (obind b l).
  Proof.
    intros [->|(p & X & ->)] K; [|right; exists p; auto].
    destruct b as [x|x|q|]; cbn; [apply K|now left..].
  Qed.
  Lemma ag_map E F A (f : E -> F) (a b : outcome E A) : agrees a b -> agrees (omap_err f a) (omap_err f b).
  Proof. intros [->|(p & X & ->)]; [now left|right; exists p; auto]. Qed.
  Lemma ag_collect E A B (f g : A -> outcome E B) l :
    (forall x, agrees (f x) (g x)) -> agrees (collect f l) (collect g l).
  Proof.
    intros K; induction l as [|x l IH]; cbn [collect]; [apply ag_refl|].
    apply ag_bind; [apply K|]; intros y. apply ag_bind; [exact IH|]; intros ys. apply ag_refl.
  Qed.

  Lemma mag_refl St E A (m : M St E A) : magrees m m.
  Proof. intros s; now left. Qed.
  Lemma mag_crash St E A p (m : M St E A) : extra_panic e1 e2 p -> magrees (crash p) m.
  Proof. intros X s; right; exists p, s; auto. Qed.
  Lemma mag_bind St E A B (m1 m2 : M St E A) (k1 k2 : A -> M St E B) :
    magrees m1 m2 -> (forall x, magrees (k1 x) (k2 x)) -> magrees (bind m1 k1) (bind m2 k2).
  Proof.
    intros H K s. unfold bind. destruct (H s) as [->|(p & s' & X & ->)]; [|right; exists p, s'; auto].
    destruct (m2 s) as [[x|x|q|] s']; [apply K|now left..].
  Qed.
  Lemma mag_lift St E F A (f : E -> F) (m1 m2 : M St E A) : magrees m1 m2 -> magrees (lift_err f m1) (lift_err f m2).
  Proof.
    intros H s. unfold lift_err. destruct (H s) as [->|(p & s' & X & ->)]; [now left|right; exists p, s'; auto].
  Qed.
  Lemma mag_fst St E A (m1 m2 : M St E A) s : magrees m1 m2 -> agrees (fst (m1 s)) (fst (m2 s)).
  Proof. intros H. destruct (H s) as [->|(p & s' & X & ->)]; [now left|right; exists p; auto]. Qed.

  (** Where the two differ. *)
  Lemma ag_checks E A p (b b' : outcome E A) :
    In p [PShiftOverflow; PAddOverflow; PSubOverflow; PAbbrevCount; PMulOverflow] ->
    agrees b b' ->
    agrees (if overflow_checks e1 then Panic p else b) (if overflow_checks e2 then Panic p else b').
  Proof.
    intros I G. destruct HD as [H _].
    destruct (overflow_checks e1) eqn:C1, (overflow_checks e2) eqn:C2; [now left| |discriminate (H eq_refl)|exact G].
    apply ag_panic; left; auto.
  Qed.
  Lemma mag_checks St E A p (c : bool) (b b' : M St E A) :
    In p [PShiftOverflow; PAddOverflow; PSubOverflow; PAbbrevCount; PMulOverflow] ->
    magrees b b' ->
    magrees (if c && overflow_checks e1 then crash p else b) (if c && overflow_checks e2 then crash p else b').
  Proof.
    intros I G. destruct HD as [H _]. destruct c; cbn [andb]; [|exact G].
    destruct (overflow_checks e1) eqn:C1, (overflow_checks e2) eqn:C2; [apply mag_refl| |discriminate (H eq_refl)|exact G].
    apply mag_crash; left; auto.
  Qed.
  Lemma mag_alloc St E n : magrees (St := St) (E := E) (with_capacity e1 n) (with_capacity e2 n).
  Proof.
    unfold with_capacity. destruct HD as [_ L].
    destruct (n <=? alloc_limit e1) eqn:A1, (n <=? alloc_limit e2) eqn:A2; try apply mag_refl; [lia|].
    apply mag_crash; right; split; [lia|reflexivity].
  Qed.
  Lemma ag_alloc E A n (b b' : outcome E A) :
    agrees b b' ->
    agrees (if alloc_limit e1 <? n then Panic PAlloc else b) (if alloc_limit e2 <? n then Panic PAlloc else b').
  Proof.
    intros G. destruct HD as [_ L].
    destruct (alloc_limit e1 <? n) eqn:A1, (alloc_limit e2 <? n) eqn:A2; [now left| |lia|exact G].
    apply ag_panic; right; split; [lia|reflexivity].
  Qed.

  Ltac same := match goal with |- agrees ?a ?b => constr_eq a b; apply ag_refl | |- magrees ?a ?b => constr_eq a b; apply mag_refl end.
  Ltac ag :=
    repeat first
      [ same | assumption
      | match goal with
        | |- agrees (if overflow_checks e1 then _ else _) _ => apply ag_checks; [cbn; tauto|]
        | |- agrees (if alloc_limit e1 <? _ then _ else _) _ => apply ag_alloc
        | |- agrees (obind _ _) _ => apply ag_bind; [|intro]
        | |- agrees (omap_err _ _) _ => apply ag_map
        | |- agrees (collect _ _) _ => apply ag_collect; intro
        end ].

  (** ** The cursor *)
  Lemma ag_add_i64 a b : agrees (add_i64 e1 a b) (add_i64 e2 a b).
  Proof. unfold add_i64. destruct (_ && _)%bool; ag. Qed.
  Lemma mag_seek sf : magrees (seek e1 sf) (seek e2 sf).
  Proof.
    intros c. unfold seek.
    assert (G : agrees (seek_offset e1 c sf) (seek_offset e2 c sf)).
    { destruct sf; cbn [seek_offset]; [ag|destruct (0 <=? pos)%Z; ag; apply ag_add_i64|ag; apply ag_add_i64]. }
    destruct G as [->|(p & X & ->)]; [now left|right; exists p, c; auto].
  Qed.

  Section Ops.
    Context {C : Type} (o : cops C).

    Lemma mag_vbr_loop fuel : forall w r s, magrees (vbr_loop e1 o fuel w r s) (vbr_loop e2 o fuel w r s).
    Proof.
      induction fuel as [|f IH]; intros w r s; cbn [vbr_loop]; [apply mag_refl|].
      apply mag_bind; [apply mag_refl|]; intros block. apply mag_checks; [cbn; tauto|].
      destruct (N.land _ _ =? 0); [apply mag_refl|apply IH].
    Qed.
    Lemma mag_vbr w : magrees (read_vbr e1 o w) (read_vbr e2 o w).
    Proof. intros c. unfold read_vbr. destruct (_ && _)%bool; [apply mag_vbr_loop|now left]. Qed.
    Lemma mag_svbr w : magrees (read_svbr e1 o w) (read_svbr e2 o w).
    Proof. unfold read_svbr. apply mag_bind; [apply mag_vbr|]; intros r. apply mag_refl. Qed.
    Lemma mag_c_vbr w : magrees (c_vbr e1 o w) (c_vbr e2 o w).
    Proof. apply mag_lift, mag_vbr. Qed.

    (** ** The stream *)
    Lemma mag_times_pos St E A (m1 m2 : M St E (list A)) p : magrees m1 m2 -> magrees (times_pos m1 p) (times_pos m2 p).
    Proof.
      intros H; induction p; cbn [times_pos]; [| |exact H].
      - apply mag_bind; [exact IHp|]; intros a. apply mag_bind; [exact IHp|]; intros b.
        apply mag_bind; [exact H|]; intros c. apply mag_refl.
      - apply mag_bind; [exact IHp|]; intros a. apply mag_bind; [exact IHp|]; intros b. apply mag_refl.
    Qed.
    Lemma mag_times St E A (m1 m2 : M St E (list A)) n : magrees m1 m2 -> magrees (times n m1) (times n m2).
    Proof. intros H; destruct n; cbn [times]; [apply mag_refl|now apply mag_times_pos]. Qed.

    Ltac mg :=
      repeat first
        [ same | match goal with
                 | |- magrees (c_vbr _ _ _) _ => apply mag_c_vbr
                 | |- magrees (with_capacity _ _) _ => apply mag_alloc
                 | |- magrees (bind _ _) _ => apply mag_bind; [|intro]
                 | |- magrees (times _ _) _ => apply mag_times
                 end | assumption ].

    Lemma mag_op_parse op : magrees (op_parse e1 o op) (op_parse e2 o op).
    Proof. induction op; cbn [op_parse]; mg. Qed.
    Lemma mag_abbrev_parse a : magrees (abbrev_parse e1 o a) (abbrev_parse e2 o a).
    Proof. induction a; cbn [abbrev_parse]; mg. apply mag_op_parse. Qed.
    Lemma mag_array_elem : magrees (array_elem e1 o) (array_elem e2 o).
    Proof. unfold array_elem. mg. destruct x0; mg. Qed.
    Lemma mag_abbrev_loop fuel : forall num idx acc, magrees (abbrev_loop e1 o fuel num idx acc) (abbrev_loop e2 o fuel num idx acc).
    Proof.
      induction fuel as [|f IH]; intros num idx acc; cbn [abbrev_loop]; [mg|].
      destruct (num <=? idx); [mg|]. apply mag_bind; [mg|]; intros kind.
      destruct (kind =? 1); [apply mag_bind; [mg|]; intros v; apply IH|].
      apply mag_bind; [mg|]; intros enc. destruct enc.
      - apply mag_bind; [mg|]; intros w; apply IH.
      - apply mag_bind; [mg|]; intros w; apply IH.
      - apply mag_checks; [cbn; tauto|]. cbv zeta. destruct (negb _); [mg|].
        apply mag_bind; [apply mag_array_elem|]; intros x; mg.
      - apply IH.
      - destruct (negb _); [mg|apply IH].
    Qed.
    Lemma mag_abbrev_new : magrees (abbrev_new e1 o) (abbrev_new e2 o).
    Proof.
      unfold abbrev_new. apply mag_bind; [mg|]; intros num. destruct (num <? 1); [mg|].
      intros c. apply mag_abbrev_loop.
    Qed.

    Lemma mag_on_cur A (m1 m2 : M C serr A) : magrees m1 m2 -> magrees (on_cur m1) (on_cur m2).
    Proof.
      intros H s. unfold on_cur. destruct (H (p_cur s)) as [->|(p & c & X & ->)]; [now left|].
      right; eexists p, _; split; [exact X|reflexivity].
    Qed.
    Ltac pg :=
      repeat first
        [ same | match goal with
                 | |- magrees (on_cur _) _ => apply mag_on_cur
                 | |- magrees (c_vbr _ _ _) _ => apply mag_c_vbr
                 | |- magrees (with_capacity _ _) _ => apply mag_alloc
                 | |- magrees (bind _ _) _ => apply mag_bind; [|intro]
                 | |- magrees (times _ _) _ => apply mag_times
                 end | assumption ].

    Lemma mag_enter_block : magrees (enter_block e1 o) (enter_block e2 o).
    Proof. unfold enter_block. pg. Qed.
    Lemma mag_define_abbrev : magrees (define_abbrev e1 o) (define_abbrev e2 o).
    Proof. unfold define_abbrev. apply mag_bind; [apply mag_on_cur, mag_abbrev_new|intros a]. pg. Qed.
    Lemma mag_parse_unabbrev : magrees (parse_unabbrev e1 o) (parse_unabbrev e2 o).
    Proof. unfold parse_unabbrev. pg. destruct x; pg. Qed.
    Lemma mag_parse_with_abbrev id : magrees (parse_with_abbrev e1 o id) (parse_with_abbrev e2 o id).
    Proof. unfold parse_with_abbrev. do 2 (apply mag_bind; [pg|intro]). apply mag_bind; [apply mag_on_cur, mag_abbrev_parse|intro]. pg. Qed.
    Lemma mag_step : magrees (step e1 o) (step e2 o).
    Proof.
      intros s. unfold step. destruct (op_exhausted o (p_cur s)); [now left|]. revert s.
      match goal with |- forall s, ?f s = ?g s \/ _ => change (magrees f g) end.
      apply mag_bind; [pg|]; intros sc. apply mag_bind; [pg|]; intros v.
      destruct (abbrev_id_of v); [pg|apply mag_enter_block| |apply mag_parse_unabbrev|apply mag_parse_with_abbrev].
      apply mag_bind; [apply mag_define_abbrev|]; intros u; pg.
    Qed.
    Lemma mag_advance_loop fuel : magrees (advance_loop e1 o fuel) (advance_loop e2 o fuel).
    Proof.
      induction fuel as [|f IH]; cbn [advance_loop]; [pg|].
      apply mag_bind; [apply mag_step|]; intros r. destruct r; [pg|exact IH].
    Qed.
    Lemma mag_advance : magrees (advance e1 o) (advance e2 o).
    Proof. intros s. apply mag_advance_loop. Qed.
    Lemma next_agrees s :
      next e1 o s = next e2 o s \/ exists p s', extra_panic e1 e2 p /\ next e1 o s = (Some (Panic p), s').
    Proof.
      unfold next. destruct (mag_advance s) as [->|(p & s' & X & ->)]; [now left|right; exists p, s'; auto].
    Qed.
  End Ops.

  Lemma ag_from_wrapped buf : agrees (from_wrapped e1 buf) (from_wrapped e2 buf).
  Proof.
    unfold from_wrapped. apply ag_bind; [ag|]; intros w. apply ag_bind; [ag|]; intros c.
    destruct (mag_seek (SeekStart (wr_offset w)) c) as [->|(p & c' & X & ->)]; [ag|now apply ag_panic].
  Qed.
  Lemma ag_from buf : agrees (from e1 buf) (from e2 buf).
  Proof.
    unfold from. apply ag_bind; [ag|]; intros magic. destruct (_ =? _); [|ag].
    apply ag_bind; [apply ag_from_wrapped|]; intros wb; ag.
  Qed.

  (** ** Unrolling *)
  Lemma ag_enter s1 : forall b s,
    agrees (enter (next e1 cursor_ops) s1 b s) (enter (next e2 cursor_ops) s1 b s).
  Proof.
    induction s1 as [|f IH]; intros b s; cbn [enter]; [ag|].
    destruct (next_agrees cursor_ops s) as [->|(p & s' & X & ->)]; [|now apply ag_panic].
    destruct (next e2 cursor_ops s) as [[r|] s']; [|ag].
    apply ag_bind; [ag|]; intros x. destruct x; [ag| |apply IH].
    apply ag_bind; [apply IH|]; intros [child s'']. apply IH.
  Qed.
  Lemma ag_tops s1 : forall rp s,
    agrees (tops (next e1 cursor_ops) s1 rp s) (tops (next e2 cursor_ops) s1 rp s).
  Proof.
    induction s1 as [|f IH]; intros rp s; cbn [tops]; [ag|].
    destruct (next_agrees cursor_ops s) as [->|(p & s' & X & ->)]; [|now apply ag_panic].
    destruct (next e2 cursor_ops s) as [[r|] s']; [|ag].
    apply ag_bind; [ag|]; intros x. destruct x; [ag| |ag].
    apply ag_bind; [apply ag_enter|]; intros [top s'']. apply ag_bind; [ag|]; intros rp'. apply IH.
  Qed.
  Lemma ag_unroll s : agrees (unroll e1 s) (unroll e2 s).
  Proof. unfold unroll. apply ag_bind; [apply ag_tops|]; intros rp; ag. Qed.

  Lemma ag_fields_from E (bad : N -> N -> E) r idx : agrees (fields_from e1 bad r idx) (fields_from e2 bad r idx).
  Proof. unfold fields_from. cbv zeta. apply ag_bind; [destruct (_ =? 0); ag|]; intros l. ag. Qed.
  Lemma ag_try_string r idx : agrees (try_string e1 r idx) (try_string e2 r idx).
  Proof. unfold try_string. apply ag_bind; [apply ag_fields_from|]; intros; ag. Qed.
  Lemma ag_try_blob r idx : agrees (try_blob e1 r idx) (try_blob e2 r idx).
  Proof. unfold try_blob. apply ag_bind; [apply ag_fields_from|]; intros; ag. Qed.

  (** ** Mapping *)
  Lemma ag_strtab_of b : agrees (strtab_of e1 b) (strtab_of e2 b).
  Proof. unfold strtab_of. ag. apply ag_try_blob. Qed.
  Lemma ag_symtab_of b : agrees (symtab_of e1 b) (symtab_of e2 b).
  Proof. unfold symtab_of. ag. apply ag_try_blob. Qed.
  Lemma ag_identification_of b : agrees (identification_of e1 b) (identification_of e2 b).
  Proof. unfold identification_of. ag. apply ag_try_string. Qed.
  Lemma ag_usize_add E a b : agrees (E := E) (usize_add e1 a b) (usize_add e2 a b).
  Proof. unfold usize_add. destruct (_ <? _); ag. Qed.
  Lemma ag_strtab_try_get t off size : agrees (strtab_try_get e1 t off size) (strtab_try_get e2 t off size).
  Proof.
    unfold strtab_try_get. destruct (size =? 0); [ag|]. destruct (_ <=? off); [ag|].
    apply ag_bind; [apply ag_usize_add|]; intros l. destruct (_ <? l); [ag|].
    apply ag_bind; [apply ag_usize_add|]; intros l'. ag.
  Qed.
  Lemma ag_strtab_get t off size : agrees (strtab_get e1 t off size) (strtab_get e2 t off size).
  Proof.
    unfold strtab_get. destruct (ag_strtab_try_get t off size) as [->|(p & X & ->)]; [ag|now apply ag_panic].
  Qed.
  Lemma ag_strtab_read_name t r : agrees (strtab_read_name e1 t r) (strtab_read_name e2 t r).
  Proof. unfold strtab_read_name. destruct (r_fields r) as [|? [|? ?]]; [ag|ag|apply ag_strtab_try_get]. Qed.
  Lemma ag_comdat_of v t r : agrees (comdat_of e1 v t r) (comdat_of e2 v t r).
  Proof.
    unfold comdat_of. destruct (negb _); [ag|]. destruct (r_fields r) as [|? [|? [|? [|? ?]]]]; try solve [ag].
    apply ag_bind; [ag; apply ag_strtab_try_get|]; intros; ag.
  Qed.
  Lemma ag_fn_of c r : agrees (fn_of e1 c r) (fn_of e2 c r).
  Proof.
    unfold fn_of. destruct (negb _); [ag|]. destruct (_ <? _)%nat; [ag|].
    apply ag_bind; [apply ag_map, ag_strtab_read_name|]; intros; apply ag_refl.
  Qed.
  Lemma ag_alias_of c r : agrees (alias_of e1 c r) (alias_of e2 c r).
  Proof.
    unfold alias_of. destruct (negb _); [ag|]. destruct (_ <? _)%nat; [ag|].
    apply ag_bind; [apply ag_map, ag_strtab_read_name|]; intros; apply ag_refl.
  Qed.
  Lemma ag_type_step st r : agrees (type_step e1 st r) (type_step e2 st r).
  Proof.
    unfold type_step. destruct st as [ps name]. cbv zeta. apply ag_bind; [ag|]; intros code.
    destruct code; try solve [apply ag_refl]. apply ag_bind; [apply ag_map, ag_try_string|]; intros; ag.
  Qed.
  Lemma ag_type_loop l : forall st, agrees (type_loop e1 l st) (type_loop e2 l st).
  Proof.
    induction l as [|r l IH]; intros st; cbn [type_loop]; [ag|].
    apply ag_bind; [apply ag_type_step|]; intros st'; apply IH.
  Qed.
  Lemma ag_type_table_of b : agrees (type_table_of e1 b) (type_table_of e2 b).
  Proof. unfold type_table_of. ag. apply ag_type_loop. Qed.
  Lemma ag_fn_block_of t b : agrees (fn_block_of e1 t b) (fn_block_of e2 t b).
  Proof. unfold fn_block_of. ag. Qed.
  Lemma ag_strings_of code b : agrees (strings_of e1 code b) (strings_of e2 code b).
  Proof. unfold strings_of. ag. apply ag_try_string. Qed.
  Lemma ag_module_ctx t b : agrees (module_ctx e1 t b) (module_ctx e2 t b).
  Proof.
    unfold module_ctx. cbv zeta.
    apply ag_bind; [ag|intros r]. apply ag_bind; [ag|intros version]. apply ag_bind; [ag|intros ol].
    apply ag_bind; [destruct ol; [apply ag_bind; [apply ag_map, ag_try_string|intros; ag]|ag]|intros lay].
    apply ag_bind; [apply ag_strings_of|intros sections]. apply ag_bind; [apply ag_strings_of|intros gcs].
    apply ag_bind; [ag|intros tb]. apply ag_bind; [apply ag_map, ag_type_table_of|intros types].
    apply ag_bind; [ag|intros vb]. apply ag_bind; [ag|intros gb]. apply ag_bind; [ag|intros groups].
    apply ag_bind; [ag|intros ab]. apply ag_bind; [ag|intros attrs].
    apply ag_bind; [apply ag_map, ag_collect; intro; apply ag_comdat_of|intros comdats]. ag.
  Qed.
  Lemma ag_module_map host t b : agrees (module_map e1 host t b) (module_map e2 host t b).
  Proof.
    unfold module_map.
    apply ag_bind; [apply ag_module_ctx|intros c]. apply ag_bind; [ag|intros ot].
    apply ag_bind; [destruct ot; [apply ag_map, ag_try_string|ag]|intros triple].
    apply ag_bind; [ag|intros oa].
    apply ag_bind; [destruct oa; [apply ag_bind; [apply ag_map, ag_try_string|intros; ag]|ag]|intros asm].
    apply ag_bind; [apply ag_strings_of|intros deplibs].
    apply ag_bind; [apply ag_map, ag_collect; intro; apply ag_fn_of|intros fns].
    apply ag_bind; [apply ag_map, ag_collect; intro; apply ag_fn_block_of|intros us].
    apply ag_bind; [apply ag_map, ag_collect; intro; apply ag_alias_of|intros als]. ag.
  Qed.
  Lemma ag_module_of host t b : agrees (module_of e1 host t b) (module_of e2 host t b).
  Proof. unfold module_of. apply ag_bind; [apply ag_module_map|]; intros [[[m c] fns] als]; ag. Qed.
  Lemma ag_reify_module host p : agrees (reify_module e1 host p) (reify_module e2 host p).
  Proof.
    unfold reify_module.
    apply ag_bind; [ag|intros sb]. apply ag_bind; [apply ag_map, ag_strtab_of|intros t].
    apply ag_bind; [apply ag_map, ag_identification_of|intros i]. apply ag_bind; [ag|intros mb].
    apply ag_bind; [apply ag_map, ag_module_of|intros m].
    apply ag_bind; [destruct (pt_symtab p); [apply ag_bind; [apply ag_map, ag_symtab_of|intros; ag]|ag]|intros s]. ag.
  Qed.
  Lemma ag_bitcode_of_stream host s : agrees (bitcode_of_stream e1 host s) (bitcode_of_stream e2 host s).
  Proof.
    unfold bitcode_of_stream. apply ag_bind; [apply ag_map, ag_unroll|intros ps].
    apply ag_collect; intro; apply ag_reify_module.
  Qed.
  Lemma ag_bitcode_of host buf : agrees (bitcode_of e1 host buf) (bitcode_of e2 host buf).
  Proof.
    unfold bitcode_of. apply ag_bind; [apply ag_map, ag_from|intros [w b]]. apply ag_bitcode_of_stream.
  Qed.

  (** ** Alignments and the example program *)
  Lemma ag_byte_align E a : agrees (E := E) (byte_align e1 a) (byte_align e2 a).
  Proof. unfold byte_align. destruct (_ <? _); ag. Qed.
  Lemma ag_bit_align E a : agrees (E := E) (bit_align e1 a) (bit_align e2 a).
  Proof. unfold bit_align. apply ag_bind; [apply ag_byte_align|intros b]. destruct (_ <? _); ag. Qed.
  Lemma ag_align_display a : agrees (align_display e1 a) (align_display e2 a).
  Proof. unfold align_display. apply ag_bind; [apply ag_byte_align|intros; ag]. Qed.

  (** Of the dump: the same, or a panic after lines with which the other begins. *)
  Definition dump_agrees (d1 d2 : list line * outcome serr unit) : Prop :=
    d1 = d2 \/ exists p l, extra_panic e1 e2 p /\ snd d1 = Panic p /\ fst d2 = fst d1 ++ l.
  Lemma dump_panics p d : extra_panic e1 e2 p -> dump_agrees ([], Panic p) d.
  Proof. intros X; right; exists p, (fst d); auto. Qed.
  Lemma dump_cons x d1 d2 :
    dump_agrees d1 d2 ->
    dump_agrees (let (l, r) := d1 in (x ++ l, r)) (let (l, r) := d2 in (x ++ l, r)).
  Proof.
    destruct d1 as [l1 r1], d2 as [l2 r2]. intros [[= -> ->]|(p & l & X & P & Q)]; [now left|].
    cbn in P, Q. right; exists p, l. cbn. split; [exact X|]. split; [exact P|]. now rewrite Q, app_assoc.
  Qed.
  Lemma ag_dump_loop f : forall scope s, dump_agrees (dump_loop f e1 scope s) (dump_loop f e2 scope s).
  Proof.
    induction f as [|f IH]; intros scope s; cbn [dump_loop]; [now left|].
    destruct (next_agrees cursor_ops s) as [->|(p & s' & X & ->)]; [|now apply dump_panics].
    destruct (next e2 cursor_ops s) as [[[x|x|p|]|] s']; try now left.
    destruct x as [|bid len|a code fields].
    - unfold scope_dec. destruct (1 <=? scope); [apply (dump_cons [LEnd (scope - 1)]), IH|].
      destruct HD as [H _].
      destruct (overflow_checks e1) eqn:C1, (overflow_checks e2) eqn:C2;
        [now left| |discriminate (H eq_refl)|apply (dump_cons [LEnd u64_max]), IH].
      apply dump_panics. left; cbn; tauto.
    - apply (dump_cons [LBlock scope bid]), IH.
    - apply (dump_cons [LRecord scope code fields]), IH.
  Qed.
  Lemma ag_dump buf : dump_agrees (dump e1 buf) (dump e2 buf).
  Proof.
    unfold dump. destruct (ag_from buf) as [->|(p & X & ->)]; [|now apply dump_panics].
    destruct (from e2 buf) as [[w b]|x|p|]; try now left.
    cbv zeta. apply dump_cons, ag_dump_loop.
  Qed.
End Agree.

(** Any two builds: below both there is one with the checks of neither and the memory of both. *)
Definition join (e1 e2 : env) : env :=
  {| overflow_checks := overflow_checks e1 && overflow_checks e2; alloc_limit := N.max (alloc_limit e1) (alloc_limit e2) |}.
Lemma join_l e1 e2 : harder e1 (join e1 e2).
Proof. split; cbn; [intros H; apply andb_prop in H; tauto|lia]. Qed.
Lemma join_r e1 e2 : harder e2 (join e1 e2).
Proof. split; cbn; [intros H; apply andb_prop in H; tauto|lia]. Qed.

Lemma any_two E A (f : env -> outcome E A) :
  (forall e1 e2, harder e1 e2 -> agrees e1 e2 (f e1) (f e2)) ->
  forall e1 e2, f e1 = f e2 \/ (exists p, f e1 = Panic p) \/ (exists p, f e2 = Panic p).
Proof.
  intros H e1 e2.
  destruct (H e1 (join e1 e2) (join_l e1 e2)) as [A1|(p & _ & A1)]; [|right; left; eauto].
  destruct (H e2 (join e1 e2) (join_r e1 e2)) as [A2|(p & _ & A2)]; [|right; right; eauto].
  left; congruence.
Qed.
Lemma any_two_m St E A (f : env -> M St E A) :
  (forall e1 e2, harder e1 e2 -> magrees e1 e2 (f e1) (f e2)) ->
  forall e1 e2 s, f e1 s = f e2 s \/ (exists p, fst (f e1 s) = Panic p) \/ (exists p, fst (f e2 s) = Panic p).
Proof.
  intros H e1 e2 s.
  destruct (H e1 (join e1 e2) (join_l e1 e2) s) as [A1|(p & s' & _ & A1)]; [|right; left; exists p; now rewrite A1].
  destruct (H e2 (join e1 e2) (join_r e1 e2) s) as [A2|(p & s' & _ & A2)]; [|right; right; exists p; now rewrite A2].
  left; congruence.
Qed.
Lemma next_any_two C (o : cops C) e1 e2 s :
  next e1 o s = next e2 o s \/ (exists p, fst (next e1 o s) = Some (Panic p)) \/ (exists p, fst (next e2 o s) = Some (Panic p)).
Proof.
  destruct (next_agrees _ _ (join_l e1 e2) o s) as [A1|(p & s' & _ & A1)]; [|right; left; exists p; now rewrite A1].
  destruct (next_agrees _ _ (join_r e1 e2) o s) as [A2|(p & s' & _ & A2)]; [|right; right; exists p; now rewrite A2].
  left; congruence.
Qed.
Lemma dump_any_two e1 e2 buf :
  dump e1 buf = dump e2 buf \/ (exists p, snd (dump e1 buf) = Panic p) \/ (exists p, snd (dump e2 buf) = Panic p).
Proof.
  destruct (ag_dump _ _ (join_l e1 e2) buf) as [A1|(p & l & _ & A1 & _)]; [|right; left; exists p; exact A1].
  destruct (ag_dump _ _ (join_r e1 e2) buf) as [A2|(p & l & _ & A2 & _)]; [|right; right; exists p; exact A2].
  left; congruence.
Qed.
