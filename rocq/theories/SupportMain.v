(** Pointer specification histories, parsed specifications, enumerations. *)
From Verif Require Import Base Strings StreamModel EnumModel SupportModel SupportSpec SupportProofs.
From Coq Require Import Lia ZifyBool ZifyNat ZifyN Sorted.
Ltac Zify.zify_post_hook ::= Z.div_mod_to_equations.
Local Open Scope N_scope.
Arguments N.add : simpl never.
Arguments N.mul : simpl never.
Arguments N.div : simpl never.
Arguments N.modulo : simpl never.
Arguments N.sub : simpl never.
Arguments N.pow : simpl never.

Lemma collapse_nil l : collapse l = [] -> l = [].
Proof.
  destruct l as [|a l] using rev_ind; [reflexivity|]. intros H. exfalso.
  destruct (collapse_last (l ++ [a]) a (rev l)) as [r Hr]; [apply rev_app_distr|].
  rewrite H in Hr. discriminate.
Qed.

Lemma specs_of_one k s : specs_of k [s] = if ps_space s =? k then [s] else [].
Proof. reflexivity. Qed.

Lemma ptr_updates_main us :
  StronglySorted (fun x y => ps_space x <= ps_space y) (fold_left ptr_specs_update us ptr_specs_default) /\
  forall k, specs_of k (fold_left ptr_specs_update us ptr_specs_default) =
            collapse (specs_of k (ptr_specs_default ++ us)).
Proof.
  induction us as [|s us IH] using rev_ind.
  - split; [repeat constructor|]. intros k. rewrite app_nil_r. unfold ptr_specs_default. cbn [fold_left].
    rewrite specs_of_one. destruct (_ =? _); reflexivity.
  - rewrite fold_left_app. cbn [fold_left]. destruct IH as [A B]. split; [apply (ptr_update_sorted _ s A)|].
    intros k. specialize (B k). rewrite app_assoc, specs_of_app, specs_of_one.
    remember (fold_left ptr_specs_update us ptr_specs_default) as l eqn:El. clear El.
    remember (specs_of k (ptr_specs_default ++ us)) as L eqn:EL. clear EL.
    destruct (ps_space s =? k) eqn:K.
    + apply N.eqb_eq in K. rewrite collapse_snoc.
      destruct (ptr_update_cases l s) as [(l1 & l2 & -> & Hl & ->)|(l1 & l2 & -> & H1 & Hl & ->)].
      * rewrite specs_of_app in B. change (s :: l2) with ([s] ++ l2) in B. rewrite specs_of_app in B.
        rewrite (specs_of_none k l2) in B by (intros y Hy; specialize (Hl y Hy); lia).
        rewrite specs_of_one in B. rewrite (proj2 (N.eqb_eq _ _) K) in B. rewrite app_nil_r in B.
        rewrite specs_of_app. change (s :: l2) with ([s] ++ l2). rewrite specs_of_app, specs_of_one.
        rewrite (specs_of_none k l2) by (intros y Hy; specialize (Hl y Hy); lia).
        rewrite (proj2 (N.eqb_eq _ _) K), app_nil_r.
        destruct (rev L) as [|x r] eqn:R.
        -- assert (L = []) by (rewrite <- (rev_involutive L), R; reflexivity). subst L. cbn in B.
           destruct (specs_of k l1); discriminate.
        -- destruct (collapse_last L x r R) as [r' Hr]. rewrite <- B, rev_app_distr in Hr. cbn in Hr.
           injection Hr as <- _. destruct (ptr_spec_dec s s); [exact B|congruence].
      * rewrite specs_of_app in B.
        rewrite (specs_of_none k l2) in B by (intros y Hy; specialize (Hl y Hy); lia).
        rewrite app_nil_r in B.
        rewrite specs_of_app. change (s :: l2) with ([s] ++ l2). rewrite specs_of_app, specs_of_one.
        rewrite (specs_of_none k l2) by (intros y Hy; specialize (Hl y Hy); lia).
        rewrite (proj2 (N.eqb_eq _ _) K), app_nil_r.
        destruct (rev L) as [|x r] eqn:R.
        -- assert (L = []) by (rewrite <- (rev_involutive L), R; reflexivity). subst L. cbn in B.
           rewrite B. reflexivity.
        -- destruct (collapse_last L x r R) as [r' Hr]. rewrite <- B in Hr.
           destruct H1 as [->|(l0 & z & -> & Hz & Hn)]; [discriminate|].
           rewrite specs_of_app, specs_of_one in Hr. destruct (ps_space z =? k) eqn:Z.
           ++ rewrite rev_app_distr in Hr. cbn in Hr. injection Hr as <- _.
              destruct (ptr_spec_dec z s); [contradiction|]. rewrite <- B. reflexivity.
           ++ exfalso. rewrite app_nil_r, (specs_of_none k l0) in Hr; [discriminate|].
              intros y Hy E. apply psorted_app in A as (A & _ & _).
              apply psorted_app in A as (_ & _ & A). specialize (A y z Hy (or_introl eq_refl)).
              unfold ps_ordered in A. lia.
    + rewrite app_nil_r, <- B.
      destruct (ptr_update_cases l s) as [(l1 & l2 & -> & Hl & ->)|(l1 & l2 & -> & H1 & Hl & ->)]; [reflexivity|].
      rewrite !specs_of_app. change (s :: l2) with ([s] ++ l2). rewrite specs_of_app, specs_of_one, K. reflexivity.
Qed.

(** *** Parsed specifications *)

Lemma obind_ok {E A B} (m : outcome E A) (k : A -> outcome E B) b :
  obind m k = Ok b -> exists a, m = Ok a /\ k a = Ok b.
Proof. destruct m; cbn; try discriminate. eauto. Qed.

Lemma omap_err_ok {E F A} (f : E -> F) (m : outcome E A) a : omap_err f m = Ok a -> m = Ok a.
Proof. destruct m; cbn; congruence. Qed.

Lemma type_spec_new_ok t abi pref s : type_spec_new t abi pref = Ok s ->
  s = mkTypeSpec t abi pref /\ a_shift abi <= a_shift pref <= 15.
Proof.
  unfold type_spec_new. destruct (align_lt pref abi) eqn:E; [discriminate|].
  destruct (_ && _) eqn:F; [|discriminate]. intros [= <-]. split; [reflexivity|].
  apply andb_true_iff in F as [F1 F2]. unfold align_lt, align_le, MAX_ALIGN in *. cbn in *. lia.
Qed.

Lemma type_from_str_ok v s : type_spec_from_str v = Ok s ->
  a_shift (ts_abi s) <= a_shift (ts_pref s) <= 15.
Proof.
  unfold type_spec_from_str. destruct v as [|id v]; [discriminate|].
  intros H. apply obind_ok in H as (body & _ & H).
  destruct (id =? ch "a").
  - destruct body as [|c rest]; [discriminate|]. destruct (c =? ch ":"); [|discriminate].
    destruct (split_on (ch ":") rest) as [|p0 ps]; [discriminate|].
    apply obind_ok in H as (abi & _ & H). apply obind_ok in H as (pref & _ & H).
    apply type_spec_new_ok in H as [-> H]. exact H.
  - destruct (split_on (ch ":") body) as [|p0 [|p1 ps]]; try discriminate.
    apply obind_ok in H as (w & _ & H). apply obind_ok in H as (bs & _ & H).
    apply obind_ok in H as (abi & _ & H). apply obind_ok in H as (pref & _ & H).
    destruct (id =? ch "i"); [apply type_spec_new_ok in H as [-> H]; exact H|].
    destruct (id =? ch "v"); [apply type_spec_new_ok in H as [-> H]; exact H|].
    destruct (id =? ch "f"); [apply type_spec_new_ok in H as [-> H]; exact H|]. discriminate.
Qed.

(** *** Binary operations *)

Lemma binary_op_never v t : forall x, binary_op_of v t <> Ok x.
Proof.
  intros x. unfold binary_op_of. destruct (binary_opcode_of v); [|discriminate].
  unfold is_floating_or_floating_vector, is_integer_or_integer_vector.
  destruct (scalar_type t); cbn; discriminate.
Qed.
Lemma binary_op_err v t : exists x, binary_op_of v t = Err x.
Proof.
  destruct (binary_op_of v t) eqn:E; eauto.
  - exfalso. eapply binary_op_never, E.
  - exfalso. revert E. unfold binary_op_of. destruct (binary_opcode_of v) as [b|]; [|discriminate].
    destruct (_ || _); [discriminate|]. destruct b, (is_floating_or_floating_vector t); discriminate.
  - exfalso. revert E. unfold binary_op_of. destruct (binary_opcode_of v) as [b|]; [|discriminate].
    destruct (_ || _); [discriminate|]. destruct b, (is_floating_or_floating_vector t); discriminate.
Qed.

(** *** Enumerations *)

Lemma realises_intro {T : Set} (of : N -> option T) num table :
  (forall x, of (num x) = Some x) -> (forall v x, of v = Some x -> num x = v) ->
  (forall x, existsb (N.eqb (num x)) (map snd table) = true) ->
  forallb (fun p => num (fst p) =? snd p) table = true -> NoDup (map snd table) ->
  realises of num table.
Proof.
  intros A B D F G. rewrite forallb_forall in F.
  assert (F' : forall x v, In (x, v) table -> num x = v) by (intros x v H; apply F in H; cbn in H; lia).
  assert (D' : forall x, In (x, num x) table).
  { intros x. specialize (D x). apply existsb_exists in D as (v & Hv & E). apply N.eqb_eq in E. subst v.
    apply in_map_iff in Hv as ([y v] & E & HI). cbn in E. subst v.
    assert (y = x) as ->; [|assumption]. apply F' in HI.
    assert (Some y = Some x) by (rewrite <- !A, HI; reflexivity). congruence. }
  split; [|split]; [| |exact G].
  - intros v x. split.
    + intros H. apply B in H. subst v. apply D'.
    + intros H. apply F' in H. subst v. apply A.
  - intros v x. split; [intros <-; apply D'|apply F'].
Qed.

Fixpoint distinct (l : list N) : bool :=
  match l with [] => true | x :: l' => negb (existsb (N.eqb x) l') && distinct l' end.
Lemma distinct_nodup l : distinct l = true -> NoDup l.
Proof.
  induction l as [|x l IH]; cbn; intros H; constructor; apply andb_true_iff in H as [H1 H2]; [|apply IH, H2].
  intros HI. apply negb_true_iff in H1. rewrite (proj2 (existsb_exists _ _)) in H1; [discriminate|].
  exists x. split; [assumption|apply N.eqb_refl].
Qed.
Ltac nodup_tac := apply distinct_nodup; reflexivity.
Ltac of_num := intros v x; unfold
  reserved_block_id_of, ir_block_id_of, identification_code_of, module_code_of, type_code_of, strtab_code_of,
  symtab_code_of, attribute_code_of, function_code_of, unary_opcode_of, binary_opcode_of, rmw_operation_of,
  attribute_kind_of, attribute_id_of, visibility_of, dll_storage_class_of, calling_convention_of;
  repeat match goal with
  | |- match ?v with _ => _ end = Some _ -> _ => destruct v
  end; try discriminate; try (intros [= <-]; reflexivity).
Ltac enum :=
  apply realises_intro;
  [ intros []; reflexivity
  | of_num
  | intros []; reflexivity
  | reflexivity
  | nodup_tac ].

Lemma reserved_block_id_realises : realises reserved_block_id_of reserved_block_id_num reserved_block_id_table.
Proof. enum. Qed.
Lemma ir_block_id_realises : realises ir_block_id_of ir_block_id_num ir_block_id_table.
Proof. enum. Qed.
Lemma identification_code_realises : realises identification_code_of identification_code_num identification_code_table.
Proof. enum. Qed.
Lemma module_code_realises : realises module_code_of module_code_num module_code_table.
Proof. enum. Qed.
Lemma type_code_realises : realises type_code_of type_code_num type_code_table.
Proof. enum. Qed.
Lemma strtab_code_realises : realises strtab_code_of strtab_code_num strtab_code_table.
Proof. enum. Qed.
Lemma symtab_code_realises : realises symtab_code_of symtab_code_num symtab_code_table.
Proof. enum. Qed.
Lemma attribute_code_realises : realises attribute_code_of attribute_code_num attribute_code_table.
Proof. enum. Qed.
Lemma function_code_realises : realises function_code_of function_code_num function_code_table.
Proof. enum. Qed.
Lemma unary_opcode_realises : realises unary_opcode_of unary_opcode_num unary_opcode_table.
Proof. enum. Qed.
Lemma binary_opcode_realises : realises binary_opcode_of binary_opcode_num binary_opcode_table.
Proof. enum. Qed.
Lemma rmw_operation_realises : realises rmw_operation_of rmw_operation_num rmw_operation_table.
Proof. enum. Qed.
Lemma attribute_kind_realises : realises attribute_kind_of attribute_kind_num attribute_kind_table.
Proof. enum. Qed.
Lemma attribute_id_realises : realises attribute_id_of attribute_id_num attribute_id_table.
Proof. enum. Qed.
Lemma visibility_realises : realises visibility_of visibility_num visibility_table.
Proof. enum. Qed.
Lemma dll_storage_class_realises : realises dll_storage_class_of dll_storage_class_num dll_storage_class_table.
Proof. enum. Qed.
Lemma calling_convention_realises : realises calling_convention_of calling_convention_num calling_convention_table.
Proof. enum. Qed.

Ltac defaults :=
  split;
  [ intros v x l H Hv; cbn in H;
    repeat (destruct H as [H|H]; [injection H as <- <-; cbn in Hv; intuition (subst; reflexivity)|]); contradiction
  | intros v H; cbn in H ].

Lemma linkage_realises : realises_with_default linkage_of linkage_table LkExternal.
Proof.
  defaults. unfold linkage_of.
  destruct v as [|p]; [reflexivity|].
  repeat (destruct p as [p|p|]; try reflexivity; try (exfalso; eapply H; [|left; reflexivity]; fail)).
  all: exfalso.
  all: try (eapply (H LkWeakAny); [intuition|cbn; intuition]; fail).
  all: try (eapply (H LkAppending); [intuition|cbn; intuition]; fail).
  all: try (eapply (H LkInternal); [intuition|cbn; intuition]; fail).
  all: try (eapply (H LkLinkOnceAny); [intuition|cbn; intuition]; fail).
  all: try (eapply (H LkExternalWeak); [intuition|cbn; intuition]; fail).
  all: try (eapply (H LkCommon); [intuition|cbn; intuition]; fail).
  all: try (eapply (H LkPrivate); [intuition|cbn; intuition]; fail).
  all: try (eapply (H LkWeakOdr); [intuition|cbn; intuition]; fail).
  all: try (eapply (H LkLinkOnceOdr); [intuition|cbn; intuition]; fail).
  all: try (eapply (H LkAvailableExternally); [intuition|cbn; intuition]; fail).
Qed.

Lemma tls_realises : realises_with_default tls_mode_of tls_table TlsGeneralDynamicTls.
Proof.
  defaults. unfold tls_mode_of.
  destruct v as [|p]; [exfalso; eapply (H TlsNotThreadLocal); [intuition|cbn; intuition]|].
  repeat (destruct p as [p|p|]; try reflexivity).
  all: exfalso.
  all: try (eapply (H TlsLocalDynamicTls); [intuition|cbn; intuition]; fail).
  all: try (eapply (H TlsInitialExecTls); [intuition|cbn; intuition]; fail).
  all: try (eapply (H TlsLocalExecTls); [intuition|cbn; intuition]; fail).
Qed.
Lemma unnamed_addr_realises : realises_with_default unnamed_addr_of unnamed_addr_table UaNone.
Proof.
  defaults. unfold unnamed_addr_of.
  destruct v as [|p]; [reflexivity|].
  repeat (destruct p as [p|p|]; try reflexivity).
  all: exfalso.
  all: try (eapply (H UaGlobal); [intuition|cbn; intuition]; fail).
  all: try (eapply (H UaLocal); [intuition|cbn; intuition]; fail).
Qed.
Lemma preemption_realises : realises_with_default preemption_of preemption_table RpDsoPreemptable.
Proof.
  defaults. unfold preemption_of.
  destruct v as [|p]; [reflexivity|].
  repeat (destruct p as [p|p|]; try reflexivity).
  all: exfalso.
  all: try (eapply (H RpDsoLocal); [intuition|cbn; intuition]; fail).
Qed.

(** *** Opcodes, exactly *)

Lemma binary_opcode_lt v : (exists o, binary_opcode_of v = Some o) <-> v < 13.
Proof.
  split.
  - intros (o & H). apply binary_opcode_realises in H. cbn in H.
    repeat (destruct H as [H|H]; [injection H as <- <-; lia|]). destruct H.
  - intros H. assert (V : In v [0;1;2;3;4;5;6;7;8;9;10;11;12]) by (cbn; lia).
    cbn in V. repeat (destruct V as [<-|V]; [eexists; reflexivity|]). destruct V.
Qed.

Lemma binary_op_exact v t : binary_op_of v t = Err (if v <? 13 then BeInvalidType t else BeOpcode v).
Proof.
  pose proof (binary_opcode_lt v) as B. unfold binary_op_of. destruct (v <? 13) eqn:E.
  - destruct (proj2 B ltac:(lia)) as (o & ->).
    unfold is_floating_or_floating_vector, is_integer_or_integer_vector. destruct (scalar_type t); reflexivity.
  - destruct (binary_opcode_of v) as [o|]; [|reflexivity]. exfalso. pose proof (proj1 B ltac:(eauto)). lia.
Qed.

Lemma unary_op_exact v : unary_op_of v = if v =? 0 then Ok UFNeg else Err v.
Proof.
  unfold unary_op_of. destruct (v =? 0) eqn:E; [apply N.eqb_eq in E; now subst|].
  destruct (unary_opcode_of v) as [o|] eqn:O; [|reflexivity]. apply unary_opcode_realises in O. cbn in O. 
  destruct O as [O|[]]. injection O as <- <-. discriminate E.
Qed.
