(** Proofs about the types of loaded type tables: their numbers and names fit, and their texts tell them apart. *)
From Verif Require Import Base StreamModel Strings StringsProofs EnumModel SupportModel SupportSpec LayoutModel LayoutMain UnrollModel UnrollSpec AttributeModel AttributeSpec AttributeMain TablesModel
  TypeTableModel TypeTableSpec TypeTableProofs TypeTableMain MessageModel MessageSpec MessageProofs DebugModel DebugSpec DebugProofs DebugMain.
From Coq Require Import Lia ZifyBool ZifyNat ZifyN.
Ltac Zify.zify_post_hook ::= Z.div_mod_to_equations.
Local Open Scope N_scope.

Definition partial_fits (p : ptype) : Prop :=
  match p with
  | PtSimple t => exists c, In (c, t) simple_types
  | PtInteger w => w < 2 ^ 32
  | PtFunction _ _ _ => True
  | PtPointer _ a | PtOpaquePointer a => a < 2 ^ 32
  | PtStruct name _ _ => match name with Some s => rust_text s | None => True end
  | PtArray n _ | PtFixedVector n _ | PtScalableVector n _ => n < 2 ^ 64
  end.
Definition state_fits (st : list ptype * str) : Prop := Forall partial_fits (fst st) /\ rust_text (snd st).
Lemma field_fits r n x : fields64 r -> type_field r n = Ok x -> x < 2 ^ 64.
Proof. intros F H. apply field_at, nth_error_In in H. unfold fields64 in F. rewrite Forall_forall in F. exact (F x H). Qed.
Lemma space_fits f a b : omap_err (fun x => TtInvalid (f x)) (address_space_of a) = Ok b -> b < 2 ^ 32.
Proof. intros H. apply space_exact in H as [H ->]. unfold space_rule in H. change (2 ^ 23) with 8388608 in H. change (2 ^ 32) with 4294967296. lia. Qed.
Lemma type_step_fits e st r st' : fields64 r -> state_fits st -> type_step e st r = Ok st' -> state_fits st'.
Proof.
  intros F [HP HN] H. destruct st as [P name]. cbn [fst snd] in *. unfold type_step in H. apply obind_iff in H as (code & _ & H).
  assert (add : forall p, partial_fits p -> state_fits (P ++ [p], name)).
  { intros p X. split; [|exact HN]. cbn [fst]. apply Forall_app. split; [exact HP|]. constructor; [exact X|constructor]. }
  assert (fresh : forall p, partial_fits p -> state_fits (P ++ [p], [])).
  { intros p X. split; [|constructor]. cbn [fst]. apply Forall_app. split; [exact HP|]. constructor; [exact X|constructor]. }
  assert (last : forall f x p, split_last P = Some (f, x) -> partial_fits p -> state_fits (f ++ [p], [])).
  { intros f x p E X. apply split_last_some in E. rewrite E in HP. apply Forall_app in HP as [HP _]. split; [|constructor]. cbn [fst]. apply Forall_app. split; [exact HP|].
    constructor; [exact X|constructor]. }
  destruct code; try discriminate H; try (injection H as <-; apply add; eexists; cbn; tauto).
  all: idtac.
  - injection H as <-. split; assumption.
  - destruct name as [|c s]; [discriminate|]. destruct (split_last P) as [[f x]|] eqn:E; [|injection H as <-; apply fresh; exact HN].
    destruct x; try (injection H as <-; apply fresh; exact HN). destruct name; [discriminate|]. injection H as <-. eapply last; [reflexivity|exact HN].
  - apply obind_iff in H as (w & _ & H). injection H as <-. apply add. cbn [partial_fits]. unfold as_u32, two32. change (2 ^ 32) with 4294967296. lia.
  - apply obind_iff in H as (i & _ & H). apply obind_iff in H as (a & _ & H). apply obind_iff in H as (b & A & H). injection H as <-. apply add. exact (space_fits _ _ _ A).
  - apply obind_iff in H as (n & N1 & H). apply obind_iff in H as (t & _ & H). injection H as <-. apply add. exact (field_fits r 0 n F N1).
  - apply obind_iff in H as (n & N1 & H). apply obind_iff in H as (t & _ & H). pose proof (field_fits r 0 n F N1) as L. cbn zeta in H.
    destruct (match nth_error (r_fields r) 2 with None => false | Some f => 0 <? f end); injection H as <-; apply add; exact L.
  - apply obind_iff in H as (p & _ & H). injection H as <-. now apply add.
  - apply obind_iff in H as (s & S0 & H). injection H as <-. apply omap_err_iff in S0. split; [exact HP|]. apply Forall_app. split; [exact HN|exact (string_text _ _ _ _ S0)].
  - apply obind_iff in H as (p & _ & H). cbn zeta in H. destruct (split_last P) as [[f x]|] eqn:E; [|injection H as <-; apply fresh; exact HN].
    destruct x as [| | | | |n fs pk| | |]; try (injection H as <-; apply fresh; exact HN). destruct n; [discriminate|]. destruct fs; [|discriminate]. injection H as <-. eapply last; [reflexivity|exact HN].
  - apply obind_iff in H as (va & _ & H). apply obind_iff in H as (t & _ & H). injection H as <-. now apply add.
  - apply obind_iff in H as (a & _ & H). apply obind_iff in H as (b & A & H). injection H as <-. apply add. exact (space_fits _ _ _ A).
Qed.
Lemma type_loop_fits e l : forall st st', Forall fields64 l -> state_fits st -> type_loop e l st = Ok st' -> state_fits st'.
Proof.
  induction l as [|r l IH]; intros st st' F S0 H; cbn [type_loop] in H; [now injection H as <-|]. inversion F; subst.
  apply obind_iff in H as (st1 & H1 & H). eapply IH; [assumption| |exact H]. eapply type_step_fits; eassumption.
Qed.

(** Whatever becomes of an entry. *)
Definition resolved_fits (o : outcome tt_err ty) : Prop :=
  match o with Ok t => rust_type t | Err (TtType x) => rust_type_error x | _ => True end.
Definition all_fit (o : outcome tt_err (list ty)) : Prop :=
  match o with Ok l => Forall rust_type l | Err (TtType x) => rust_type_error x | _ => True end.
Lemma collect_fits {A} (g : A -> outcome tt_err ty) l : (forall i, resolved_fits (g i)) -> all_fit (collect g l).
Proof.
  intros G. induction l as [|i l IH]; [constructor|]. cbn [collect]. specialize (G i). destruct (g i) as [t|x|p|]; cbn [obind] in *; try exact I; [|exact G].
  destruct (collect g l) as [ts|x|p|]; cbn [obind] in *; try exact I; [|exact IH]. constructor; assumption.
Qed.
Lemma simple_rust c t : In (c, t) simple_types -> rust_type t.
Proof. intros H. apply RtLeaf. cbn [In simple_types] in *. repeat (destruct H as [H|H]; [injection H as _ <-; tauto|]). contradiction. Qed.
Lemma find_rust f l bad : Forall rust_type l -> find f l = Some bad -> rust_type bad.
Proof. intros F H. apply find_some in H as [H _]. rewrite Forall_forall in F. auto. Qed.
Lemma resolve_fits P f : Forall partial_fits P -> forall p, partial_fits p -> resolved_fits (resolve f P p).
Proof.
  intros HP. induction f as [|f IH]; intros p H; [exact I|].
  assert (G : forall i, resolved_fits (let? q := ok_or (nth_error P (N.to_nat i)) (TtBadIndex i) in resolve f P q)).
  { intros i. destruct (nth_error P (N.to_nat i)) as [q|] eqn:E; cbn [ok_or obind]; [|exact I]. apply IH. rewrite Forall_forall in HP. eapply HP, nth_error_In, E. }
  cbn [resolve].
  destruct p as [t|w|r ps va|r a|a|name fs pk|n r|n r|n r]; cbn [partial_fits] in H.
  - destruct H as [c H]. exact (simple_rust c t H).
  - unfold new_integer. destruct (_ && _); cbn; [now constructor|exact I].
  - pose proof (G r) as GR. destruct (let? q := ok_or (nth_error P (N.to_nat r)) (TtBadIndex r) in resolve f P q) as [t|x|p|]; cbn [obind] in *; try exact I; [|exact GR].
    pose proof (collect_fits _ ps G) as GP. destruct (collect _ ps) as [ts|x|p|]; cbn [obind] in *; try exact I; [|exact GP].
    unfold new_function. destruct (negb (is_return t)); cbn; [exact GR|]. destruct (find _ ts) as [bad|] eqn:E; cbn; [eapply find_rust; eassumption|]. now constructor.
  - pose proof (G r) as GR. destruct (let? q := ok_or (nth_error P (N.to_nat r)) (TtBadIndex r) in resolve f P q) as [t|x|p|]; cbn [obind] in *; try exact I; [|exact GR].
    unfold new_pointer. destruct (is_pointee t); cbn; [now constructor|exact GR].
  - now constructor.
  - pose proof (collect_fits _ fs G) as GP. destruct (collect _ fs) as [ts|x|p|]; cbn [obind] in *; try exact I; [|exact GP].
    unfold new_struct. destruct (find _ ts) as [bad|] eqn:E; cbn; [eapply find_rust; eassumption|]. now constructor.
  - pose proof (G r) as GR. destruct (let? q := ok_or (nth_error P (N.to_nat r)) (TtBadIndex r) in resolve f P q) as [t|x|p|]; cbn [obind] in *; try exact I; [|exact GR].
    unfold new_array. destruct (is_array_element t); cbn; [now constructor|exact GR].
  - pose proof (G r) as GR. destruct (let? q := ok_or (nth_error P (N.to_nat r)) (TtBadIndex r) in resolve f P q) as [t|x|p|]; cbn [obind] in *; try exact I; [|exact GR].
    unfold new_vector. destruct (is_vector_element t); cbn; [now constructor|exact GR].
  - pose proof (G r) as GR. destruct (let? q := ok_or (nth_error P (N.to_nat r)) (TtBadIndex r) in resolve f P q) as [t|x|p|]; cbn [obind] in *; try exact I; [|exact GR].
    unfold new_scalable_vector. destruct (is_vector_element t); cbn; [now constructor|exact GR].
Qed.
Lemma collect_fits_in {A} (g : A -> outcome tt_err ty) l : Forall (fun i => resolved_fits (g i)) l -> all_fit (collect g l).
Proof.
  induction 1 as [|i l G _ IH]; [constructor|]. cbn [collect]. destruct (g i) as [t|x|p|]; cbn [obind] in *; try exact I; [|exact G].
  destruct (collect g l) as [ts|x|p|]; cbn [obind] in *; try exact I; [|exact IH]. constructor; assumption.
Qed.
Lemma type_step_error e st r x : type_step e st r <> Err (TtType x).
Proof.
  destruct st as [P name]. unfold type_step, type_field. destruct (type_code_of (r_code r)) as [code|]; cbn [ok_or obind]; [|discriminate].
  destruct code; try discriminate;
    repeat match goal with
    | |- context [ok_or (nth_error ?l ?n) _] => destruct (nth_error l n); cbn [ok_or obind]; try discriminate
    | |- context [address_space_of ?a] => destruct (address_space_of a); cbn [omap_err obind]; try discriminate
    | |- context [try_string e r 0] => destruct (try_string e r 0); cbn [omap_err obind]; try discriminate
    end.
  - destruct name; [discriminate|]. destruct (split_last P) as [[f [| | | | |[nm|] fs pk| | |]]|]; discriminate.
  - destruct (match _ with None => false | Some f => 0 <? f end); discriminate.
  - destruct (split_last P) as [[f [| | | | |[nm|] [|y fs] pk| | |]]|]; discriminate.
Qed.
Lemma type_loop_error e l x : forall st, type_loop e l st <> Err (TtType x).
Proof.
  induction l as [|r l IH]; intros st; cbn [type_loop]; [discriminate|]. pose proof (type_step_error e st r x) as K.
  destruct (type_step e st r) as [st'|y|p|]; cbn [obind]; [apply IH|congruence|discriminate|discriminate].
Qed.
Lemma table_fits e b : Forall fields64 (b_records b) -> all_fit (type_table_of e b).
Proof.
  intros F. unfold type_table_of. destruct (one _ _) as [r|]; cbn [ok_or obind]; [|exact I]. destruct (hd_error _) as [n|]; cbn [ok_or obind]; [|exact I].
  destruct (_ <? _); [exact I|]. destruct (type_loop e (b_records b) ([], [])) as [[P name]|x|p|] eqn:E; cbn [obind]; try exact I.
  - apply type_loop_fits in E as [E _]; [|exact F|split; constructor]. cbn [fst] in E. unfold reify, reify_with. destruct (_ =? _); [|exact I].
    apply collect_fits_in. eapply Forall_impl; [|exact E]. intros p X. now apply resolve_fits.
  - cbn. destruct x; try exact I. exfalso. exact (type_loop_error _ _ _ _ E).
Qed.

(** ** Messages *)

Lemma type_message_unique shown x y : ty_err_text shown x = ty_err_text shown y -> x = y.
Proof.
  intros H. destruct x as [t| |t|t|t|t|t], y as [t'| |t'|t'|t'|t'|t']; cbn [ty_err_text] in *; try (exfalso; discriminate H); try reflexivity;
    f_equal; refine (message_text_unique shown _ _ _ _ _ H); reflexivity.
Qed.
Lemma op_message_unique shown x y : binary_op_text shown x = binary_op_text shown y -> x = y \/ exists v v', x = BeOpcode v /\ y = BeOpcode v'.
Proof.
  intros H. destruct x as [t|t|v], y as [t'|t'|v']; cbn [binary_op_text] in H; try (exfalso; discriminate H); [left|left|right; eauto];
    f_equal; refine (message_text_unique shown _ _ _ _ _ H); auto.
Qed.
