(** Proofs about ConstantsModel.v. *)
From Verif Require Import Base Strings EnumModel CursorModel StreamModel MessageModel SupportMain ConstantsModel.
From Coq Require Import Lia ZifyBool ZifyNat ZifyN.
Local Open Scope N_scope.

Fixpoint str_eqb (a b : str) : bool :=
  match a, b with
  | [], [] => true
  | x :: a', y :: b' => (x =? y) && str_eqb a' b'
  | _, _ => false
  end.
Lemma str_eqb_eq a : forall b, str_eqb a b = true <-> a = b.
Proof.
  induction a as [|x a IH]; intros [|y b]; cbn [str_eqb]; try easy.
  rewrite Bool.andb_true_iff, N.eqb_eq, IH. split; [intros (-> & ->); reflexivity|intros [= -> ->]; auto].
Qed.
Definition ostr_eqb (a b : option str) : bool :=
  match a, b with Some x, Some y => str_eqb x y | None, None => true | _, _ => false end.
Lemma ostr_eqb_eq a b : ostr_eqb a b = true -> a = b.
Proof. destruct a, b; cbn; try easy. rewrite str_eqb_eq. congruence. Qed.

Lemma variant_of_In k name v : variant_of k v = Some name -> In (name, v) k.
Proof.
  induction k as [|(n, w) k IH]; cbn [variant_of In]; [easy|]. destruct (N.eqb_spec w v) as [->|]; [intros [= ->]; now left|].
  intros H. right. exact (IH H).
Qed.
Lemma variant_of_none k v : (forall name, ~ In (name, v) k) -> variant_of k v = None.
Proof. intros H. destruct (variant_of k v) as [n|] eqn:E; [|reflexivity]. destruct (H n (variant_of_In _ _ _ E)). Qed.
Definition small (k : enumeration) : bool := forallb (fun p => snd p <? 128) k.
Lemma variant_of_big k v : small k = true -> 128 <= v -> variant_of k v = None.
Proof.
  unfold small. rewrite forallb_forall. intros S Hv. apply variant_of_none. intros n I. specialize (S _ I). cbn [snd] in S. lia.
Qed.

(** Numbers below 128 are looked at one by one, the others are refused by both. *)
Lemma numbers_agree (k : enumeration) (f : N -> option str) :
  small k = true -> (forall v, 128 <= v -> f v = None) ->
  forallb (fun i => ostr_eqb (variant_of k (N.of_nat i)) (f (N.of_nat i))) (seq 0 128) = true ->
  forall v, variant_of k v = f v.
Proof.
  intros S B F v. destruct (N.le_gt_cases 128 v) as [L|L].
  - rewrite (variant_of_big _ _ S L), (B _ L). reflexivity.
  - rewrite forallb_forall in F. specialize (F (N.to_nat v)). rewrite N2Nat.id in F. apply ostr_eqb_eq, F, in_seq. lia.
Qed.

Definition same_enum {A : Set} (k : enumeration) (of : N -> option A) (num : A -> N) (debug : A -> str) : Prop :=
  (forall v, variant_of k v = option_map debug (of v)) /\
  (forall x, In (debug x, num x) k) /\
  (forall name v, In (name, v) k -> exists x, debug x = name /\ num x = v).

Definition unique_b (k : enumeration) : bool :=
  forallb (fun p => ostr_eqb (variant_of k (snd p)) (Some (fst p)) &&
                    forallb (fun q => implb (str_eqb (fst p) (fst q)) (snd p =? snd q)) k) k.
Lemma unique_spec k : unique_b k = true ->
  (forall name a b, In (name, a) k -> In (name, b) k -> a = b) /\
  (forall v a b, In (a, v) k -> In (b, v) k -> a = b) /\
  (forall name v, In (name, v) k <-> variant_of k v = Some name).
Proof.
  unfold unique_b. rewrite forallb_forall. intros U.
  assert (V : forall name v, In (name, v) k -> variant_of k v = Some name).
  { intros name v I. specialize (U _ I). apply andb_prop in U. destruct U as (U & _). exact (ostr_eqb_eq _ _ U). }
  split; [|split].
  - intros name a b Ia Ib. specialize (U _ Ia). apply andb_prop in U. destruct U as (_ & U). rewrite forallb_forall in U.
    specialize (U _ Ib). cbn [fst snd] in U. destruct (str_eqb name name) eqn:E; [apply N.eqb_eq; exact U|].
    assert (str_eqb name name = true) by now apply str_eqb_eq. congruence.
  - intros v a b Ia Ib. apply V in Ia, Ib. congruence.
  - intros name v. split; [apply V|apply variant_of_In].
Qed.

Lemma same_enum_intro {A : Set} (k : enumeration) (of : N -> option A) num debug :
  small k = true -> (forall x, num x < 128) -> (forall x, of (num x) = Some x) -> (forall v x, of v = Some x -> num x = v) ->
  forallb (fun i => ostr_eqb (variant_of k (N.of_nat i)) (option_map debug (of (N.of_nat i)))) (seq 0 128) = true ->
  unique_b k = true -> same_enum k of num debug.
Proof.
  intros S B R L F U. destruct (unique_spec _ U) as (_ & _ & V).
  assert (H : forall v, variant_of k v = option_map debug (of v)).
  { apply numbers_agree; [exact S| |exact F]. intros v Hv. destruct (of v) as [x|] eqn:E; [|reflexivity].
    apply L in E. specialize (B x). lia. }
  split; [exact H|split].
  - intros x. apply variant_of_In. rewrite H, R. reflexivity.
  - intros name v I. apply V in I. rewrite H in I. destruct (of v) as [x|] eqn:E; [|easy]. exists x.
    injection I as I. split; [exact I|exact (L _ _ E)].
Qed.

Lemma no_duplicates : forall k,
  In k [k_reserved_block_id; k_ir_block_id; k_reserved_abbrev_id; k_abbrev_enc; k_calling_convention; k_blockinfo_code;
        k_identification_code; k_module_code; k_type_code; k_strtab_code; k_symtab_code; k_attribute_code] ->
  (forall name a b, In (name, a) k -> In (name, b) k -> a = b) /\
  (forall v a b, In (a, v) k -> In (b, v) k -> a = b) /\
  (forall name v, In (name, v) k <-> variant_of k v = Some name).
Proof.
  intros k I. apply unique_spec. cbn [In] in I. repeat destruct I as [<-|I]; try contradiction; vm_compute; reflexivity.
Qed.

Ltac same := apply same_enum_intro;
  [reflexivity | intros []; reflexivity | intros []; reflexivity | of_num | vm_compute; reflexivity | vm_compute; reflexivity].
Lemma enumerations_agree :
  same_enum k_reserved_block_id reserved_block_id_of reserved_block_id_num reserved_block_id_debug /\
  same_enum k_ir_block_id ir_block_id_of ir_block_id_num ir_block_id_debug /\
  same_enum k_calling_convention calling_convention_of calling_convention_num calling_convention_debug /\
  same_enum k_identification_code identification_code_of identification_code_num identification_code_debug /\
  same_enum k_module_code module_code_of module_code_num module_code_debug /\
  same_enum k_type_code type_code_of type_code_num type_code_debug /\
  same_enum k_strtab_code strtab_code_of strtab_code_num strtab_code_debug /\
  same_enum k_symtab_code symtab_code_of symtab_code_num symtab_code_debug /\
  same_enum k_attribute_code attribute_code_of attribute_code_num attribute_code_debug.
Proof. repeat match goal with |- _ /\ _ => split end; same. Qed.

(** The numbers that a match on the numbers up to 7 leaves over. *)
Lemma from8 v : 8 <= v -> exists p, v = N.pos p~0~0~0 \/ v = N.pos p~0~0~1 \/ v = N.pos p~0~1~0 \/ v = N.pos p~0~1~1 \/
  v = N.pos p~1~0~0 \/ v = N.pos p~1~0~1 \/ v = N.pos p~1~1~0 \/ v = N.pos p~1~1~1.
Proof.
  intros H. destruct v as [|[[[p|p|]|[p|p|]|]|[[p|p|]|[p|p|]|]|]]; try lia; exists p; tauto.
Qed.
Ltac cases H := let L := fresh in pose proof (N.le_trans 8 128 _ (proj1 (N.leb_le 8 128) eq_refl) H) as L; destruct (from8 _ L) as (p & [->|[->|[->|[->|[->|[->|[->| ->]]]]]]]); reflexivity.
Lemma stream_enumerations_agree : forall v,
  variant_of k_abbrev_enc v = option_map abbrev_enc_debug (abbrev_enc_of v) /\
  variant_of k_blockinfo_code v = option_map blockinfo_code_debug (blockinfo_code_of v) /\
  variant_of k_reserved_abbrev_id v = reserved_abbrev_id_debug (abbrev_id_of v).
Proof.
  intros v. split; [|split]; revert v.
  - apply numbers_agree; [reflexivity|intros v H; cases H|vm_compute; reflexivity].
  - apply numbers_agree; [reflexivity|intros v H; cases H|vm_compute; reflexivity].
  - apply (numbers_agree _ (fun v => reserved_abbrev_id_debug (abbrev_id_of v))); [reflexivity|intros v H; cases H|vm_compute; reflexivity].
Qed.

(** Statements on numbers below 8 and on the others. *)
Lemma below8 (P : N -> Prop) : (forall i, (i < 8)%nat -> P (N.of_nat i)) ->
  (forall v, 8 <= v -> P v) -> forall v, P v.
Proof.
  intros A B v. destruct (N.le_gt_cases 8 v) as [L|L]; [exact (B v L)|]. rewrite <- (N2Nat.id v). apply A. lia.
Qed.
Ltac few := let i := fresh in let L := fresh in intros i L; do 8 (destruct i as [|i]; [vm_compute; split; [easy|easy]|]); lia.
Ltac many := let v := fresh "v" in let L := fresh "L" in intros v L; split; [unfold K_FIRST_APPLICATION_ABBREV_ID, K_FIRST_APPLICATION_BLOCK_ID; lia|];
  destruct (from8 _ L) as (p & [->|[->|[->|[->|[->|[->|[->| ->]]]]]]]); intros X; destruct (X eq_refl).
Lemma constants_agree :
  K_LLVM_IR_MAGIC = LLVM_IR_MAGIC /\ K_BITCODE_WRAPPER_MAGIC = BITCODE_WRAPPER_MAGIC /\
  K_INITIAL_ABBREV_ID_WIDTH = sc_width ScInitial /\
  K_FIRST_APPLICATION_ABBREV_ID = FIRST_APPLICATION_ABBREV_ID /\ K_FIRST_APPLICATION_BLOCK_ID = FIRST_APPLICATION_BLOCK_ID /\
  K_CHAR6_ALPHABET = char6_alphabet /\
  (forall v, v < K_FIRST_APPLICATION_ABBREV_ID <-> abbrev_id_of v <> IdDefined v) /\
  (forall v, v < K_FIRST_APPLICATION_ABBREV_ID <-> variant_of k_reserved_abbrev_id v <> None) /\
  (forall v, v < K_FIRST_APPLICATION_BLOCK_ID <-> reserved_block_id_of v <> None) /\
  (forall v, v < K_FIRST_APPLICATION_BLOCK_ID <-> variant_of k_reserved_block_id v <> None) /\
  (forall v name, variant_of k_ir_block_id v = Some name -> K_FIRST_APPLICATION_BLOCK_ID <= v).
Proof.
  repeat (split; [reflexivity|]). split; [|split; [|split; [|split]]].
  - apply below8; [few|many].
  - apply below8; [few|many].
  - apply below8; [few|many].
  - apply below8; [few|many].
  - intros v name E. apply variant_of_In in E. cbn [k_ir_block_id In] in E. unfold K_FIRST_APPLICATION_BLOCK_ID.
    repeat destruct E as [[= <- <-]|E]; try lia; contradiction.
Qed.
