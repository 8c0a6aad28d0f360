(** Property theorems C56: constructors of types (llvm-support/src/ty.rs). The rules are in TypeTableSpec.v. *)
From Verif Require Import Base Strings SupportModel TypeTableSpec TypeTableProofs TypeApi.
From Coq Require Import Lia.
Local Open Scope N_scope.

(** *** C56. The rules are LLVM's but for vectors, see below. *)

Theorem C56_accepted_types : forall name fs pk w p space n x r ps va t,
  (new_struct name fs pk = Ok t <-> Forall field_rule fs /\ t = TStruct name fs pk) /\
  (new_integer w = Ok t <-> 1 <= w < 2 ^ 24 /\ t = TInteger w) /\
  (new_pointer p space = Ok t <-> pointee_rule p /\ t = TPointer p space) /\
  (new_array n x = Ok t <-> array_rule x /\ t = TArray n x) /\
  (new_vector n x = Ok t <-> vector_rule x /\ t = TFixedVector n x) /\
  (new_scalable_vector n x = Ok t <-> vector_rule x /\ t = TScalableVector n x) /\
  (new_function r ps va = Ok t <-> return_rule r /\ Forall param_rule ps /\ t = TFunction r ps va).
Proof.
  intros name fs pk w p space n x r ps va t.
  exact (conj (new_struct_ok name fs pk t) (conj (new_integer_ok w t) (conj (new_pointer_ok p space t)
    (conj (new_array_ok n x t) (conj (new_vector_ok n x t) (conj (new_scalable_ok n x t) (new_function_ok r ps va t))))))).
Qed.
Print Assumptions C56_accepted_types.

(** In LLVM (llvm/lib/IR/Type.cpp, [VectorType::isValidElementType] and [FixedVectorType::get]) the elements of a vector are
    integers, floating point numbers or pointers, opaque ones among them, and there is at least one. In full: [new_vector] and
    [new_scalable_vector] accept exactly these. False both ways. *)
Definition llvm_vector (n : N) (x : ty) : Prop :=
  n <> 0 /\ (In x float_types \/ (exists w, x = TInteger w) \/ (exists p a, x = TPointer p a) \/ exists a, x = TOpaquePointer a).

Theorem C56_vectors_are_llvms_refuted :
  (exists n x bad, llvm_vector n x /\ new_vector n x = Err bad /\ new_scalable_vector n x = Err bad) /\
  (exists n x t t', ~ llvm_vector n x /\ new_vector n x = Ok t /\ new_scalable_vector n x = Ok t').
Proof.
  split.
  - exists 2, (TOpaquePointer 0), (TeVectorElement (TOpaquePointer 0)). split; [|split; reflexivity].
    split; [discriminate|]. right. right. right. now exists 0.
  - exists 0, TFloat, (TFixedVector 0 TFloat), (TScalableVector 0 TFloat). split; [|split; reflexivity]. intros [H _]. now apply H.
Qed.
Print Assumptions C56_vectors_are_llvms_refuted.

(** True of all others; the types in question. *)
Theorem C56_vectors_are_llvms_partial : forall n x,
  (n <> 0 -> (forall a, x <> TOpaquePointer a) ->
     (new_vector n x = Ok (TFixedVector n x) <-> llvm_vector n x) /\ (new_scalable_vector n x = Ok (TScalableVector n x) <-> llvm_vector n x)) /\
  (forall a, x = TOpaquePointer a -> new_vector n x = Err (TeVectorElement x) /\ new_scalable_vector n x = Err (TeVectorElement x)) /\
  (n = 0 -> ~ llvm_vector n x /\ (llvm_vector 1 x -> (forall a, x <> TOpaquePointer a) ->
     new_vector n x = Ok (TFixedVector n x) /\ new_scalable_vector n x = Ok (TScalableVector n x))).
Proof.
  assert (R : forall n x, n <> 0 -> (forall a, x <> TOpaquePointer a) -> (vector_rule x <-> llvm_vector n x)).
  { intros n x N O. unfold vector_rule, llvm_vector. split.
    - intros [H|[H|H]]; (split; [exact N|]); auto.
    - intros (_ & [H|[H|[H|(a & H)]]]); auto. now destruct (O a). }
  intros n x. split; [|split].
  - intros N O. rewrite (new_vector_ok n x), (new_scalable_ok n x), <- (R n x N O). split; (split; [intros [H _]; exact H|intros H; split; [exact H|reflexivity]]).
  - intros a ->. split; reflexivity.
  - intros ->. split; [intros [H _]; now apply H|]. intros V O. apply (R 1 x ltac:(discriminate) O) in V.
    split; [apply (new_vector_ok 0 x)|apply (new_scalable_ok 0 x)]; split; auto.
Qed.
Print Assumptions C56_vectors_are_llvms_partial.

(** The error names the first part that breaks a rule. *)
Theorem C56_rejected_types : forall name fs pk w p space n x r ps va bad,
  (new_struct name fs pk = Err bad <-> exists t, first_bad field_rule fs t /\ bad = TeStructElement t) /\
  (new_integer w = Err bad <-> ~ (1 <= w < 2 ^ 24) /\ bad = TeIntWidth) /\
  (new_pointer p space = Err bad <-> ~ pointee_rule p /\ bad = TePointee p) /\
  (new_array n x = Err bad <-> ~ array_rule x /\ bad = TeArrayElement x) /\
  (new_vector n x = Err bad <-> ~ vector_rule x /\ bad = TeVectorElement x) /\
  (new_scalable_vector n x = Err bad <-> ~ vector_rule x /\ bad = TeVectorElement x) /\
  (new_function r ps va = Err bad <->
     (~ return_rule r /\ bad = TeReturn r) \/ (return_rule r /\ exists t, first_bad param_rule ps t /\ bad = TeParameter t)).
Proof.
  intros name fs pk w p space n x r ps va bad.
  exact (conj (new_struct_err name fs pk bad) (conj (new_integer_err w bad)
    (conj (unary_err is_pointee pointee_rule pointee_exact (TPointer p space) (TePointee p) p bad)
    (conj (unary_err is_array_element array_rule array_exact (TArray n x) (TeArrayElement x) x bad)
    (conj (unary_err is_vector_element vector_rule vector_exact (TFixedVector n x) (TeVectorElement x) x bad)
    (conj (unary_err is_vector_element vector_rule vector_exact (TScalableVector n x) (TeVectorElement x) x bad)
      (new_function_err r ps va bad))))))).
Qed.
Print Assumptions C56_rejected_types.

Theorem C56_predicates : forall t,
  (is_floating_or_floating_vector t = true <->
     exists f, In f float_types /\ (t = f \/ exists n, t = TFixedVector n f \/ t = TScalableVector n f)) /\
  (is_integer_or_integer_vector t = true <->
     exists w, t = TInteger w \/ exists n, t = TFixedVector n (TInteger w) \/ t = TScalableVector n (TInteger w)) /\
  (is_pointee t = true <-> pointee_rule t) /\ (is_array_element t = true <-> array_rule t) /\
  (is_struct_element t = true <-> field_rule t) /\ (is_vector_element t = true <-> vector_rule t) /\
  (is_argument t = true <-> param_rule t) /\ (is_return t = true <-> return_rule t).
Proof.
  intros t. exact (conj (floating_exact t) (conj (integer_exact t) (conj (pointee_exact t) (conj (array_exact t)
    (conj (field_exact t) (conj (vector_exact t) (conj (param_exact t) (return_exact t)))))))).
Qed.
Print Assumptions C56_predicates.

Theorem C56_scalar_types : forall t,
  (forall n x, t = TFixedVector n x \/ t = TScalableVector n x -> scalar_type t = x) /\
  ((forall n x, t <> TFixedVector n x /\ t <> TScalableVector n x) -> scalar_type t = t).
Proof. exact scalar_exact. Qed.
Print Assumptions C56_scalar_types.

(** The least number of bytes with enough bits. *)
Theorem C56_byte_width : forall w, w <= 8 * int_byte_width w /\ forall n, w <= 8 * n -> int_byte_width w <= n.
Proof. exact byte_width_least. Qed.
Print Assumptions C56_byte_width.

Example C56_example :
  new_function TVoid [TInteger 32; TPointer (TInteger 8) 0] true = Ok (TFunction TVoid [TInteger 32; TPointer (TInteger 8) 0] true) /\
  new_function (TInteger 32) [TFloat; TVoid; TFunction TVoid [] false] false = Err (TeParameter TVoid) /\
  new_function TLabel [TVoid] false = Err (TeReturn TLabel) /\
  new_struct None [TX86Amx; TArray 3 TFloat] false = Ok (TStruct None [TX86Amx; TArray 3 TFloat] false) /\
  new_array 3 TX86Amx = Err (TeArrayElement TX86Amx) /\
  new_pointer TX86Amx 0 = Err (TePointee TX86Amx) /\
  new_integer 16777215 = Ok (TInteger 16777215) /\ new_integer 16777216 = Err TeIntWidth /\ new_integer 0 = Err TeIntWidth /\
  int_byte_width 33 = 5 /\
  first_bad param_rule [TFloat; TVoid] TVoid.
Proof.
  repeat (split; [reflexivity|]). exists [TFloat], []. split; [reflexivity|]. split.
  - repeat constructor; [discriminate|]. intros (r & ps & va & H). discriminate H.
  - intros [H _]. now apply H.
Qed.
