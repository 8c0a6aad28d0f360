(** Vocabulary for the string table properties. *)
From Verif Require Import Base Strings UnrollModel.
Local Open Scope N_scope.

(** [s] is stored at the [size] bytes from [offset] on. *)
Definition stored (t : list N) (offset size : N) (s : str) : Prop :=
  exists before after, t = before ++ utf8_encode s ++ after /\ N.of_nat (length before) = offset /\
    N.of_nat (length (utf8_encode s)) = size /\ forallb is_scalar_value s = true.

(** The first record with a code. *)
Definition first_record (code : N) (l : list record) (r : record) : Prop :=
  exists l1 l2, l = l1 ++ r :: l2 /\ r_code r = code /\ Forall (fun x => r_code x <> code) l1.
