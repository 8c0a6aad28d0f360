(** Vocabulary: how something ends, and rules about it that are checked in order. *)
From Verif Require Import Base.
Local Open Scope N_scope.

(** How something ends, without the result. *)
Inductive verdict (E : Type) : Type := Fine | Fails (x : E) | Panics (p : panic) | Endless.
Arguments Fine {E}. Arguments Fails {E} x. Arguments Panics {E} p. Arguments Endless {E}.
Definition verdict_of {E A} (o : outcome E A) : verdict E :=
  match o with Ok _ => Fine | Err x => Fails x | Panic p => Panics p | OutOfFuel => Endless end.
(** The ends that a part of the format allows. *)
Definition rule (E : Type) : Type := verdict E -> Prop.
(** The same with another error. *)
Inductive relabel {E F} (f : E -> F) (R : rule E) : rule F :=
| RlFine : R Fine -> relabel f R Fine
| RlFails x : R (Fails x) -> relabel f R (Fails (f x))
| RlPanics p : R (Panics p) -> relabel f R (Panics p)
| RlEndless : R Endless -> relabel f R Endless.
(** A demand with its error. *)
Inductive demand {E} (P : Prop) (x : E) : rule E :=
| DeMet : P -> demand P x Fine
| DeNot : ~ P -> demand P x (Fails x).
(** Rules in order. *)
Inductive in_order {E} : list (rule E) -> rule E :=
| IoDone : in_order [] Fine
| IoNext (R : rule E) (l : list (rule E)) (v : verdict E) : R Fine -> in_order l v -> in_order (R :: l) v
| IoStop (R : rule E) (l : list (rule E)) (v : verdict E) : R v -> v <> Fine -> in_order (R :: l) v.
(** A rule for what an [outcome] relation says. *)
Definition ends {E A} (R : outcome E A -> Prop) : rule E := fun v => exists o, R o /\ verdict_of o = v.
