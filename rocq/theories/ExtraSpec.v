(** Vocabulary for the properties of the example program and of the alignment traits. *)
From Verif Require Import Base CursorModel StreamModel StreamSpec StreamHist Strings SupportModel ExtraModel.
Local Open Scope N_scope.

(** The line for an entry at a given depth. *)
Definition shown (depth : N) (x : entry) : line :=
  match x with
  | ESubBlock bid _ => LBlock depth bid
  | EEndBlock => LEnd depth
  | ERecord _ code fields => LRecord depth code fields
  end.

(** Number of blocks around the [i]-th result: those started before it and not ended, an end
    counting as outside its block. *)
Definition depth_at (l : list (option (outcome serr entry))) (i : nat) : N :=
  N.of_nat (count is_start (firstn i l)) - N.of_nat (count is_end (firstn (S i) l)).

(** The text for a tree: one line per record, two per block around those of its contents. *)
Fixpoint render (d : N) (x : node) : list line :=
  match x with
  | NRecord code fields => [LRecord d code fields]
  | NBlock bid body => LBlock d bid :: flat_map (render (d + 1)) body ++ [LEnd d]
  end.

(** How the program ends after a result of [next] that is not an entry. *)
Definition ending (r : option (outcome serr entry)) : outcome serr unit :=
  match r with
  | None | Some (Ok _) => Ok tt
  | Some (Err x) => Err x
  | Some (Panic p) => Panic p
  | Some OutOfFuel => OutOfFuel
  end.
Definition is_entry (r : option (outcome serr entry)) : bool :=
  match r with Some (Ok _) => true | _ => false end.

(** The laws of a total order that agrees with an equality: antisymmetry and totality, transitivity,
    [Equal] exactly for equal values (std::cmp::Ord). *)
Definition order_laws {A} (cmp : A -> A -> comparison) : Prop :=
  (forall x y, cmp y x = CompOpp (cmp x y)) /\
  (forall x y z, cmp x y <> Gt -> cmp y z <> Gt -> cmp x z <> Gt) /\
  (forall x y z, cmp x y = Lt -> cmp y z <> Gt -> cmp x z = Lt) /\
  (forall x y z, cmp x y <> Gt -> cmp y z = Lt -> cmp x z = Lt).
Definition agrees {A} (cmp : A -> A -> comparison) (eqb : A -> A -> bool) : Prop :=
  forall x y, eqb x y = true <-> cmp x y = Eq.
