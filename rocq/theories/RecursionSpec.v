(** Vocabulary for the termination of type resolution: which entries refer to which, and what a
    recursion without end looks like. *)
From Verif Require Import Base Strings SupportModel TypeTableModel.
Local Open Scope N_scope.

(** The indices an entry refers to, in the order of resolution (type_table.rs:100-162). *)
Definition prefs (p : ptype) : list N :=
  match p with
  | PtFunction i js _ => i :: js
  | PtPointer i _ | PtArray _ i | PtFixedVector _ i | PtScalableVector _ i => [i]
  | PtStruct _ js _ => js
  | _ => []
  end.
(** Entry [k] gets a type, with some amount of fuel. *)
Definition resolves (P : list ptype) (k : nat) : Prop :=
  exists p f t, nth_error P k = Some p /\ resolve f P p = Ok t.
(** From every entry of the path the resolution gets to the next one: it is referred to, and
    everything referred to before it has a type. *)
Definition descends (P : list ptype) (path : nat -> nat) : Prop :=
  forall j, exists p pre i post, nth_error P (path j) = Some p /\ prefs p = pre ++ i :: post /\ path (S j) = N.to_nat i /\
    Forall (fun i => resolves P (N.to_nat i)) pre.
(** The resolution of the entries, in order, runs into a descent without end. *)
Definition endless_types (P : list ptype) : Prop :=
  exists path, (forall k, (k < path 0)%nat -> resolves P k) /\ descends P path.
