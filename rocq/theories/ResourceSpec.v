(** Vocabulary for the use of resources: how deeply blocks are nested,
    how many constructs a call reads, and how large types are. *)
From Verif Require Import Base Strings CursorModel CursorSpec StreamModel StreamSpec GrammarSpec SupportModel UnrollModel UnrollSpec.
Local Open Scope N_scope.

(** Entries behind which [n] blocks are open, one in the other: each has some complete contents, and
    maybe the next block behind them. *)
Inductive nested : nat -> list entry -> Prop :=
| NsLast bid len body : nested 1 (ESubBlock bid len :: flat_map flat body)
| NsOuter n bid len body l : nested n l -> nested (S n) (ESubBlock bid len :: flat_map flat body ++ l).

(** The number of blocks that are in one another: in a tree, and the most in a list of trees. *)
Fixpoint depth (t : tree) : nat :=
  match t with
  | TRec _ _ _ => 0
  | TBlk _ _ body => S (list_max (map depth body))
  end.
Definition deepest (l : list tree) : nat := list_max (map depth l).

(** A text of [n] constructs in a row that are not told (definitions of abbreviations, and everything
    in a BLOCKINFO block). *)
Inductive silent_text (e : env) (gap : N -> N) : nat -> N -> (N -> list abbrev) -> list scope -> list bool -> Prop :=
| SiNone pos regs scs : silent_text e gap 0 pos regs scs []
| SiMore n pos regs scs t1 scs1 regs1 t2 :
    step_text e gap pos regs scs t1 None scs1 regs1 -> silent_text e gap n (pos + blen t1) regs1 scs1 t2 ->
    silent_text e gap (S n) pos regs scs (t1 ++ t2).

(** The nodes of a type, and how many of them are in one another. *)
Definition sum (l : list N) : N := fold_right N.add 0 l.
Fixpoint type_nodes (t : ty) : N :=
  1 + match t with
      | TFunction r ps _ => type_nodes r + sum (map type_nodes ps)
      | TStruct _ fs _ => sum (map type_nodes fs)
      | TPointer x _ | TArray _ x | TFixedVector _ x | TScalableVector _ x => type_nodes x
      | _ => 0
      end.
Fixpoint type_depth (t : ty) : nat :=
  S (match t with
     | TFunction r ps _ => Nat.max (type_depth r) (list_max (map type_depth ps))
     | TStruct _ fs _ => list_max (map type_depth fs)
     | TPointer x _ | TArray _ x | TFixedVector _ x | TScalableVector _ x => type_depth x
     | _ => 0
     end).
Definition table_nodes (l : list ty) : N := sum (map type_nodes l).

(** What a block holds directly: its records and their fields. *)
Definition record_size (r : record) : N := 1 + N.of_nat (length (r_fields r)).
Definition records_size (b : block) : N := sum (map record_size (b_records b)).
