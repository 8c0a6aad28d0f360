(** Vocabulary for messages: their numbers, and when what they say about the numbers is true. *)
From Verif Require Import Base Strings.
Local Open Scope N_scope.

(** The words of a text: the numerals in it, read as decimal numbers, and what is between them. *)
Inductive word : Set := Text (s : str) | Num (n : N).

Definition digit (c : N) : bool := (48 <=? c) && (c <=? 57).
(** The text cut where digits begin or end. *)
Fixpoint runs (s : str) : list str :=
  match s with
  | [] => []
  | c :: s' =>
      match runs s' with
      | (c' :: r) :: l => if Bool.eqb (digit c) (digit c') then (c :: c' :: r) :: l else [c] :: (c' :: r) :: l
      | l => [c] :: l
      end
  end.
Definition value (s : str) : N := fold_left (fun n c => 10 * n + (c - 48)) s 0.
Definition word_of (r : str) : word :=
  match r with c :: _ => if digit c then Num (value r) else Text r | [] => Text [] end.
Definition words (s : str) : list word := map word_of (runs s).

(** What it means that a text says [a], then [op], then [b]. *)
Definition stated (a : N) (op : str) (b : N) : Prop :=
  (op = lit " > " -> b < a) /\ (op = lit " < " -> a < b) /\ (op = lit " >= " -> b <= a) /\
  (op = lit " must be >= " -> a < b) /\
  (op = lit ", expected at least " -> a < b) /\ (op = lit ", got " -> b < a) /\
  (op = lit " elements, got " -> a <> b) /\ (op = lit " fields, got " -> a <> b).
Fixpoint true_words (l : list word) : Prop :=
  match l with
  | [] => True
  | w :: l' => match w, l' with Num a, Text op :: Num b :: _ => stated a op b | _, _ => True end /\ true_words l'
  end.
(** Every comparison in the text is true. *)
Definition true_text (s : str) : Prop := true_words (words s).
