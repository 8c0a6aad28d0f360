(** Vocabulary for C73: how many operands entries, blocks and the modules of an input have. *)
From Verif Require Import Base StreamModel UnrollModel ModuleModel.
Local Open Scope N_scope.

Definition sum (l : list N) : N := fold_right N.add 0 l.

(** The operands of the records among some entries. *)
Definition operands (l : list entry) : N :=
  sum (map (fun x => match x with ERecord _ _ fields => N.of_nat (length fields) | _ => 0 end) l).

(** The operands of the records in a block and in the blocks in it. *)
Fixpoint block_operands (b : block) : N :=
  match b with
  | mkBlock _ records blocks =>
      sum (map (fun r => N.of_nat (length (r_fields r))) records) +
      sum (map (fun p => sum (map block_operands (snd p))) blocks)
  end.
Definition option_operands (o : option block) : N := match o with Some b => block_operands b | None => 0 end.
(** The operands of the blocks of a module before it is mapped. *)
Definition part_operands (p : partial) : N :=
  block_operands (pt_identification p) + option_operands (pt_module p) + option_operands (pt_strtab p) + option_operands (pt_symtab p).

(** The bytes of the tables of a module. *)
Definition table_bytes (m : bitcode_module) : N :=
  N.of_nat (length (bm_strtab m)) + match bm_symtab m with Some y => N.of_nat (length y) | None => 0 end.
