(** Vocabulary for C79: the parts of a stream that loading depends on. *)
From Verif Require Import Base Strings EnumModel CursorModel StreamModel StreamSpec UnrollModel UnrollSpec.
Local Open Scope N_scope.

(** The records directly in a block: code and fields, in order. Abbreviation ids, lengths and sub-blocks are left out. *)
Definition contents (body : list tree) : list (N * list N) :=
  flat_map (fun t => match t with TRec _ c f => [(c, f)] | TBlk _ _ _ => [] end) body.
(** The fields of the records with a code, in order. *)
Definition of_kind (c : N) (body : list tree) : list (list N) := map snd (filter (fun x => fst x =? c) (contents body)).

(** The codes of MODULE records that mean something to the mapper (LLVMBitCodes.h): VERSION, TRIPLE, DATALAYOUT, ASM,
    SECTIONNAME, DEPLIB, FUNCTION, GCNAME, COMDAT, ALIAS. *)
Definition module_kinds : list N := [1; 2; 3; 4; 5; 6; 8; 11; 12; 14].
(** How many of the fields of such a record are looked at. *)
Definition known_fields (c : N) (f : list N) : list N :=
  match c with 1 => firstn 1 f | 8 => firstn 14 f | 14 => firstn 10 f | _ => f end.
(** The same for TYPE records; STRUCT_ANON, STRUCT_NAME, STRUCT_NAMED and FUNCTION are lists. *)
Definition known_type_fields (c : N) (f : list N) : list N :=
  match c with
  | 1 | 7 | 25 => firstn 1 f
  | 8 | 11 => firstn 2 f
  | 12 => firstn 3 f
  | 18 | 19 | 20 | 21 => f
  | _ => []
  end.

(** Two TYPE blocks with the same known contents. *)
Definition same_types (t1 t2 : tree) : Prop :=
  match t1, t2 with
  | TBlk _ _ a, TBlk _ _ b =>
      map (fun x => (fst x, known_type_fields (fst x) (snd x))) (contents a) = map (fun x => (fst x, known_type_fields (fst x) (snd x))) (contents b)
  | _, _ => False
  end.
(** Two blocks with the same records (for PARAMATTR, PARAMATTR_GROUP, FUNCTION_BLOCK). *)
Definition same_contents (t1 t2 : tree) : Prop :=
  match t1, t2 with TBlk _ _ a, TBlk _ _ b => contents a = contents b | _, _ => False end.

(** Two module blocks that agree in what the mapper knows: of each known kind of record the same ones in the same order, the same
    PARAMATTR (9), PARAMATTR_GROUP (10), FUNCTION (12) and TYPE (17) blocks, and as many VALUE_SYMTAB blocks (14). *)
Record same_module (a b : list tree) : Prop := mkSameModule {
  sm_records : forall c, In c module_kinds -> map (known_fields c) (of_kind c a) = map (known_fields c) (of_kind c b);
  sm_blocks : forall v, In v [9; 10; 12] -> Forall2 same_contents (children v a) (children v b);
  sm_types : Forall2 same_types (children 17 a) (children 17 b);
  sm_symbols : length (children 14 a) = length (children 14 b)
}.

(** The first record with a code. *)
Definition first_of (c : N) (body : list tree) : option (list N) := hd_error (of_kind c body).

(** Two top-level blocks that agree in what the mapper knows. *)
Inductive same_top : tree -> tree -> Prop :=
| StIdentification l1 l2 a b : first_of 1 a = first_of 1 b -> option_map (firstn 1) (first_of 2 a) = option_map (firstn 1) (first_of 2 b) ->
    same_top (TBlk IDENTIFICATION l1 a) (TBlk IDENTIFICATION l2 b)
| StModule l1 l2 a b : same_module a b -> same_top (TBlk MODULE l1 a) (TBlk MODULE l2 b)
| StStrtab l1 l2 a b : first_of 1 a = first_of 1 b -> same_top (TBlk STRTAB l1 a) (TBlk STRTAB l2 b)
| StSymtab l1 l2 a b : first_of 1 a = first_of 1 b -> same_top (TBlk SYMTAB l1 a) (TBlk SYMTAB l2 b)
| StOther v l1 l2 a b : ~ In v [IDENTIFICATION; MODULE; STRTAB; SYMTAB] -> same_top (TBlk v l1 a) (TBlk v l2 b).

(** Parts of a module that mean nothing to the mapper. *)
Definition unknown_part (t : tree) : Prop :=
  match t with
  | TRec _ c _ => ~ In c module_kinds
  | TBlk v _ _ => ~ In v [9; 10; 12; 14; 17]
  end.
(** Two parts of which one may come before the other as well as after it: not records with the same code, not blocks with the
    same id. *)
Definition exchangeable (x y : tree) : Prop :=
  match x, y with
  | TRec _ c _, TRec _ c' _ => c <> c'
  | TBlk v _ _, TBlk v' _ _ => v <> v'
  | _, _ => True
  end.
