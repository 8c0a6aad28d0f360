(** Vocabulary for the unrolling properties: trees of entries, what an unrolled block holds,
    how top-level blocks form modules. *)
From Verif Require Import Base Strings EnumModel CursorModel StreamModel StreamSpec UnrollModel.
From Coq Require Sorted.
Local Open Scope N_scope.

(** A well-nested piece of a stream. *)
Inductive tree : Set :=
| TRec (abbrev : option N) (code : N) (fields : list N)
| TBlk (bid len : N) (body : list tree).

Fixpoint flat (t : tree) : list entry :=
  match t with
  | TRec a c f => [ERecord a c f]
  | TBlk b len body => ESubBlock b len :: flat_map flat body ++ [EEndBlock]
  end.

(** The block ids of a stream (BitCodeFormat and LLVMBitCodes.h numbering): below 8 reserved,
    8 to 26 IR, others unknown. *)
Definition id_matches (v : N) (id : block_id) : Prop :=
  match id with
  | BReserved r => reserved_block_id_num r = v
  | BIr i => ir_block_id_num i = v
  | BUnknown u => u = v /\ 26 < v
  end.

(** The records directly in a body, in order; the sub-blocks with an id, in order. *)
Definition records_in (body : list tree) : list record :=
  flat_map (fun t => match t with TRec a c f => [mkRecord a c f] | _ => [] end) body.
Definition children (v : N) (body : list tree) : list tree :=
  filter (fun t => match t with TBlk b _ _ => b =? v | _ => false end) body.

(** All blocks a block holds under an id. *)
Definition blocks_under (id : block_id) (b : block) : list block :=
  flat_map (fun p => if block_id_dec (fst p) id then snd p else []) (b_blocks b).

(** [b] is the tree [t] unrolled: same id, exactly its records in order, and for every
    block id exactly its sub-blocks with that id, in order. *)
Inductive unrolled : tree -> block -> Prop :=
| Unrolled bid len body b :
    id_matches bid (b_id b) ->
    b_records b = records_in body ->
    (forall v id, id_matches v id -> Forall2 unrolled (children v body) (blocks_under id b)) ->
    (forall id l, In (id, l) (b_blocks b) -> exists v, id_matches v id) ->
    NoDup (map fst (b_blocks b)) ->
    unrolled (TBlk bid len body) b.

(** *** Grouping *)

(** Top-level block ids (LLVMBitCodes.h). *)
Definition MODULE : N := 8.
Definition IDENTIFICATION : N := 13.
Definition STRTAB : N := 23.
Definition SYMTAB : N := 25.

Definition is_top (v : N) (t : tree) : bool :=
  match t with TBlk b _ _ => b =? v | TRec _ _ _ => false end.

(** The trees before the next identification block. *)
Fixpoint segment (l : list tree) : list tree :=
  match l with
  | [] => []
  | t :: l' => if is_top IDENTIFICATION t then [] else t :: segment l'
  end.

Record tmodule : Set := mkTmodule {
  tm_identification : tree; tm_module : option tree; tm_strtab : option tree; tm_symtab : option tree
}.

(** One module per identification block: the module block of its segment, the first string
    table and the first symbol table after the identification block. *)
Fixpoint modules_of (l : list tree) : list tmodule :=
  match l with
  | [] => []
  | t :: l' =>
      if is_top IDENTIFICATION t
      then mkTmodule t (find (is_top MODULE) (segment l')) (find (is_top STRTAB) l') (find (is_top SYMTAB) l')
             :: modules_of l'
      else modules_of l'
  end.

(** Only blocks of the four known kinds; no module block before the first identification
    block; at most one in the segment of an identification block. *)
Definition well_grouped (l : list tree) : Prop :=
  Forall (fun t => exists v, is_top v t = true /\ In v [IDENTIFICATION; MODULE; STRTAB; SYMTAB]) l /\
  (forall t, In t (segment l) -> is_top MODULE t = false) /\
  (forall l1 i l2, l = l1 ++ i :: l2 -> is_top IDENTIFICATION i = true ->
     (length (filter (is_top MODULE) (segment l2)) <= 1)%nat).

Definition option_rel {A B} (R : A -> B -> Prop) (x : option A) (y : option B) : Prop :=
  match x, y with Some a, Some b => R a b | None, None => True | _, _ => False end.

(** The partial module holds the blocks of the module of the stream. *)
Definition carries (m : tmodule) (p : partial) : Prop :=
  unrolled (tm_identification m) (pt_identification p) /\
  option_rel unrolled (tm_module m) (pt_module p) /\
  option_rel unrolled (tm_strtab m) (pt_strtab p) /\
  option_rel unrolled (tm_symtab m) (pt_symtab p).

(** Iterating the parser yields exactly the entries of [forest] and then the end. *)
Definition stream_is (e : env) (s : sparser cursor) (forest : list tree) : Prop :=
  exists n, run e cursor_ops n s = map (fun x => Some (Ok x)) (flat_map flat forest) ++ [None].

(** The trees of a written stream (StreamSpec.v): BLOCKINFO blocks and abbreviation
    definitions leave no trace. *)
Fixpoint item_trees (in_info : bool) (it : item) : list tree :=
  match it with
  | IDefine _ => []
  | IUnabbrev code fields => if in_info then [] else [TRec None code fields]
  | IAbbrev id code fields => if in_info then [] else [TRec (Some id) code fields]
  | IBlock bid _ words body =>
      if bid =? 0 then flat_map (item_trees true) body
      else [TBlk bid (4 * words) (flat_map (item_trees false) body)]
  end.
Definition trees (l : list item) : list tree := flat_map (item_trees false) l.

(** [m] are exactly the elements of [l] with property [P], in order: they stand at the
    increasing positions [js]. *)
Definition selected {A} (P : A -> Prop) (l m : list A) : Prop :=
  exists js, Forall2 (fun j a => nth_error l j = Some a) js m /\ Sorted.StronglySorted lt js /\
             forall j, In j js <-> exists a, nth_error l j = Some a /\ P a.

(** [a] is the only element of [l] with property [P]. *)
Definition once {A} (P : A -> Prop) (l : list A) (a : A) : Prop :=
  exists l1 l2, l = l1 ++ a :: l2 /\ P a /\ Forall (fun x => ~ P x) l1 /\ Forall (fun x => ~ P x) l2.
