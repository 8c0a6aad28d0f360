(** Vocabulary for the type table properties: the rules for building types, the meaning of the
    records of a TYPE block. *)
From Verif Require Import Base Strings SupportModel UnrollModel TablesSpec.
Local Open Scope N_scope.

(** Which types may occur where (LLVM's [isValidElementType], [isValidArgumentType],
    [isValidReturnType]). *)
Definition function_type (t : ty) : Prop := exists r ps va, t = TFunction r ps va.
Definition scalable_type (t : ty) : Prop := exists n x, t = TScalableVector n x.
Definition struct_type (t : ty) : Prop := exists n fs pk, t = TStruct n fs pk.
Definition pointee_rule (t : ty) : Prop := ~ In t [TVoid; TLabel; TMetadata; TToken; TX86Amx].
Definition array_rule (t : ty) : Prop :=
  ~ In t [TVoid; TLabel; TMetadata; TToken; TX86Amx] /\ ~ function_type t /\ ~ scalable_type t.
Definition field_rule (t : ty) : Prop := ~ In t [TVoid; TLabel; TMetadata; TToken] /\ ~ function_type t.
Definition float_types : list ty := [THalf; TBFloat; TFloat; TDouble; TX86Fp80; TFp128; TPpcFp128].
(** LLVM also has vectors of opaque pointers. *)
Definition vector_rule (t : ty) : Prop :=
  In t float_types \/ (exists w, t = TInteger w) \/ exists p a, t = TPointer p a.
Definition param_rule (t : ty) : Prop := t <> TVoid /\ ~ function_type t.
Definition return_rule (t : ty) : Prop := ~ In t [TLabel; TMetadata] /\ ~ function_type t.
Definition width_rule (w : N) : Prop := 1 <= w < 2 ^ 24.
Definition space_rule (a : N) : Prop := a < 2 ^ 23.

(** The types without parts. *)
Definition simple_types : list (N * ty) :=
  [(2, TVoid); (3, TFloat); (4, TDouble); (5, TLabel); (10, THalf); (13, TX86Fp80); (14, TFp128);
   (15, TPpcFp128); (16, TMetadata); (17, TX86Mmx); (22, TToken); (23, TBFloat); (24, TX86Amx)].

(** Every part of a type obeys the rules. *)
Inductive well_built : ty -> Prop :=
| WB_simple c t : In (c, t) simple_types -> well_built t
| WB_integer w : width_rule w -> well_built (TInteger w)
| WB_function r ps va : well_built r -> return_rule r -> Forall well_built ps -> Forall param_rule ps ->
    well_built (TFunction r ps va)
| WB_pointer p a : well_built p -> pointee_rule p -> space_rule a -> well_built (TPointer p a)
| WB_opaque_pointer a : space_rule a -> well_built (TOpaquePointer a)
| WB_struct n fs pk : Forall well_built fs -> Forall field_rule fs -> well_built (TStruct n fs pk)
| WB_array n t : well_built t -> array_rule t -> well_built (TArray n t)
| WB_vector n t : well_built t -> vector_rule t -> well_built (TFixedVector n t)
| WB_scalable n t : well_built t -> vector_rule t -> well_built (TScalableVector n t).

(** [t] is entry [i] of the table. *)
Definition at_index (T : list ty) (i : N) (t : ty) : Prop := nth_error T (N.to_nat i) = Some t.

(** The type a record describes when its references are looked up in [T]; [name] is the name
    given by the preceding STRUCT_NAME records (LLVM's BitcodeReader.cpp,
    [parseTypeTableBody]). Widths are read modulo 2^32. *)
Inductive describes (T : list ty) (name : str) (r : record) : ty -> Prop :=
| D_simple t : In (r_code r, t) simple_types -> describes T name r t
| D_integer w l : r_code r = 7 -> r_fields r = w :: l -> width_rule (w mod 2 ^ 32) ->
    describes T name r (TInteger (w mod 2 ^ 32))
| D_pointer i a l t : r_code r = 8 -> r_fields r = i :: a :: l -> space_rule a -> at_index T i t -> pointee_rule t ->
    describes T name r (TPointer t a)
| D_opaque_pointer a l : r_code r = 25 -> r_fields r = a :: l -> space_rule a -> describes T name r (TOpaquePointer a)
| D_array n i l t : r_code r = 11 -> r_fields r = n :: i :: l -> at_index T i t -> array_rule t ->
    describes T name r (TArray n t)
| D_vector n i l t : r_code r = 12 -> r_fields r = n :: i :: l -> hd 0 l = 0 -> at_index T i t -> vector_rule t ->
    describes T name r (TFixedVector n t)
| D_scalable n i l t : r_code r = 12 -> r_fields r = n :: i :: l -> hd 0 l <> 0 -> at_index T i t -> vector_rule t ->
    describes T name r (TScalableVector n t)
| D_function va i js t ts : r_code r = 21 -> r_fields r = va :: i :: js -> at_index T i t -> return_rule t ->
    Forall2 (at_index T) js ts -> Forall param_rule ts -> describes T name r (TFunction t ts (negb (va =? 0)))
| D_struct pk js ts : r_code r = 18 -> r_fields r = pk :: js -> Forall2 (at_index T) js ts -> Forall field_rule ts ->
    describes T name r (TStruct None ts (negb (pk =? 0)))
| D_named pk js ts : r_code r = 20 -> r_fields r = pk :: js -> Forall2 (at_index T) js ts -> Forall field_rule ts ->
    describes T name r (TStruct (Some name) ts (negb (pk =? 0)))
| D_opaque : r_code r = 6 -> name <> [] -> describes T name r (TStruct (Some name) [] false).

(** Records that add no entry: NUMENTRY and STRUCT_NAME. Records that use up the name: OPAQUE
    and STRUCT_NAMED. *)
Definition adds_nothing (r : record) : Prop := In (r_code r) [1; 19].
Definition takes_name (r : record) : Prop := In (r_code r) [6; 20].

(** A STRUCT_NAME record spells a text of at least two bytes. *)
Definition spells (r : record) (s : str) : Prop :=
  r_code r = 19 /\ r_fields r = utf8_encode s /\ forallb is_scalar_value s = true /\ (2 <= length (r_fields r))%nat.

(** The records describe the types, in order; [name] is the name collected so far. *)
Inductive lists (T : list ty) : str -> list record -> list ty -> Prop :=
| LI_nil name : lists T name [] []
| LI_num name r l ts : r_code r = 1 -> lists T name l ts -> lists T name (r :: l) ts
| LI_name name r s l ts : spells r s -> lists T (name ++ s) l ts -> lists T name (r :: l) ts
| LI_plain name r t l ts : ~ takes_name r -> describes T name r t -> lists T name l ts -> lists T name (r :: l) (t :: ts)
| LI_named name r t l ts : takes_name r -> describes T name r t -> lists T [] l ts -> lists T name (r :: l) (t :: ts).

(** No record that takes a name comes directly after a struct ([after] says whether the entry
    before is one). *)
Fixpoint apart (after : bool) (l : list record) : Prop :=
  match l with
  | [] => True
  | r :: l' =>
      if (r_code r =? 1) || (r_code r =? 19) then apart after l'
      else if (r_code r =? 6) || (r_code r =? 20) then after = false /\ apart true l'
      else apart (r_code r =? 18) l'
  end.

(** What llvm-mapper does with such records: nothing with most, but an anonymous struct before
    them becomes the named one. The table so far and the name, before and after a record. *)
Inductive type_turn (T : list ty) : list ty -> str -> record -> list ty -> str -> Prop :=
| TU_num acc name r : r_code r = 1 -> type_turn T acc name r acc name
| TU_name acc name r s : spells r s -> type_turn T acc name r acc (name ++ s)
| TU_plain acc name r t : ~ takes_name r -> describes T name r t -> type_turn T acc name r (acc ++ [t]) name
| TU_named acc name r t : takes_name r -> describes T name r t ->
    (forall front x, acc = front ++ [x] -> ~ struct_type x) -> type_turn T acc name r (acc ++ [t]) []
| TU_fill front name r pk pk' js ts : r_code r = 20 -> r_fields r = pk' :: js -> Forall2 (at_index T) js ts ->
    Forall field_rule ts ->
    type_turn T (front ++ [TStruct None [] pk]) name r (front ++ [TStruct (Some name) ts pk]) []
| TU_rename front name r ts pk : r_code r = 6 -> name <> [] ->
    type_turn T (front ++ [TStruct None ts pk]) name r (front ++ [TStruct (Some name) ts pk]) [].
Inductive type_turns (T : list ty) : list ty -> str -> list record -> list ty -> Prop :=
| TS_nil acc name : type_turns T acc name [] acc
| TS_cons acc name r acc' name' l fin :
    type_turn T acc name r acc' name' -> type_turns T acc' name' l fin -> type_turns T acc name (r :: l) fin.

(** The references of a record. *)
Definition references (r : record) : list N :=
  match r_code r with
  | 8 => firstn 1 (r_fields r)
  | 11 | 12 => firstn 1 (skipn 1 (r_fields r))
  | 18 | 20 | 21 => skipn 1 (r_fields r)
  | _ => []
  end.
(** The records of the entries. *)
Definition entry_records (l : list record) : list record :=
  filter (fun r => negb ((r_code r =? 1) || (r_code r =? 19))) l.
(** A ranking of the entries that decreases along references exists: there is no cycle. *)
Definition acyclic (l : list record) : Prop :=
  exists rank : nat -> nat, forall k r i, nth_error (entry_records l) k = Some r -> In i (references r) ->
    (N.to_nat i < length (entry_records l))%nat -> (rank (N.to_nat i) < rank k)%nat.

(** STRUCT_NAME records have at least one character. *)
Definition named_fields (r : record) : Prop := r_code r = 19 -> r_fields r <> [].
(** The first NUMENTRY record announces [n] entries, and memory for so many can be reserved. *)
Definition announced (e : env) (b : block) (n : N) : Prop :=
  exists r l, first_record 1 (b_records b) r /\ r_fields r = n :: l /\ n <= alloc_limit e.

(** The first element of [l] that violates [P]. *)
Definition first_bad {A} (P : A -> Prop) (l : list A) (x : A) : Prop :=
  exists l1 l2, l = l1 ++ x :: l2 /\ Forall P l1 /\ ~ P x.
