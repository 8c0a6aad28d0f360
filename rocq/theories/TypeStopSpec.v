(** Vocabulary for the outcomes of mapping a TYPE block, accepted or not: what each record does to the
    entries collected so far, and what becomes of an entry when its references are resolved. *)
From Verif Require Import Base Strings SupportModel UnrollModel UnrollSpec TablesSpec TypeTableModel TypeTableSpec RecursionSpec ModuleSpec.
Local Open Scope N_scope.

(** What reading all fields of a record as text gives. *)
Inductive text_outcome (e : env) (r : record) : outcome string_err str -> Prop :=
| TxOk s : text_of e r s -> text_outcome e r (Ok s)
| TxEmpty : overflow_checks e = true -> r_fields r = [] -> text_outcome e r (Panic PSubOverflow)
| TxOne x : r_fields r = [x] -> text_outcome e r (Err (StBadIndex 0 1))
| TxCharacter : (2 <= length (r_fields r))%nat -> ~ Forall (fun x => x < 256) (r_fields r) -> text_outcome e r (Err StBadCharacter)
| TxEncoding x : (2 <= length (r_fields r))%nat -> Forall (fun x => x < 256) (r_fields r) ->
    utf8_fault (r_fields r) x -> text_outcome e r (Err (StBadEncoding (r_fields r) x)).

(** The last entry is a struct. *)
Definition last_struct (P : list ptype) (front : list ptype) (name : option str) (js : list N) (pk : bool) : Prop :=
  P = front ++ [PtStruct name js pk].
Definition no_last_struct (P : list ptype) : Prop := forall front name js pk, ~ last_struct P front name js pk.
(** How many fields a record needs. *)
Definition least_fields : list (N * nat) :=
  [(7, 1%nat); (8, 2%nat); (11, 2%nat); (12, 2%nat); (18, 1%nat); (20, 1%nat); (21, 2%nat); (25, 1%nat)].

(** A record makes an entry of its own. *)
Inductive entry_of (r : record) : ptype -> Prop :=
| EnSimple t : In (r_code r, t) simple_types -> entry_of r (PtSimple t)
| EnInteger w l : r_code r = 7 -> r_fields r = w :: l -> entry_of r (PtInteger (w mod 2 ^ 32))
| EnPointer i a l : r_code r = 8 -> r_fields r = i :: a :: l -> space_rule a -> entry_of r (PtPointer i a)
| EnOpaquePointer a l : r_code r = 25 -> r_fields r = a :: l -> space_rule a -> entry_of r (PtOpaquePointer a)
| EnArray n i l : r_code r = 11 -> r_fields r = n :: i :: l -> entry_of r (PtArray n i)
| EnVector n i l : r_code r = 12 -> r_fields r = n :: i :: l -> hd 0 l = 0 -> entry_of r (PtFixedVector n i)
| EnScalable n i l : r_code r = 12 -> r_fields r = n :: i :: l -> hd 0 l <> 0 -> entry_of r (PtScalableVector n i)
| EnStruct pk js : r_code r = 18 -> r_fields r = pk :: js -> entry_of r (PtStruct None js (negb (pk =? 0)))
| EnFunction va i js : r_code r = 21 -> r_fields r = va :: i :: js -> entry_of r (PtFunction i js (negb (va =? 0))).

(** What a record does: [P] are the entries so far, [name] the name collected so far. *)
Inductive type_read (e : env) (P : list ptype) (name : str) (r : record) : outcome tt_err (list ptype * str) -> Prop :=
| TrCount : r_code r = 1 -> type_read e P name r (Ok (P, name))
| TrEntry p : entry_of r p -> type_read e P name r (Ok (P ++ [p], name))
| TrName s : r_code r = 19 -> text_outcome e r (Ok s) -> type_read e P name r (Ok (P, name ++ s))
| TrOpaque : r_code r = 6 -> name <> [] -> no_last_struct P -> type_read e P name r (Ok (P ++ [PtStruct (Some name) [] false], []))
| TrRename front js pk : r_code r = 6 -> name <> [] -> last_struct P front None js pk ->
    type_read e P name r (Ok (front ++ [PtStruct (Some name) js pk], []))
| TrNamed pk js : r_code r = 20 -> r_fields r = pk :: js -> no_last_struct P ->
    type_read e P name r (Ok (P ++ [PtStruct (Some name) js (negb (pk =? 0))], []))
| TrFill front pk pk' js : r_code r = 20 -> r_fields r = pk' :: js -> last_struct P front None [] pk ->
    type_read e P name r (Ok (front ++ [PtStruct (Some name) js pk], []))
| TrUnknown : ~ (1 <= r_code r <= 25) -> type_read e P name r (Err (TtUnknownCode (r_code r)))
| TrOld : r_code r = 9 -> type_read e P name r (Err TtUnsupported)
| TrShort k : In (r_code r, k) least_fields -> (length (r_fields r) < k)%nat -> type_read e P name r (Err TtBadTable)
| TrSpace i a l : r_code r = 8 -> r_fields r = i :: a :: l -> ~ space_rule a ->
    type_read e P name r (Err (TtInvalid (TfPointerSpace (SpTooBig a))))
| TrOpaqueSpace a l : r_code r = 25 -> r_fields r = a :: l -> ~ space_rule a ->
    type_read e P name r (Err (TtInvalid (TfOpaqueSpace (SpTooBig a))))
| TrNoText x : r_code r = 19 -> text_outcome e r (Err x) -> type_read e P name r (Err (TtString x))
| TrPanic x : r_code r = 19 -> text_outcome e r (Panic x) -> type_read e P name r (Panic x)
| TrNameless : r_code r = 6 -> name = [] -> type_read e P name r (Err (TtInvalid TfNoName))
| TrTwice front n js pk : r_code r = 6 -> name <> [] -> last_struct P front (Some n) js pk ->
    type_read e P name r (Err (TtInvalid TfNamed))
| TrFull front n js pk pk' js' : r_code r = 20 -> r_fields r = pk' :: js' -> last_struct P front n js pk ->
    n <> None \/ js <> [] -> type_read e P name r (Err (TtInvalid TfFull)).

(** What the records do, in order, until one of them stops the mapping. *)
Inductive type_reads (e : env) : list ptype -> str -> list record -> outcome tt_err (list ptype) -> Prop :=
| TrsEnd P name : type_reads e P name [] (Ok P)
| TrsNext P name r P' name' l out : type_read e P name r (Ok (P', name')) -> type_reads e P' name' l out ->
    type_reads e P name (r :: l) out
| TrsErr P name r l x : type_read e P name r (Err x) -> type_reads e P name (r :: l) (Err x)
| TrsPanic P name r l x : type_read e P name r (Panic x) -> type_reads e P name (r :: l) (Panic x).

(** An entry and the types of its references, in order: the type built, or the rule that is broken. *)
Inductive builds : ptype -> list ty -> outcome ty_err ty -> Prop :=
| BuSimple t : builds (PtSimple t) [] (Ok t)
| BuInteger w : width_rule w -> builds (PtInteger w) [] (Ok (TInteger w))
| BuWidth w : ~ width_rule w -> builds (PtInteger w) [] (Err TeIntWidth)
| BuPointer i a t : pointee_rule t -> builds (PtPointer i a) [t] (Ok (TPointer t a))
| BuPointee i a t : ~ pointee_rule t -> builds (PtPointer i a) [t] (Err (TePointee t))
| BuOpaquePointer a : builds (PtOpaquePointer a) [] (Ok (TOpaquePointer a))
| BuArray n i t : array_rule t -> builds (PtArray n i) [t] (Ok (TArray n t))
| BuElement n i t : ~ array_rule t -> builds (PtArray n i) [t] (Err (TeArrayElement t))
| BuVector n i t : vector_rule t -> builds (PtFixedVector n i) [t] (Ok (TFixedVector n t))
| BuLane n i t : ~ vector_rule t -> builds (PtFixedVector n i) [t] (Err (TeVectorElement t))
| BuScalable n i t : vector_rule t -> builds (PtScalableVector n i) [t] (Ok (TScalableVector n t))
| BuScalableLane n i t : ~ vector_rule t -> builds (PtScalableVector n i) [t] (Err (TeVectorElement t))
| BuStruct n js pk ts : Forall field_rule ts -> builds (PtStruct n js pk) ts (Ok (TStruct n ts pk))
| BuField n js pk ts t : first_bad field_rule ts t -> builds (PtStruct n js pk) ts (Err (TeStructElement t))
| BuFunction i js va t ts : return_rule t -> Forall param_rule ts -> builds (PtFunction i js va) (t :: ts) (Ok (TFunction t ts va))
| BuReturn i js va t ts : ~ return_rule t -> builds (PtFunction i js va) (t :: ts) (Err (TeReturn t))
| BuParameter i js va t ts x : return_rule t -> first_bad param_rule ts x -> builds (PtFunction i js va) (t :: ts) (Err (TeParameter x)).

(** What becomes of an entry of the table [P]: its references are resolved in order; the first without a
    type decides. There is no rule for an infinite descent. *)
Inductive typed (P : list ptype) : ptype -> outcome tt_err ty -> Prop :=
| TyOk p ts t : typed_all P (prefs p) ts -> builds p ts (Ok t) -> typed P p (Ok t)
| TyRule p ts x : typed_all P (prefs p) ts -> builds p ts (Err x) -> typed P p (Err (TtType x))
| TyIndex p pre i post ts : prefs p = pre ++ i :: post -> typed_all P pre ts -> nth_error P (N.to_nat i) = None ->
    typed P p (Err (TtBadIndex i))
| TyPart p pre i post ts q x : prefs p = pre ++ i :: post -> typed_all P pre ts -> nth_error P (N.to_nat i) = Some q ->
    typed P q (Err x) -> typed P p (Err x)
with typed_all (P : list ptype) : list N -> list ty -> Prop :=
| TaNil : typed_all P [] []
| TaCons i q t js ts : nth_error P (N.to_nat i) = Some q -> typed P q (Ok t) -> typed_all P js ts -> typed_all P (i :: js) (t :: ts).

(** What becomes of a TYPE block: [OutOfFuel] stands for a resolution without end. *)
Inductive table_outcome (e : env) (b : block) : outcome tt_err type_table -> Prop :=
| TbNoCount : Forall (fun r => r_code r <> 1) (b_records b) -> table_outcome e b (Err TtBadTable)
| TbNoNumber r : first_record 1 (b_records b) r -> r_fields r = [] -> table_outcome e b (Err TtBadTable)
| TbMemory r n l : first_record 1 (b_records b) r -> r_fields r = n :: l -> alloc_limit e < n -> table_outcome e b (Panic PAlloc)
| TbErr n x : announced e b n -> type_reads e [] [] (b_records b) (Err x) -> table_outcome e b (Err x)
| TbPanic n x : announced e b n -> type_reads e [] [] (b_records b) (Panic x) -> table_outcome e b (Panic x)
| TbSize n P : announced e b n -> type_reads e [] [] (b_records b) (Ok P) -> n <> N.of_nat (length P) ->
    table_outcome e b (Err (TtBadSize n (N.of_nat (length P))))
| TbOk P T : announced e b (N.of_nat (length P)) -> type_reads e [] [] (b_records b) (Ok P) ->
    Forall2 (fun p t => typed P p (Ok t)) P T -> table_outcome e b (Ok T)
| TbType P pre p post ts x : announced e b (N.of_nat (length P)) -> type_reads e [] [] (b_records b) (Ok P) ->
    P = pre ++ p :: post -> Forall2 (fun p t => typed P p (Ok t)) pre ts -> typed P p (Err x) -> table_outcome e b (Err x)
| TbEndless P : announced e b (N.of_nat (length P)) -> type_reads e [] [] (b_records b) (Ok P) ->
    endless_types P -> table_outcome e b OutOfFuel.
