(** Specification: what LLVM's reader makes of attribute groups and lists (llvm/lib/Bitcode/Reader/BitcodeReader.cpp of LLVM 13 to 16:
    [parseAttributeGroupBlock], [parseAttributeBlock]). Attributes are given as read, before LLVM sorts them and
    drops repeated ones. *)
From Verif Require Import Base Strings ReaderSpec EnumModel SupportModel UnrollModel AttributeModel AttributeSpec.
Local Open Scope N_scope.

(** Strings are given as fields, of which LLVM takes the low 8 bits; without a value the value is empty. *)
Inductive lattr : Set :=
| LaEnum (key : N)
| LaInt (key value : N)
| LaString (key : list N) (value : option (list N))
| LaType (key : N) (t : option N).

(** The keys a version of LLVM knows: alone, with an integer, with a type. *)
Record llvm_keys : Set := mkKeys { lk_enum : N -> bool; lk_int : N -> bool; lk_type : N -> bool }.

(** A string up to its zero. *)
Fixpoint terminated (l : list N) : option (list N * list N) :=
  match l with
  | [] => None
  | c :: l' => if c =? 0 then Some ([], l') else try! (s, rest) := terminated l' in Some (c :: s, rest)
  end.

(** The loop over the fields; [n] bounds the number of attributes. LLVM does not check that the fields are there; such records
    are not read here. *)
Fixpoint llvm_attributes (K : llvm_keys) (n : nat) (l : list N) : option (list lattr) :=
  match l, n with
  | [], _ => Some []
  | _, O => None
  | kind :: l, S n =>
      if kind =? 0 then
        match l with k :: l => if lk_enum K k then try! las := llvm_attributes K n l in Some (LaEnum k :: las) else None | _ => None end
      else if kind =? 1 then
        match l with k :: v :: l => if lk_int K k then try! las := llvm_attributes K n l in Some (LaInt k v :: las) else None | _ => None end
      else if kind =? 3 then
        try! (s, l) := terminated l in try! las := llvm_attributes K n l in Some (LaString s None :: las)
      else if kind =? 4 then
        try! (s, l) := terminated l in try! (t, l) := terminated l in
        try! las := llvm_attributes K n l in Some (LaString s (Some t) :: las)
      else if kind =? 5 then
        match l with k :: l => if lk_type K k then try! las := llvm_attributes K n l in Some (LaType k None :: las) else None | _ => None end
      else if kind =? 6 then
        match l with k :: t :: l => if lk_type K k then try! las := llvm_attributes K n l in Some (LaType k (Some t) :: las) else None | _ => None end
      else None
  end.

(** A group: its id, the place it applies to and the attributes. *)
Definition llvm_group (K : llvm_keys) (r : record) : option (N * (N * list lattr)) :=
  match r_fields r with
  | g :: p :: x :: l => try! las := llvm_attributes K (length (x :: l)) (x :: l) in Some (g mod 2 ^ 32, (p mod 2 ^ 32, las))
  | _ => None
  end.
(** The groups of a block; records of other codes are skipped. *)
Fixpoint llvm_groups (K : llvm_keys) (l : list record) : option (list (N * (N * list lattr))) :=
  match l with
  | [] => Some []
  | r :: l' =>
      if r_code r =? 3 then try! g := llvm_group K r in try! gs := llvm_groups K l' in Some (g :: gs) else llvm_groups K l'
  end.
(** A list of attributes: the groups it names, the last one of each id. Groups that are not there have no attributes. *)
Definition llvm_list (gs : list (N * (N * list lattr))) (r : record) : list (option (N * list lattr)) :=
  map (fun f => last_entry (f mod 2 ^ 32) gs) (r_fields r).

(** The value of an integer attribute in LLVM: a number of bytes for alignments, the two halves for [allocsize] and [vscale_range]. *)
Definition int_same (x : int_attribute) (k v : N) : Prop :=
  match x with
  | IaAlignment a => k = 1 /\ v = match a with None => 0 | Some (mkAlign s) => 2 ^ s end
  | IaStackAlignment a => k = 25 /\ v = match a with None => 0 | Some (mkAlign s) => 2 ^ s end
  | IaDereferenceable w => k = 41 /\ v = w
  | IaDereferenceableOrNull w => k = 42 /\ v = w
  | IaAllocSize e n => k = 51 /\ v = e * 2 ^ 32 + match n with None => 2 ^ 32 - 1 | Some n => n end
  | IaVScaleRange min max => k = 74 /\ v = min * 2 ^ 32 + max
  | IaUwTable u => k = 33 /\ v = match u with UwNone => 0 | UwSync => 1 | UwAsync => 2 end
  | IaAllocKind w => k = 82 /\ v = w
  | IaMemoryKind w => k = 86 /\ v = w
  end.
Definition int_key (x : int_attribute) : N :=
  match x with
  | IaAlignment _ => 1 | IaStackAlignment _ => 25 | IaDereferenceable _ => 41 | IaDereferenceableOrNull _ => 42 | IaAllocSize _ _ => 51
  | IaVScaleRange _ _ => 74 | IaUwTable _ => 33 | IaAllocKind _ => 82 | IaMemoryKind _ => 86
  end.
Definition bytes (l : list N) : list N := map (fun c => c mod 256) l.

(** Both have the same attribute, whatever its value. *)
Definition same_key (a : attribute) (l : lattr) : Prop :=
  match a, l with
  | AtEnum x, LaEnum k => attribute_id_num x = k
  | AtInt x, LaInt k _ => int_key x = k
  | AtStr s, LaString k None => utf8_encode s = bytes k
  | AtStrKeyValue s t, LaString k (Some v) => utf8_encode s = bytes k /\ utf8_encode t = bytes v
  | _, _ => False
  end.
(** And the same value. *)
Definition same_attribute (a : attribute) (l : lattr) : Prop :=
  match a, l with
  | AtInt x, LaInt k v => int_same x k v
  | _, _ => same_key a l
  end.
(** Alignments of more than two bytes, and ranges of vscale of which minimum and maximum differ. *)
Definition misread (l : lattr) : Prop :=
  match l with
  | LaInt k v => (In k [1; 25] /\ 2 < v) \/ (k = 74 /\ v / 2 ^ 32 <> v mod 2 ^ 32)
  | _ => False
  end.

(** What llvm-mapper demands beyond LLVM: keys it knows, alignments up to 64 (which it takes for exponents), an [allocsize] other
    than zero, strings in UTF-8 that are not empty, no types. *)
Definition proper_string (l : list N) : Prop := exists s, text s /\ utf8_encode s = l.
Definition strict_attribute (l : lattr) : Prop :=
  match l with
  | LaEnum k => 1 <= k <= 86 /\ ~ In k valued_ids
  | LaInt k v => (In k [1; 25] /\ v <= 64) \/ In k [41; 42; 74; 82; 86] \/ (k = 51 /\ v <> 0) \/ (k = 33 /\ v <= 2)
  | LaString k None => proper_string k
  | LaString k (Some v) => proper_string k /\ proper_string v
  | LaType _ _ => False
  end.
(** The attributes a version of LLVM knows. *)
Definition known_attribute (K : llvm_keys) (a : attribute) : Prop :=
  match a with
  | AtEnum x => lk_enum K (attribute_id_num x) = true
  | AtInt x => lk_int K (int_key x) = true
  | _ => True
  end.

(** A group of llvm-mapper and one of LLVM. *)
Definition same_group (g : attr_group) (p : N) (las : list lattr) : Prop :=
  place p (ag_disposition g) /\
  Forall2 (fun a l => same_key a l /\ (same_attribute a l <-> ~ misread l)) (ag_attributes g) las.
