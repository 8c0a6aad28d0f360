(** Specification: what LLVM's reader makes of a TYPE block (llvm/lib/Bitcode/Reader/BitcodeReader.cpp of LLVM 13 and 14:
    [parseTypeTableBody], [getTypeByID]). Types refer to each other by index: a struct may contain a pointer to itself. The
    fields are below 2^32: LLVM cuts some fields to 32 bits. Address spaces are not cut. *)
From Verif Require Import Base Strings SupportModel UnrollModel TablesSpec TypeTableSpec ReaderSpec.
Local Open Scope N_scope.

(** Literal structs have no name; identified ones may have the empty name. The name is a string of bytes. *)
Inductive lnode : Set :=
| LnSimple (t : ty)
| LnInteger (w : N)
| LnPointer (i : N) (a : N)
| LnOpaquePointer (a : N)
| LnFunction (i : N) (js : list N) (va : bool)
| LnStruct (name : option (list N)) (js : list N) (pk : bool)
| LnOpaque (name : list N)
| LnArray (n : N) (i : N)
| LnVector (n : N) (i : N) (scalable : bool).

(** LLVM's [isValidElementType] of pointers, arrays and vectors, and [isFirstClassType] for parameters. *)
Definition unsized (t : ty) : bool := match t with TVoid | TLabel | TMetadata | TToken | TX86Amx => true | _ => false end.
Definition pointee_node (n : lnode) : bool := match n with LnSimple t => negb (unsized t) | _ => true end.
Definition array_node (n : lnode) : bool :=
  match n with LnSimple t => negb (unsized t) | LnFunction _ _ _ => false | LnVector _ _ scalable => negb scalable | _ => true end.
Definition vector_node (n : lnode) : bool :=
  match n with
  | LnSimple t => match t with THalf | TBFloat | TFloat | TDouble | TX86Fp80 | TFp128 | TPpcFp128 => true | _ => false end
  | LnInteger _ | LnPointer _ _ | LnOpaquePointer _ => true
  | _ => false
  end.
Definition param_node (n : lnode) : bool :=
  match n with LnSimple TVoid | LnFunction _ _ _ | LnOpaque _ => false | _ => true end.
Definition any_node (n : lnode) : bool := true.

(** LLVM's [TypeList]: entries that are not there yet may have been referred to. They are opaque structs until then. *)
Inductive slot : Set := Empty | Forward | Filled (n : lnode).
Definition passes (ok : lnode -> bool) (x : slot) : bool :=
  match x with Empty => false | Forward => ok (LnOpaque []) | Filled n => ok n end.

Fixpoint put (s : list slot) (k : nat) (x : slot) : list slot :=
  match s, k with
  | [], _ => []
  | _ :: s', O => x :: s'
  | y :: s', S k' => y :: put s' k' x
  end.
(** [getTypeByID] for each of the ids, then the check. *)
Fixpoint take_all (ok : lnode -> bool) (s : list slot) (ids : list N) : option (list slot) :=
  match ids with
  | [] => Some s
  | i :: ids' =>
      try! x := nth_error s (N.to_nat i) in
      let s' := match x with Empty => put s (N.to_nat i) Forward | _ => s end in
      if passes ok (match x with Empty => Forward | _ => x end) then take_all ok s' ids' else None
  end.

(** The type of a record, and the table after its references. [bits] is the largest width of an integer: 2^24 - 1 in LLVM 13,
    2^23 in LLVM 14. FUNCTION_OLD is 9. A POINTER has an address space if it has exactly two fields. *)
Definition llvm_entry (bits : N) (s : list slot) (name : list N) (r : record) : option (lnode * list slot) :=
  match find (fun p => fst p =? r_code r) simple_types with
  | Some (_, t) => Some (LnSimple t, s)
  | None =>
      match r_code r, r_fields r with
      | 7, w :: _ => if (1 <=? w) && (w <=? bits) then Some (LnInteger w, s) else None
      | 8, i :: more => try! s := take_all pointee_node s [i] in Some (LnPointer i (match more with [a] => a | _ => 0 end), s)
      | 25, [a] => Some (LnOpaquePointer a, s)
      | 9, va :: _ :: i :: js | 21, va :: i :: js =>
          try! s := take_all param_node s js in try! s := take_all any_node s [i] in Some (LnFunction i js (negb (va =? 0)), s)
      | 18, pk :: js => try! s := take_all any_node s js in Some (LnStruct None js (negb (pk =? 0)), s)
      | 20, pk :: js => try! s := take_all any_node s js in Some (LnStruct (Some name) js (negb (pk =? 0)), s)
      | 6, [_] => Some (LnOpaque name, s)
      | 11, n :: i :: _ => try! s := take_all array_node s [i] in Some (LnArray n i, s)
      | 12, n :: i :: more =>
          if n =? 0 then None else try! s := take_all vector_node s [i] in Some (LnVector n i (negb (hd 0 more =? 0)), s)
      | _, _ => None
      end
  end.

(** One record: the table, the number of types so far and the name collected so far. A named struct takes the place of the
    one referred to before; no other type may. *)
Definition resize (s : list slot) (n : nat) : list slot := firstn n s ++ repeat Empty (n - length s).
Definition llvm_turn (bits : N) (st : list slot * nat * list N) (r : record) : option (list slot * nat * list N) :=
  let '(s, num, name) := st in
  if r_code r =? 1 then match r_fields r with n :: _ => Some (resize s (N.to_nat n), num, name) | [] => None end
  else if r_code r =? 19 then Some (s, num, name ++ map (fun c => c mod 256) (r_fields r))
  else
    let named := (r_code r =? 6) || (r_code r =? 20) in
    let s := match named, nth_error s num with true, Some Forward => put s num Empty | _, _ => s end in
    try! (n, s) := llvm_entry bits s name r in
    match nth_error s num with
    | Some Empty => Some (put s num (Filled n), S num, if named then [] else name)
    | _ => None
    end.
Fixpoint llvm_loop (bits : N) (l : list record) (st : list slot * nat * list N) : option (list slot * nat * list N) :=
  match l with
  | [] => Some st
  | r :: l' => try! st := llvm_turn bits st r in llvm_loop bits l' st
  end.
Fixpoint all_filled (s : list slot) : option (list lnode) :=
  match s with
  | [] => Some []
  | Filled n :: s' => try! ns := all_filled s' in Some (n :: ns)
  | _ => None
  end.
Definition llvm_types (bits : N) (l : list record) : option (list lnode) :=
  try! (s, num, _) := llvm_loop bits l ([], 0%nat, []) in
  if (num =? length s)%nat then all_filled s else None.

(** The block has one NUMENTRY record. *)
Definition one_count (l : list record) : Prop :=
  exists l1 r l2, l = l1 ++ r :: l2 /\ r_code r = 1 /\ Forall (fun x => r_code x <> 1) (l1 ++ l2).

(** A type of llvm-mapper is the one of LLVM, the references looked up in the table. *)
Definition node_type (T : list ty) (n : lnode) (t : ty) : Prop :=
  match n with
  | LnSimple u => t = u
  | LnInteger w => t = TInteger w
  | LnPointer i a => exists p, at_index T i p /\ t = TPointer p a
  | LnOpaquePointer a => t = TOpaquePointer a
  | LnFunction i js va => exists r ps, at_index T i r /\ Forall2 (at_index T) js ps /\ t = TFunction r ps va
  | LnStruct None js pk => exists fs, Forall2 (at_index T) js fs /\ t = TStruct None fs pk
  | LnStruct (Some b) js pk => exists s fs, utf8_encode s = b /\ Forall2 (at_index T) js fs /\ t = TStruct (Some s) fs pk
  | LnOpaque b => exists s, utf8_encode s = b /\ t = TStruct (Some s) [] false
  | LnArray k i => exists u, at_index T i u /\ t = TArray k u
  | LnVector k i sc => exists u, at_index T i u /\ t = if sc then TScalableVector k u else TFixedVector k u
  end.
Definition same_types (ns : list lnode) (T : list ty) : Prop := Forall2 (node_type T) ns T.

(** The references of an entry. *)
Definition node_refs (n : lnode) : list N :=
  match n with
  | LnPointer i _ | LnArray _ i | LnVector _ i _ => [i]
  | LnFunction i js _ => i :: js
  | LnStruct _ js _ => js
  | _ => []
  end.

(** What llvm-mapper demands beyond LLVM: names in UTF-8 of at least two bytes, no named struct behind a struct, an address
    space for every pointer, no FUNCTION_OLD, a name for every opaque struct, no vectors of opaque pointers, fields and
    results of functions by the rules of the IR, and no recursion. *)
Record strict_table (e : env) (l : list record) (ns : list lnode) : Prop := mkStrictTable {
  st_size : N.of_nat (length ns) <= alloc_limit e;
  st_names : forall r, In r l -> r_code r = 19 -> exists s, spells r s;
  st_apart : apart false l;
  st_pointers : forall r, In r l -> r_code r = 8 -> exists i a more, r_fields r = i :: a :: more /\ a < 2 ^ 23;
  st_opaque_pointers : forall a, In (LnOpaquePointer a) ns -> a < 2 ^ 23;
  st_old : forall r, In r l -> r_code r <> 9;
  st_opaque : ~ In (LnOpaque []) ns;
  st_vectors : forall k i sc a, In (LnVector k i sc) ns -> nth_error ns (N.to_nat i) <> Some (LnOpaquePointer a);
  st_fields : forall name js pk j m, In (LnStruct name js pk) ns -> In j js -> nth_error ns (N.to_nat j) = Some m ->
    match m with LnSimple TVoid | LnSimple TLabel | LnSimple TMetadata | LnSimple TToken | LnFunction _ _ _ => False | _ => True end;
  st_returns : forall i js va m, In (LnFunction i js va) ns -> nth_error ns (N.to_nat i) = Some m ->
    match m with LnSimple TLabel | LnSimple TMetadata | LnFunction _ _ _ => False | _ => True end;
  st_acyclic : exists rank : nat -> nat, forall k n i, nth_error ns k = Some n -> In i (node_refs n) -> (rank (N.to_nat i) < rank k)%nat
}.

(** What LLVM demands beyond llvm-mapper: the count before the entries, no struct that llvm-mapper would merge with the one
    before it, widths up to [bits] and not modulo 2^32, OPAQUE and OPAQUE_POINTER records of one field, no empty vectors;
    references ahead only to named structs, and not from vectors or parameters; no parameters that are opaque structs. *)
Record llvm_rules (bits : N) (l : list record) : Prop := mkLlvmRules {
  lr_count : exists l1 r l2, l = l1 ++ r :: l2 /\ Forall (fun x => r_code x = 19) l1 /\ r_code r = 1;
  lr_apart : apart false l;
  lr_widths : forall r, In r l -> r_code r = 7 -> hd 0 (r_fields r) <= bits;
  lr_single : forall r, In r l -> In (r_code r) [6; 25] -> length (r_fields r) = 1%nat;
  lr_vectors : forall r, In r l -> r_code r = 12 -> hd 0 (r_fields r) <> 0;
  lr_ahead : forall k r i, nth_error (entry_records l) k = Some r -> In i (references r) -> (k <= N.to_nat i)%nat ->
    exists s, nth_error (entry_records l) (N.to_nat i) = Some s /\ takes_name s;
  lr_elements : forall k r i, nth_error (entry_records l) k = Some r -> r_code r = 12 -> In i (references r) -> (N.to_nat i < k)%nat;
  lr_params : forall k r i, nth_error (entry_records l) k = Some r -> r_code r = 21 -> In i (skipn 2 (r_fields r)) -> (N.to_nat i < k)%nat;
  lr_opaque : forall r i s, In r l -> r_code r = 21 -> In i (skipn 2 (r_fields r)) ->
    nth_error (entry_records l) (N.to_nat i) = Some s -> r_code s <> 6
}.
