(** Vocabulary for the attribute properties: the wire format of attributes, written as an
    encoder, and the meaning of the integer attributes. *)
From Verif Require Import Base Strings EnumModel SupportModel UnrollModel AttributeModel.
Local Open Scope N_scope.

(** An attribute as it is written into a group record. *)
Inductive wattr : Set := WEnum (id : N) | WInt (id value : N) | WStr (s : str) | WKeyValue (k v : str).

(** The fields written for it (LLVM's BitcodeWriter.cpp, [writeAttributeGroupTable]): a kind
    and the id, the value, or the zero-terminated bytes of the strings. *)
Definition wattr_fields (w : wattr) : list N :=
  match w with
  | WEnum i => [0; i]
  | WInt i v => [1; i; v]
  | WStr s => 3 :: utf8_encode s ++ [0]
  | WKeyValue k v => 4 :: utf8_encode k ++ 0 :: utf8_encode v ++ [0]
  end.

(** Strings that fit the format: not empty, Unicode scalar values, no zero. *)
Definition text (s : str) : Prop := s <> [] /\ Forall (fun c => is_scalar_value c = true /\ c <> 0) s.

(** The ids that carry a value (and 79, which llvm-mapper knows as neither). *)
Definition valued_ids : list N := [1; 25; 41; 42; 51; 74; 79; 82; 86].

(** How llvm-mapper reads the value of an integer attribute. *)
Inductive int_reads : N -> N -> int_attribute -> Prop :=
| IR_align_none : int_reads 1 0 (IaAlignment None)
| IR_align s : s <= 63 -> int_reads 1 (s + 1) (IaAlignment (Some (mkAlign s)))
| IR_stack_none : int_reads 25 0 (IaStackAlignment None)
| IR_stack s : s <= 63 -> int_reads 25 (s + 1) (IaStackAlignment (Some (mkAlign s)))
| IR_deref v : int_reads 41 v (IaDereferenceable v)
| IR_deref_null v : int_reads 42 v (IaDereferenceableOrNull v)
| IR_alloc elt num : elt < 2 ^ 32 -> num < 2 ^ 32 - 1 -> (elt <> 0 \/ num <> 0) ->
    int_reads 51 (elt * 2 ^ 32 + num) (IaAllocSize elt (Some num))
| IR_alloc_elt elt : elt < 2 ^ 32 -> int_reads 51 (elt * 2 ^ 32 + (2 ^ 32 - 1)) (IaAllocSize elt None)
| IR_vscale min max : min < 2 ^ 32 -> 0 < max < 2 ^ 32 -> int_reads 74 (min * 2 ^ 32 + max) (IaVScaleRange max min)
| IR_vscale_min min : min < 2 ^ 32 -> int_reads 74 (min * 2 ^ 32) (IaVScaleRange min min)
| IR_uw v x : In (v, x) [(0, UwNone); (1, UwSync); (2, UwAsync)] -> int_reads 33 v (IaUwTable x)
| IR_kind v : int_reads 82 v (IaAllocKind v)
| IR_memory v : int_reads 86 v (IaMemoryKind v).

(** How LLVM writes alignments: the number of bytes, a power of two
    (Attribute::getWithAlignment, [Attr.getValueAsInt]). *)
Definition llvm_alignment_value (shift : N) : N := 2 ^ shift.
(** How LLVM packs [vscale_range(min, max)]. *)
Definition llvm_vscale_value (min max : N) : N := min * 2 ^ 32 + max.

(** The attribute read for a written one. *)
Definition denotes (w : wattr) (a : attribute) : Prop :=
  match w, a with
  | WEnum i, AtEnum x => attribute_id_num x = i /\ ~ In i valued_ids
  | WInt i v, AtInt x => int_reads i v x
  | WStr s, AtStr t => s = t /\ text s
  | WKeyValue k v, AtStrKeyValue k' v' => k = k' /\ v = v' /\ text k /\ text v
  | _, _ => False
  end.

(** The place a group applies to. *)
Definition place (p : N) (d : disposition) : Prop :=
  (p = 2 ^ 32 - 1 /\ d = DiFunction) \/ (p = 0 /\ d = DiReturn) \/
  (p <> 2 ^ 32 - 1 /\ p <> 0 /\ d = DiParameter p).

(** A record is the encoding of a group with this id; ids and places are read modulo 2^32. *)
Definition group_record (r : record) (id : N) (g : attr_group) : Prop :=
  exists gid p ws, r_code r = 3 /\ r_fields r = gid :: p :: flat_map wattr_fields ws /\ ws <> [] /\
    id = gid mod 2 ^ 32 /\ place (p mod 2 ^ 32) (ag_disposition g) /\ Forall2 denotes ws (ag_attributes g).

(** A record that stops inside the key of a key/value attribute. *)
Definition cut_key (r : record) : Prop :=
  exists gid p ws (attrs : list attribute) k, r_code r = 3 /\ Forall2 denotes ws attrs /\ text k /\
    r_fields r = gid :: p :: flat_map wattr_fields ws ++ 4 :: utf8_encode k.

(** The last entry for a key. *)
Definition last_entry {A} (id : N) (l : list (N * A)) : option A :=
  option_map snd (find (fun x => fst x =? id) (rev l)).

(** Fields are 64-bit numbers. *)
Definition fields64 (r : record) : Prop := Forall (fun f => f < two64) (r_fields r).
