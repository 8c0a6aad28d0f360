(** Model of llvm-mapper/src/block/attributes.rs. *)
From Verif Require Import Base Strings EnumModel SupportModel UnrollModel.
Local Open Scope N_scope.

(** attributes.rs:15-63 [AttributeError]. The payloads of the [TryFromPrimitiveError]s are the
    numbers; [Map] is never constructed. The texts of [AttributeMalformed] (233; 281-284; 290-293 and 304-307;
    298 and 312; 320-323; 348) are values. *)
Inductive attr_fault : Set := MfNotEnum | MfNotInt | MfLargeAlignment | MfAlignment | MfAllocSize | MfUwTable.
(** attributes.rs:16-64 [AttributeError], with the values above for the texts. *)
Inductive attr_err : Set :=
| AeUnknownCode (v : N) | AeUnknownKind (v : N) | AeWrongBlock (c : attribute_code) | AeTooShort
| AeBadString | AeUnknownId (v : N) | AeMalformed (x : attr_fault) (i : attribute_id) | AeIntUnsupported (i : attribute_id)
| AeBadGroup (g : N) | AeGroupTooShort (c : attribute_code) (len : N) | AeGroupSize (consumed len : N).

(** attributes.rs:67-225 [EnumAttribute]: the attribute ids other than these nine. An
    [EnumAttribute] is represented by the [AttributeId] with its name (and discriminant). *)
Definition is_enum_attribute (i : attribute_id) : bool :=
  match i with
  | AiAlignment | AiStackAlignment | AiDereferenceable | AiDereferenceableOrNull | AiAllocSize
  | AiVScaleRange | AiNoSanitizeBounds | AiAllocKind | AiMemory => false
  | _ => true
  end.
(** attributes.rs:227-235. *)
Definition enum_attribute_of (i : attribute_id) : outcome attr_err attribute_id :=
  if is_enum_attribute i then Ok i else Err (AeMalformed MfNotEnum i).

(** attributes.rs:237-247 [UwTableVariant]. *)
Inductive uwtable : Set := UwNone | UwSync | UwAsync.
(** attributes.rs:238: the [TryFromPrimitive] derived for it. *)
Definition uwtable_of (v : N) : option uwtable :=
  match v with 0 => Some UwNone | 1 => Some UwSync | 2 => Some UwAsync | _ => None end.

(** attributes.rs:250-271 [IntAttribute]; [MaybeAlign] is [option align]. *)
Inductive int_attribute : Set :=
| IaAlignment (a : option align) | IaStackAlignment (a : option align)
| IaDereferenceable (v : N) | IaDereferenceableOrNull (v : N)
| IaAllocSize (elt_size : N) (num_elts : option N)
| IaVScaleRange (x y : N) | IaUwTable (v : uwtable) | IaAllocKind (v : N) | IaMemoryKind (v : N).

(** [value as u32]. *)
Definition as_u32 (v : N) : N := v mod two32.

(** attributes.rs:289-300 and 303-314: [u8::try_from] and [MaybeAlign::try_from]. *)
Definition attr_align (key : attribute_id) (v : N) : outcome attr_err (option align) :=
  if v <? 256 then omap_err (fun _ => AeMalformed MfAlignment key) (maybe_align_of v) else Err (AeMalformed MfLargeAlignment key).

(** attributes.rs:273-357 [TryFrom<(AttributeId, u64)> for IntAttribute]. *)
Definition int_attribute_of (key : attribute_id) (v : N) : outcome attr_err int_attribute :=
  if is_enum_attribute key && negb (match key with AiUwTable => true | _ => false end)
  then Err (AeMalformed MfNotInt key)
  else
    match key with
    | AiAlignment => let? a := attr_align key v in Ok (IaAlignment a)
    | AiStackAlignment => let? a := attr_align key v in Ok (IaStackAlignment a)
    | AiDereferenceable => Ok (IaDereferenceable v)
    | AiDereferenceableOrNull => Ok (IaDereferenceableOrNull v)
    | AiAllocSize =>
        if v =? 0 then Err (AeMalformed MfAllocSize key)
        else Ok (IaAllocSize (as_u32 (N.shiftr v 32)) (if as_u32 v =? u32_max then None else Some (as_u32 v)))
    | AiVScaleRange =>
        let min := as_u32 (N.shiftr v 32) in
        let max := if as_u32 v =? 0 then min else as_u32 v in
        Ok (IaVScaleRange max min)
    | AiUwTable => let? x := ok_or (uwtable_of v) (AeMalformed MfUwTable key) in Ok (IaUwTable x)
    | AiAllocKind => Ok (IaAllocKind v)
    | AiMemory => Ok (IaMemoryKind v)
    | o => Err (AeIntUnsupported o)
    end.

(** attributes.rs:360-371 [Attribute]. *)
Inductive attribute : Set :=
| AtEnum (i : attribute_id) | AtInt (i : int_attribute) | AtStr (s : str) | AtStrKeyValue (k v : str).

(** attributes.rs:381-390 [next!]: the field and the new [fieldcount]. *)
Definition attr_next (fields : list N) (start count : N) : outcome attr_err (N * N) :=
  match nth_error fields (N.to_nat (start + count)) with
  | Some f => Ok (f, count + 1)
  | None => Err AeTooShort
  end.

(** [iter().take_while(|f| **f != 0)]. *)
Fixpoint take_nonzero (l : list N) : list N :=
  match l with [] => [] | f :: l' => if f =? 0 then [] else f :: take_nonzero l' end.

(** attributes.rs:392-415 [take_string!]. *)
Definition attr_string (fields : list N) (start count : N) : outcome attr_err (str * N) :=
  if N.of_nat (length fields) <? start + count then Panic PSliceRange
  else
    let? bytes := collect (u8_of AeBadString) (take_nonzero (skipn (N.to_nat (start + count)) fields)) in
    match bytes with
    | [] => Err AeBadString
    | _ => let? s := ok_or (utf8_decode bytes) AeBadString in
           Ok (s, count + (N.of_nat (length (utf8_encode s)) + 1))
    end.

(** [AttributeId::try_from(..)?] (attributes.rs:425, 431). *)
Definition attr_id_of (v : N) : outcome attr_err attribute_id := ok_or (attribute_id_of v) (AeUnknownId v).

(** attributes.rs:375-450 [Attribute::from_record]. *)
Definition attr_from_record (start : N) (fields : list N) : outcome attr_err (N * attribute) :=
  let? (k, n) := attr_next fields start 0 in
  let? kind := ok_or (attribute_kind_of k) (AeUnknownKind k) in
  match kind with
  | AkEnum =>
      let? (v, n) := attr_next fields start n in
      let? key := attr_id_of v in
      let? a := enum_attribute_of key in
      Ok (n, AtEnum a)
  | AkIntKeyValue =>
      let? (v, n) := attr_next fields start n in
      let? key := attr_id_of v in
      let? (value, n) := attr_next fields start n in
      let? a := int_attribute_of key value in
      Ok (n, AtInt a)
  | AkStrKey =>
      let? (s, n) := attr_string fields start n in
      Ok (n, AtStr s)
  | AkStrKeyValue =>
      let? (s, n) := attr_string fields start n in
      let? (t, n) := attr_string fields start n in
      Ok (n, AtStrKeyValue s t)
  end.

(** attributes.rs:508-525 [AttributeGroupDisposition]. *)
Inductive disposition : Set := DiReturn | DiParameter (i : N) | DiFunction.
(** attributes.rs:517-525 [From<u32>] for it. *)
Definition disposition_of (v : N) : disposition :=
  if v =? u32_max then DiFunction else if v =? 0 then DiReturn else DiParameter v.

(** attributes.rs:528-534 [AttributeGroup]. *)
Record attr_group : Set := mkGroup { ag_disposition : disposition; ag_attributes : list attribute }.

(** attributes.rs:537-544 [AttributeGroups] and [get]: the map is the list of insertions, last
    first. *)
Definition attr_groups : Set := list (N * attr_group).
(** attributes.rs:541-543 [AttributeGroups::get]. *)
Fixpoint groups_get (m : attr_groups) (id : N) : option attr_group :=
  match m with
  | [] => None
  | (k, g) :: m' => if k =? id then Some g else groups_get m' id
  end.

(** attributes.rs:574-582: the loop over the fields; the result is the list of attributes and
    the final [fieldidx]. Every turn consumes at least one field. *)
Fixpoint group_loop (fuel : nat) (fields : list N) (idx : N) (acc : list attribute)
  : outcome attr_err (list attribute * N) :=
  match fuel with
  | O => OutOfFuel
  | S f =>
      if idx <? N.of_nat (length fields) then
        let? (count, a) := attr_from_record idx fields in
        group_loop f fields (idx + count) (acc ++ [a])
      else Ok (acc, idx)
  end.

(** attributes.rs:552-596: one turn of the loop over the records. *)
Definition group_of_record (r : record) : outcome attr_err (N * attr_group) :=
  let? code := ok_or (attribute_code_of (r_code r)) (AeUnknownCode (r_code r)) in
  match code with
  | AcGroupCodeEntry =>
      match r_fields r with
      | g :: p :: _ :: _ =>
          let? (attrs, idx) := group_loop (S (length (r_fields r))) (r_fields r) 2 [] in
          if idx =? N.of_nat (length (r_fields r))
          then Ok (as_u32 g, mkGroup (disposition_of (as_u32 p)) attrs)
          else Err (AeGroupSize idx (N.of_nat (length (r_fields r))))
      | l => Err (AeGroupTooShort code (N.of_nat (length l)))
      end
  | _ => Err (AeWrongBlock code)
  end.
(** attributes.rs:552-596: the loop. *)
Fixpoint groups_loop (l : list record) (m : attr_groups) : outcome attr_err attr_groups :=
  match l with
  | [] => Ok m
  | r :: l' => let? g := group_of_record r in groups_loop l' (g :: m)
  end.
(** attributes.rs:546-600 [TryFrom<&Block> for AttributeGroups]. *)
Definition attr_groups_of (b : block) : outcome attr_err attr_groups := groups_loop (b_records b) [].

(** attributes.rs:454-465 [AttributeEntry], [Attributes] and [get]; [id as usize] is exact. *)
Definition attributes : Set := list (list attr_group).
(** attributes.rs:462-464 [Attributes::get]. *)
Definition attributes_get (l : attributes) (id : N) : option (list attr_group) := nth_error l (N.to_nat id).

(** attributes.rs:467-503 [TryFrom<(&Block, &PartialMapCtx)> for Attributes]. *)
Definition entry_of_record (m : attr_groups) (r : record) : outcome attr_err (list attr_group) :=
  let? code := ok_or (attribute_code_of (r_code r)) (AeUnknownCode (r_code r)) in
  match code with
  | AcEntryOld => Panic PUnimplemented
  | AcEntry => collect (fun g => ok_or (groups_get m (as_u32 g)) (AeBadGroup (as_u32 g))) (r_fields r)
  | AcGroupCodeEntry => Err (AeWrongBlock code)
  end.
(** attributes.rs:470-502 [try_from]: the loop over the records and the result. *)
Definition attributes_of (m : attr_groups) (b : block) : outcome attr_err attributes :=
  collect (entry_of_record m) (b_records b).
