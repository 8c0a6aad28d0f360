(** Vocabulary for the fate of every input: each part of the format as a list of demands in order; the
    first demand that is not met decides how the mapping stops. *)
From Verif Require Import Base Strings EnumModel SupportModel SupportSpec LayoutModel CursorModel StreamModel StreamSpec
  UnrollModel UnrollSpec UnrollStopSpec AttributeModel AttributeSpec TablesModel TablesSpec TypeTableModel TypeTableSpec RecordModel RecordSpec
  ModuleModel ModuleSpec PipelineSpec TypeStopSpec.
From Verif Require Export RuleSpec.
From Verif Require Import LayoutStopSpec.
Local Open Scope N_scope.

(** *** Records of text and bytes, and names *)

Definition text_rule (e : env) (r : record) : rule string_err := ends (text_outcome e r).
Inductive blob_rule (e : env) (r : record) : rule blob_err :=
| BbFine t : blob_of e r t -> blob_rule e r Fine
| BbEmpty : overflow_checks e = true -> r_fields r = [] -> blob_rule e r (Panics PSubOverflow)
| BbOne x : r_fields r = [x] -> blob_rule e r (Fails (BlBadIndex 0 1))
| BbByte : (2 <= length (r_fields r))%nat -> ~ Forall (fun x => x < 256) (r_fields r) -> blob_rule e r (Fails BlBadByte).

(** A reference into the string table. *)
Inductive reference_rule (e : env) (t : strtab) (offset size : N) : rule strtab_err :=
| ReFine s : size <> 0 -> stored t offset size s -> reference_rule e t offset size Fine
| ReRange : size = 0 \/ N.of_nat (length t) <= offset \/ (N.of_nat (length t) < offset + size /\ offset + size < 2 ^ 64) ->
    reference_rule e t offset size (Fails SbBadRange)
| ReText before raw after x : t = before ++ raw ++ after -> N.of_nat (length before) = offset -> N.of_nat (length raw) = size -> size <> 0 ->
    utf8_fault raw x -> reference_rule e t offset size (Fails (SbBadString x))
| RePanics : offset < N.of_nat (length t) -> 2 ^ 64 <= offset + size ->
    reference_rule e t offset size (Panics (if overflow_checks e then PAddOverflow else PSliceRange)).
(** The name of a record: its first two fields. *)
Definition name_rule (e : env) (t : strtab) (r : record) : rule strtab_err :=
  fun v => exists offset size, field r 0 offset /\ field r 1 size /\ reference_rule e t offset size v.

(** *** Records of a module *)

(** Field [i], or [d] if there is none. *)
Definition field_or (d : N) (r : record) (i : nat) : N := nth i (r_fields r) d.
(** An optional reference: zero, or one more than the index of an entry. *)
Definition refers {A} (l : list A) (i : N) : Prop := i <= N.of_nat (length l).

Definition comdat_rule (e : env) (version : N) (t : strtab) (r : record) : rule comdat_err :=
  in_order [ demand (2 <= version) CdV1;
             demand (length (r_fields r) = 3%nat) (CdTooShort (N.of_nat (length (r_fields r))));
             relabel CdName (name_rule e t r);
             demand (field_or 0 r 2 <= 4) (CdKind (field_or 0 r 2)) ].
Definition function_rule (e : env) (c : mctx) (r : record) : rule fn_err :=
  in_order [ demand (2 <= cx_version c) FeV1;
             demand (10 <= length (r_fields r))%nat (FeTooShort (N.of_nat (length (r_fields r))));
             relabel FeStrtab (name_rule e (cx_strtab c) r);
             demand (field_or 0 r 2 < N.of_nat (length (cx_types c))) (FeTypeId (field_or 0 r 2));
             demand (exists t, at_index (cx_types c) (field_or 0 r 2) t /\ function_type t) FeType;
             demand (In (field_or 0 r 3) (map snd calling_convention_table)) (FeCallingConvention (field_or 0 r 3));
             demand (refers (cx_attributes c) (field_or 0 r 6)) (FeAttribute (field_or 0 r 6));
             demand (field_or 0 r 7 mod 256 <= 64) (FeAlignment (AShiftTooBig (field_or 0 r 7 mod 256 - 1)));
             demand (refers (cx_sections c) (field_or 0 r 8)) (FeSection (field_or 0 r 8 - 1));
             demand (In (field_or 0 r 9) (map snd visibility_table)) (FeVisibility (field_or 0 r 9));
             demand (refers (cx_gcs c) (field_or 0 r 10)) (FeGc (field_or 0 r 10 - 1));
             demand (In (field_or 0 r 13) (map snd dll_storage_class_table)) (FeStorage (field_or 0 r 13)) ].
Definition alias_rule (e : env) (c : mctx) (r : record) : rule alias_err :=
  in_order [ demand (2 <= cx_version c) AlV1;
             demand (5 <= length (r_fields r))%nat (AlTooShort (N.of_nat (length (r_fields r))));
             relabel AlStrtab (name_rule e (cx_strtab c) r);
             demand (field_or 0 r 2 < N.of_nat (length (cx_types c))) (AlType (field_or 0 r 2));
             demand (In (field_or 0 r 5) (map snd visibility_table)) (AlVisibility (field_or 0 r 5));
             demand (In (field_or 0 r 6) (map snd dll_storage_class_table)) (AlStorage (field_or 0 r 6)) ].

(** *** Attributes *)

(** The fields up to the first zero are not the bytes of a text. *)
Definition no_word (l : list N) : Prop :=
  forall s rest, text s -> l = utf8_encode s ++ rest -> hd 0 rest <> 0.
(** The ids of attributes. *)
Definition known_id (i : N) (x : attribute_id) : Prop := attribute_id_num x = i.
Definition unknown_id (i : N) : Prop := forall x, attribute_id_num x <> i.
(** Values that attributes do not have: attributes without value, alignments, sizes, variants. *)
Inductive int_fault : N -> N -> attr_fault -> Prop :=
| IfNoValue i v : ~ In i valued_ids -> i <> 33 -> int_fault i v MfNotInt
| IfLarge i v : In i [1; 25] -> 256 <= v -> int_fault i v MfLargeAlignment
| IfAlignment i v : In i [1; 25] -> 65 <= v < 256 -> int_fault i v MfAlignment
| IfAllocSize : int_fault 51 0 MfAllocSize
| IfUwTable v : 3 <= v -> int_fault 33 v MfUwTable.
(** Fields that do not begin with an attribute, and how the mapping of the group stops there. *)
Inductive attribute_stop : list N -> verdict attr_err -> Prop :=
| AsKind k l : ~ In k [0; 1; 3; 4] -> attribute_stop (k :: l) (Fails (AeUnknownKind k))
| AsShort k : In k [0; 1] -> attribute_stop [k] (Fails AeTooShort)
| AsNoValue i x : known_id i x -> attribute_stop [1; i] (Fails AeTooShort)
| AsId k i l : In k [0; 1] -> unknown_id i -> attribute_stop (k :: i :: l) (Fails (AeUnknownId i))
| AsEnum i x l : known_id i x -> In i valued_ids -> attribute_stop (0 :: i :: l) (Fails (AeMalformed MfNotEnum x))
| AsInt i x v y l : known_id i x -> int_fault i v y -> attribute_stop (1 :: i :: v :: l) (Fails (AeMalformed y x))
| AsUnsupported x v l : known_id 79 x -> attribute_stop (1 :: 79 :: v :: l) (Fails (AeIntUnsupported x))
| AsWord k l : In k [3; 4] -> no_word l -> attribute_stop (k :: l) (Fails AeBadString)
| AsValue s l : text s -> no_word l -> attribute_stop (4 :: utf8_encode s ++ 0 :: l) (Fails AeBadString)
| AsCut s : text s -> attribute_stop (4 :: utf8_encode s) (Panics PSliceRange).
(** A text without its zero at the end of the record. *)
Inductive unterminated : list N -> Prop :=
| UtWord s : text s -> unterminated (3 :: utf8_encode s)
| UtValue s s' : text s -> text s' -> unterminated (4 :: utf8_encode s ++ 0 :: utf8_encode s').

Inductive group_rule (r : record) : rule attr_err :=
| GrFine id g : group_record r id g -> group_rule r Fine
| GrCode : ~ In (r_code r) [1; 2; 3] -> group_rule r (Fails (AeUnknownCode (r_code r)))
| GrOld : r_code r = 1 -> group_rule r (Fails (AeWrongBlock AcEntryOld))
| GrEntry : r_code r = 2 -> group_rule r (Fails (AeWrongBlock AcEntry))
| GrShort : r_code r = 3 -> (length (r_fields r) < 3)%nat ->
    group_rule r (Fails (AeGroupTooShort AcGroupCodeEntry (N.of_nat (length (r_fields r)))))
| GrStop g p ws attrs l v : r_code r = 3 -> r_fields r = g :: p :: flat_map wattr_fields ws ++ l ->
    Forall2 denotes ws attrs -> attribute_stop l v -> group_rule r v
| GrSize g p ws attrs l : r_code r = 3 -> r_fields r = g :: p :: flat_map wattr_fields ws ++ l ->
    Forall2 denotes ws attrs -> unterminated l ->
    group_rule r (Fails (AeGroupSize (N.of_nat (length (r_fields r)) + 1) (N.of_nat (length (r_fields r))))).
Definition groups_rule (b : block) : rule attr_err := in_order (map group_rule (b_records b)).

(** [known] are the ids of the groups. *)
Inductive entry_rule (known : N -> Prop) (r : record) : rule attr_err :=
| ErCode : ~ In (r_code r) [1; 2; 3] -> entry_rule known r (Fails (AeUnknownCode (r_code r)))
| ErOld : r_code r = 1 -> entry_rule known r (Panics PUnimplemented)
| ErGroup : r_code r = 3 -> entry_rule known r (Fails (AeWrongBlock AcGroupCodeEntry))
| ErEntry v : r_code r = 2 ->
    in_order (map (fun g => demand (known (g mod 2 ^ 32)) (AeBadGroup (g mod 2 ^ 32))) (r_fields r)) v -> entry_rule known r v.
Definition attributes_rule (known : N -> Prop) (b : block) : rule attr_err := in_order (map (entry_rule known) (b_records b)).

(** *** Modules *)

(** There are two records with the code. *)
Definition twice (code : N) (b : block) : Prop :=
  exists l1 r l2 r' l3, b_records b = l1 ++ r :: l2 ++ r' :: l3 /\ r_code r = code /\ r_code r' = code.
(** The record with the code, if there is one, obeys a rule; likewise all records with the code, and blocks. *)
Inductive maybe_rule (code : N) (b : block) (R : record -> rule module_err) : rule module_err :=
| MyNone : absent code b -> maybe_rule code b R Fine
| MyOne r v : sole code b r -> R r v -> maybe_rule code b R v
| MyTwo : twice code b -> maybe_rule code b R (Fails (MdInconsistent (CeTooManyRecords code))).
Definition all_rule (code : N) (b : block) (R : record -> rule module_err) : rule module_err :=
  fun v => exists rs, all_with code b rs /\ in_order (map R rs) v.
Inductive block_rule (id : ir_block_id) (b : block) (R : block -> rule module_err) : rule module_err :=
| BlNone : blocks_under (BIr id) b = [] -> block_rule id b R (Fails (MdInconsistent (CeMissingBlock (BIr id))))
| BlOne c v : blocks_under (BIr id) b = [c] -> R c v -> block_rule id b R v
| BlTwo : (2 <= length (blocks_under (BIr id) b))%nat -> block_rule id b R (Fails (MdInconsistent (CeTooManyBlocks (BIr id)))).
Inductive maybe_block_rule (id : ir_block_id) (b : block) (R : block -> rule module_err) : rule module_err :=
| MbNone : blocks_under (BIr id) b = [] -> maybe_block_rule id b R Fine
| MbOne c v : blocks_under (BIr id) b = [c] -> R c v -> maybe_block_rule id b R v
| MbTwo : (2 <= length (blocks_under (BIr id) b))%nat -> maybe_block_rule id b R (Fails (MdInconsistent (CeTooManyBlocks (BIr id)))).

Inductive version_rule (b : block) : rule module_err :=
| VrFine r v l : sole 1 b r -> r_fields r = v :: l -> version_rule b Fine
| VrNone : absent 1 b -> version_rule b (Fails (MdInconsistent (CeMissingRecord 1)))
| VrTwo : twice 1 b -> version_rule b (Fails (MdInconsistent (CeTooManyRecords 1)))
| VrEmpty r : sole 1 b r -> r_fields r = [] -> version_rule b (Fails MdMissingVersion).
Definition version_is (b : block) (v : N) : Prop := exists r l, sole 1 b r /\ r_fields r = v :: l.
Definition layout_rule (e : env) (r : record) : rule module_err :=
  in_order [ relabel MdLayoutString (text_rule e r);
             fun v => exists s, text_of e r s /\ relabel MdLayout (layout_string_rule s) v ].
Definition string_rule (e : env) (r : record) : rule module_err := relabel MdString (text_rule e r).
(** The module has an attribute group with this id. *)
Definition has_group (b : block) (id : N) : Prop :=
  exists gb r g l, blocks_under (BIr IbParamAttrGroup) b = [gb] /\ In r (b_records gb) /\ r_fields r = g :: l /\ g mod 2 ^ 32 = id.

(** Up to the function records: VERSION, DATALAYOUT, SECTIONNAME, GCNAME, the blocks of types, symbols,
    attribute groups and attributes, COMDAT. *)
Definition context_rule (e : env) (t : strtab) (b : block) : rule module_err :=
  in_order [ version_rule b;
             maybe_rule 3 b (layout_rule e);
             all_rule 5 b (string_rule e);
             all_rule 11 b (string_rule e);
             block_rule IbType b (fun tb => relabel MdTypes (ends (table_outcome e tb)));
             block_rule IbValueSymtab b (fun _ v => v = Fine);
             maybe_block_rule IbParamAttrGroup b (fun gb => relabel MdAttributes (groups_rule gb));
             maybe_block_rule IbParamAttr b (fun ab => relabel MdAttributes (attributes_rule (has_group b) ab));
             all_rule 12 b (fun r v => exists version, version_is b version /\ relabel MdComdat (comdat_rule e version t r) v) ].
(** The whole module: the rest are TRIPLE, ASM, DEPLIB, FUNCTION, the function bodies and ALIAS. *)
Definition module_rule (e : env) (t : strtab) (b : block) : rule module_err :=
  in_order [ context_rule e t b;
             maybe_rule 2 b (string_rule e);
             maybe_rule 4 b (string_rule e);
             all_rule 6 b (string_rule e);
             all_rule 8 b (fun r v => exists c, context_described e t b c /\ relabel MdFunction (function_rule e c r) v);
             in_order (map (fun fb v => exists c, context_described e t b c /\ relabel MdBlock (ends (body e (cx_types c) fb)) v)
                           (blocks_under (BIr IbFunction) b));
             all_rule 14 b (fun r v => exists c, context_described e t b c /\ relabel MdAlias (alias_rule e c r) v) ].

(** *** Inputs *)

(** The first record with a code obeys a rule. *)
Definition first_rule {E} (code : N) (b : block) (x : E) (R : record -> rule E) : rule E :=
  in_order [ demand (exists r, first_record code (b_records b) r) x;
             fun v => exists r, first_record code (b_records b) r /\ R r v ].
Definition strtab_rule (e : env) (b : block) : rule strtab_err := first_rule 1 b SbMissingBlob (fun r => relabel SbBadBlob (blob_rule e r)).
Definition symtab_rule (e : env) (b : block) : rule symtab_err := first_rule 1 b SyMissingBlob (fun r => relabel SyInvalidBlob (blob_rule e r)).
Definition identification_rule (e : env) (b : block) : rule ident_err :=
  in_order [ first_rule 1 b IeMissingProducer (fun r => relabel (fun _ => IeBadProducer) (text_rule e r));
             first_rule 2 b IeMissingEpoch (fun r => demand (r_fields r <> []) IeMissingEpoch) ].
(** The blocks of one module of the stream. *)
Definition part_rule (e : env) (p : partial) : rule bitcode_err :=
  in_order [ demand (pt_strtab p <> None) BcNoStrtab;
             fun v => exists b, pt_strtab p = Some b /\ relabel BcStrtab (strtab_rule e b) v;
             relabel BcIdentification (identification_rule e (pt_identification p));
             demand (pt_module p <> None) BcNoModule;
             fun v => exists sb t b, pt_strtab p = Some sb /\ holds_blob e sb t /\ pt_module p = Some b /\ relabel BcModule (module_rule e t b) v;
             fun v => (pt_symtab p = None /\ v = Fine) \/ (exists b, pt_symtab p = Some b /\ relabel BcSymtab (symtab_rule e b) v) ].
Definition tree_rule (e : env) (t : tmodule) : rule bitcode_err := fun v => exists p, carries t p /\ part_rule e p v.
(** A stream: the unrolling stops, or its modules in order. *)
Inductive stream_rule (e : env) (s : sparser cursor) : rule bitcode_err :=
| StrStop v : relabel BcUnroll (ends (unroll_stops e s)) v -> stream_rule e s v
| StrParts forest v : stream_is e s forest -> well_grouped forest -> in_order (map (tree_rule e) (modules_of forest)) v -> stream_rule e s v.
(** A buffer: it cannot be opened, or its stream decides. *)
Inductive buffer_rule (e : env) (buf : list byte) : rule bitcode_err :=
| BuClosed x : from e buf = Err x -> buffer_rule e buf (Fails (BcUnroll (UParse x)))
| BuStream w b v : from e buf = Ok (w, b) -> stream_rule e (bs_parser b) v -> buffer_rule e buf v.
