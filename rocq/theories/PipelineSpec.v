(** Vocabulary for the properties of whole inputs: what a mapped bitcode module has to do with the
    blocks of the stream. *)
From Verif Require Import Base Strings EnumModel SupportModel SupportSpec LayoutModel LayoutSpec CursorModel StreamModel StreamSpec
  UnrollModel UnrollSpec AttributeModel AttributeSpec TablesModel TablesSpec TypeTableModel TypeTableSpec RecursionSpec RecordModel RecordSpec
  ModuleModel ModuleSpec.
Local Open Scope N_scope.

(** All fields of a record as bytes; as for [text_of], blobs of one byte are not read and without
    overflow checks an empty record is an empty blob. *)
Definition blob_of (e : env) (r : record) (t : list N) : Prop :=
  ((2 <= length (r_fields r))%nat /\ r_fields r = t /\ Forall (fun x => x < 256) t) \/
  (overflow_checks e = false /\ r_fields r = [] /\ t = []).
(** The first BLOB record (code 1 in STRTAB and SYMTAB blocks, LLVMBitCodes.h). *)
Definition holds_blob (e : env) (b : block) (t : list N) : Prop :=
  exists r, first_record 1 (b_records b) r /\ blob_of e r t.
(** The first STRING record (1) and the first EPOCH record (2) of an IDENTIFICATION block. *)
Definition identifies (e : env) (b : block) (i : identification) : Prop :=
  exists r r' l, first_record 1 (b_records b) r /\ text_of e r (id_producer i) /\
    first_record 2 (b_records b) r' /\ r_fields r' = id_epoch i :: l.

(** What a bitcode module holds, given the blocks of its part of the stream. *)
Record bitcode_described (e : env) (host : str) (p : partial) (m : bitcode_module) : Prop := mkBitcodeDescribed {
  bd_identification : identifies e (pt_identification p) (bm_identification m);
  bd_strtab : exists b, pt_strtab p = Some b /\ holds_blob e b (bm_strtab m);
  bd_module : exists b c fns als, pt_module p = Some b /\
    module_described e host (bm_strtab m) b (bm_module m) c fns als;
  bd_symtab : (pt_symtab p = None /\ bm_symtab m = None) \/
    (exists b t, pt_symtab p = Some b /\ bm_symtab m = Some t /\ holds_blob e b t)
}.
(** The same, given the trees of the stream. *)
Definition tree_described (e : env) (host : str) (t : tmodule) (m : bitcode_module) : Prop :=
  exists p, carries t p /\ bitcode_described e host p m.

(** *** Panics *)

(** What in a module block, next to the string table [t], makes the mapping panic, and how. *)
Inductive module_panic (e : env) (t : strtab) (b : block) : panic -> Prop :=
| MpText r : (* an empty TRIPLE, DATALAYOUT, ASM, SECTIONNAME, DEPLIB or GCNAME *)
    overflow_checks e = true -> In r (b_records b) -> In (r_code r) [2; 3; 4; 5; 6; 11] -> r_fields r = [] ->
    module_panic e t b PSubOverflow
| MpEntries tb r n l : (* the announced number of types *)
    blocks_under (BIr IbType) b = [tb] -> first_record 1 (b_records tb) r -> r_fields r = n :: l -> alloc_limit e < n ->
    module_panic e t b PAlloc
| MpStructName tb r : (* an empty STRUCT_NAME *)
    overflow_checks e = true -> blocks_under (BIr IbType) b = [tb] -> In r (b_records tb) -> r_code r = 19 -> r_fields r = [] ->
    module_panic e t b PSubOverflow
| MpCutKey gb r : (* an attribute group that ends behind the key of a key/value pair *)
    blocks_under (BIr IbParamAttrGroup) b = [gb] -> In r (b_records gb) -> cut_key r -> module_panic e t b PSliceRange
| MpOldLists ab r : (* attribute lists of LLVM 3.2 and before *)
    blocks_under (BIr IbParamAttr) b = [ab] -> In r (b_records ab) -> r_code r = 1 -> module_panic e t b PUnimplemented
| MpReference r : (* a FUNCTION, COMDAT or ALIAS with a name beyond 2^64 *)
    In r (b_records b) -> In (r_code r) [8; 12; 14] -> bad_reference t r ->
    module_panic e t b (if overflow_checks e then PAddOverflow else PSliceRange)
| MpBlocks fb r n l : (* the announced number of basic blocks *)
    In fb (blocks_under (BIr IbFunction) b) -> sole 1 fb r -> r_fields r = n :: l -> alloc_limit e < n -> module_panic e t b PAlloc
| MpBody fb : In fb (blocks_under (BIr IbFunction) b) -> module_panic e t b PUnimplemented.

Inductive bitcode_panic (e : env) (p : partial) : panic -> Prop :=
| BpText b r : (* an empty producer, string table or symbol table *)
    overflow_checks e = true -> pt_identification p = b \/ pt_strtab p = Some b \/ pt_symtab p = Some b ->
    first_record 1 (b_records b) r -> r_fields r = [] -> bitcode_panic e p PSubOverflow
| BpModule sb t b x : pt_strtab p = Some sb -> holds_blob e sb t -> pt_module p = Some b -> module_panic e t b x ->
    bitcode_panic e p x.

(** The TYPE block of a module refers to itself (C34). *)
Definition recursive_types (p : partial) : Prop :=
  exists b tb, pt_module p = Some b /\ blocks_under (BIr IbType) b = [tb] /\
    ~ (apart false (b_records tb) /\ acyclic (b_records tb)).

(** The mapping of a module gets to the TYPE block [tb]: the version, the layout string, the section
    names and the names of the garbage collectors before it are in order. *)
Record types_reached (e : env) (b tb : block) : Prop := mkTypesReached {
  tr_version : exists r v l, sole 1 b r /\ r_fields r = v :: l;
  tr_layout : absent 3 b \/ (exists r s y, sole 3 b r /\ text_of e r s /\ layout_from_str s = Ok y);
  tr_sections : exists l, texts e 5 b l;
  tr_gcs : exists l, texts e 11 b l;
  tr_types : blocks_under (BIr IbType) b = [tb]
}.
(** The records of a TYPE block are read without an error, as many as announced, and then their
    resolution runs into a descent without end. *)
Definition endless_block (e : env) (tb : block) : Prop :=
  exists P name, announced e tb (N.of_nat (length P)) /\ type_loop e (b_records tb) ([], []) = Ok (P, name) /\ endless_types P.
(** A module with such a TYPE block, behind a string table and an identification in order. *)
Definition endless_part (e : env) (p : partial) : Prop :=
  exists sb t i b tb, pt_strtab p = Some sb /\ holds_blob e sb t /\ identifies e (pt_identification p) i /\
    pt_module p = Some b /\ types_reached e b tb /\ endless_block e tb.
