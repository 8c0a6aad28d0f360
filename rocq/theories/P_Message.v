(** Property theorems C72: the messages of errors are true of the rejected input.

    The texts [.._text] are in MessageModel.v. [words] cuts a text into numerals, read as numbers, and what is between
    them; [true_text] says that every comparison in it is true (MessageSpec.v). *)
From Verif Require Import Base Strings EnumModel SupportModel SupportSpec LayoutModel LayoutSpec CursorModel CursorSpec StreamModel StreamSpec
  StreamHist UnrollModel UnrollSpec UnrollStopSpec AttributeModel AttributeSpec TablesModel TypeTableModel TypeTableSpec TypeStopSpec RecordModel RecordSpec
  RuleSpec VerdictSpec ModuleModel MessageModel MessageSpec MessageProofs P_Unroll.
From Coq Require Import Lia.
Local Open Scope N_scope.

(** *** Alignments, widths, address spaces *)

Theorem C72_shifts : forall s x, s < 256 -> from_shift s = Err x ->
  words (align_err_text x) = [Text (lit "supplied shift is too large ("); Num s; Text (lit " > "); Num 63; Text (lit ")")] /\ 63 < s.
Proof. exact shift_text. Qed.
Print Assumptions C72_shifts.
Theorem C72_byte_alignments : forall v x, v < 2 ^ 64 -> from_byte_align v = Err x ->
  words (align_err_text x) = [Text (lit "supplied value is not a power of two: "); Num v] /\ ~ (exists k, v = 2 ^ k).
Proof. exact byte_align_text. Qed.
Print Assumptions C72_byte_alignments.
(** The second message names an eighth of the supplied value. *)
Theorem C72_bit_alignments_partial : forall v x, v < 2 ^ 64 -> from_bit_align v = Err x ->
  (v mod 8 <> 0 /\ words (align_err_text x) = [Text (lit "supplied value is not a multiple of "); Num 8; Text (lit ": "); Num v]) \/
  (v mod 8 = 0 /\ ~ (exists k, v = 2 ^ k) /\
   words (align_err_text x) = [Text (lit "supplied value is not a power of two: "); Num (v / 8)]).
Proof. exact bit_align_text. Qed.
Print Assumptions C72_bit_alignments_partial.
Theorem C72_bit_alignments_refuted : exists x, from_bit_align 24 = Err x /\
  align_err_text x = lit "supplied value is not a power of two: 3".
Proof. eexists. split; reflexivity. Qed.
Print Assumptions C72_bit_alignments_refuted.
Theorem C72_widths_partial : forall v x, v < 2 ^ 32 -> aligned_width_of v = Err x ->
  words (width_text x) = [Text (lit "bit width for type is too large ("); Num v; Text (lit " > "); Num 8388607; Text (lit " bits)")] /\
  (true_text (width_text x) <-> v <> 0).
Proof. exact width_text_words. Qed.
Print Assumptions C72_widths_partial.
Theorem C72_widths_refuted : exists x, aligned_width_of 0 = Err x /\
  width_text x = lit "bit width for type is too large (0 > 8388607 bits)" /\ ~ true_text (width_text x).
Proof.
  exists (WTooBig 0). split; [reflexivity|]. split; [vm_compute; reflexivity|]. intros T.
  destruct (width_text_words 0 (WTooBig 0) eq_refl eq_refl) as (_ & K & _). now apply K in T.
Qed.
Print Assumptions C72_widths_refuted.
Theorem C72_address_spaces : forall v x, v < 2 ^ 64 -> address_space_of v = Err x ->
  words (space_text x) = [Text (lit "address space identifier is too large ("); Num v; Text (lit " > "); Num 8388607; Text (lit ")")] /\
  8388607 < v.
Proof. exact space_text_words. Qed.
Print Assumptions C72_address_spaces.

Example C72_support_example :
  (exists x, from_shift 64 = Err x /\ align_err_text x = lit "supplied shift is too large (64 > 63)") /\
  (exists x, from_byte_align 12 = Err x /\ align_err_text x = lit "supplied value is not a power of two: 12") /\
  (exists x, from_bit_align 12 = Err x /\ align_err_text x = lit "supplied value is not a multiple of 8: 12") /\
  (exists x, aligned_width_of 8388608 = Err x /\ width_text x = lit "bit width for type is too large (8388608 > 8388607 bits)") /\
  (exists x, address_space_of 16777216 = Err x /\ space_text x = lit "address space identifier is too large (16777216 > 8388607)").
Proof. repeat split; eexists; split; reflexivity. Qed.

(** *** Alignments of types and pointers *)

(** True of preferred alignments below the ABI alignment and of ABI alignments above the limit; a preferred
    alignment above the limit is reported as an ABI alignment above it. *)
Theorem C72_type_alignments_partial : forall t abi pref x, a_shift abi <= 63 -> a_shift pref <= 63 -> type_spec_new t abi pref = Err x ->
  ((a_shift pref < a_shift abi /\
    words (spec_text x) = [Text (lit "impossible preferred alignment: "); Num (2 ^ a_shift pref); Text (lit " must be >= ");
                           Num (2 ^ a_shift abi)]) \/
   (a_shift abi <= a_shift pref /\ 15 < a_shift pref /\
    words (spec_text x) = [Text (lit "impossible ABI alignment for type: "); Num (2 ^ a_shift abi); Text (lit " > "); Num 32768])) /\
  (true_text (spec_text x) <-> a_shift pref < a_shift abi \/ 15 < a_shift abi).
Proof. intros t abi pref x HA HP E. split; [exact (type_spec_text t abi pref x HA HP E)|exact (type_spec_true t abi pref x HA HP E)]. Qed.
Print Assumptions C72_type_alignments_partial.
Theorem C72_type_alignments_refuted : exists x, type_spec_new AtAggregate (mkAlign 0) (mkAlign 16) = Err x /\
  spec_text x = lit "impossible ABI alignment for type: 1 > 32768" /\ ~ true_text (spec_text x).
Proof.
  eexists. split; [reflexivity|]. split; [vm_compute; reflexivity|]. intros T.
  apply (type_spec_true AtAggregate (mkAlign 0) (mkAlign 16) _) in T; [cbn in T; lia|cbn; lia|cbn; lia|reflexivity].
Qed.
Print Assumptions C72_type_alignments_refuted.
Theorem C72_pointer_alignments : forall space abi pref size index x, a_shift abi <= 63 -> a_shift pref <= 63 ->
  ptr_spec_new space abi pref size index = Err x ->
  a_shift pref < a_shift abi /\
  words (spec_text x) = [Text (lit "impossible preferred alignment: "); Num (2 ^ a_shift pref); Text (lit " must be >= ");
                         Num (2 ^ a_shift abi)].
Proof. exact ptr_spec_text. Qed.
Print Assumptions C72_pointer_alignments.
Example C72_alignments_example :
  (exists x, type_spec_new (AtInteger 64) (mkAlign 3) (mkAlign 2) = Err x /\ spec_text x = lit "impossible preferred alignment: 4 must be >= 8") /\
  (exists x, type_spec_new (AtInteger 64) (mkAlign 16) (mkAlign 17) = Err x /\
     spec_text x = lit "impossible ABI alignment for type: 65536 > 32768" /\ true_text (spec_text x)) /\
  (exists x, ptr_spec_new 0 (mkAlign 3) (mkAlign 0) 64 64 = Err x /\ spec_text x = lit "impossible preferred alignment: 1 must be >= 8").
Proof.
  repeat split; eexists; split; try reflexivity. split; [reflexivity|].
  apply (type_spec_true (AtInteger 64) (mkAlign 16) (mkAlign 17) _); [cbn; lia|cbn; lia|reflexivity|cbn; lia].
Qed.

(** *** Parts of specifications *)

Theorem C72_parts_of_types : forall v id n, type_spec_from_str v = Err (SeParse (ApFewParts id n)) ->
  exists s, v = id :: s /\ ~ In (ch ":") s /\ id <> ch "a" /\
  (digit id = false -> words (spec_text (SeParse (ApFewParts id n))) =
    [Text (lit "error while parsing alignment spec: wrong number of alignment parameters for spec '" ++ [id] ++ lit "': expected at least ");
     Num 2; Text (lit ", got "); Num 1]).
Proof. exact type_parts_text. Qed.
Print Assumptions C72_parts_of_types.
(** The number of parts is the one of the input, but three are enough, not four. *)
Theorem C72_parts_of_pointers_partial : forall v n, ptr_spec_from_str v = Err (SeParse (ApFewPointerParts n)) ->
  exists c s l, v = c :: s /\ pieces (ch ":") s l /\ (length l < 3)%nat /\
  words (spec_text (SeParse (ApFewPointerParts n))) =
    [Text (lit "error while parsing alignment spec: pointer align spec has too few parts (");
     Num (N.of_nat (length l)); Text (lit ", expected at least "); Num 4; Text (lit ")")].
Proof. exact ptr_parts_text. Qed.
Print Assumptions C72_parts_of_pointers_partial.
Theorem C72_parts_of_pointers_refuted : exists l spec, pieces (ch ":") (lit ":64:64") l /\ length l = 3%nat /\
  ptr_spec_from_str (ch "p" :: lit ":64:64") = Ok spec.
Proof. exists [[]; lit "64"; lit "64"]. eexists. split; [apply LayoutMain.split_pieces; reflexivity|]. split; reflexivity. Qed.
Print Assumptions C72_parts_of_pointers_refuted.
Example C72_parts_example :
  (exists n, type_spec_from_str (lit "i32") = Err (SeParse (ApFewParts (ch "i") n)) /\
     spec_text (SeParse (ApFewParts (ch "i") n)) =
     lit "error while parsing alignment spec: wrong number of alignment parameters for spec 'i': expected at least 2, got 1") /\
  (exists n, ptr_spec_from_str (lit "p:64") = Err (SeParse (ApFewPointerParts n)) /\
     spec_text (SeParse (ApFewPointerParts n)) =
     lit "error while parsing alignment spec: pointer align spec has too few parts (2, expected at least 4)").
Proof. split; eexists; split; reflexivity. Qed.

(** *** Fields of records *)

(** The index and the number of fields are those of the call, but the last field is rejected as well. *)
Theorem C72_text_index_partial : forall e r idx i n, idx < 2 ^ 64 -> N.of_nat (length (r_fields r)) < 2 ^ 64 ->
  try_string e r idx = Err (StBadIndex i n) ->
  words (string_text (StBadIndex i n)) = [Text (lit "impossible string index: "); Num idx; Text (lit " >= ");
    Num (N.of_nat (length (r_fields r))); Text (lit " (field count)")] /\
  (true_text (string_text (StBadIndex i n)) <-> N.of_nat (length (r_fields r)) <= idx).
Proof. exact string_index_text. Qed.
Print Assumptions C72_text_index_partial.
Theorem C72_blob_index_partial : forall e r idx i n, idx < 2 ^ 64 -> N.of_nat (length (r_fields r)) < 2 ^ 64 ->
  try_blob e r idx = Err (BlBadIndex i n) ->
  words (blob_text (BlBadIndex i n)) = [Text (lit "impossible blob index: "); Num idx; Text (lit " >= ");
    Num (N.of_nat (length (r_fields r))); Text (lit " (field count)")] /\
  (true_text (blob_text (BlBadIndex i n)) <-> N.of_nat (length (r_fields r)) <= idx).
Proof. exact blob_index_text. Qed.
Print Assumptions C72_blob_index_partial.
Theorem C72_index_refuted : exists r i n, r_fields r = [97] /\ try_string debug_env r 0 = Err (StBadIndex i n) /\
  string_text (StBadIndex i n) = lit "impossible string index: 0 >= 1 (field count)" /\ ~ true_text (string_text (StBadIndex i n)).
Proof.
  exists (mkRecord None 2 [97]), 0, 1. split; [reflexivity|]. split; [reflexivity|]. split; [reflexivity|]. intros T.
  destruct (string_index_text debug_env (mkRecord None 2 [97]) 0 0 1 eq_refl eq_refl eq_refl) as (_ & K & _). apply K in T. cbn in T. lia.
Qed.
Print Assumptions C72_index_refuted.
Example C72_index_example :
  (exists x, try_string debug_env (mkRecord None 2 [97; 98]) 2 = Err x /\ string_text x = lit "impossible string index: 2 >= 2 (field count)") /\
  (exists x, try_blob debug_env (mkRecord None 2 [97; 98]) 7 = Err x /\ blob_text x = lit "impossible blob index: 7 >= 2 (field count)").
Proof. split; eexists; split; reflexivity. Qed.

Theorem C72_comdat_length_partial : forall e version t r n, N.of_nat (length (r_fields r)) < 2 ^ 64 ->
  comdat_of e version t r = Err (CdTooShort n) ->
  words (comdat_text (CdTooShort n)) = [Text (lit "COMDAT record doesn't have enough fields (");
    Num (N.of_nat (length (r_fields r))); Text (lit " < "); Num 3; Text (lit ")")] /\
  (true_text (comdat_text (CdTooShort n)) <-> (length (r_fields r) < 3)%nat) /\ length (r_fields r) <> 3%nat.
Proof. exact comdat_length_text. Qed.
Print Assumptions C72_comdat_length_partial.
Theorem C72_comdat_length_refuted : exists r n, comdat_of debug_env 2 (lit "ab") r = Err (CdTooShort n) /\
  comdat_text (CdTooShort n) = lit "COMDAT record doesn't have enough fields (4 < 3)" /\ ~ true_text (comdat_text (CdTooShort n)).
Proof.
  exists (mkRecord None 12 [0; 1; 0; 0]), 4. split; [reflexivity|]. split; [reflexivity|]. intros T.
  destruct (comdat_length_text debug_env 2 (lit "ab") (mkRecord None 12 [0; 1; 0; 0]) 4 eq_refl eq_refl) as (_ & (K & _) & _).
  apply K in T. cbn in T. lia.
Qed.
Print Assumptions C72_comdat_length_refuted.
Theorem C72_function_length : forall e c r n, N.of_nat (length (r_fields r)) < 2 ^ 64 -> fn_of e c r = Err (FeTooShort n) ->
  words (fn_text (FeTooShort n)) = [Text (lit "function record too short: "); Num (N.of_nat (length (r_fields r))); Text (lit " < ");
    Num 10; Text (lit " fields")] /\ (length (r_fields r) < 10)%nat.
Proof. exact fn_length_text. Qed.
Print Assumptions C72_function_length.
Theorem C72_alias_length : forall e c r n, N.of_nat (length (r_fields r)) < 2 ^ 64 -> alias_of e c r = Err (AlTooShort n) ->
  words (alias_text (AlTooShort n)) = [Text (lit "alias record too short: "); Num (N.of_nat (length (r_fields r))); Text (lit " < ");
    Num 5; Text (lit " fields")] /\ (length (r_fields r) < 5)%nat.
Proof. exact alias_length_text. Qed.
Print Assumptions C72_alias_length.
Theorem C72_group_length : forall r c n, fields64 r -> group_of_record r = Err (AeGroupTooShort c n) -> N.of_nat (length (r_fields r)) < 2 ^ 64 ->
  words (attr_text (AeGroupTooShort c n)) = [Text (lit "attribute group record for GroupCodeEntry too short (");
    Num (N.of_nat (length (r_fields r))); Text (lit " < "); Num 3; Text (lit ")")] /\ (length (r_fields r) < 3)%nat.
Proof. exact group_short_text. Qed.
Print Assumptions C72_group_length.
(** What the message calls the number of fields is one more than it, and what it calls the number of consumed
    fields is the number of fields. *)
Theorem C72_group_fields_partial : forall r a b, fields64 r -> group_of_record r = Err (AeGroupSize a b) -> N.of_nat (length (r_fields r)) < 2 ^ 63 ->
  words (attr_text (AeGroupSize a b)) = [Text (lit "under/overconsumed fields in attribute group record (");
    Num (N.of_nat (length (r_fields r)) + 1); Text (lit " fields, "); Num (N.of_nat (length (r_fields r))); Text (lit " consumed)")].
Proof. exact group_size_text. Qed.
Print Assumptions C72_group_fields_partial.
Theorem C72_group_fields_refuted : exists r x, r_fields r = [1; 0; 3; 97; 98] /\ group_of_record r = Err x /\
  attr_text x = lit "under/overconsumed fields in attribute group record (6 fields, 5 consumed)".
Proof. exists (mkRecord None 3 [1; 0; 3; 97; 98]). eexists. split; [reflexivity|]. split; reflexivity. Qed.
Print Assumptions C72_group_fields_refuted.

Definition ex_ctx : mctx := mkCtx 2 layout_default [] [] (lit "abcd") [] [] [] [].
Example C72_length_example :
  (exists x, comdat_of debug_env 2 (lit "ab") (mkRecord None 12 [0; 1]) = Err x /\ comdat_text x = lit "COMDAT record doesn't have enough fields (2 < 3)") /\
  (exists x, fn_of debug_env ex_ctx (mkRecord None 8 [0; 1; 2]) = Err x /\ fn_text x = lit "function record too short: 3 < 10 fields") /\
  (exists x, alias_of debug_env ex_ctx (mkRecord None 14 [0; 1; 2]) = Err x /\ alias_text x = lit "alias record too short: 3 < 5 fields") /\
  (exists x, group_of_record (mkRecord None 3 [1; 2]) = Err x /\
     attr_text x = lit "attribute group record for GroupCodeEntry too short (2 < 3)").
Proof. repeat split; eexists; split; reflexivity. Qed.

(** *** Type tables and instructions *)

Theorem C72_table_size : forall e b n k, Forall fields64 (b_records b) -> N.of_nat (length (b_records b)) < 2 ^ 64 ->
  type_table_of e b = Err (TtBadSize n k) ->
  exists P, announced e b n /\ type_reads e [] [] (b_records b) (Ok P) /\ n <> N.of_nat (length P) /\
  words (tt_text (TtBadSize n k)) =
  [Text (lit "invalid type table size (expected "); Num n; Text (lit " elements, got "); Num (N.of_nat (length P)); Text (lit ")")].
Proof. exact table_size_text. Qed.
Print Assumptions C72_table_size.
Theorem C72_instruction_fields : forall t r c n k, N.of_nat (length (r_fields r)) < 2 ^ 64 -> fb_step t r = Err (FbBadInst (InFields c n k)) ->
  r_code r = function_code_num c /\ length (r_fields r) <> n /\
  words (fb_text (FbBadInst (InFields c n k))) =
  [Text (lit "invalid instruction encoding: bad " ++ function_code_debug c ++ lit ": expected "); Num (N.of_nat n); Text (lit " fields, got ");
   Num (N.of_nat (length (r_fields r)))].
Proof. exact fb_fields_text. Qed.
Print Assumptions C72_instruction_fields.
Example C72_table_example :
  (exists x, type_table_of debug_env (mkBlock (BIr IbType) [mkRecord None 1 [3]; mkRecord None 2 []; mkRecord None 7 [32]] []) = Err x /\
     tt_text x = lit "invalid type table size (expected 3 elements, got 2)") /\
  (exists x, fb_step [] (mkRecord None 2 [1; 2]) = Err x /\
     fb_text x = lit "invalid instruction encoding: bad InstBinop: expected 4 fields, got 2").
Proof. split; eexists; split; reflexivity. Qed.

(** Errors of symbol tables and of type tables are reported as errors of the string table. *)
Theorem C72_symbol_table_refuted : exists b x, b_id b = BIr IbSymtab /\ symtab_of debug_env b = Err x /\
  firstn 20 (symtab_text x) = lit "invalid string table".
Proof. exists (mkBlock (BIr IbSymtab) [mkRecord None 1 [256; 0]] []). eexists. split; [reflexivity|]. split; reflexivity. Qed.
Print Assumptions C72_symbol_table_refuted.
Theorem C72_type_table_refuted : exists b x, b_id b = BIr IbType /\ type_table_of debug_env b = Err x /\
  tt_text x = lit "mapping error in string table".
Proof. exists (mkBlock (BIr IbType) [mkRecord None 1 [1]; mkRecord None 25 [8388608]] []). eexists. split; [reflexivity|]. split; reflexivity. Qed.
Print Assumptions C72_type_table_refuted.

(** *** Blocks of a stream *)

(** "MODULE_BLOCK with no preceding IDENTIFICATION_BLOCK" and "unexpected top-level block" are true; for "adjacent
    MODULE_BLOCKs" there are two modules behind the same identification, maybe with blocks between them. *)
Theorem C72_top_level_blocks_partial : forall e s, parser_reachable e s ->
  (unroll e s = Err UNoIdentification -> exists forest len body,
     begins e s (flat_map flat (forest ++ [TBlk MODULE len body])) /\ Forall (fun t => is_top IDENTIFICATION t = false) forest) /\
  (forall id, unroll e s = Err (UUnexpectedBlock id) -> exists forest bid len body,
     begins e s (flat_map flat (forest ++ [TBlk bid len body])) /\ ~ In bid [IDENTIFICATION; MODULE; STRTAB; SYMTAB] /\ id_matches bid id) /\
  (unroll e s = Err UAdjacentModules -> exists l1 i l2 m l3 len body,
     begins e s (flat_map flat ((l1 ++ i :: l2 ++ m :: l3) ++ [TBlk MODULE len body])) /\ is_top IDENTIFICATION i = true /\
     is_top MODULE m = true /\ Forall (fun t => is_top IDENTIFICATION t = false) (l2 ++ m :: l3)).
Proof.
  intros e s R. repeat split; intros.
  - apply C50_stops_exactly in H; [|exact R|discriminate]. inversion H as [forest t x B W M| | | |]; subst. inversion M; subst. eauto 8.
  - apply C50_stops_exactly in H; [|exact R|discriminate]. inversion H as [forest t x B W M| | | |]; subst. inversion M; subst. eauto 12.
  - apply C50_stops_exactly in H; [|exact R|discriminate]. inversion H as [forest t x B W M| | | |]; subst. inversion M; subst. eauto 14.
Qed.
Print Assumptions C72_top_level_blocks_partial.

(** An identification, a module, a string table, a module. *)
Definition ex_apart : list item :=
  [IBlock 13 5 3 [IUnabbrev 1 [76; 76]; IUnabbrev 2 [0]]; IBlock 8 3 1 [IUnabbrev 1 [2]];
   IBlock 23 3 3 [IUnabbrev 1 [97; 98; 99; 100]]; IBlock 8 3 1 [IUnabbrev 1 [2]]].
Definition ex_apart_parser : sparser cursor :=
  match write_stream 0xdec04342 ex_apart with Some b => ex_parser (bytes_of_bits b) | None => parser_new (cur_new []) end.
Theorem C72_adjacent_modules_refuted : exists s forest, stream_is debug_env s forest /\
  unroll debug_env s = Err UAdjacentModules /\
  bitcode_text (BcUnroll UAdjacentModules) = lit "error while unrolling the bitstream: malformed bitstream: adjacent MODULE_BLOCKs" /\
  forall l1 a b l2, forest = l1 ++ a :: b :: l2 -> ~ (is_top MODULE a = true /\ is_top MODULE b = true).
Proof.
  exists ex_apart_parser, (trees ex_apart). split; [exists 14%nat; vm_compute; reflexivity|]. split; [vm_compute; reflexivity|].
  split; [reflexivity|]. intros l1 a b l2 E (A & B).
  destruct l1 as [|? [|? [|? [|? l1]]]]; cbn in E; injection E; intros; subst; try discriminate; now destruct l1.
Qed.
Print Assumptions C72_adjacent_modules_refuted.

Definition ex_stream (l : list item) : sparser cursor :=
  match write_stream 0xdec04342 l with Some b => ex_parser (bytes_of_bits b) | None => parser_new (cur_new []) end.
Example C72_top_level_blocks_example :
  (exists x, unroll debug_env (ex_stream [IBlock 23 3 3 [IUnabbrev 1 [97; 98; 99; 100]]; IBlock 8 3 1 [IUnabbrev 1 [2]]]) = Err x /\
     bitcode_text (BcUnroll x) =
     lit "error while unrolling the bitstream: malformed bitstream: MODULE_BLOCK with no preceding IDENTIFICATION_BLOCK") /\
  (exists x, unroll debug_env (ex_stream [IBlock 17 3 1 [IUnabbrev 1 [2]]]) = Err x /\
     bitcode_text (BcUnroll x) = lit "error while unrolling the bitstream: unexpected top-level block: Ir(Type)").
Proof. split; eexists; split; vm_compute; reflexivity. Qed.
