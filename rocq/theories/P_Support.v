(** Property theorems C39-C46, C49, C51, C52, C71: llvm-support and the data layout record. *)
From Verif Require Import Base Strings EnumModel SupportModel SupportSpec SupportProofs SupportMain
  LayoutModel LayoutSpec LayoutProofs LayoutMain SupportApi RuleSpec LayoutStopSpec LayoutStops LayoutDefaults.
From Verif Require StreamModel.
From Coq Require Import Sorted.
Local Open Scope N_scope.

(** *** C39 *)

Theorem C39_layout_parsing_never_panics : forall v,
  (exists d, layout_from_str v = Ok d) \/ (exists x, layout_from_str v = Err x).
Proof. exact layout_total. Qed.
Print Assumptions C39_layout_parsing_never_panics.

(** Every specification of an accepted string has a meaning in the grammar [means], and the
    result [holds] these meanings: for each component the last one, else the default. *)
Theorem C39_layout_last_specification_wins : forall v d, layout_from_str v = Ok d ->
  is_ascii v = true /\ exists settings, Forall2 means (specs v) settings /\ holds d settings.
Proof. exact layout_main. Qed.
Print Assumptions C39_layout_last_specification_wins.

(** Conversely, all strings of the grammar are accepted. *)
Theorem C39_layout_accepts_the_grammar : forall v settings,
  is_ascii v = true -> Forall2 means (specs v) settings ->
  exists d, layout_from_str v = Ok d /\ holds d settings.
Proof. exact layout_accepts. Qed.
Print Assumptions C39_layout_accepts_the_grammar.

Example C39_example :
  exists d, layout_from_str (lit "e-m:e-S64-p270:32:32-i64:64-f80:128-n8:16:32:64-S128-i64:32:64-ni:7:8-E") = Ok d /\
  dl_endianness d = Big /\ dl_mangling d = Some MElf /\ dl_stack d = Some (mkAlign 4) /\
  dl_native d = [8; 16; 32; 64] /\ dl_non_integral d = [7; 8] /\ dl_alloca_space d = 0 /\
  spec_for (AtInteger 64) (dl_types d) = Some (mkTypeSpec (AtInteger 64) (mkAlign 2) (mkAlign 3)) /\
  spec_for (AtFloat 80) (dl_types d) = Some (mkTypeSpec (AtFloat 80) (mkAlign 4) (mkAlign 4)) /\
  spec_for (AtInteger 32) (dl_types d) = Some (mkTypeSpec (AtInteger 32) (mkAlign 2) (mkAlign 2)) /\
  dl_pointers d = [mkPtrSpec 0 (mkAlign 3) (mkAlign 3) 64 64; mkPtrSpec 270 (mkAlign 2) (mkAlign 2) 32 32] /\
  layout_from_str (lit "e-q") = Err (LeUnknownSpec (ch "q")) /\ layout_from_str (lit "e--E") = Err LeEmptySpec.
Proof. eexists. split; [vm_compute; reflexivity|]. repeat split. Qed.

Example C39_grammar_example :
  Forall2 means (specs (lit "S64-A5-Fi32")) [SStack (mkAlign 3); SAlloca 5; SFn (FpIndependent (mkAlign 2))].
Proof.
  change (specs (lit "S64-A5-Fi32")) with [ch "S" :: lit "64"; ch "A" :: lit "5"; ch "F" :: ch "i" :: lit "32"].
  repeat constructor; cbn; try discriminate; left; repeat split; try discriminate;
    repeat constructor; unfold digit; vm_compute; intuition discriminate.
Qed.

(** Which error a string gets: [layout_string_rule] (LayoutStopSpec.v) lists the demands in the order they
    are checked, the first one not met decides. *)
Theorem C39_layout_errors_exactly : forall v w, verdict_of (layout_from_str v) = w <-> layout_string_rule v w.
Proof. exact layout_string_decided. Qed.
Print Assumptions C39_layout_errors_exactly.
Example C39_errors_example :
  layout_string_rule (lit "e-m:e-p270:32:32-i64:64") Fine /\
  layout_string_rule (lit "e-S12-x") (Fails (LeBadAlign (ANotByteMultiple 12))) /\
  layout_string_rule (lit "e-S24-x") (Fails (LeBadAlign (ANotPowerOfTwo 3))) /\
  layout_string_rule (lit "e-x-S24") (Fails (LeUnknownSpec (ch "x"))) /\
  layout_string_rule (lit "e-i64:64:8") (Fails (LeBadAlignSpec (SeAlignPref (mkAlign 0) (mkAlign 3)))) /\
  layout_string_rule (lit "e-i64:6x:8x") (Fails (LeBadAlignSpec (SeParse (ApNumber IntInvalidDigit)))) /\
  layout_string_rule (lit "e-i64:64:8x") (Fails (LeBadAlignSpec (SeBadInt IntInvalidDigit))) /\
  layout_string_rule (lit "ni:1:0:9x") (Fails (LeBadSpecParse LfSpaceZero)) /\
  layout_string_rule (lit "P99999999999x") (Fails (LeBadInt IntPosOverflow)) /\
  layout_string_rule (lit "P99x99999999999") (Fails (LeBadInt IntInvalidDigit)) /\
  layout_string_rule (lit "e--E") (Fails LeEmptySpec) /\
  layout_string_rule [120; 233] (Fails LeBadEncoding).
Proof. repeat apply conj; apply C39_layout_errors_exactly; vm_compute; reflexivity. Qed.
(** Without the theorem. *)
Example C39_errors_by_hand : layout_string_rule (lit "E-S24") (Fails (LeBadAlign (ANotPowerOfTwo 3))).
Proof.
  apply IoNext; [constructor; repeat constructor|]. apply IoStop; [|discriminate].
  exists [lit "E"; lit "S24"]. split; [split; [discriminate|split; [reflexivity|]]; repeat constructor; cbn; intuition discriminate|].
  apply IoNext; [apply SrEndian; right; now left|]. apply IoStop; [|discriminate].
  assert (N24 : number (lit "24") 24).
  { left. split; [discriminate|]. split; [repeat constructor; cbn; discriminate|reflexivity]. }
  apply SrStack. apply IoNext; [constructor; apply NuFine with 24; [exact N24|discriminate]|]. apply IoStop; [|discriminate].
  exists 24. split; [exact N24|]. constructor. apply (AgPower 24 3); [reflexivity|].
  intros k K. destruct k as [|k]; [discriminate K|]. assert (E : N.even 3 = true) by (rewrite K, N.even_pow by discriminate; reflexivity). discriminate E.
Qed.

(** *** C40: refuted. [dl_aggregate] never changes. *)

Theorem C40_aggregate_specification_refuted :
  exists v d abi, layout_from_str v = Ok d /\ specs v = [lit "a:64:128"] /\
    from_bit_align 64 = Ok abi /\ dl_aggregate d <> abi /\
    (** nor the preferred alignment *)
    from_bit_align 128 <> Ok (dl_aggregate d).
Proof.
  exists (lit "a:64:128"). eexists. eexists. split; [vm_compute; reflexivity|]. split; [reflexivity|].
  split; [reflexivity|]. split; vm_compute; discriminate.
Qed.
Print Assumptions C40_aggregate_specification_refuted.

Theorem C40_aggregate_alignment_is_constant : forall v d,
  layout_from_str v = Ok d -> dl_aggregate d = ALIGN8.
Proof. exact aggregate_constant. Qed.
Print Assumptions C40_aggregate_alignment_is_constant.

(** What does take effect: the specification is found among the type specifications. The
    missing part is the [aggregate_alignment] field. *)
Theorem C40_aggregate_specification_partial : forall v d s t,
  layout_from_str v = Ok d -> last (filter about_aggregate (specs v)) [] = s -> type_spec_from_str s = Ok t ->
  spec_for AtAggregate (dl_types d) = Some t.
Proof. exact aggregate_in_types. Qed.
Print Assumptions C40_aggregate_specification_partial.

Example C40_example :
  exists d, layout_from_str (lit "e-a:8-i8:8-a:64:128") = Ok d /\
    last (filter about_aggregate (specs (lit "e-a:8-i8:8-a:64:128"))) [] = lit "a:64:128" /\
    spec_for AtAggregate (dl_types d) = Some (mkTypeSpec AtAggregate (mkAlign 3) (mkAlign 4)).
Proof. eexists. split; [vm_compute; reflexivity|]. split; reflexivity. Qed.

(** *** C41 *)

Theorem C41_byte_alignments_are_the_powers_of_two : forall v, v < two64 ->
  (forall a, from_byte_align v = Ok a <-> (v = 2 ^ a_shift a /\ a_shift a <= 63)) /\
  ((forall s, v <> 2 ^ s) -> from_byte_align v = Err (ANotPowerOfTwo v)).
Proof. exact from_byte_align_main. Qed.
Print Assumptions C41_byte_alignments_are_the_powers_of_two.

Theorem C41_byte_alignment_round_trip : forall e v a,
  v < two64 -> from_byte_align v = Ok a -> @byte_align align_err e a = Ok v.
Proof. exact byte_round_trip. Qed.
Print Assumptions C41_byte_alignment_round_trip.

Theorem C41_byte_alignment_round_trip_back : forall e a, align_held a ->
  exists v, @byte_align align_err e a = Ok v /\ v < two64 /\ from_byte_align v = Ok a.
Proof. exact byte_round_trip_back. Qed.
Print Assumptions C41_byte_alignment_round_trip_back.

Theorem C41_order_is_the_order_of_byte_values : forall e a b, align_held a -> align_held b ->
  exists x y, @byte_align align_err e a = Ok x /\ @byte_align align_err e b = Ok y /\
    (align_le a b = true <-> x <= y) /\ (align_lt a b = true <-> x < y) /\ (a = b <-> x = y).
Proof. exact (align_order align_err). Qed.
Print Assumptions C41_order_is_the_order_of_byte_values.

Theorem C41_bit_alignments_exactly : forall v a, v < two64 ->
  from_bit_align v = Ok a <-> v = 8 * 2 ^ a_shift a /\ a_shift a <= 60.
Proof. exact from_bit_align_exact. Qed.
Print Assumptions C41_bit_alignments_exactly.

Theorem C41_bit_alignment_round_trip : forall e v a,
  v < two64 -> from_bit_align v = Ok a -> @bit_align align_err e a = Ok v.
Proof. exact bit_round_trip. Qed.
Print Assumptions C41_bit_alignment_round_trip.

(** The three largest alignments have no bit alignment in u64. *)
Theorem C41_bit_alignment_round_trip_back_partial : forall e a, align_held a ->
  a <> mkAlign 61 -> a <> mkAlign 62 -> a <> mkAlign 63 ->
  exists v, @bit_align align_err e a = Ok v /\ v < two64 /\ from_bit_align v = Ok a.
Proof. exact bit_round_trip_back. Qed.
Print Assumptions C41_bit_alignment_round_trip_back_partial.

Theorem C41_bit_alignment_round_trip_back_refuted : exists a, align_held a /\
  @bit_align align_err debug_env a = Panic PMulOverflow /\ @bit_align align_err release_env a = Ok 0.
Proof.
  exists (mkAlign 61). split; [apply (AHShift 61); reflexivity|]. split; vm_compute; reflexivity.
Qed.
Print Assumptions C41_bit_alignment_round_trip_back_refuted.

Example C41_example :
  from_byte_align 4096 = Ok (mkAlign 12) /\ @byte_align align_err debug_env (mkAlign 12) = Ok 4096 /\
  from_byte_align 12 = Err (ANotPowerOfTwo 12) /\ from_byte_align 0 = Err (ANotPowerOfTwo 0) /\
  from_bit_align 128 = Ok (mkAlign 4) /\ @bit_align align_err debug_env (mkAlign 4) = Ok 128 /\
  from_bit_align 4 = Err (ANotByteMultiple 4) /\ from_byte_align 9223372036854775808 = Ok (mkAlign 63) /\
  align_lt (mkAlign 4) (mkAlign 12) = true /\ align_held (mkAlign 12).
Proof. repeat split; try (vm_compute; reflexivity). apply (AHByte 4096); vm_compute; reflexivity. Qed.

(** *** C42 *)

Theorem C42_type_specifications_are_a_sorted_map : forall us,
  StronglySorted (fun x y => key_lt (ts_type x) (ts_type y)) (fold_left type_specs_update us type_specs_default) /\
  forall k, spec_for k (fold_left type_specs_update us type_specs_default) = spec_for k (rev us ++ type_specs_default).
Proof. exact type_updates_main. Qed.
Print Assumptions C42_type_specifications_are_a_sorted_map.

Example C42_example :
  let us := [mkTypeSpec (AtVector 64) ALIGN64 ALIGN64; mkTypeSpec (AtInteger 64) ALIGN32 ALIGN32;
             mkTypeSpec (AtInteger 7) ALIGN8 ALIGN8; mkTypeSpec (AtInteger 64) ALIGN64 ALIGN128] in
  let l := fold_left type_specs_update us type_specs_default in
  spec_for (AtInteger 64) l = Some (mkTypeSpec (AtInteger 64) ALIGN64 ALIGN128) /\
  map ts_type l = [AtAggregate; AtFloat 16; AtFloat 32; AtFloat 64; AtFloat 128; AtInteger 1; AtInteger 7;
                   AtInteger 8; AtInteger 16; AtInteger 32; AtInteger 64; AtVector 64].
Proof. vm_compute. split; reflexivity. Qed.

(** *** C43: refuted; the list keeps superseded entries. *)

Theorem C43_pointer_specifications_refuted : exists us x y l1 l2,
  fold_left ptr_specs_update us ptr_specs_default = l1 ++ x :: y :: l2 /\ ps_space x = ps_space y /\ x <> y.
Proof.
  exists [mkPtrSpec 0 ALIGN32 ALIGN32 32 32]. do 2 eexists. exists [], []. split; [vm_compute; reflexivity|].
  split; [reflexivity|discriminate].
Qed.
Print Assumptions C43_pointer_specifications_refuted.

(** What holds: the list is ordered by address space; per address space it holds the default
    and the updates in order, equal neighbours once. Missing: the uniqueness. *)
Theorem C43_pointer_specifications_partial : forall us,
  StronglySorted (fun x y => ps_space x <= ps_space y) (fold_left ptr_specs_update us ptr_specs_default) /\
  forall k, specs_of k (fold_left ptr_specs_update us ptr_specs_default) =
            collapse (specs_of k (ptr_specs_default ++ us)).
Proof. exact ptr_updates_main. Qed.
Print Assumptions C43_pointer_specifications_partial.

(** In particular the last entry of an address space is its last update. *)
Theorem C43_last_entry_is_last_update_partial : forall us k s r,
  rev (specs_of k us) = s :: r ->
  exists r', rev (specs_of k (fold_left ptr_specs_update us ptr_specs_default)) = s :: r'.
Proof. exact pointers_last. Qed.
Print Assumptions C43_last_entry_is_last_update_partial.

Example C43_example :
  let a := mkPtrSpec 1 ALIGN32 ALIGN32 32 32 in let b := mkPtrSpec 1 ALIGN16 ALIGN16 16 16 in
  fold_left ptr_specs_update [a; b; b; a] ptr_specs_default = [ptr_spec_default; a; b; a].
Proof. vm_compute. reflexivity. Qed.

(** *** C44 *)

Theorem C44_type_specifications_pref_at_least_abi : forall v s, type_spec_from_str v = Ok s ->
  a_shift (ts_abi s) <= a_shift (ts_pref s) <= 15.
Proof. exact type_from_str_ok. Qed.
Print Assumptions C44_type_specifications_pref_at_least_abi.

Theorem C44_pointer_specifications_refuted : exists v s, ptr_spec_from_str v = Ok s /\
  a_shift (ps_pref s) < a_shift (ps_abi s) /\
  (** although the constructor rejects them *)
  exists x, ptr_spec_new (ps_space s) (ps_abi s) (ps_pref s) (ps_size s) (ps_index s) = Err x.
Proof.
  exists (lit "p:64:64:32"). eexists. split; [vm_compute; reflexivity|]. split; [vm_compute; reflexivity|].
  eexists. vm_compute. reflexivity.
Qed.
Print Assumptions C44_pointer_specifications_refuted.

(** The language of both parsers, exactly. *)
Theorem C44_type_specification_language : forall c s t, c < 128 -> In c [ch "i"; ch "v"; ch "f"; ch "a"] ->
  type_spec_from_str (c :: s) = Ok t <-> type_text (c :: s) t.
Proof. exact type_from_str_iff. Qed.
Print Assumptions C44_type_specification_language.

Theorem C44_pointer_specification_language : forall c s t, c < 128 ->
  ptr_spec_from_str (c :: s) = Ok t <-> ptr_text (c :: s) t.
Proof. exact ptr_from_str_iff. Qed.
Print Assumptions C44_pointer_specification_language.

Example C44_example :
  type_spec_from_str (lit "v96:32:128") = Ok (mkTypeSpec (AtVector 96) ALIGN32 ALIGN128) /\
  type_spec_from_str (lit "v96:128:32") = Err (SeAlignPref ALIGN32 ALIGN128) /\
  type_spec_from_str (lit "a:8:16") = Ok (mkTypeSpec AtAggregate ALIGN8 ALIGN16) /\
  type_spec_from_str (lit "i64") = Err (SeParse (ApFewParts (ch "i") 1)) /\
  ptr_spec_from_str (lit "p3:32:64:128:16") = Ok (mkPtrSpec 3 ALIGN64 ALIGN128 32 16).
Proof. repeat split; vm_compute; reflexivity. Qed.

(** *** C45: refuted; no opcode and type are accepted. *)

Theorem C45_binary_operations_refuted : exists v t op x,
  expected_operation v t = Some op /\ binary_op_of v t = Err x.
Proof. exists 0, (TInteger 32), BAdd. eexists. split; [reflexivity|vm_compute; reflexivity]. Qed.
Print Assumptions C45_binary_operations_refuted.

Theorem C45_binary_operations_always_fail : forall v t, exists x, binary_op_of v t = Err x.
Proof. exact binary_op_err. Qed.
Print Assumptions C45_binary_operations_always_fail.

(** Which error: an opcode that is none, otherwise the type. *)
Theorem C45_errors_exactly : forall v t,
  binary_op_of v t = Err (if v <? 13 then BeInvalidType t else BeOpcode v).
Proof. exact binary_op_exact. Qed.
Print Assumptions C45_errors_exactly.

(** Unary operations: opcode 0 (fneg) and no other. *)
Theorem C45_unary_operations : forall v, unary_op_of v = if v =? 0 then Ok UFNeg else Err v.
Proof. exact unary_op_exact. Qed.
Print Assumptions C45_unary_operations.

(** The half of the claim that holds. *)
Theorem C45_binary_operations_partial : forall v t, expected_operation v t = None ->
  exists x, binary_op_of v t = Err x.
Proof. exact (fun v t _ => binary_op_err v t). Qed.
Print Assumptions C45_binary_operations_partial.

Example C45_example :
  expected_operation 3 TFloat = None /\ expected_operation 4 (TFixedVector 4 TFloat) = Some BFDiv /\
  binary_op_of 3 TFloat = Err (BeInvalidType TFloat) /\ binary_op_of 13 (TInteger 8) = Err (BeOpcode 13) /\
  unary_op_of 0 = Ok UFNeg /\ unary_op_of 1 = Err 1.
Proof. repeat split; vm_compute; reflexivity. Qed.

(** *** C46 *)

Theorem C46_aligned_types_are_totally_ordered :
  (forall x y, at_cmp x y = Eq <-> x = y) /\
  (forall x y, at_cmp x y = CompOpp (at_cmp y x)) /\
  (forall x y z c, c <> Eq -> at_cmp x y = c -> at_cmp y z = c -> at_cmp x z = c) /\
  (forall x y, at_cmp x y = Lt <-> key_lt x y) /\
  (forall x y, at_eqb x y = true <-> x = y).
Proof. exact at_total_order. Qed.
Print Assumptions C46_aligned_types_are_totally_ordered.

Example C46_example :
  at_cmp (AtFloat 128) (AtInteger 1) = Lt /\ at_cmp (AtInteger 64) (AtInteger 8) = Gt /\
  at_cmp AtAggregate AtAggregate = Eq /\ at_cmp (AtVector 1) AtAggregate = Gt.
Proof. repeat split. Qed.

(** *** C49 *)

Theorem C49_wire_enumerations_realise_their_numbering :
  realises reserved_block_id_of reserved_block_id_num reserved_block_id_table /\
  realises ir_block_id_of ir_block_id_num ir_block_id_table /\
  realises identification_code_of identification_code_num identification_code_table /\
  realises module_code_of module_code_num module_code_table /\
  realises type_code_of type_code_num type_code_table /\
  realises strtab_code_of strtab_code_num strtab_code_table /\
  realises symtab_code_of symtab_code_num symtab_code_table /\
  realises attribute_code_of attribute_code_num attribute_code_table /\
  realises function_code_of function_code_num function_code_table /\
  realises unary_opcode_of unary_opcode_num unary_opcode_table /\
  realises binary_opcode_of binary_opcode_num binary_opcode_table /\
  realises rmw_operation_of rmw_operation_num rmw_operation_table /\
  realises attribute_kind_of attribute_kind_num attribute_kind_table /\
  realises attribute_id_of attribute_id_num attribute_id_table /\
  realises visibility_of visibility_num visibility_table /\
  realises dll_storage_class_of dll_storage_class_num dll_storage_class_table /\
  realises calling_convention_of calling_convention_num calling_convention_table.
Proof. exact enums_main. Qed.
Print Assumptions C49_wire_enumerations_realise_their_numbering.

Theorem C49_decoders_with_a_default :
  realises_with_default linkage_of linkage_table LkExternal /\
  realises_with_default tls_mode_of tls_table TlsGeneralDynamicTls /\
  realises_with_default unnamed_addr_of unnamed_addr_table UaNone /\
  realises_with_default preemption_of preemption_table RpDsoPreemptable.
Proof. exact (conj linkage_realises (conj tls_realises (conj unnamed_addr_realises preemption_realises))). Qed.
Print Assumptions C49_decoders_with_a_default.

Theorem C49_bitstream_codes : forall v,
  (forall x, StreamModel.abbrev_enc_of v = Some x <->
     In (x, v) [(StreamModel.EncFixed, 1); (StreamModel.EncVbr, 2); (StreamModel.EncArray, 3);
                (StreamModel.EncChar6, 4); (StreamModel.EncBlob, 5)]) /\
  (forall x, StreamModel.blockinfo_code_of v = Some x <->
     In (x, v) [(StreamModel.BiSetBid, 1); (StreamModel.BiBlockName, 2); (StreamModel.BiSetRecordName, 3)]) /\
  (forall x, StreamModel.abbrev_id_of v = x <->
     In (x, v) [(StreamModel.IdEndBlock, 0); (StreamModel.IdEnterSubBlock, 1);
                (StreamModel.IdDefineAbbrev, 2); (StreamModel.IdUnabbrevRecord, 3)] \/
     4 <= v /\ x = StreamModel.IdDefined v).
Proof. exact (fun v => conj (abbrev_enc_exact v) (conj (blockinfo_code_exact v) (abbrev_id_exact v))). Qed.
Print Assumptions C49_bitstream_codes.

Example C49_example :
  module_code_of 8 = Some McFunction /\ module_code_of 10 = None /\ calling_convention_of 64 = Some CcX86Stdcall /\
  attribute_id_of 87 = None /\ linkage_of 16 = LkWeakAny /\ linkage_of 1000 = LkExternal /\
  tls_mode_of 77 = TlsGeneralDynamicTls.
Proof. repeat split. Qed.

(** *** C51 *)

Theorem C51_specification_parsing_never_panics_refuted : exists v,
  forallb is_scalar_value v = true /\
  type_spec_from_str v = Panic PSliceRange /\ ptr_spec_from_str v = Panic PSliceRange.
Proof. exists [0xE9]. repeat split. Qed.
Print Assumptions C51_specification_parsing_never_panics_refuted.

(** The panic needs a first character outside ASCII. *)
Theorem C51_specification_parsing_never_panics_partial : forall c s, c < 128 ->
  ((exists t, type_spec_from_str (c :: s) = Ok t) \/ (exists x, type_spec_from_str (c :: s) = Err x)) /\
  ((exists t, ptr_spec_from_str (c :: s) = Ok t) \/ (exists x, ptr_spec_from_str (c :: s) = Err x)).
Proof. exact from_str_no_panic. Qed.
Print Assumptions C51_specification_parsing_never_panics_partial.

(** Every string: [type_rule] and [pointer_rule] behind an ASCII character. *)
Theorem C51_specifications_exactly : forall s v w,
  (verdict_of (type_spec_from_str s) = v <-> from_str_rule ApEmptyType type_rule s v) /\
  (verdict_of (ptr_spec_from_str s) = w <-> from_str_rule ApEmptyPointer (fun _ => pointer_rule) s w).
Proof. intros s v w. exact (conj (type_string_decided s v) (pointer_string_decided s w)). Qed.
Print Assumptions C51_specifications_exactly.
Theorem C51_panics_exactly : forall s p,
  (type_spec_from_str s = Panic p <-> p = PSliceRange /\ exists c s', s = c :: s' /\ 128 <= c) /\
  (ptr_spec_from_str s = Panic p <-> p = PSliceRange /\ exists c s', s = c :: s' /\ 128 <= c).
Proof. exact specification_panics. Qed.
Print Assumptions C51_panics_exactly.
Example C51_example :
  type_spec_from_str (ch "i" :: [0xE9]) = Err (SeParse (ApFewParts (ch "i") 1)) /\
  type_spec_from_str (lit "i8:8:" ++ [0x1F600]) = Err (SeBadInt IntInvalidDigit).
Proof. repeat split; vm_compute; reflexivity. Qed.

(** *** C52: refuted. The layout string of 32-bit ARM targets (and LLVM's own default for
    aggregates, [a:0:64]) has an ABI alignment of zero. *)

Theorem C52_llvm_layouts_are_accepted_refuted : exists x,
  layout_from_str (lit "e-m:e-p:32:32-Fi8-i64:64-v128:64:128-a:0:32-n32-S64") = Err x.
Proof. eexists. vm_compute. reflexivity. Qed.
Print Assumptions C52_llvm_layouts_are_accepted_refuted.

Theorem C52_zero_abi_is_rejected : forall v s,
  In (lit "a:0" ++ s) (specs v) -> (s = [] \/ exists s', s = ch ":" :: s') ->
  exists x, layout_from_str v = Err x.
Proof. exact zero_abi_rejected. Qed.
Print Assumptions C52_zero_abi_is_rejected.

Example C52_example :
  (exists d, layout_from_str (lit "e-m:e-p270:32:32-p271:32:32-p272:64:64-i64:64-f80:128-n8:16:32:64-S128") = Ok d) /\
  In (lit "a:0" ++ lit ":64") (specs (lit "e-a:0:64-n32")).
Proof. split; [eexists; vm_compute; reflexivity|]. right. left. reflexivity. Qed.

(** *** C71: what a layout says where its string is silent, and without a string. [layout_given], [silent],
    [alignments] and the table [llvm_defaults] are in LayoutDefaults.v. *)

(** In full: every default is LLVM's. False for 64 bit integers, vectors and aggregates. *)
Theorem C71_defaults_are_llvms_refuted : exists o d, layout_given o d /\
  (exists abi pref, silent o (about_type (AtInteger 64)) /\ In (AtInteger 64, (abi, pref)) llvm_defaults /\ ~ alignments d (AtInteger 64) abi pref) /\
  (exists abi pref, silent o (about_type (AtVector 64)) /\ In (AtVector 64, (abi, pref)) llvm_defaults /\ ~ alignments d (AtVector 64) abi pref) /\
  (exists abi pref, silent o (about_type (AtVector 128)) /\ In (AtVector 128, (abi, pref)) llvm_defaults /\ ~ alignments d (AtVector 128) abi pref) /\
  (exists abi pref, silent o (about_type AtAggregate) /\ In (AtAggregate, (abi, pref)) llvm_defaults /\ ~ alignments d AtAggregate abi pref).
Proof.
  exists None, layout_default. split; [reflexivity|]. split; [|split; [|split]].
  - exists 32, 64. split; [exact I|]. split; [cbn; tauto|]. intros (s & [= <-] & A & _). discriminate A.
  - exists 64, 64. split; [exact I|]. split; [cbn; tauto|]. intros (s & F & _). discriminate F.
  - exists 128, 128. split; [exact I|]. split; [cbn; tauto|]. intros (s & F & _). discriminate F.
  - exists 8, 64. split; [exact I|]. split; [cbn; tauto|]. intros (s & [= <-] & A & _). discriminate A.
Qed.
Print Assumptions C71_defaults_are_llvms_refuted.

(** True for all others. *)
Theorem C71_defaults_are_llvms_partial : forall o d k abi pref, layout_given o d -> silent o (about_type k) ->
  In (k, (abi, pref)) llvm_defaults -> ~ In k [AtInteger 64; AtVector 64; AtVector 128; AtAggregate] -> alignments d k abi pref.
Proof. exact defaults_main. Qed.
Print Assumptions C71_defaults_are_llvms_partial.

(** What the exceptions are instead, and no type has a default that LLVM has none for. *)
Theorem C71_other_defaults : forall o d, layout_given o d ->
  (silent o (about_type (AtInteger 64)) -> alignments d (AtInteger 64) 64 64) /\
  (silent o (about_type AtAggregate) -> alignments d AtAggregate 64 64) /\
  (forall k, silent o (about_type k) -> (exists s, spec_for k (dl_types d) = Some s) ->
     In k [AtInteger 1; AtInteger 8; AtInteger 16; AtInteger 32; AtInteger 64; AtFloat 16; AtFloat 32; AtFloat 64; AtFloat 128; AtAggregate]).
Proof. exact others_main. Qed.
Print Assumptions C71_other_defaults.

(** Pointers of 64 bits in address space zero; nothing is said of the other address spaces. *)
Theorem C71_pointer_defaults : forall o d, layout_given o d ->
  (silent o (about_space 0) -> exists p, specs_of 0 (dl_pointers d) = [p] /\ ps_size p = 64 /\ ps_index p = 64 /\
     @bit_align align_err debug_env (ps_abi p) = Ok 64 /\ @bit_align align_err debug_env (ps_pref p) = Ok 64) /\
  (forall n, n <> 0 -> silent o (about_space n) -> specs_of n (dl_pointers d) = []).
Proof. exact pointers_main. Qed.
Print Assumptions C71_pointer_defaults.

(** The single values. For the byte order this is what LLVM's language reference says; its parser starts little-endian
    ([C90_byte_order_refuted]). *)
Theorem C71_single_defaults : forall o d, layout_given o d ->
  (silent o (fun c => exists v, c = SEndian v) -> dl_endianness d = Big) /\
  (silent o (fun c => exists v, c = SStack v) -> dl_stack d = None) /\
  (silent o (fun c => exists v, c = SProgram v) -> dl_program_space d = 0) /\
  (silent o (fun c => exists v, c = SGlobal v) -> dl_global_space d = 0) /\
  (silent o (fun c => exists v, c = SAlloca v) -> dl_alloca_space d = 0) /\
  (silent o (fun c => exists v, c = SFn v) -> dl_fn_ptr d = None) /\
  (silent o (fun c => exists v, c = SMangling v) -> dl_mangling d = None) /\
  (silent o (fun c => exists v, c = SNative v) -> dl_native d = []) /\
  (silent o (fun c => exists v, c = SNonIntegral v) -> dl_non_integral d = []).
Proof. exact rest_main. Qed.
Print Assumptions C71_single_defaults.

(** A string silent about everything but the byte order. *)
Example C71_example : exists d,
  layout_given (Some (lit "e")) d /\ (forall k, silent (Some (lit "e")) (about_type k)) /\ silent (Some (lit "e")) (about_space 0) /\
  dl_endianness d = Little /\ alignments d (AtFloat 128) 128 128 /\ alignments d (AtInteger 1) 8 8 /\ dl_stack d = None.
Proof.
  eexists. split; [vm_compute; reflexivity|].
  assert (Q : forall f, ~ f (SEndian Little) -> silent (Some (lit "e")) f).
  { intros f N s c [<-|[]] M F. inversion M as [| | | | | | |? ? ? J| | | | |]; subst; try discriminate; try contradiction.
    cbn in J. intuition discriminate. }
  split; [intros k; apply Q; intros (t & E & _); discriminate E|].
  split; [apply Q; intros (t & E & _); discriminate E|].
  split; [reflexivity|]. split; [|split; [|reflexivity]]; eexists; (split; [vm_compute; reflexivity|split; vm_compute; reflexivity]).
Qed.
