(** Property theorems C27-C30, C32, C50: unrolling (llvm-mapper/src/unroll.rs).

    [unroll e s] (UnrollModel.v) is the loop of [Bitcode::try_from] up to the reification of
    the partial modules; [stream_is e s forest] says that iterating the parser gives exactly
    the entries of the trees [forest] and then ends; [carries], [modules_of] and
    [well_grouped] are in UnrollSpec.v. *)
From Verif Require Import Base Strings EnumModel CursorModel StreamModel StreamSpec StreamHist StreamMain
  UnrollModel UnrollSpec UnrollProofs UnrollMain UnrollApi UnrollStopSpec UnrollStops.
Local Open Scope N_scope.

(** Two modules with one string table each and a symbol table for both. *)
Definition ex_unroll : list item :=
  [IBlock 13 5 3 [IUnabbrev 1 [76; 76]; IUnabbrev 2 [0]];
   IBlock 8 3 15 [IUnabbrev 1 [2]; IBlock 17 4 2 [IUnabbrev 1 [1]; IUnabbrev 2 []];
                  IBlock 10 4 1 []; IUnabbrev 2 [97; 98; 99];
                  IBlock 17 4 2 [IUnabbrev 1 [7]; IUnabbrev 2 []]];
   IBlock 23 3 3 [IUnabbrev 1 [97; 98; 99; 100]];
   IBlock 13 5 3 [IUnabbrev 1 [76; 77]; IUnabbrev 2 [0]];
   IBlock 8 3 1 [IUnabbrev 1 [2]];
   IBlock 23 3 3 [IUnabbrev 1 [101; 102; 103; 104]];
   IBlock 25 3 2 [IUnabbrev 1 [1; 2; 3; 4]]].
Definition ex_unroll_bits : list bool :=
  match write_stream 0xdec04342 ex_unroll with Some b => b | None => [] end.
Definition ex_unroll_parser : sparser cursor :=
  match from_raw (bytes_of_bits ex_unroll_bits) with Ok b => bs_parser b | _ => parser_new (cur_new []) end.
Lemma ex_unroll_reachable e : parser_reachable e ex_unroll_parser.
Proof.
  apply (from_raw_reachable e (bytes_of_bits ex_unroll_bits) (mkBitstream 0xdec04342 ex_unroll_parser)).
  vm_compute. reflexivity.
Qed.
Lemma ex_unroll_stream : stream_is debug_env ex_unroll_parser (trees ex_unroll).
Proof. exists 35%nat. vm_compute. reflexivity. Qed.
Lemma ex_unroll_grouped : well_grouped (trees ex_unroll).
Proof. apply well_grouped_okay. vm_compute. intuition. Qed.

(** *** C27 *)

Theorem C27_unrolling_preserves_structure : forall e s parts,
  parser_reachable e s -> unroll e s = Ok parts ->
  exists forest, stream_is e s forest /\ well_grouped forest /\ Forall2 carries (modules_of forest) parts.
Proof. exact unroll_ok. Qed.
Print Assumptions C27_unrolling_preserves_structure.

Theorem C27_structure_is_determined_by_the_stream : forall e s f1 f2,
  stream_is e s f1 -> stream_is e s f2 -> f1 = f2.
Proof. exact stream_unique. Qed.
Print Assumptions C27_structure_is_determined_by_the_stream.

Theorem C27_written_streams_are_unrolled : forall e magic l bits,
  write_stream magic l = Some bits -> forallb (item_small (alloc_limit e)) l = true ->
  well_grouped (trees l) ->
  exists b parts, from_raw (bytes_of_bits bits) = Ok b /\ unroll e (bs_parser b) = Ok parts /\
                  Forall2 carries (modules_of (trees l)) parts.
Proof. exact written_unrolled. Qed.
Print Assumptions C27_written_streams_are_unrolled.

Theorem C27_unrolling_terminates : forall e s, parser_reachable e s -> unroll e s <> OutOfFuel.
Proof. exact unroll_terminates. Qed.
Print Assumptions C27_unrolling_terminates.

Theorem C27_entry_parsers_are_reachable : forall e buf w b,
  from e buf = Ok (w, b) -> parser_reachable e (bs_parser b).
Proof. exact from_reachable. Qed.
Print Assumptions C27_entry_parsers_are_reachable.

Example C27_example :
  write_stream 0xdec04342 ex_unroll = Some ex_unroll_bits /\
  forallb (item_small (alloc_limit debug_env)) ex_unroll = true /\
  well_grouped (trees ex_unroll) /\
  parser_reachable debug_env ex_unroll_parser /\
  stream_is debug_env ex_unroll_parser (trees ex_unroll) /\
  exists parts, unroll debug_env ex_unroll_parser = Ok parts /\ length parts = 2%nat /\
    match parts with
    | p :: _ => option_map (fun b => (b_records b, map fst (b_blocks b),
                                      map b_records (blocks_under (BIr IbType) b))) (pt_module p)
    | [] => None
    end =
    Some ([mkRecord None 1 [2]; mkRecord None 2 [97; 98; 99]],
          [BIr IbType; BIr IbParamAttrGroup],
          [[mkRecord None 1 [1]; mkRecord None 2 []]; [mkRecord None 1 [7]; mkRecord None 2 []]]).
Proof.
  split; [vm_compute; reflexivity|]. split; [vm_compute; reflexivity|]. split; [exact ex_unroll_grouped|].
  split; [apply ex_unroll_reachable|]. split; [exact ex_unroll_stream|].
  destruct (unroll debug_env ex_unroll_parser) as [parts| | |] eqn:E; vm_compute in E; try discriminate E.
  injection E as <-. eexists. split; [reflexivity|]. split; vm_compute; reflexivity.
Qed.

(** *** C28 *)

Theorem C28_streams_are_accepted_iff_well_grouped : forall e s forest,
  parser_reachable e s -> stream_is e s forest ->
  (well_grouped forest -> exists parts, unroll e s = Ok parts /\ Forall2 carries (modules_of forest) parts) /\
  (~ well_grouped forest -> exists x, unroll e s = Err x).
Proof. exact unroll_decides. Qed.
Print Assumptions C28_streams_are_accepted_iff_well_grouped.

Theorem C28_module_of_an_identification_block : forall l1 i l2,
  is_top IDENTIFICATION i = true ->
  exists m, nth_error (modules_of (l1 ++ i :: l2)) (length (filter (is_top IDENTIFICATION) l1)) = Some m /\
    tm_identification m = i /\
    (forall t, tm_strtab m = Some t <->
       exists a b, l2 = a ++ t :: b /\ is_top STRTAB t = true /\ Forall (fun x => is_top STRTAB x = false) a) /\
    (forall t, tm_symtab m = Some t <->
       exists a b, l2 = a ++ t :: b /\ is_top SYMTAB t = true /\ Forall (fun x => is_top SYMTAB x = false) a) /\
    (forall t, tm_module m = Some t <->
       exists a b, l2 = a ++ t :: b /\ is_top MODULE t = true /\
                   Forall (fun x => is_top MODULE x = false /\ is_top IDENTIFICATION x = false) a).
Proof. exact module_at. Qed.
Print Assumptions C28_module_of_an_identification_block.

Theorem C28_one_module_per_identification_block : forall l,
  length (modules_of l) = length (filter (is_top IDENTIFICATION) l).
Proof. exact modules_count. Qed.
Print Assumptions C28_one_module_per_identification_block.

(** Both string tables and the shared symbol table go to the right modules. *)
Example C28_example : exists parts, unroll debug_env ex_unroll_parser = Ok parts /\
  map (fun p => (option_map b_records (pt_strtab p), option_map b_records (pt_symtab p))) parts =
    [(Some [mkRecord None 1 [97; 98; 99; 100]], Some [mkRecord None 1 [1; 2; 3; 4]]);
     (Some [mkRecord None 1 [101; 102; 103; 104]], Some [mkRecord None 1 [1; 2; 3; 4]])].
Proof.
  destruct (unroll debug_env ex_unroll_parser) as [parts| | |] eqn:E; vm_compute in E; try discriminate E.
  injection E as <-. eexists. split; vm_compute; reflexivity.
Qed.
(** Two modules after one identification block are rejected. *)
Example C28_rejected_example :
  ~ well_grouped [TBlk 13 0 []; TBlk 8 0 []; TBlk 23 0 []; TBlk 8 0 []].
Proof. rewrite well_grouped_okay. vm_compute. intuition discriminate. Qed.

(** *** C29: strings and blobs

    The claim holds when at least two fields stand at or after the index; it fails for
    records without fields and for strings of one character. *)

Theorem C29_strings_partial : forall e r idx s, idx + 1 < N.of_nat (length (r_fields r)) ->
  let fs := skipn (N.to_nat idx) (r_fields r) in
  (try_string e r idx = Ok s <->
     Forall (fun f => f < 256) fs /\ forallb is_scalar_value s = true /\ utf8_encode s = fs) /\
  (try_string e r idx = Err StBadCharacter <-> ~ Forall (fun f => f < 256) fs) /\
  ((forall raw x, try_string e r idx = Err (StBadEncoding raw x) <-> Forall (fun f => f < 256) fs /\ raw = fs /\ utf8_fault fs x) /\
   ((exists raw x, try_string e r idx = Err (StBadEncoding raw x)) <->
      Forall (fun f => f < 256) fs /\ ~ exists s, forallb is_scalar_value s = true /\ utf8_encode s = fs)) /\
  (forall p, try_string e r idx <> Panic p) /\ try_string e r idx <> OutOfFuel.
Proof. exact try_string_in. Qed.
Print Assumptions C29_strings_partial.

Theorem C29_blobs_partial : forall e r idx, idx + 1 < N.of_nat (length (r_fields r)) ->
  let fs := skipn (N.to_nat idx) (r_fields r) in
  (forall l, try_blob e r idx = Ok l <-> Forall (fun f => f < 256) fs /\ l = fs) /\
  (try_blob e r idx = Err BlBadByte <-> ~ Forall (fun f => f < 256) fs) /\
  (forall p, try_blob e r idx <> Panic p) /\ try_blob e r idx <> OutOfFuel.
Proof. exact try_blob_in. Qed.
Print Assumptions C29_blobs_partial.

Theorem C29_last_field_and_beyond_partial : forall e r idx,
  r_fields r <> [] -> N.of_nat (length (r_fields r)) <= idx + 1 ->
  try_string e r idx = Err (StBadIndex idx (N.of_nat (length (r_fields r)))) /\
  try_blob e r idx = Err (BlBadIndex idx (N.of_nat (length (r_fields r)))).
Proof. exact strings_out. Qed.
Print Assumptions C29_last_field_and_beyond_partial.

Theorem C29_one_character_refuted : exists r,
  (0 < length (r_fields r))%nat /\ Forall (fun f => f < 256) (r_fields r) /\
  utf8_encode [120] = r_fields r /\
  forall e, try_string e r 0 = Err (StBadIndex 0 1) /\ try_blob e r 0 = Err (BlBadIndex 0 1).
Proof. exact one_character. Qed.
Print Assumptions C29_one_character_refuted.

Theorem C29_empty_record_partial : forall e r idx, r_fields r = [] -> idx < u64_max ->
  try_string e r idx = (if overflow_checks e then Panic PSubOverflow else if idx =? 0 then Ok [] else Panic PSliceRange) /\
  try_blob e r idx = (if overflow_checks e then Panic PSubOverflow else if idx =? 0 then Ok [] else Panic PSliceRange).
Proof. exact strings_empty. Qed.
Print Assumptions C29_empty_record_partial.

Theorem C29_empty_record_last_index_partial : forall e r, r_fields r = [] ->
  try_string e r u64_max = (if overflow_checks e then Panic PSubOverflow else Err (StBadIndex u64_max 0)) /\
  try_blob e r u64_max = (if overflow_checks e then Panic PSubOverflow else Err (BlBadIndex u64_max 0)).
Proof. exact strings_empty_last. Qed.
Print Assumptions C29_empty_record_last_index_partial.

Theorem C29_no_panic_refuted : exists r, forall e, exists idx p,
  try_string e r idx = Panic p /\ try_blob e r idx = Panic p.
Proof. exact empty_panics. Qed.
Print Assumptions C29_no_panic_refuted.

Example C29_example :
  try_string debug_env (mkRecord None 5 [300; 195; 169; 97]) 1 = Ok [233; 97] /\
  try_string debug_env (mkRecord None 5 [300; 195; 169; 97]) 0 = Err StBadCharacter /\
  try_string debug_env (mkRecord None 5 [195; 97]) 0 = Err (StBadEncoding [195; 97] (mkUtf8Err 0 (Some 1))) /\
  try_blob debug_env (mkRecord None 5 [300; 195; 169; 97]) 1 = Ok [195; 169; 97] /\
  try_blob release_env (mkRecord None 5 []) 7 = Panic PSliceRange /\
  try_blob release_env (mkRecord None 5 []) 18446744073709551615 = Err (BlBadIndex 18446744073709551615 0).
Proof. vm_compute. auto 10. Qed.

(** *** C30: accessors *)

Theorem C30_by_code_selects : forall code l, selected (fun r => r_code r = code) l (by_code code l).
Proof. exact by_code_selected. Qed.
Print Assumptions C30_by_code_selects.

Theorem C30_record_cardinalities : forall code l,
  (forall r, exactly_one code l = Ok r <-> once (fun r => r_code r = code) l r) /\
  (exactly_one code l = Err (CeMissingRecord code) <-> Forall (fun r => r_code r <> code) l) /\
  (forall r, one_or_none code l = Ok (Some r) <-> once (fun r => r_code r = code) l r) /\
  (one_or_none code l = Ok None <-> Forall (fun r => r_code r <> code) l) /\
  ((exactly_one code l = Err (CeTooManyRecords code) <-> (2 <= length (by_code code l))%nat) /\
   (one_or_none code l = Err (CeTooManyRecords code) <-> (2 <= length (by_code code l))%nat)).
Proof. exact record_accessors. Qed.
Print Assumptions C30_record_cardinalities.

Theorem C30_one_is_the_first : forall code l r,
  one code l = Some r <-> exists l1 l2, l = l1 ++ r :: l2 /\ r_code r = code /\ Forall (fun x => r_code x <> code) l1.
Proof. exact one_first. Qed.
Print Assumptions C30_one_is_the_first.

Theorem C30_by_id_selects : forall bid len body b v id,
  unrolled (TBlk bid len body) b -> id_matches v id ->
  Forall2 unrolled (children v body) (by_id id b).
Proof. exact by_id_children. Qed.
Print Assumptions C30_by_id_selects.

Theorem C30_block_cardinalities : forall bid len body b v id,
  unrolled (TBlk bid len body) b -> id_matches v id ->
  (forall c, exactly_one_block id b = Ok c <-> by_id id b = [c]) /\
  ((exists c, exactly_one_block id b = Ok c) <-> exists t, once (fun t => is_top v t = true) body t) /\
  (forall c, exactly_one_block id b = Ok c -> exists t, once (fun t => is_top v t = true) body t /\ unrolled t c) /\
  (exactly_one_block id b = Err (CeMissingBlock id) <-> Forall (fun t => is_top v t = false) body) /\
  (one_or_none_block id b = Ok None <-> Forall (fun t => is_top v t = false) body) /\
  (forall c, one_or_none_block id b = Ok (Some c) <-> exactly_one_block id b = Ok c) /\
  (one_or_none_block id b = Err (CeTooManyBlocks id) <-> (2 <= length (children v body))%nat) /\
  (exactly_one_block id b = Err (CeTooManyBlocks id) <-> (2 <= length (children v body))%nat).
Proof. exact block_accessors. Qed.
Print Assumptions C30_block_cardinalities.

Definition ex_tree : tree :=
  TBlk 8 0 [TRec None 1 [2]; TBlk 17 0 []; TRec (Some 4) 2 [7]; TBlk 12 0 [TRec None 1 []]; TRec None 1 [3];
            TBlk 12 0 []; TBlk 5000 0 []].
Example C30_example :
  unrolled ex_tree (build ex_tree) /\ id_matches 12 (BIr IbFunction) /\
  exactly_one 2 (b_records (build ex_tree)) = Ok (mkRecord (Some 4) 2 [7]) /\
  one_or_none 9 (b_records (build ex_tree)) = Ok None /\
  exactly_one 1 (b_records (build ex_tree)) = Err (CeTooManyRecords 1) /\
  one_or_none_block (BIr IbFunction) (build ex_tree) = Err (CeTooManyBlocks (BIr IbFunction)) /\
  exactly_one_block (BIr IbFunction) (build ex_tree) = Err (CeTooManyBlocks (BIr IbFunction)) /\
  exactly_one_block (BUnknown 5000) (build ex_tree) = Ok (block_new 5000).
Proof. split; [now apply build_unrolled|]. vm_compute. auto 10. Qed.

(** *** C32: block ids *)

Theorem C32_block_ids : forall v,
  (v < 8 -> exists r, block_id_of v = BReserved r /\ reserved_block_id_num r = v) /\
  (8 <= v <= 26 -> exists i, block_id_of v = BIr i /\ ir_block_id_num i = v) /\
  (26 < v -> block_id_of v = BUnknown v).
Proof. exact block_id_total. Qed.
Print Assumptions C32_block_ids.

Theorem C32_block_ids_are_injective : forall v w, block_id_of v = block_id_of w -> v = w.
Proof. exact block_id_inj. Qed.
Print Assumptions C32_block_ids_are_injective.

Example C32_example : block_id_of 23 = BIr IbStrtab /\ block_id_of 27 = BUnknown 27 /\ block_id_of 0 <> block_id_of 7.
Proof. vm_compute. intuition discriminate. Qed.

(** *** C50: an error anywhere rejects the input *)

Theorem C50_stream_errors_reject : forall e s n l r,
  parser_reachable e s -> run e cursor_ops n s = map (fun x => Some (Ok x)) l ++ [r] ->
  r <> None -> (forall x, r <> Some (Ok x)) ->
  forall parts, unroll e s <> Ok parts.
Proof. exact unroll_error. Qed.
Print Assumptions C50_stream_errors_reject.

(** Conversely, parse errors and panics of the unrolling are those of the parser. *)
Theorem C50_failures_come_from_the_stream : forall e s,
  (forall x, unroll e s = Err (UParse x) ->
     exists n l, run e cursor_ops n s = map (fun x => Some (Ok x)) l ++ [Some (Err x)]) /\
  (forall p, unroll e s = Panic p ->
     exists n l, run e cursor_ops n s = map (fun x => Some (Ok x)) l ++ [Some (Panic p)]).
Proof. exact unroll_failures. Qed.
Print Assumptions C50_failures_come_from_the_stream.

(** The example stream without its last word: the parser fails inside the last block. *)
Definition ex_cut_parser : sparser cursor :=
  match from_raw (firstn (length (bytes_of_bits ex_unroll_bits) - 4) (bytes_of_bits ex_unroll_bits)) with
  | Ok b => bs_parser b
  | _ => parser_new (cur_new [])
  end.
Example C50_example :
  (exists l, run debug_env cursor_ops 33 ex_cut_parser = map (fun x => Some (Ok x)) l ++ [Some (Err (SCursor Short))]) /\
  unroll debug_env ex_cut_parser = Err (UParse (SCursor Short)).
Proof.
  split; [|vm_compute; reflexivity].
  exists (firstn 32 (flat_map flat (trees ex_unroll))). vm_compute. reflexivity.
Qed.

(** Every result other than success, and exactly the streams with that result (UnrollStopSpec.v). *)
Theorem C50_stops_exactly : forall e s o, parser_reachable e s -> (forall parts, o <> Ok parts) ->
  (unroll e s = o <-> unroll_stops e s o).
Proof. exact unroll_stops_exactly. Qed.
Print Assumptions C50_stops_exactly.

(** The same blocks, cut at two places in the symbol table; and with a third module at the end. *)
Definition ex_parser (l : list byte) : sparser cursor :=
  match from_raw l with Ok b => bs_parser b | _ => parser_new (cur_new []) end.
Definition ex_cut (n : nat) : list byte := firstn n (bytes_of_bits ex_unroll_bits).
Definition ex_third : list byte := match write_stream 0xdec04342 (ex_unroll ++ [IBlock 8 3 1 [IUnabbrev 1 [2]]]) with
  Some b => bytes_of_bits b | None => [] end.
Example C50_cut_example : unroll_stops debug_env (ex_parser (ex_cut 172)) (Err UStreamEnd) /\
  unroll_stops debug_env (ex_parser (ex_cut 176)) (Err (UParse (SCursor Short))) /\
  unroll_stops debug_env (ex_parser ex_third) (Err UAdjacentModules).
Proof.
  assert (R : forall l, (exists b, from_raw l = Ok b) -> parser_reachable debug_env (ex_parser l)).
  { intros l (b & E). unfold ex_parser. rewrite E. exact (from_raw_reachable debug_env l b E). }
  repeat split; apply C50_stops_exactly; try discriminate; try (vm_compute; reflexivity);
    apply R; eexists; vm_compute; reflexivity.
Qed.
