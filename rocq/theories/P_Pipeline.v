(** Property theorems C57-C61: whole inputs ([Bitcode::try_from], llvm-mapper/src/unroll.rs).

    [tree_described], [bitcode_described], [bitcode_panic], [recursive_types] and [endless_part] are in
    PipelineSpec.v; [stream_is], [well_grouped], [modules_of] and [carries] in UnrollSpec.v. *)
From Verif Require Import Base Strings EnumModel SupportModel LayoutModel CursorModel CursorSpec StreamModel StreamSpec StreamHist StreamMain
  StreamBounds StreamSize UnrollModel UnrollSpec UnrollProofs UnrollMain UnrollApi AttributeModel AttributeSpec TablesModel TablesSpec
  TypeTableModel TypeTableSpec RecursionSpec RecordModel RecordSpec ModuleModel ModuleSpec PipelineSpec PipelineProofs PipelinePanics PipelineExact.
From Coq Require Import Lia.
Local Open Scope N_scope.

(** A module with an integer and a function type, an attribute list, the usual strings, one COMDAT
    and one function; [extra] is put behind the function, [n] is the length of the module block. *)
Definition ex_pipeline (n : N) (types extra : list item) : list item :=
  [IBlock 13 5 4 [IUnabbrev 1 [76; 76; 86; 77; 49; 52]; IUnabbrev 2 [0]];
   IBlock 8 3 n
    ([IUnabbrev 1 [2]] ++ types ++
     [IBlock 10 3 2 [IUnabbrev 3 [7; 0; 0; 20]];
      IBlock 9 3 1 [IUnabbrev 2 [7]];
      IUnabbrev 2 [120; 45; 121];
      IUnabbrev 3 [101; 45; 83; 49; 50; 56];
      IUnabbrev 4 [97; 10; 98];
      IUnabbrev 5 [46; 116];
      IUnabbrev 6 [108; 109];
      IUnabbrev 12 [4; 3; 2];
      IUnabbrev 8 [0; 4; 1; 0; 0; 3; 1; 5; 1; 0; 0; 1; 0; 2; 1]] ++ extra ++
     [IBlock 14 4 1 []]);
   IBlock 23 3 4 [IUnabbrev 1 [109; 97; 105; 110; 103; 114; 112]];
   IBlock 25 3 2 [IUnabbrev 1 [1; 2; 3; 4]]].
Definition ex_types : list item := [IBlock 17 4 3 [IUnabbrev 1 [2]; IUnabbrev 7 [32]; IUnabbrev 21 [0; 0; 0]]].
Definition ex_good : list item := ex_pipeline 29 ex_types [].
(** With the body "ret void". *)
Definition ex_with_body : list item := ex_pipeline 33 ex_types [IBlock 12 4 2 [IUnabbrev 1 [1]; IUnabbrev 10 []]].
Definition written (l : list item) : list bool := match write_stream 0xdec04342 l with Some b => b | None => [] end.
Definition ex_bitcode : bitcode_module :=
  mkBitcodeModule (mkIdentification [76; 76; 86; 77; 49; 52] 0) (mkModule [120; 45; 121] [[97]; [98]] [[108; 109]])
    [109; 97; 105; 110; 103; 114; 112] (Some [1; 2; 3; 4]).

(** *** C57: the numbers of a stream *)

Theorem C57_numbers_fit : forall e s, parser_reachable e s ->
  (forall a code fields, fst (next e cursor_ops s) = Some (Ok (ERecord a code fields)) ->
     code < 2 ^ 64 /\ Forall (fun f => f < 2 ^ 64) fields /\ N.of_nat (length fields) <= total s) /\
  (forall id len, fst (next e cursor_ops s) = Some (Ok (ESubBlock id len)) -> id < 2 ^ 64).
Proof.
  intros e s R. split.
  - intros a code fields H. destruct (next_u64 e s _ R H) as [H1 H2]. exact (conj H1 (conj H2 (fields_bounded e s a code fields R H))).
  - intros id len H. exact (next_u64 e s _ R H).
Qed.
Print Assumptions C57_numbers_fit.

(** A record of one array of 30 one-bit fields, 2^64 - 1 as an operand. *)
Definition ex_dense : list item :=
  [IBlock 8 3 5 [IDefine [OpLiteral (2 ^ 64 - 1); OpArray (OpFixed 1)];
                 IAbbrev 4 (2 ^ 64 - 1) (repeat 1 30)]].
Definition ex_dense_parser : sparser cursor :=
  match from_raw (bytes_of_bits (written ex_dense)) with Ok b => snd (next debug_env cursor_ops (bs_parser b)) | _ => parser_new (cur_new []) end.
Example C57_example : parser_reachable debug_env ex_dense_parser /\
  fst (next debug_env cursor_ops ex_dense_parser) = Some (Ok (ERecord (Some 4) (2 ^ 64 - 1) (repeat 1 30))) /\ total ex_dense_parser = 256.
Proof.
  split; [|split; vm_compute; reflexivity].
  unfold ex_dense_parser. destruct (from_raw (bytes_of_bits (written ex_dense))) as [b|x|p|] eqn:E; [|vm_compute in E; discriminate E..].
  apply PRNext. exact (from_raw_reachable debug_env _ b E).
Qed.

(** *** C58: identification, string table and symbol table blocks *)

Theorem C58_identification_blocks : forall e b i, identification_of e b = Ok i <->
  exists r r' l, first_record 1 (b_records b) r /\ text_of e r (id_producer i) /\
    first_record 2 (b_records b) r' /\ r_fields r' = id_epoch i :: l.
Proof. exact identification_iff. Qed.
Print Assumptions C58_identification_blocks.

Theorem C58_table_blocks : forall e b t,
  (strtab_of e b = Ok t <-> exists r, first_record 1 (b_records b) r /\ blob_of e r t) /\
  (symtab_of e b = Ok t <-> exists r, first_record 1 (b_records b) r /\ blob_of e r t).
Proof. intros e b t. exact (conj (strtab_exact e b t) (symtab_exact e b t)). Qed.
Print Assumptions C58_table_blocks.

(** Two string records: the first one counts. *)
Example C58_example :
  let b := mkBlock (BIr IbIdentification) [mkRecord None 2 [3]; mkRecord None 1 [76; 195; 169]; mkRecord None 1 [97; 98]] [] in
  identification_of debug_env b = Ok (mkIdentification [76; 233] 3) /\
  strtab_of debug_env b = Ok [76; 195; 169] /\ symtab_of debug_env b = Ok [76; 195; 169] /\
  first_record 1 (b_records b) (mkRecord None 1 [76; 195; 169]).
Proof.
  split; [vm_compute; reflexivity|]. split; [vm_compute; reflexivity|]. split; [vm_compute; reflexivity|].
  exists [mkRecord None 2 [3]], [mkRecord None 1 [97; 98]]. split; [reflexivity|]. split; [reflexivity|]. repeat constructor. discriminate.
Qed.

(** *** C59: what mapping a buffer gives *)

(** The mapping succeeds exactly if the buffer is a container, its stream is a well-grouped
    forest, and all its modules are described; the result is this description. *)
Theorem C59_bitcode_is_what_the_buffer_says : forall e host buf ms, N.of_nat (length buf) < 2 ^ 61 ->
  (bitcode_of e host buf = Ok ms <->
   exists w b forest, from e buf = Ok (w, b) /\ stream_is e (bs_parser b) forest /\ well_grouped forest /\
     Forall2 (tree_described e host) (modules_of forest) ms).
Proof. exact bitcode_exact. Qed.
Print Assumptions C59_bitcode_is_what_the_buffer_says.

(** Hence for streams as LLVM writes them. *)
Theorem C59_written_bitcode_is_mapped : forall e host magic l bits ms,
  write_stream magic l = Some bits -> forallb (item_small (alloc_limit e)) l = true -> well_grouped (trees l) ->
  magic <> 0x0b17c0de -> N.of_nat (length bits) < 2 ^ 64 ->
  (bitcode_of e host (bytes_of_bits bits) = Ok ms <-> Forall2 (tree_described e host) (modules_of (trees l)) ms).
Proof. exact written_bitcode. Qed.
Print Assumptions C59_written_bitcode_is_mapped.

(** The description does not depend on which unrolled blocks are chosen. *)
Theorem C59_description_depends_on_the_tree_only : forall e host t m p,
  tree_described e host t m -> carries t p -> bitcode_described e host p m.
Proof. intros e host t m p (p' & C' & D) C. exact (bitcode_alike e host t p' p m C' C D). Qed.
Print Assumptions C59_description_depends_on_the_tree_only.

Lemma ex_good_grouped : well_grouped (trees ex_good).
Proof. apply well_grouped_okay. vm_compute. intuition. Qed.
Example C59_example :
  write_stream 0xdec04342 ex_good = Some (written ex_good) /\ forallb (item_small (alloc_limit debug_env)) ex_good = true /\
  well_grouped (trees ex_good) /\ N.of_nat (length (written ex_good)) < 2 ^ 64 /\
  N.of_nat (length (bytes_of_bits (written ex_good))) < 2 ^ 61 /\
  bitcode_of debug_env [104] (bytes_of_bits (written ex_good)) = Ok [ex_bitcode] /\
  Forall2 (tree_described debug_env [104]) (modules_of (trees ex_good)) [ex_bitcode].
Proof.
  assert (W : write_stream 0xdec04342 ex_good = Some (written ex_good)) by (vm_compute; reflexivity).
  assert (S1 : forallb (item_small (alloc_limit debug_env)) ex_good = true) by (vm_compute; reflexivity).
  assert (L : N.of_nat (length (written ex_good)) < 2 ^ 64) by (vm_compute; reflexivity).
  assert (M : bitcode_of debug_env [104] (bytes_of_bits (written ex_good)) = Ok [ex_bitcode]) by (vm_compute; reflexivity).
  split; [exact W|]. split; [exact S1|]. split; [exact ex_good_grouped|]. split; [exact L|]. split; [vm_compute; reflexivity|].
  split; [exact M|]. apply (written_bitcode debug_env [104] 0xdec04342 ex_good _ _ W S1 ex_good_grouped); [discriminate|exact L|exact M].
Qed.

(** *** C60: panics *)

(** All panics: those of the parser (C18), or something in the blocks of a module. *)
Theorem C60_panics_partial : forall e host buf x, bitcode_of e host buf = Panic x ->
  exists w b, from e buf = Ok (w, b) /\
  ((exists n l, run e cursor_ops n (bs_parser b) = map (fun y => Some (Ok y)) l ++ [Some (Panic x)]) \/
   (exists forest tm p, stream_is e (bs_parser b) forest /\ In tm (modules_of forest) /\ carries tm p /\ bitcode_panic e p x)).
Proof. exact bitcode_panics. Qed.
Print Assumptions C60_panics_partial.

(** Opening a buffer does not panic. *)
Theorem C60_opening_never_panics : forall e buf, (exists x, from e buf = Ok x) \/ (exists x, from e buf = Err x).
Proof. exact from_settled. Qed.
Print Assumptions C60_opening_never_panics.

(** A well-formed module with a function body, and with an empty triple. *)
Definition ex_no_triple : list item :=
  [IBlock 13 5 4 [IUnabbrev 1 [76; 76; 86; 77; 49; 52]; IUnabbrev 2 [0]];
   IBlock 8 3 10 [IUnabbrev 1 [2]; IBlock 17 4 3 [IUnabbrev 1 [2]; IUnabbrev 7 [32]; IUnabbrev 21 [0; 0; 0]]; IUnabbrev 2 []; IBlock 14 4 1 []];
   IBlock 23 3 4 [IUnabbrev 1 [109; 97; 105; 110; 103; 114; 112]]].
Theorem C60_never_panics_refuted : exists buf buf',
  bitcode_of release_env [104] buf = Panic PUnimplemented /\ bitcode_of debug_env [104] buf = Panic PUnimplemented /\
  bitcode_of debug_env [104] buf' = Panic PSubOverflow.
Proof.
  exists (bytes_of_bits (written ex_with_body)), (bytes_of_bits (written ex_no_triple)).
  split; [vm_compute; reflexivity|]. split; vm_compute; reflexivity.
Qed.
Print Assumptions C60_never_panics_refuted.

Example C60_example :
  write_stream 0xdec04342 ex_with_body = Some (written ex_with_body) /\ write_stream 0xdec04342 ex_no_triple = Some (written ex_no_triple) /\
  bitcode_of debug_env [104] (bytes_of_bits (written ex_with_body)) = Panic PUnimplemented.
Proof. split; [vm_compute; reflexivity|]. split; vm_compute; reflexivity. Qed.

(** *** C61: termination *)

(** The mapping ends unless the types of a module refer to themselves; everything before the
    types of a module ends in any case. *)
Theorem C61_terminates_partial : forall e host buf, bitcode_of e host buf = OutOfFuel ->
  exists w b forest tm p, from e buf = Ok (w, b) /\ stream_is e (bs_parser b) forest /\ In tm (modules_of forest) /\
    carries tm p /\ recursive_types p.
Proof. exact bitcode_diverges. Qed.
Print Assumptions C61_terminates_partial.

(** Exactly when: the modules before are mapped, the mapping gets to the TYPE block of a module, and
    its types refer to themselves as in C34. *)
Theorem C61_diverges_exactly : forall e host buf, N.of_nat (length buf) < 2 ^ 61 ->
  (bitcode_of e host buf = OutOfFuel <->
   exists w b forest done tm rest ms p, from e buf = Ok (w, b) /\ stream_is e (bs_parser b) forest /\ well_grouped forest /\
     modules_of forest = done ++ tm :: rest /\ Forall2 (tree_described e host) done ms /\ carries tm p /\ endless_part e p).
Proof. exact bitcode_out. Qed.
Print Assumptions C61_diverges_exactly.

(** A linked list: %ab = { i32, %ab* }, see C34. *)
Definition ex_recursive : list item :=
  ex_pipeline 31 [IBlock 17 4 5 [IUnabbrev 1 [3]; IUnabbrev 7 [32]; IUnabbrev 19 [97; 98]; IUnabbrev 20 [0; 0; 2]; IUnabbrev 8 [1; 0]]] [].
Theorem C61_terminates_refuted : exists l bits, write_stream 0xdec04342 l = Some bits /\
  bitcode_of debug_env [104] (bytes_of_bits bits) = OutOfFuel /\ bitcode_of release_env [104] (bytes_of_bits bits) = OutOfFuel.
Proof. exists ex_recursive, (written ex_recursive). split; [vm_compute; reflexivity|]. split; vm_compute; reflexivity. Qed.
Print Assumptions C61_terminates_refuted.

Example C61_example : bitcode_of debug_env [104] (bytes_of_bits (written ex_recursive)) = OutOfFuel /\
  bitcode_of debug_env [104] (bytes_of_bits (written ex_good)) <> OutOfFuel.
Proof. split; vm_compute; [reflexivity|discriminate]. Qed.
