(** Property theorems C66 (and C54, C60): every way the mapping of an input can end.

    The rules [.._rule] are in VerdictSpec.v, [table_outcome] is in TypeStopSpec.v, [body] in ModuleSpec.v,
    [unroll_stops] in UnrollStopSpec.v. [verdict_of] forgets the result of a success; what that is say
    C33, C36, C38, C47, C58 and C59. *)
From Verif Require Import Base Strings EnumModel SupportModel LayoutModel CursorModel CursorSpec StreamModel StreamSpec StreamHist
  UnrollModel UnrollSpec AttributeModel AttributeSpec TablesModel TablesSpec
  TypeTableModel TypeTableSpec RecordModel RecordSpec ModuleModel ModuleSpec PipelineSpec TypeStopSpec TypeStops VerdictSpec Verdicts
  VerdictAttributes VerdictModules P_Pipeline.
From Coq Require Import Lia.
Local Open Scope N_scope.

(** *** TYPE blocks *)

Theorem C66_type_tables : forall e b out, type_table_of e b = out <-> table_outcome e b out.
Proof. exact table_exactly. Qed.
Print Assumptions C66_type_tables.

(** Panics: the announced size and empty names, nothing else; a name counts only if all records before it
    are in order. *)
Theorem C54_panics_exactly : forall e b x, type_table_of e b = Panic x <->
  (x = PAlloc /\ exists r n l, first_record 1 (b_records b) r /\ r_fields r = n :: l /\ alloc_limit e < n) \/
  (x = PSubOverflow /\ overflow_checks e = true /\ (exists n, announced e b n) /\
   exists l1 r l2 P, b_records b = l1 ++ r :: l2 /\ type_reads e [] [] l1 (Ok P) /\ r_code r = 19 /\ r_fields r = []).
Proof.
  intros e b x. rewrite table_exactly. split.
  - intros H; inversion H as [| |r n l A B C| |n y A B| | | |]; subst.
    + left. eauto 8.
    + right. apply reads_panic in B as (-> & O & l1 & r & l2 & P & X). eauto 12.
  - intros [(-> & r & n & l & A & B & C)|(-> & O & (n & A) & l1 & r & l2 & P & E & L & C & F)].
    + eapply TbMemory; eauto.
    + apply (TbPanic e b n); [exact A|]. apply reads_panic. eauto 12.
Qed.
Print Assumptions C54_panics_exactly.

(** A bad record, an entry with a bad reference behind a good one, an empty name before and after a bad record. *)
Definition ex_table (l : list record) : block := mkBlock (BIr IbType) l [].
Example C66_type_tables_example :
  let count n := mkRecord None 1 [n] in let int := mkRecord None 7 [32] in let void := mkRecord None 2 [] in
  table_outcome debug_env (ex_table [count 3; int; void; mkRecord None 21 [0; 1; 0; 9; 1]]) (Err (TtBadIndex 9)) /\
  table_outcome debug_env (ex_table [count 3; int; void; mkRecord None 21 [0; 1; 0; 1; 9]]) (Err (TtBadIndex 9)) /\
  table_outcome debug_env (ex_table [count 3; int; void; mkRecord None 21 [0; 1; 0; 1; 2]]) OutOfFuel /\
  table_outcome debug_env (ex_table [count 3; int; void; mkRecord None 21 [0; 1; 0; 1]]) (Err (TtType (TeParameter TVoid))) /\
  table_outcome debug_env (ex_table [count 5; int; void]) (Err (TtBadSize 5 2)) /\
  table_outcome debug_env (ex_table [count 5; int; mkRecord None 19 []; mkRecord None 77 []]) (Panic PSubOverflow) /\
  table_outcome debug_env (ex_table [count 5; int; mkRecord None 77 []; mkRecord None 19 []]) (Err (TtUnknownCode 77)).
Proof. cbv zeta. repeat split; apply C66_type_tables; vm_compute; reflexivity. Qed.
Example C54_panics_example :
  type_reads debug_env [] [] [mkRecord None 1 [5]; mkRecord None 7 [32]] (Ok [PtInteger 32]) /\
  type_table_of debug_env (ex_table ([mkRecord None 1 [5]; mkRecord None 7 [32]] ++ mkRecord None 19 [] :: [mkRecord None 77 []])) = Panic PSubOverflow.
Proof.
  split; [|vm_compute; reflexivity]. eapply TrsNext; [now apply TrCount|]. eapply TrsNext; [apply TrEntry; eapply EnInteger; reflexivity|]. constructor.
Qed.

(** *** Records of text, bytes and names *)

Theorem C66_texts : forall e r v, verdict_of (try_string e r 0) = v <-> text_rule e r v.
Proof. exact text_decided. Qed.
Print Assumptions C66_texts.
Theorem C66_blobs : forall e r v, verdict_of (try_blob e r 0) = v <-> blob_rule e r v.
Proof. exact blob_decided. Qed.
Print Assumptions C66_blobs.
Theorem C66_names : forall e t r v, fields64 r -> (2 <= length (r_fields r))%nat -> N.of_nat (length t) < 2 ^ 64 ->
  (verdict_of (strtab_read_name e t r) = v <-> name_rule e t r v).
Proof. intros e t r v F L T. exact (name_decided e t r F L T v). Qed.
Print Assumptions C66_names.

(** *** Records of a module *)

Theorem C66_comdats : forall e version t r v, fields64 r -> N.of_nat (length t) < 2 ^ 64 ->
  (verdict_of (comdat_of e version t r) = v <-> comdat_rule e version t r v).
Proof. intros e version t r v F T. exact (comdat_decided e version t r F T v). Qed.
Print Assumptions C66_comdats.
Theorem C66_functions : forall e c r v, fields64 r -> N.of_nat (length (cx_strtab c)) < 2 ^ 64 ->
  (verdict_of (fn_of e c r) = v <-> function_rule e c r v).
Proof. intros e c r v F T. exact (function_decided e c r F T v). Qed.
Print Assumptions C66_functions.
Theorem C66_aliases : forall e c r v, fields64 r -> N.of_nat (length (cx_strtab c)) < 2 ^ 64 ->
  (verdict_of (alias_of e c r) = v <-> alias_rule e c r v).
Proof. intros e c r v F T. exact (alias_decided e c r F T v). Qed.
Print Assumptions C66_aliases.

Definition ex_names : strtab := [109; 97; 105; 110; 255; 120].
Definition ex_function_ctx : mctx :=
  mkCtx 2 layout_default [[97]; [98]] [[103]] ex_names [] [[]] [TInteger 32; TFunction (TInteger 32) [] false] [].
(** Faults in the name and the type; in type and calling convention; in section and gc; none. *)
Example C66_functions_example :
  let fn name_len ty cc section gc := mkRecord None 8 [0; name_len; ty; cc; 0; 0; 1; 5; section; 0; gc] in
  function_rule debug_env ex_function_ctx (fn 9 7 0 0 0) (Fails (FeStrtab SbBadRange)) /\
  function_rule debug_env ex_function_ctx (fn 5 7 0 0 0) (Fails (FeStrtab (SbBadString (mkUtf8Err 4 (Some 1))))) /\
  function_rule debug_env ex_function_ctx (fn 4 0 5000 0 0) (Fails FeType) /\
  function_rule debug_env ex_function_ctx (fn 4 1 5000 3 0) (Fails (FeCallingConvention 5000)) /\
  function_rule debug_env ex_function_ctx (fn 4 1 0 3 2) (Fails (FeSection 2)) /\
  function_rule debug_env ex_function_ctx (fn 4 1 0 2 2) (Fails (FeGc 1)) /\
  function_rule debug_env ex_function_ctx (fn 4 1 0 2 1) Fine /\
  Forall fields64 [fn 9 7 0 0 0; fn 4 1 0 2 1].
Proof. cbv zeta. repeat apply conj; try (apply C66_functions; [repeat constructor|reflexivity|vm_compute; reflexivity]). repeat constructor. Qed.
(** One of them without the theorem: version, length and name are in order, the type is not there. *)
Example C66_functions_by_hand : forall r, r = mkRecord None 8 [0; 4; 7; 0; 0; 0; 0; 0; 0; 0] ->
  function_rule debug_env ex_function_ctx r (Fails (FeTypeId 7)).
Proof.
  intros r ->. unfold function_rule. apply IoNext; [constructor; cbn; lia|]. apply IoNext; [constructor; cbn; lia|].
  apply IoNext.
  - constructor. exists 0, 4. split; [reflexivity|]. split; [reflexivity|].
    apply ReFine with [109; 97; 105; 110]; [discriminate|]. exists [], [255; 120]. repeat split.
  - apply IoStop; [|discriminate]. apply DeNot. cbn. lia.
Qed.
Example C66_records_example :
  let comdat size kind := mkRecord None 12 [2; size; kind] in
  comdat_rule debug_env 1 ex_names (comdat 9 9) (Fails CdV1) /\
  comdat_rule debug_env 2 ex_names (comdat 9 9) (Fails (CdName SbBadRange)) /\
  comdat_rule debug_env 2 ex_names (comdat 2 9) (Fails (CdKind 9)) /\
  comdat_rule debug_env 2 ex_names (comdat (2 ^ 64 - 1) 9) (Panics PAddOverflow) /\
  comdat_rule release_env 2 ex_names (comdat (2 ^ 64 - 1) 9) (Panics PSliceRange) /\
  alias_rule debug_env ex_function_ctx (mkRecord None 14 [0; 4; 2; 0; 0; 3; 3]) (Fails (AlType 2)) /\
  alias_rule debug_env ex_function_ctx (mkRecord None 14 [0; 4; 1; 0; 0; 3; 3]) (Fails (AlVisibility 3)) /\
  alias_rule debug_env ex_function_ctx (mkRecord None 14 [0; 4; 1; 0; 0; 2; 3]) (Fails (AlStorage 3)).
Proof.
  cbv zeta. repeat apply conj; try (apply C66_comdats; [repeat constructor|reflexivity|vm_compute; reflexivity]);
    (apply C66_aliases; [repeat constructor|reflexivity|vm_compute; reflexivity]).
Qed.

(** *** Attributes *)

Theorem C66_groups : forall r v, fields64 r -> (verdict_of (group_of_record r) = v <-> group_rule r v).
Proof. intros r v F. exact (group_decided r F v). Qed.
Print Assumptions C66_groups.
Theorem C66_group_blocks : forall b v, Forall fields64 (b_records b) -> (verdict_of (attr_groups_of b) = v <-> groups_rule b v).
Proof. intros b v F. exact (groups_decided b F v). Qed.
Print Assumptions C66_group_blocks.
(** [gb] is the block of the groups. *)
Theorem C66_attribute_lists : forall gb m b v, Forall fields64 (b_records gb) -> attr_groups_of gb = Ok m ->
  (verdict_of (attributes_of m b) = v <->
   attributes_rule (fun id => exists r g l, In r (b_records gb) /\ r_fields r = g :: l /\ g mod 2 ^ 32 = id) b v).
Proof. intros gb m b v F H. exact (attributes_decided m _ b (groups_known gb m F H) v). Qed.
Print Assumptions C66_attribute_lists.

(** Behind a good attribute: a kind, an id, a value that there is not; a cut key; a text without its end. *)
Example C66_groups_example :
  let group l := mkRecord None 3 ([1; 0; 0; 39] ++ l) in
  group_rule (group [2; 0]) (Fails (AeUnknownKind 2)) /\ group_rule (group [1; 500; 0]) (Fails (AeUnknownId 500)) /\
  group_rule (group [1; 41]) (Fails AeTooShort) /\ group_rule (group [4; 97; 98]) (Panics PSliceRange) /\
  group_rule (group [3; 97; 98]) (Fails (AeGroupSize 8 7)) /\ group_rule (group [3; 97; 98; 0]) Fine /\
  group_rule (group [3; 255; 0]) (Fails AeBadString) /\ fields64 (group [1; 500; 0]).
Proof. cbv zeta. repeat apply conj; try (apply C66_groups; [repeat constructor|vm_compute; reflexivity]). repeat constructor. Qed.
Example C66_attribute_blocks_example :
  let gb := mkBlock (BIr IbParamAttrGroup) [mkRecord None 3 [1; 0; 0; 9]; mkRecord None 3 [4294967299; 0; 0; 9]] [] in
  exists m, attr_groups_of gb = Ok m /\ groups_rule gb Fine /\
  groups_rule (mkBlock (BIr IbParamAttrGroup) [mkRecord None 3 [1; 0; 0; 9]; mkRecord None 2 []; mkRecord None 9 []] [])
    (Fails (AeWrongBlock AcEntry)) /\
  verdict_of (attributes_of m (mkBlock (BIr IbParamAttr) [mkRecord None 2 [1; 3]; mkRecord None 2 [3; 2; 7]; mkRecord None 1 []] [])) = Fails (AeBadGroup 2) /\
  verdict_of (attributes_of m (mkBlock (BIr IbParamAttr) [mkRecord None 2 [1; 3]; mkRecord None 1 []; mkRecord None 2 [7]] [])) = Panics PUnimplemented.
Proof.
  cbv zeta. eexists. split; [vm_compute; reflexivity|].
  split; [apply C66_group_blocks; [repeat constructor|vm_compute; reflexivity]|].
  split; [apply C66_group_blocks; [repeat constructor|vm_compute; reflexivity]|]. vm_compute. auto.
Qed.

(** *** Modules *)

(** The hypotheses hold for all blocks that come from a stream: one entry per id in the map of the
    sub-blocks, fields below 2^64. *)
Theorem C66_modules : forall e host t b v, NoDup (map fst (b_blocks b)) -> Forall fields64 (b_records b) ->
  (forall id x, In x (blocks_under id b) -> Forall fields64 (b_records x)) -> N.of_nat (length t) < 2 ^ 64 ->
  (verdict_of (module_of e host t b) = v <-> module_rule e t b v).
Proof. intros e host t b v N F S' T. exact (module_decided e host t b (conj N (conj F S')) T v). Qed.
Print Assumptions C66_modules.
Theorem C66_tables : forall e b v w x,
  (verdict_of (strtab_of e b) = v <-> strtab_rule e b v) /\ (verdict_of (symtab_of e b) = w <-> symtab_rule e b w) /\
  (verdict_of (identification_of e b) = x <-> identification_rule e b x).
Proof. intros e b v w x. exact (conj (strtab_decided e b v) (conj (symtab_decided e b w) (identification_decided e b x))). Qed.
Print Assumptions C66_tables.

(** The demands are in the order of the code, not of the records: the alias comes first here, but the
    missing SYMTAB block is reported, then the bad triple, then the function. *)
Definition ex_faulty (symbols : list (block_id * list block)) (triple : list N) (cc : N) : block :=
  mkBlock (BIr IbModule)
    [mkRecord None 14 [0; 4; 9; 0; 0]; mkRecord None 8 [0; 4; 1; cc; 0; 0; 0; 0; 0; 0]; mkRecord None 2 triple; mkRecord None 1 [2]]
    ((BIr IbType, [ex_table [mkRecord None 1 [2]; mkRecord None 7 [32]; mkRecord None 21 [0; 0]]]) :: symbols).
Definition ex_symbols : list (block_id * list block) := [(BIr IbValueSymtab, [mkBlock (BIr IbValueSymtab) [] []])].
Example C66_modules_example :
  module_rule debug_env ex_names (ex_faulty [] [120] 5000) (Fails (MdInconsistent (CeMissingBlock (BIr IbValueSymtab)))) /\
  module_rule debug_env ex_names (ex_faulty ex_symbols [120] 5000) (Fails (MdString (StBadIndex 0 1))) /\
  module_rule debug_env ex_names (ex_faulty ex_symbols [120; 121] 5000) (Fails (MdFunction (FeCallingConvention 5000))) /\
  module_rule debug_env ex_names (ex_faulty ex_symbols [120; 121] 0) (Fails (MdAlias (AlType 9))) /\
  module_rule debug_env ex_names (ex_faulty ((BIr IbFunction, [mkBlock (BIr IbFunction) [mkRecord None 1 [1]; mkRecord None 10 []] []]) :: ex_symbols)
    [120; 121] 0) (Panics PUnimplemented).
Proof.
  repeat apply conj; (apply (C66_modules debug_env [104]);
    [vm_compute; repeat constructor; cbn; intuition discriminate|repeat constructor| |reflexivity|vm_compute; reflexivity]);
    (intros id x H; unfold blocks_under in H; apply in_flat_map in H as ([k l] & H1 & H2); cbn in H1;
     repeat (destruct H1 as [[= <- <-]|H1]; [cbn [fst snd] in H2; destruct (block_id_dec _ _); cbn in H2; intuition (subst; repeat constructor)|]); destruct H1).
Qed.

(** *** Streams and buffers *)

Theorem C66_streams : forall e host s v, parser_reachable e s -> total s < 2 ^ 64 ->
  (verdict_of (bitcode_of_stream e host s) = v <-> stream_rule e s v).
Proof. intros e host s v R T. exact (stream_decided e host s R T v). Qed.
Print Assumptions C66_streams.
Theorem C66_buffers : forall e host buf v, N.of_nat (length buf) < 2 ^ 61 ->
  (verdict_of (bitcode_of e host buf) = v <-> buffer_rule e buf v).
Proof. intros e host buf v L. exact (buffer_decided e host buf L v). Qed.
Print Assumptions C66_buffers.
(** So the rules are neither contradictory nor silent, and the triple of the host does not matter. *)
Theorem C66_one_fate_each : forall e buf, N.of_nat (length buf) < 2 ^ 61 -> exists! v, buffer_rule e buf v.
Proof.
  intros e buf L. exists (verdict_of (bitcode_of e [] buf)). split; [now apply (C66_buffers e [] buf)|].
  intros v H. now apply (C66_buffers e [] buf).
Qed.
Print Assumptions C66_one_fate_each.

Theorem C60_panics_exactly : forall e host buf x, N.of_nat (length buf) < 2 ^ 61 ->
  (bitcode_of e host buf = Panic x <-> buffer_rule e buf (Panics x)).
Proof.
  intros e host buf x L. rewrite <- (C66_buffers e host buf _ L). destruct (bitcode_of e host buf); cbn; split; congruence.
Qed.
Print Assumptions C60_panics_exactly.

(** Good; with a body; without an end; cut to eight and to 64 bytes. *)
Example C66_buffers_example :
  let good := bytes_of_bits (written ex_good) in
  N.of_nat (length good) < 2 ^ 61 /\ buffer_rule debug_env good Fine /\
  buffer_rule debug_env (bytes_of_bits (written ex_with_body)) (Panics PUnimplemented) /\
  buffer_rule debug_env (bytes_of_bits (written ex_recursive)) Endless /\
  exists x y, buffer_rule debug_env (firstn 8 good) (Fails x) /\ buffer_rule debug_env (firstn 64 good) (Fails y).
Proof.
  cbv zeta. split; [vm_compute; reflexivity|].
  split; [apply (C66_buffers _ [104]); vm_compute; reflexivity|].
  split; [apply (C66_buffers _ [104]); vm_compute; reflexivity|].
  split; [apply (C66_buffers _ [104]); vm_compute; reflexivity|].
  eexists. eexists. split; (apply (C66_buffers _ [104]); vm_compute; reflexivity).
Qed.
