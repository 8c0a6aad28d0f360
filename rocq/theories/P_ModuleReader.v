(** Property theorems C88 and C89: the version and the strings of a module (llvm-mapper/src/block/module.rs) and the IDENTIFICATION
    block (identification.rs) in llvm-mapper and in LLVM's reader. [llvm_module_strings], [llvm_bytes], [terminated] and
    [llvm_identification] are in ModuleReaderSpec.v, [absent], [all_with] and [text_of] in ModuleSpec.v, [first_record] in TablesSpec.v,
    [pieces] in LayoutSpec.v. *)
From Verif Require Import Base Strings EnumModel SupportModel LayoutModel LayoutSpec UnrollModel AttributeModel AttributeSpec TablesModel TablesSpec RecordModel
  ModuleModel ModuleSpec ModuleReaderSpec ModuleReaderProofs.
From Coq Require Import Lia.
Local Open Scope N_scope.

(** *** C88: the version and strings of a module are those LLVM reads *)

(** In a mapped module, the version, section names and collector names are LLVM's. So are triple, layout text and assembly where
    there is a record for them. Without a TRIPLE record LLVM has the empty triple, llvm-mapper the one it was built for. LLVM
    accepts the version of a mapped module if it is at most 2. Missing: the modules that only one of them reads, see below. *)
Theorem C88_same_strings_partial : forall e host t b m c fns aliases,
  NoDup (map fst (b_blocks b)) -> Forall fields64 (b_records b) -> N.of_nat (length t) < 2 ^ 64 ->
  module_map e host t b = Ok (m, c, fns, aliases) ->
  ((exists ls, llvm_module_strings b = Some ls) <-> cx_version c <= 2) /\
  forall ls, llvm_module_strings b = Some ls ->
    ls_version ls = cx_version c /\
    ls_sections ls = map utf8_encode (cx_sections c) /\
    ls_gcs ls = map utf8_encode (cx_gcs c) /\
    ((absent 2 b /\ md_triple m = host /\ ls_triple ls = []) \/ (~ absent 2 b /\ ls_triple ls = utf8_encode (md_triple m))) /\
    ((absent 3 b /\ cx_layout c = layout_default /\ ls_layout ls = []) \/
     (exists s, ls_layout ls = utf8_encode s /\ layout_from_str s = Ok (cx_layout c))) /\
    ((absent 4 b /\ md_asm m = [] /\ ls_asm ls = []) \/
     (exists s, ls_asm ls = terminated (utf8_encode s) /\ pieces 10 s (md_asm m))).
Proof. exact strings_both. Qed.
Print Assumptions C88_same_strings_partial.

(** LLVM takes every record for a string. llvm-mapper takes those of two bytes or more in UTF-8 without larger fields, and, without
    overflow checks, the empty record. *)
Theorem C88_strings_accepted_partial : forall e r, (exists s, try_string e r 0 = Ok s) <->
  ((2 <= length (r_fields r))%nat /\ Forall (fun f => f < 256) (r_fields r) /\
   exists s, forallb is_scalar_value s = true /\ llvm_bytes r = utf8_encode s) \/
  (overflow_checks e = false /\ r_fields r = []).
Proof. exact strings_read. Qed.
Print Assumptions C88_strings_accepted_partial.

(** A module with these records and i32. *)
Definition mr_module (l : list record) : block := mkBlock (BIr IbModule) l
  [(BIr IbType, [mkBlock (BIr IbType) [mkRecord None 1 [1]; mkRecord None 7 [32]] []]); (BIr IbValueSymtab, [mkBlock (BIr IbValueSymtab) [] []])].
(** Version 2, a triple, a layout, two lines of assembly, sections ".é" and ".u", a collector. *)
Definition mr_records : list record :=
  [mkRecord None 1 [2]; mkRecord None 2 (lit "x86_64-linux"); mkRecord None 3 (lit "e-S128"); mkRecord None 4 [97; 10; 98];
   mkRecord None 5 [46; 195; 169]; mkRecord None 11 (lit "gc"); mkRecord None 5 (lit ".u")].
Definition mr_strings : llvm_strings :=
  mkLlvmStrings 2 (lit "x86_64-linux") (lit "e-S128") [97; 10; 98; 10] [[46; 195; 169]; lit ".u"] [lit "gc"].
Example C88_example :
  NoDup (map fst (b_blocks (mr_module mr_records))) /\ Forall fields64 (b_records (mr_module mr_records)) /\
  llvm_module_strings (mr_module mr_records) = Some mr_strings /\
  (exists c, module_map debug_env (lit "host") [] (mr_module mr_records) = Ok (mkModule (lit "x86_64-linux") [[97]; [98]] [], c, [], []) /\
     cx_version c = 2 /\ cx_sections c = [[46; 233]; lit ".u"] /\ cx_gcs c = [lit "gc"]).
Proof.
  split; [repeat constructor; cbn; intuition discriminate|]. split; [repeat constructor|]. split; [vm_compute; reflexivity|].
  eexists. split; [vm_compute; reflexivity|]. repeat split.
Qed.

(** Without a triple. *)
Theorem C88_triple_refuted : exists b m c ls, Forall fields64 (b_records b) /\
  module_map debug_env (lit "host") [] b = Ok (m, c, [], []) /\ llvm_module_strings b = Some ls /\ ls_triple ls <> utf8_encode (md_triple m).
Proof.
  exists (mr_module [mkRecord None 1 [2]]). do 3 eexists. split; [repeat constructor|]. split; [vm_compute; reflexivity|].
  split; [vm_compute; reflexivity|]. discriminate.
Qed.
Print Assumptions C88_triple_refuted.

(** A module of version 3 is mapped; LLVM refuses it. *)
Theorem C88_version_refuted : exists b m c, Forall fields64 (b_records b) /\
  module_map debug_env (lit "host") [] b = Ok (m, c, [], []) /\ llvm_module_strings b = None.
Proof.
  exists (mr_module [mkRecord None 1 [3]]). do 2 eexists. split; [repeat constructor|]. split; vm_compute; reflexivity.
Qed.
Print Assumptions C88_version_refuted.

(** Modules llvm-mapper refuses though LLVM finds nothing wrong with these records: no version, two triples, a section name of one
    letter, one that is not UTF-8, one with a field above 255. *)
Theorem C88_accepted_refuted : exists mods, length mods = 5%nat /\ Forall (fun l => Forall fields64 l /\
  (exists ls, llvm_module_strings (mr_module l) = Some ls) /\ forall x, module_map debug_env (lit "host") [] (mr_module l) <> Ok x) mods.
Proof.
  exists [ []; [mkRecord None 1 [2]; mkRecord None 2 (lit "a-b"); mkRecord None 2 (lit "a-b")]; [mkRecord None 1 [2]; mkRecord None 5 (lit "x")];
    [mkRecord None 1 [2]; mkRecord None 5 [46; 255]]; [mkRecord None 1 [2]; mkRecord None 5 [46; 256 + 97]] ].
  split; [reflexivity|].
  repeat (constructor; [split; [repeat constructor|split; [eexists; vm_compute; reflexivity|intros x H; vm_compute in H; discriminate H]]|]).
  constructor.
Qed.
Print Assumptions C88_accepted_refuted.

(** *** C89: IDENTIFICATION blocks mean what LLVM's reader takes them for *)

(** In a block read by both the epoch is 0 (modulo 2^32), and LLVM's producer is llvm-mapper's with the further STRING records
    behind it. *)
Theorem C89_same_producer_partial : forall e b i p, identification_of e b = Ok i -> llvm_identification b = Some p ->
  id_epoch i mod 2 ^ 32 = 0 /\
  exists r rs, all_with 1 b (r :: rs) /\ p = utf8_encode (id_producer i) ++ concat (map llvm_bytes rs).
Proof. exact identification_both. Qed.
Print Assumptions C89_same_producer_partial.

(** Of the blocks LLVM reads, llvm-mapper reads those whose first STRING record is a text and that have an EPOCH record. *)
Theorem C89_accepted_partial : forall e b p, llvm_identification b = Some p ->
  ((exists i, identification_of e b = Ok i) <->
   (exists r s, first_record 1 (b_records b) r /\ text_of e r s) /\ ~ absent 2 b).
Proof. exact identification_accepted. Qed.
Print Assumptions C89_accepted_partial.

(** Of the blocks llvm-mapper reads (and of all others), LLVM reads those without blocks in them and with no records but STRING and
    EPOCH 0. *)
Theorem C89_accepted_by_llvm_partial : forall b, (exists p, llvm_identification b = Some p) <->
  b_blocks b = [] /\
  Forall (fun r => r_code r = 1 \/ (r_code r = 2 /\ exists v l, r_fields r = v :: l /\ v mod 2 ^ 32 = 0)) (b_records b).
Proof. exact identification_read_by_llvm. Qed.
Print Assumptions C89_accepted_by_llvm_partial.

Definition mr_ident (l : list record) : block := mkBlock (BIr IbIdentification) l [].
Example C89_example :
  let b := mr_ident [mkRecord None 1 (lit "LLVM" ++ [195; 169]); mkRecord None 2 [0]] in
  identification_of debug_env b = Ok (mkIdentification (lit "LLVM" ++ [233]) 0) /\ llvm_identification b = Some (lit "LLVM" ++ [195; 169]).
Proof. split; vm_compute; reflexivity. Qed.

(** Two STRING records. *)
Theorem C89_producer_refuted : exists b i p, identification_of debug_env b = Ok i /\ llvm_identification b = Some p /\
  utf8_encode (id_producer i) <> p.
Proof.
  exists (mr_ident [mkRecord None 1 (lit "LLVM"); mkRecord None 1 (lit "14"); mkRecord None 2 [0]]). do 2 eexists.
  split; [vm_compute; reflexivity|]. split; [vm_compute; reflexivity|]. discriminate.
Qed.
Print Assumptions C89_producer_refuted.

(** Blocks only one of them reads: an epoch of 1 and an unknown record; no epoch and a producer of one letter. *)
Theorem C89_accepted_refuted : exists b1 b2 b3 b4 i1 i2 p3 p4,
  identification_of debug_env b1 = Ok i1 /\ llvm_identification b1 = None /\
  identification_of debug_env b2 = Ok i2 /\ llvm_identification b2 = None /\
  (forall i, identification_of debug_env b3 <> Ok i) /\ llvm_identification b3 = Some p3 /\
  (forall i, identification_of debug_env b4 <> Ok i) /\ llvm_identification b4 = Some p4.
Proof.
  exists (mr_ident [mkRecord None 1 (lit "LLVM"); mkRecord None 2 [1]]),
         (mr_ident [mkRecord None 1 (lit "LLVM"); mkRecord None 2 [0]; mkRecord None 3 []]),
         (mr_ident [mkRecord None 1 (lit "LLVM")]), (mr_ident [mkRecord None 1 (lit "L"); mkRecord None 2 [0]]). do 4 eexists.
  repeat match goal with |- _ /\ _ => split end;
    first [intros i H; vm_compute in H; discriminate H|vm_compute; reflexivity].
Qed.
Print Assumptions C89_accepted_refuted.
