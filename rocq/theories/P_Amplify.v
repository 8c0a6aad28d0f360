(** Property theorems C73: how much larger than the input the records, the unrolled blocks and the tables can be.

    [operands], [part_operands], [table_bytes] and [sum] are in AmplifySpec.v; [stream_is] in UnrollSpec.v. *)
From Verif Require Import Base Strings EnumModel CursorModel CursorSpec StreamModel StreamSpec StreamHist UnrollModel UnrollSpec UnrollApi ModuleModel
  AmplifySpec AmplifyProofs AmplifyFiles.
From Coq Require Import Lia.
Local Open Scope N_scope.

(** *** C73: the records *)

(** All entries together have at most as many operands as the square of the number of bits. *)
Theorem C73_operands_are_at_most_quadratic : forall e n s, parser_reachable e s ->
  operands (leading (run e cursor_ops n s)) <= total s * (total s - pos s).
Proof. exact run_operands. Qed.
Print Assumptions C73_operands_are_at_most_quadratic.

(** *** C73: the unrolled blocks *)

(** Every block goes to one module, but the tables go to every module that has none yet. *)
Theorem C73_unrolling_copies_per_module : forall e s parts, parser_reachable e s -> unroll e s = Ok parts ->
  exists forest, stream_is e s forest /\
    sum (map part_operands parts) <= (1 + N.of_nat (length parts)) * operands (flat_map flat forest).
Proof. exact unroll_operands. Qed.
Print Assumptions C73_unrolling_copies_per_module.

Theorem C73_unrolled_is_at_most_cubic_partial : forall e s parts, parser_reachable e s -> unroll e s = Ok parts ->
  sum (map part_operands parts) <= total s ^ 3.
Proof. exact unroll_cubic. Qed.
Print Assumptions C73_unrolled_is_at_most_cubic_partial.

(** *** C73: the tables of the mapped modules *)

Theorem C73_tables_are_at_most_quadratic_partial : forall e host buf ms, N.of_nat (length buf) < 2 ^ 61 -> bitcode_of e host buf = Ok ms ->
  sum (map table_bytes ms) <= (8 * N.of_nat (length buf)) ^ 2.
Proof. exact files_quadratic. Qed.
Print Assumptions C73_tables_are_at_most_quadratic_partial.

(** *** C73: nothing of this is proportional to the input *)

(** There are more than [c] operands for each bit, and more than [c] times the square of the bits in the unrolled blocks. *)
Theorem C73_proportional_operands_refuted : forall e c, c <= 10000 -> 2 ^ 32 <= alloc_limit e ->
  exists buf b forest parts, from_raw buf = Ok b /\ stream_is e (bs_parser b) forest /\ unroll e (bs_parser b) = Ok parts /\
    c * (8 * N.of_nat (length buf)) < operands (flat_map flat forest) /\
    c * (8 * N.of_nat (length buf)) ^ 2 < sum (map part_operands parts).
Proof. exact operands_disproportionate. Qed.
Print Assumptions C73_proportional_operands_refuted.

(** The cube is reached but for a constant factor: [n] modules and [n] records of [n] operands. *)
Theorem C73_cubic_growth_is_reached : forall e n, N.of_nat n < 2 ^ 32 -> N.of_nat n < alloc_limit e ->
  exists buf b parts, 8 * N.of_nat (length buf) <= 108 * N.of_nat n + 472 /\ from_raw buf = Ok b /\
    unroll e (bs_parser b) = Ok parts /\ N.of_nat n ^ 3 <= sum (map part_operands parts).
Proof.
  intros e n B A. destruct (rich_unrolled e n n B A) as (buf & b & parts & L & HF & _ & U & P). exists buf, b, parts.
  split; [lia|]. split; [exact HF|]. split; [exact U|].
  replace (N.of_nat n ^ 3) with (N.of_nat n * (N.of_nat n * N.of_nat n)); [exact P|].
  change 3 with (N.succ (N.succ (N.succ 0))). rewrite !N.pow_succ_r', N.pow_0_r. lia.
Qed.
Print Assumptions C73_cubic_growth_is_reached.

(** Files that are mapped in order have more than [c] bytes of tables for each bit. *)
Theorem C73_proportional_tables_refuted : forall e host c, c <= 3000 -> 2 ^ 30 <= alloc_limit e ->
  exists buf ms, bitcode_of e host buf = Ok ms /\ c * (8 * N.of_nat (length buf)) < sum (map table_bytes ms).
Proof. exact files_disproportionate. Qed.
Print Assumptions C73_proportional_tables_refuted.

(** Three identification blocks and a string table of 40 records of 40 literals: 896 bits, 1600 operands, 4800 in the modules. *)
Definition ex_rich : list item :=
  repeat (IBlock 13 3 1 []) 3 ++ [IBlock 23 3 16 (IDefine (repeat (OpLiteral 0) 41) :: repeat (IAbbrev 4 0 (repeat 0 40)) 40)].
Definition ex_rich_bits : list bool := match write_stream 0xdec04342 ex_rich with Some b => b | None => [] end.
Definition ex_rich_parser : sparser cursor :=
  match from_raw (bytes_of_bits ex_rich_bits) with Ok b => bs_parser b | _ => parser_new (cur_new []) end.
Example C73_example :
  write_stream 0xdec04342 ex_rich = Some ex_rich_bits /\ parser_reachable debug_env ex_rich_parser /\
  total ex_rich_parser = 896 /\ pos ex_rich_parser = 32 /\
  operands (leading (run debug_env cursor_ops 60 ex_rich_parser)) = 1600 /\
  (exists parts, unroll debug_env ex_rich_parser = Ok parts /\ length parts = 3%nat /\ sum (map part_operands parts) = 4800).
Proof.
  assert (H : exists b, from_raw (bytes_of_bits ex_rich_bits) = Ok b /\ ex_rich_parser = bs_parser b)
    by (eexists; split; vm_compute; reflexivity).
  split; [vm_compute; reflexivity|]. split; [destruct H as (b & H & ->); exact (from_raw_reachable debug_env _ b H)|].
  split; [vm_compute; reflexivity|]. split; [vm_compute; reflexivity|]. split; [vm_compute; reflexivity|].
  assert (U : (match unroll debug_env ex_rich_parser with Ok parts => (length parts, sum (map part_operands parts)) | _ => (0%nat, 0) end) = (3%nat, 4800))
    by (vm_compute; reflexivity).
  destruct (unroll debug_env ex_rich_parser) as [parts|x|p|]; try discriminate U. injection U as U1 U2. now exists parts.
Qed.
(** Three modules that share a string table of 200 bytes, in a file of 336 bytes: 600 bytes. *)
Definition ex_shared : list item :=
  flat_map (fun _ => [IBlock 13 3 2 [IUnabbrev 1 [109; 101]; IUnabbrev 2 [0]];
                      IBlock 8 3 8 [IUnabbrev 1 [2]; IBlock 17 3 1 [IUnabbrev 1 [0]]; IBlock 14 3 1 []]]) (seq 0 3) ++
  [IBlock 23 3 39 [IUnabbrev 1 (repeat 1 200)]].
Definition ex_shared_bits : list bool := match write_stream 0xdec04342 ex_shared with Some b => b | None => [] end.
Example C73_tables_example :
  write_stream 0xdec04342 ex_shared = Some ex_shared_bits /\ length (bytes_of_bits ex_shared_bits) = 336%nat /\
  (exists ms, bitcode_of debug_env [104] (bytes_of_bits ex_shared_bits) = Ok ms /\ length ms = 3%nat /\ sum (map table_bytes ms) = 600).
Proof.
  split; [vm_compute; reflexivity|]. split; [vm_compute; reflexivity|].
  assert (U : (match bitcode_of debug_env [104] (bytes_of_bits ex_shared_bits) with Ok ms => (length ms, sum (map table_bytes ms)) | _ => (0%nat, 0) end) = (3%nat, 600))
    by (vm_compute; reflexivity).
  destruct (bitcode_of debug_env [104] (bytes_of_bits ex_shared_bits)) as [ms|x|p|]; try discriminate U. injection U as U1 U2. now exists ms.
Qed.
(** The assumption on the allocator of the refutations holds with a limit of 2^40 fields. *)
Definition roomy : env := {| overflow_checks := true; alloc_limit := 2 ^ 40 |}.
Example C73_allocator_example : 2 ^ 32 <= alloc_limit roomy /\ 2 ^ 30 <= alloc_limit roomy /\
  (exists buf ms, bitcode_of roomy [104] buf = Ok ms /\ 1000 * (8 * N.of_nat (length buf)) < sum (map table_bytes ms)).
Proof.
  assert (A : 2 ^ 32 <= alloc_limit roomy /\ 2 ^ 30 <= alloc_limit roomy) by (split; vm_compute; discriminate).
  split; [apply A|]. split; [apply A|]. apply C73_proportional_tables_refuted; [vm_compute; discriminate|apply A].
Qed.
