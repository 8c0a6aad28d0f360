(** Vocabulary: the fate of an input, from its bits alone. The grammar of the format (GrammarSpec.v, GrammarStopSpec.v)
    gives the entries it tells, the blocks they form decide (VerdictSpec.v). *)
From Verif Require Import Base Strings EnumModel CursorModel CursorSpec CursorHist StreamModel StreamSpec StreamHist GrammarSpec GrammarStopSpec
  UnrollModel UnrollSpec UnrollStopSpec ModuleModel RuleSpec VerdictSpec OpenSpec.
Local Open Scope N_scope.

(** How padding is measured, where the bits behind the magic start, and those bits. *)
Inductive stream_text (buf : list byte) : (N -> N) -> N -> list bool -> Prop :=
| TxRaw n : first_word buf n -> n <> wrapper_word -> N.of_nat (length buf) mod 4 = 0 ->
    stream_text buf word_gap 32 (bits_of_bytes (skipn 4 buf))
| TxWrapped w rest : buf = wrapper_header w ++ rest -> wrapper_ok w -> wr_magic w = wrapper_word ->
    wr_size w <= N.of_nat (length rest) -> wr_size w mod 4 = 0 -> wr_offset w + 4 <= wr_size w + 20 ->
    stream_text buf (block_gap (8 * wr_offset w) (8 * (wr_size w + 20))) (8 * (wr_offset w + 4))
      (bits_of_bytes (sub_bytes buf (wr_offset w + 4) (wr_size w + 20))).

(** Entries [xs], and then [x], that form no sequence of modules. *)
Inductive entries_stop (xs : list entry) (x : stop) : rule unroll_err :=
| EtMisplaced forest t rest y : xs = flat_map flat (forest ++ [t]) ++ rest -> well_grouped forest -> misplaced forest t y ->
    entries_stop xs x (Fails y)
| EtTopLevel forest y rest : xs = flat_map flat forest ++ y :: rest -> well_grouped forest -> (forall bid len, y <> ESubBlock bid len) ->
    entries_stop xs x (Fails UTopLevel)
| EtError forest open y : xs = flat_map flat forest ++ open -> x = Stop y -> y <> SExhausted -> well_grouped forest ->
    open = [] \/ unclosed open -> entries_stop xs x (Fails (UParse y))
| EtPanic forest open p : xs = flat_map flat forest ++ open -> x = Crash p -> well_grouped forest ->
    open = [] \/ unclosed open -> entries_stop xs x (Panics p)
| EtEnd forest open : xs = flat_map flat forest ++ open -> x = Stop SExhausted -> well_grouped forest ->
    unclosed open -> entries_stop xs x (Fails UStreamEnd).
Inductive entries_rule (e : env) (xs : list entry) (x : stop) : rule bitcode_err :=
| EnStop v : relabel BcUnroll (entries_stop xs x) v -> entries_rule e xs x v
| EnParts forest v : xs = flat_map flat forest -> x = Stop SExhausted -> well_grouped forest ->
    in_order (map (tree_rule e) (modules_of forest)) v -> entries_rule e xs x v.

(** An input: it cannot be opened, or what its bits tell decides. *)
Inductive input_rule (e : env) (buf : list byte) : rule bitcode_err :=
| InClosed x : open_rule buf (Fails x) -> input_rule e buf (Fails (BcUnroll (UParse x)))
| InText gap pos l xs x v : stream_text buf gap pos l -> story e gap pos (fun _ => []) [ScInitial] l xs x -> entries_rule e xs x v -> input_rule e buf v.
