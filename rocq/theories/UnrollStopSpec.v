(** Vocabulary for the inputs the unrolling rejects: where in the stream it stops, and with what. *)
From Verif Require Import Base Strings EnumModel CursorModel StreamModel StreamSpec UnrollModel UnrollSpec.
Local Open Scope N_scope.

(** The parser begins with the entries [l]; it says [l] and then [r], which may be the end ([None]),
    an error or a panic. *)
Definition begins (e : env) (s : sparser cursor) (l : list entry) : Prop :=
  exists n, run e cursor_ops n s = map (fun x => Some (Ok x)) l.
Definition says (e : env) (s : sparser cursor) (l : list entry) (r : option (outcome serr entry)) : Prop :=
  exists n, run e cursor_ops n s = map (fun x => Some (Ok x)) l ++ [r].

(** Entries that begin a block and do not end it: it has some complete contents, and maybe an
    unclosed block behind them. *)
Inductive unclosed : list entry -> Prop :=
| UcHere bid len body : unclosed (ESubBlock bid len :: flat_map flat body)
| UcDeeper bid len body l : unclosed l -> unclosed (ESubBlock bid len :: flat_map flat body ++ l).

(** Why the block [t] cannot come behind the blocks [forest]: it is not of the four known kinds; it
    is a module and there is no identification yet; it is a module and behind the last
    identification there is one already. *)
Inductive misplaced (forest : list tree) : tree -> unroll_err -> Prop :=
| MiUnknown bid len body id : ~ In bid [IDENTIFICATION; MODULE; STRTAB; SYMTAB] -> id_matches bid id ->
    misplaced forest (TBlk bid len body) (UUnexpectedBlock id)
| MiFirst len body : Forall (fun t => is_top IDENTIFICATION t = false) forest ->
    misplaced forest (TBlk MODULE len body) UNoIdentification
| MiSecond l1 i l2 m l3 len body : forest = l1 ++ i :: l2 ++ m :: l3 -> is_top IDENTIFICATION i = true -> is_top MODULE m = true ->
    Forall (fun t => is_top IDENTIFICATION t = false) (l2 ++ m :: l3) ->
    misplaced forest (TBlk MODULE len body) UAdjacentModules.

(** Every way the unrolling can stop without a result: behind some complete blocks in order comes a
    misplaced block, or a record or the end of a block outside of all blocks; or the parser stops,
    outside of all blocks or in an unclosed one; or the stream ends in an unclosed one. *)
Inductive unroll_stops (e : env) (s : sparser cursor) : outcome unroll_err (list partial) -> Prop :=
| UsMisplaced forest t x : begins e s (flat_map flat (forest ++ [t])) -> well_grouped forest -> misplaced forest t x ->
    unroll_stops e s (Err x)
| UsTopLevel forest x : begins e s (flat_map flat forest ++ [x]) -> well_grouped forest -> (forall bid len, x <> ESubBlock bid len) ->
    unroll_stops e s (Err UTopLevel)
| UsError forest open x : says e s (flat_map flat forest ++ open) (Some (Err x)) -> well_grouped forest ->
    open = [] \/ unclosed open -> unroll_stops e s (Err (UParse x))
| UsPanic forest open x : says e s (flat_map flat forest ++ open) (Some (Panic x)) -> well_grouped forest ->
    open = [] \/ unclosed open -> unroll_stops e s (Panic x)
| UsEnd forest open : says e s (flat_map flat forest ++ open) None -> well_grouped forest ->
    unclosed open -> unroll_stops e s (Err UStreamEnd).
