(** What stops the parser, as a predicate on all of the remaining bits [l]: the counterpart
    of the texts of [GrammarSpec]. Every error of the parser and every panic is here, with
    the inputs it is for. *)
From Verif Require Import Base CursorModel CursorSpec CursorHist StreamModel StreamSpec GrammarSpec.
Local Open Scope N_scope.

Inductive stop : Set := Stop (x : serr) | Crash (p : panic).

(** What [Iterator::next] returns: the end of the input is no error. *)
Definition told (x : stop) : option (outcome serr entry) :=
  match x with
  | Stop SExhausted => None
  | Stop y => Some (Err y)
  | Crash p => Some (Panic p)
  end.

(** No field of [w] bits: not a width, no bits left, or too few. *)
Inductive fixed_stops (w : N) (l : list bool) : stop -> Prop :=
| FxSize : w = 0 \/ 64 <= w -> fixed_stops w l (Stop (SCursor InvalidReadSize))
| FxEof : 1 <= w <= 63 -> l = [] -> fixed_stops w l (Stop (SCursor Eof))
| FxShort : w <= 63 -> l <> [] -> blen l < w -> fixed_stops w l (Stop (SCursor Short)).

(** Groups with the continuation bit set. *)
Definition groups (w : N) (ps : list (list bool)) (t : list bool) : Prop :=
  2 <= w <= 32 /\ Forall (fun p => N.of_nat (length p) = w - 1) ps /\ t = flat_map (fun p => p ++ [true]) ps.

(** No VBR text: not a width, a group is cut off, or (overflow checks) a group starts
    beyond bit 63 of the value. *)
Inductive vbr_stops (e : env) (w : N) (l : list bool) : stop -> Prop :=
| VbWidth : w < 2 \/ 32 < w -> vbr_stops e w l (Stop (SCursor InvalidVbrWidth))
| VbCut ps t rest x : groups w ps t -> l = t ++ rest -> fixed_stops w rest x ->
    (overflow_checks e = true -> N.of_nat (length ps) * (w - 1) < 64 + (w - 1)) -> vbr_stops e w l x
| VbOver ps t g rest : groups w ps t -> l = t ++ g ++ rest -> blen g = w -> overflow_checks e = true ->
    64 <= N.of_nat (length ps) * (w - 1) -> vbr_stops e w l (Crash PShiftOverflow).

Inductive scalar_stops (e : env) : abbrev_op -> list bool -> stop -> Prop :=
| SsFixed w l x : fixed_stops w l x -> scalar_stops e (OpFixed w) l x
| SsVbr w l x : vbr_stops e w l x -> scalar_stops e (OpVbr w) l x
| SsChar6 l x : fixed_stops 6 l x -> scalar_stops e OpChar6 l x.

(** One of [n] items ([P]: the text of an item) stops ([F]). *)
Definition items_stop (n : N) (P : N -> list bool -> Prop) (F : list bool -> stop -> Prop) (l : list bool) (x : stop) : Prop :=
  exists vals ts rest, N.of_nat (length vals) < n /\ Forall2 P vals ts /\ l = concat ts ++ rest /\ F rest x.

(** The values of a record in the encoding of an abbreviation. *)
Inductive values_stop (e : env) (gap : N -> N) : N -> abbrev -> list bool -> stop -> Prop :=
| VsLiteral pos v a l x : values_stop e gap pos a l x -> values_stop e gap pos (OpLiteral v :: a) l x
| VsScalar pos op a l x : scalar_stops e op l x -> values_stop e gap pos (op :: a) l x
| VsNext pos op a v t l x :
    scalar_text e op v t -> values_stop e gap (pos + blen t) a l x -> values_stop e gap pos (op :: a) (t ++ l) x
| VsArrayCount pos elem l x : vbr_stops e 6 l x -> values_stop e gap pos [OpArray elem] l x
| VsArrayMemory pos elem n t l :
    vbr_means e 6 n t -> alloc_limit e < n -> values_stop e gap pos [OpArray elem] (t ++ l) (Crash PAlloc)
| VsArrayItem pos elem n t l x :
    vbr_means e 6 n t -> n <= alloc_limit e -> items_stop n (scalar_text e elem) (scalar_stops e elem) l x ->
    values_stop e gap pos [OpArray elem] (t ++ l) x
| VsBlobCount pos l x : vbr_stops e 6 l x -> values_stop e gap pos [OpBlob] l x
| VsBlobMemory pos n t l :
    vbr_means e 6 n t -> alloc_limit e < n -> values_stop e gap pos [OpBlob] (t ++ l) (Crash PAlloc)
| VsBlobItem pos n t p l x :
    vbr_means e 6 n t -> padding gap (pos + blen t) p -> n <= alloc_limit e -> items_stop n (fixed_text 8) (fixed_stops 8) l x ->
    values_stop e gap pos [OpBlob] (t ++ p ++ l) x.

(** The number of an encoding: cut off, or none (0, 6, 7). *)
Inductive encoding_stops (l : list bool) : stop -> Prop :=
| EsCut x : fixed_stops 3 l x -> encoding_stops l x
| EsNone k rest : In k [0; 6; 7] -> l = fixed_bits 3 k ++ rest -> encoding_stops l (Stop (SBadAbbrevOpEnc k)).

(** The operands of a definition of [num] operands, from operand [idx]. *)
Inductive operands_stop (e : env) (num : N) : N -> list bool -> stop -> Prop :=
| OsFlag idx x : idx < num -> fixed_stops 1 [] x -> operands_stop e num idx [] x
| OsLiteral idx l x : idx < num -> vbr_stops e 8 l x -> operands_stop e num idx ([true] ++ l) x
| OsLiteralNext idx v t l x : idx < num ->
    vbr_means e 8 v t -> operands_stop e num (idx + 1) l x -> operands_stop e num idx ([true] ++ t ++ l) x
| OsEncoding idx l x : idx < num -> encoding_stops l x -> operands_stop e num idx ([false] ++ l) x
| OsWidth idx k l x : idx < num -> k = 1 \/ k = 2 -> vbr_stops e 5 l x ->
    operands_stop e num idx ([false] ++ fixed_bits 3 k ++ l) x
| OsNext idx op t l x : idx < num -> encoding_text e op t -> operands_stop e num (idx + 1) l x ->
    operands_stop e num idx ([false] ++ t ++ l) x
| OsArrayAlone l : num = 1 -> overflow_checks e = true ->
    operands_stop e num 0 ([false] ++ fixed_bits 3 3 ++ l) (Crash PAbbrevCount)
| OsArrayPlace idx l : idx < num -> idx + 2 <> num -> num <> 1 \/ overflow_checks e = false ->
    operands_stop e num idx ([false] ++ fixed_bits 3 3 ++ l) (Stop (SAbbrevParse AfArrayPlace))
| OsElementFlag idx x : idx + 2 = num -> fixed_stops 1 [] x -> operands_stop e num idx ([false] ++ fixed_bits 3 3) x
| OsElementEncoding idx b l x : idx + 2 = num -> encoding_stops l x ->
    operands_stop e num idx ([false] ++ fixed_bits 3 3 ++ [b] ++ l) x
| OsElementKind idx b k x l : idx + 2 = num -> (k = 3 /\ x = EncArray) \/ (k = 5 /\ x = EncBlob) ->
    operands_stop e num idx ([false] ++ fixed_bits 3 3 ++ [b] ++ fixed_bits 3 k ++ l) (Stop (SAbbrevParse (AfArrayElement x)))
| OsElementWidth idx b k l x : idx + 2 = num -> k = 1 \/ k = 2 -> vbr_stops e 5 l x ->
    operands_stop e num idx ([false] ++ fixed_bits 3 3 ++ [b] ++ fixed_bits 3 k ++ l) x
| OsBlobPlace idx l : idx < num -> idx + 1 <> num ->
    operands_stop e num idx ([false] ++ fixed_bits 3 5 ++ l) (Stop (SAbbrevParse AfBlobPlace)).

Inductive definition_stops (e : env) : list bool -> stop -> Prop :=
| DsCount l x : vbr_stops e 5 l x -> definition_stops e l x
| DsZero t l : vbr_means e 5 0 t -> definition_stops e (t ++ l) (Stop (SAbbrevParse AfNoOperand))
| DsOperand num t l x : vbr_means e 5 num t -> 1 <= num -> operands_stop e num 0 l x -> definition_stops e (t ++ l) x.

Inductive unabbrev_stops (e : env) : list bool -> stop -> Prop :=
| UsCode l x : vbr_stops e 6 l x -> unabbrev_stops e l x
| UsCount code t l x : vbr_means e 6 code t -> vbr_stops e 6 l x -> unabbrev_stops e (t ++ l) x
| UsMemory code t n u l : vbr_means e 6 code t -> vbr_means e 6 n u -> alloc_limit e < n ->
    unabbrev_stops e (t ++ u ++ l) (Crash PAlloc)
| UsField code t n u l x : vbr_means e 6 code t -> vbr_means e 6 n u -> n <= alloc_limit e ->
    items_stop n (vbr_means e 6) (vbr_stops e 6) l x -> unabbrev_stops e (t ++ u ++ l) x.

(** One construct. *)
Inductive step_stops (e : env) (gap : N -> N) (pos : N) : list scope -> list bool -> stop -> Prop :=
| StEnd scs : step_stops e gap pos scs [] (Stop SExhausted)
| StId sc scs l x : l <> [] -> fixed_stops (sc_width sc) l x -> step_stops e gap pos (sc :: scs) l x
| StClose sc t l : fixed_text (sc_width sc) 0 t -> step_stops e gap pos [sc] (t ++ l) (Stop (SBadScope SfNoBlock))
| StEnterId sc scs t l x : fixed_text (sc_width sc) 1 t -> vbr_stops e 8 l x -> step_stops e gap pos (sc :: scs) (t ++ l) x
| StEnterWidth sc scs t bid tb l x : fixed_text (sc_width sc) 1 t -> vbr_means e 8 bid tb -> vbr_stops e 4 l x ->
    step_stops e gap pos (sc :: scs) (t ++ tb ++ l) x
| StEnterZero sc scs t bid tb tw l : fixed_text (sc_width sc) 1 t -> vbr_means e 8 bid tb -> vbr_means e 4 0 tw ->
    step_stops e gap pos (sc :: scs) (t ++ tb ++ tw ++ l) (Stop (SBadScope (SfWidth 0)))
| StEnterLength sc scs t bid tb w tw p l x : fixed_text (sc_width sc) 1 t -> vbr_means e 8 bid tb -> vbr_means e 4 w tw ->
    1 <= w -> padding gap (pos + blen (t ++ tb ++ tw)) p -> fixed_stops 32 l x ->
    step_stops e gap pos (sc :: scs) (t ++ tb ++ tw ++ p ++ l) x
| StDefine sc scs t l x : fixed_text (sc_width sc) 2 t -> definition_stops e l x -> step_stops e gap pos (sc :: scs) (t ++ l) x
| StDefineOutside scs t a ta l : fixed_text (sc_width ScInitial) 2 t -> definition_text e a ta ->
    step_stops e gap pos (ScInitial :: scs) (t ++ ta ++ l) (Stop (SBadScope SfNoAbbrevs))
| StDefineForNone w ab scs t a ta l : fixed_text w 2 t -> definition_text e a ta ->
    step_stops e gap pos (ScBlock w 0 None ab :: scs) (t ++ ta ++ l) (Stop (SStreamParse PfNoSetBid))
| StRecordOutside scs t l : fixed_text (sc_width ScInitial) 3 t ->
    step_stops e gap pos (ScInitial :: scs) (t ++ l) (Stop (SStreamParse PfRecordOutside))
| StRecord w b i ab scs t l x : fixed_text w 3 t -> unabbrev_stops e l x ->
    step_stops e gap pos (ScBlock w b i ab :: scs) (t ++ l) x
| StInfoCode w i ab scs t code fields tr l : fixed_text w 3 t -> unabbrev_text e code fields tr -> ~ In code [1; 2; 3] ->
    step_stops e gap pos (ScBlock w 0 i ab :: scs) (t ++ tr ++ l) (Stop (SBadBlockInfoCode code))
| StInfoNone w i ab scs t tr l : fixed_text w 3 t -> unabbrev_text e 1 [] tr ->
    step_stops e gap pos (ScBlock w 0 i ab :: scs) (t ++ tr ++ l) (Crash PSetBidNoField)
| StUndefined w b i ab scs t id l : fixed_text w id t -> 4 <= id -> N.of_nat (length ab) <= id - 4 ->
    step_stops e gap pos (ScBlock w b i ab :: scs) (t ++ l) (Stop (SBadAbbrev id))
| StValues w b i ab scs t id a l x : fixed_text w id t -> 4 <= id -> nth_error ab (N.to_nat (id - 4)) = Some a ->
    values_stop e gap (pos + blen t) a l x -> step_stops e gap pos (ScBlock w b i ab :: scs) (t ++ l) x
| StNoCode w b i ab scs t id a tr l : fixed_text w id t -> 4 <= id -> nth_error ab (N.to_nat (id - 4)) = Some a ->
    values_text e gap (pos + blen t) a [] tr ->
    step_stops e gap pos (ScBlock w b i ab :: scs) (t ++ tr ++ l) (Crash PRemoveEmpty).

(** One call: constructs that are not told, then one that stops. *)
Inductive next_stops (e : env) (gap : N -> N) : N -> (N -> list abbrev) -> list scope -> list bool -> stop -> Prop :=
| NStops pos regs scs l x : step_stops e gap pos scs l x -> next_stops e gap pos regs scs l x
| NSilentStops pos regs scs t scs1 regs1 l x :
    step_text e gap pos regs scs t None scs1 regs1 -> next_stops e gap (pos + blen t) regs1 scs1 l x ->
    next_stops e gap pos regs scs (t ++ l) x.

(** A whole input: the entries told, and how it stops. *)
Inductive story (e : env) (gap : N -> N) : N -> (N -> list abbrev) -> list scope -> list bool -> list entry -> stop -> Prop :=
| StoryEnd pos regs scs l x : next_stops e gap pos regs scs l x -> story e gap pos regs scs l [] x
| StoryCons pos regs scs t y scs1 regs1 l ys x :
    next_text e gap pos regs scs t y scs1 regs1 -> story e gap (pos + blen t) regs1 scs1 l ys x ->
    story e gap pos regs scs (t ++ l) (y :: ys) x.
