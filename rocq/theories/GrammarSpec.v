(** The bitstream format as a grammar of bit strings, for arbitrary data: unlike the writer
    of [StreamSpec], every text that stands for a value is admitted (VBR texts with
    redundant groups, any padding bits, any length word of a block, any literal flag in
    front of the element type of an array).

    Positions are counted in bits from the start of the data; they matter for the
    alignments only. [gap] tells how many bits an alignment skips. [e] matters in two
    places: a VBR text reaching beyond 64 bits is accepted without overflow checks only,
    and counts are limited by the memory. *)
From Verif Require Import Base CursorModel CursorSpec CursorHist StreamModel StreamSpec.
Local Open Scope N_scope.

(** A field of [w] bits holding [v]. *)
Definition fixed_text (w v : N) (t : list bool) : Prop :=
  1 <= w <= 63 /\ v < 2 ^ w /\ t = fixed_bits w v.

(** A VBR text of width [w] that stands for [v]. *)
Definition vbr_means (e : env) (w v : N) (t : list bool) : Prop :=
  2 <= w <= 32 /\
  exists ps last, Forall (fun p => N.of_nat (length p) = w - 1) ps /\ N.of_nat (length last) = w - 1 /\
    t = vbr_text ps last /\
    (if overflow_checks e
     then N.of_nat (length ps) * (w - 1) < 64 /\ v = vbr_value ps last mod two64
     else v = wrapped_groups w 0 (ps ++ [last])).

(** How many bits an alignment skips at a position. [word_gap]: up to the next multiple of
    32. This is what [align32] does when the data has been loaded in blocks of eight bytes
    from a multiple of four bytes on. *)
Definition word_gap (pos : N) : N := (32 - pos mod 32) mod 32.
(** In general: data loaded in blocks of 64 bits from bit [start] on, up to bit [total], where
    the last block is shorter. Nothing is skipped between blocks; a whole block has the
    multiples of 32 counted from its start; of the last block, the last 32 bits are left, or,
    if there are fewer, none. *)
Definition block_gap (start total pos : N) : N :=
  let k := pos - start in
  if k mod 64 =? 0 then 0
  else if start + 64 * (k / 64 + 1) <=? total then (32 - k mod 32) mod 32
  else if total - pos <? 32 then total - pos else total - pos - 32.

(** Any bits, as many as an alignment skips. *)
Definition padding (gap : N -> N) (pos : N) (t : list bool) : Prop := blen t = gap pos.

(** One value in a scalar encoding. *)
Inductive scalar_text (e : env) : abbrev_op -> N -> list bool -> Prop :=
| TFixed w v t : fixed_text w v t -> scalar_text e (OpFixed w) v t
| TVbr w v t : vbr_means e w v t -> scalar_text e (OpVbr w) v t
| TChar6 c i t : char6_code c = Some i -> fixed_text 6 i t -> scalar_text e OpChar6 c t.

(** The values of a record (code first) in the encoding of an abbreviation. *)
Inductive values_text (e : env) (gap : N -> N) : N -> abbrev -> list N -> list bool -> Prop :=
| VNil pos : values_text e gap pos [] [] []
| VLiteral pos v a vals t :
    values_text e gap pos a vals t -> values_text e gap pos (OpLiteral v :: a) (v :: vals) t
| VScalar pos op a v vals t1 t2 :
    scalar_text e op v t1 -> values_text e gap (pos + blen t1) a vals t2 ->
    values_text e gap pos (op :: a) (v :: vals) (t1 ++ t2)
| VArray pos elem vals t0 ts :
    vbr_means e 6 (N.of_nat (length vals)) t0 -> N.of_nat (length vals) <= alloc_limit e ->
    Forall2 (scalar_text e elem) vals ts ->
    values_text e gap pos [OpArray elem] vals (t0 ++ concat ts)
| VBlob pos vals t0 p1 ts p2 :
    vbr_means e 6 (N.of_nat (length vals)) t0 -> padding gap (pos + blen t0) p1 ->
    N.of_nat (length vals) <= alloc_limit e -> Forall2 (fixed_text 8) vals ts ->
    padding gap (pos + blen (t0 ++ p1 ++ concat ts)) p2 ->
    values_text e gap pos [OpBlob] vals (t0 ++ p1 ++ concat ts ++ p2).

(** The encoding of a scalar operand in a definition, after its literal flag. *)
Inductive encoding_text (e : env) : abbrev_op -> list bool -> Prop :=
| EFixed w t : vbr_means e 5 w t -> encoding_text e (OpFixed w) (fixed_bits 3 1 ++ t)
| EVbr w t : vbr_means e 5 w t -> encoding_text e (OpVbr w) (fixed_bits 3 2 ++ t)
| EChar6 : encoding_text e OpChar6 (fixed_bits 3 4).

(** The operands of a definition; arrays and blobs are last. The literal flag of the
    element type of an array may be anything. *)
Inductive operands_text (e : env) : abbrev -> list bool -> Prop :=
| ONil : operands_text e [] []
| OLiteral v a t1 t2 :
    vbr_means e 8 v t1 -> operands_text e a t2 -> operands_text e (OpLiteral v :: a) ([true] ++ t1 ++ t2)
| OScalar op a t1 t2 :
    encoding_text e op t1 -> operands_text e a t2 -> operands_text e (op :: a) ([false] ++ t1 ++ t2)
| OArray elem b t :
    encoding_text e elem t -> operands_text e [OpArray elem] ([false] ++ fixed_bits 3 3 ++ [b] ++ t)
| OBlob : operands_text e [OpBlob] ([false] ++ fixed_bits 3 5).

(** A definition: the number of operands, at least one, and the operands. *)
Definition definition_text (e : env) (a : abbrev) (t : list bool) : Prop :=
  a <> [] /\ exists t0 t1, vbr_means e 5 (fold_right (fun op n => op_count op + n) 0 a) t0 /\
    operands_text e a t1 /\ t = t0 ++ t1.

(** An unabbreviated record, after its abbreviation id. *)
Definition unabbrev_text (e : env) (code : N) (fields : list N) (t : list bool) : Prop :=
  exists t0 t1 ts, vbr_means e 6 code t0 /\ vbr_means e 6 (N.of_nat (length fields)) t1 /\
    N.of_nat (length fields) <= alloc_limit e /\ Forall2 (vbr_means e 6) fields ts /\
    t = t0 ++ t1 ++ concat ts.

(** One construct at position [pos], with the open blocks [scs] (innermost first) and the
    abbreviations [regs] registered by BLOCKINFO for each block id: its text, what a reader
    is told about it ([None]: nothing), the open blocks and the registered abbreviations
    after it. *)
Inductive step_text (e : env) (gap : N -> N) (pos : N) (regs : N -> list abbrev) :
  list scope -> list bool -> option entry -> list scope -> (N -> list abbrev) -> Prop :=
| SEnd w b i l sc scs t p regs' :
    fixed_text w 0 t -> padding gap (pos + blen t) p -> (forall k, regs' k = regs k) ->
    step_text e gap pos regs (ScBlock w b i l :: sc :: scs) (t ++ p)
      (if b =? 0 then None else Some EEndBlock) (sc :: scs) regs'
| SEnter sc scs t bid tb w tw p words tl regs' :
    fixed_text (sc_width sc) 1 t -> vbr_means e 8 bid tb -> vbr_means e 4 w tw -> 1 <= w ->
    padding gap (pos + blen (t ++ tb ++ tw)) p -> fixed_text 32 words tl -> (forall k, regs' k = regs k) ->
    step_text e gap pos regs (sc :: scs) (t ++ tb ++ tw ++ p ++ tl)
      (if bid =? 0 then None else Some (ESubBlock bid (4 * words)))
      (ScBlock w bid None (regs bid) :: sc :: scs) regs'
| SDefine w b i l scs t a ta regs' :
    fixed_text w 2 t -> definition_text e a ta -> b <> 0 -> (forall k, regs' k = regs k) ->
    step_text e gap pos regs (ScBlock w b i l :: scs) (t ++ ta) None (ScBlock w b i (l ++ [a]) :: scs) regs'
| SRegister w b l scs t a ta regs' :
    fixed_text w 2 t -> definition_text e a ta -> (forall k, regs' k = register regs b a k) ->
    step_text e gap pos regs (ScBlock w 0 (Some b) l :: scs) (t ++ ta) None (ScBlock w 0 (Some b) l :: scs) regs'
| SUnabbrev w b i l scs t code fields tr regs' :
    fixed_text w 3 t -> unabbrev_text e code fields tr -> b <> 0 -> (forall k, regs' k = regs k) ->
    step_text e gap pos regs (ScBlock w b i l :: scs) (t ++ tr) (Some (ERecord None code fields))
      (ScBlock w b i l :: scs) regs'
| SSetBid w i l scs t b fields tr regs' :
    fixed_text w 3 t -> unabbrev_text e 1 (b :: fields) tr -> (forall k, regs' k = regs k) ->
    step_text e gap pos regs (ScBlock w 0 i l :: scs) (t ++ tr) None (ScBlock w 0 (Some b) l :: scs) regs'
| SName w i l scs t code fields tr regs' :
    fixed_text w 3 t -> unabbrev_text e code fields tr -> code = 2 \/ code = 3 -> (forall k, regs' k = regs k) ->
    step_text e gap pos regs (ScBlock w 0 i l :: scs) (t ++ tr) None (ScBlock w 0 i l :: scs) regs'
| SAbbrev w b i l scs t id a code fields tr regs' :
    fixed_text w id t -> 4 <= id -> nth_error l (N.to_nat (id - 4)) = Some a ->
    values_text e gap (pos + blen t) a (code :: fields) tr -> (forall k, regs' k = regs k) ->
    step_text e gap pos regs (ScBlock w b i l :: scs) (t ++ tr)
      (if b =? 0 then None else Some (ERecord (Some id) code fields)) (ScBlock w b i l :: scs) regs'.

(** The text of the next thing that is told, with everything before it that is not. *)
Inductive next_text (e : env) (gap : N -> N) : N -> (N -> list abbrev) -> list scope ->
  list bool -> entry -> list scope -> (N -> list abbrev) -> Prop :=
| NStep pos regs scs t x scs' regs' :
    step_text e gap pos regs scs t (Some x) scs' regs' -> next_text e gap pos regs scs t x scs' regs'
| NSilent pos regs scs t1 scs1 regs1 t2 x scs' regs' :
    step_text e gap pos regs scs t1 None scs1 regs1 -> next_text e gap (pos + blen t1) regs1 scs1 t2 x scs' regs' ->
    next_text e gap pos regs scs (t1 ++ t2) x scs' regs'.

(** A text telling a sequence of entries. *)
Inductive tells (e : env) (gap : N -> N) : N -> (N -> list abbrev) -> list scope -> list bool -> list entry -> Prop :=
| TellNil pos regs scs : tells e gap pos regs scs [] []
| TellCons pos regs scs t1 x scs1 regs1 t2 xs :
    next_text e gap pos regs scs t1 x scs1 regs1 -> tells e gap (pos + blen t1) regs1 scs1 t2 xs ->
    tells e gap pos regs scs (t1 ++ t2) (x :: xs).

(** Parsers made from a buffer, raw or wrapped, and then iterated, whatever that returned;
    with the alignments of each. *)
Inductive opened (e : env) : (N -> N) -> sparser cursor -> Prop :=
| OpRaw buf b : from_raw buf = Ok b -> opened e word_gap (bs_parser b)
| OpWords buf w b : from_wrapped e buf = Ok (w, b) -> wr_offset w mod 4 = 0 -> opened e word_gap (bs_parser b)
| OpWrapped buf w b : from_wrapped e buf = Ok (w, b) ->
    opened e (block_gap (8 * wr_offset w) (8 * (wr_size w + 20))) (bs_parser b)
| OpNext gap s : opened e gap s -> opened e gap (snd (next e cursor_ops s)).

(** The bits a parser has not consumed yet. *)
Definition unread (s : sparser cursor) : list bool :=
  skipn (N.to_nat (tell_bit (p_cur s))) (content (p_cur s)).
