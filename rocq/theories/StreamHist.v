(** Vocabulary for stating parser properties: parsers a caller can hold, what iteration
    yields, meaning of a stream apart from its encoding, container bytes. *)
From Verif Require Import Base CursorModel CursorSpec CursorHist StreamModel StreamSpec.
Local Open Scope N_scope.

(** Parsers a caller can hold: [StreamParser::new] on any reachable cursor, then any number
    of [next]/[advance] calls, whatever they returned. *)
Inductive parser_reachable (e : env) : sparser cursor -> Prop :=
| PRNew c : reachable e c -> parser_reachable e (parser_new c)
| PRNext s : parser_reachable e s -> parser_reachable e (snd (next e cursor_ops s)).

(** The parser after [n] calls of [Iterator::next]. *)
Fixpoint after {C} (e : env) (o : cops C) (n : nat) (s : sparser C) : sparser C :=
  match n with
  | O => s
  | S n' => after e o n' (snd (next e o s))
  end.

(** Bit position and total number of bits of a parser's input. *)
Definition pos (s : sparser cursor) : N := tell_bit (p_cur s).
Definition total (s : sparser cursor) : N := bit_len (p_cur s).

(** The results up to and including the first one that is not an entry. *)
Fixpoint upto_stop (l : list (option (outcome serr entry))) : list (option (outcome serr entry)) :=
  match l with
  | [] => []
  | Some (Ok x) :: l' => Some (Ok x) :: upto_stop l'
  | r :: _ => [r]
  end.

(** The entries before the first error or the end. *)
Fixpoint leading (l : list (option (outcome serr entry))) : list entry :=
  match l with
  | Some (Ok x) :: l' => x :: leading l'
  | _ => []
  end.

(** Classification of results. *)
Definition is_start (r : option (outcome serr entry)) : bool :=
  match r with Some (Ok (ESubBlock _ _)) => true | _ => false end.
Definition is_end (r : option (outcome serr entry)) : bool :=
  match r with Some (Ok EEndBlock) => true | _ => false end.
Definition count {A} (f : A -> bool) (l : list A) : nat := length (filter f l).

(** What a stream says, whatever encoding choices were made (abbreviations, widths,
    BLOCKINFO, lengths). *)
Inductive node : Set :=
| NRecord (code : N) (fields : list N)
| NBlock (bid : N) (body : list node).

Fixpoint nodes_of (in_info : bool) (it : item) : list node :=
  match it with
  | IDefine _ => []
  | IUnabbrev code fields | IAbbrev _ code fields => if in_info then [] else [NRecord code fields]
  | IBlock bid _ _ body =>
      if bid =? 0 then flat_map (nodes_of true) body
      else [NBlock bid (flat_map (nodes_of false) body)]
  end.
Definition meaning (l : list item) : list node := flat_map (nodes_of false) l.

(** Entries without encoding details. *)
Definition bare (x : entry) : entry :=
  match x with
  | EEndBlock => EEndBlock
  | ESubBlock bid _ => ESubBlock bid 0
  | ERecord _ code fields => ERecord None code fields
  end.

(** Shape of abbreviations: at least one operand, arrays (of fixed, VBR or char6
    elements) and blobs only in last position. *)
Fixpoint ops_shaped (a : abbrev) : bool :=
  match a with
  | [] => true
  | [OpArray elem] => is_scalar elem
  | [OpBlob] => true
  | OpLiteral _ :: a' => ops_shaped a'
  | op :: a' => is_scalar op && ops_shaped a'
  end.
Definition shaped (a : abbrev) : bool := negb (length a =? 0)%nat && ops_shaped a.

(** Little-endian 32-bit words. *)
Definition word32 (b0 b1 b2 b3 : byte) : N :=
  Byte.to_N b0 + 256 * Byte.to_N b1 + 65536 * Byte.to_N b2 + 16777216 * Byte.to_N b3.
Definition le32 (v : N) : list byte := [b8 v; b8 (v / 256); b8 (v / 65536); b8 (v / 16777216)].

(** The header of a bitcode wrapper. *)
Definition wrapper_header (w : wrapper) : list byte :=
  le32 (wr_magic w) ++ le32 (wr_version w) ++ le32 (wr_offset w) ++ le32 (wr_size w) ++ le32 (wr_cpu w).
Definition wrapper_ok (w : wrapper) : Prop :=
  wr_magic w < two32 /\ wr_version w < two32 /\ wr_offset w < two32 /\ wr_size w < two32 /\ wr_cpu w < two32.

(** The bytes from [a] up to (excluding) [b]. *)
Definition sub_bytes (buf : list byte) (a b : N) : list byte :=
  firstn (N.to_nat (b - a)) (skipn (N.to_nat a) buf).

(** Two parser results that a caller cannot tell apart: same failure, or same magic and
    same results of [next] up to and including the first that is not an entry. *)
Definition same_stream (e : env) (x y : outcome serr bitstream) : Prop :=
  match x, y with
  | Ok a, Ok b => bs_magic a = bs_magic b /\
      forall n, upto_stop (run e cursor_ops n (bs_parser a)) = upto_stop (run e cursor_ops n (bs_parser b))
  | Err a, Err b => a = b
  | _, _ => False
  end.

(** The bitstream of a wrapped result. *)
Definition payload_result (x : outcome serr (wrapper * bitstream)) : outcome serr bitstream :=
  match x with Ok wb => Ok (snd wb) | Err x => Err x | Panic p => Panic p | OutOfFuel => OutOfFuel end.

(** The width with which the next abbreviation id will be read. *)
Definition id_width {C} (s : sparser C) : N := match p_scopes s with sc :: _ => sc_width sc | [] => 0 end.

(** The panics that malformed input can cause: [with_capacity] of an absurd count, a
    SETBID record without fields, an abbreviated record without a code; and, in builds
    with overflow checks, an overlong VBR and a one-operand array abbreviation. *)
Definition input_panic (e : env) (p : panic) : Prop :=
  match p with
  | PAlloc | PSetBidNoField | PRemoveEmpty => True
  | PShiftOverflow | PAbbrevCount => overflow_checks e = true
  | _ => False
  end.

(** [bare] on results. *)
Definition bare_result (r : option (outcome serr entry)) : option (outcome serr entry) :=
  match r with Some (Ok x) => Some (Ok (bare x)) | _ => r end.

(** *** Single steps: the levels of [advance]'s recursion *)

(** The parser after [n] steps, whatever they returned. *)
Fixpoint micro {C} (e : env) (o : cops C) (n : nat) (s : sparser C) : sparser C :=
  match n with
  | O => s
  | S n' => snd (step e o (micro e o n' s))
  end.
(** Number of open scopes. *)
Definition height {C} (s : sparser C) : nat := length (p_scopes s).
(** Whether the innermost block is a BLOCKINFO block. *)
Definition in_blockinfo {C} (s : sparser C) : bool :=
  match p_scopes s with sc :: _ => sc_is_blockinfo sc | [] => false end.

(** The abbreviation that the next step defines for a block id, when it is a
    DEFINE_ABBREV directly inside a BLOCKINFO block after a SETBID. *)
Definition next_definition {C} (e : env) (o : cops C) (s : sparser C) : option (N * abbrev) :=
  match p_scopes s with
  | ScBlock w 0 (Some bid) _ :: _ =>
      if op_exhausted o (p_cur s) then None
      else match op_read o w (p_cur s) with
           | (Ok 2, c1) => match abbrev_new e o c1 with
                           | (Ok a, _) => Some (bid, a)
                           | _ => None
                           end
           | _ => None
           end
  | _ => None
  end.

(** All of those made during the first [n] steps, in order. *)
Fixpoint definitions {C} (e : env) (o : cops C) (n : nat) (s : sparser C) : list (N * abbrev) :=
  match n with
  | O => []
  | S n' => definitions e o n' s ++
            match next_definition e o (micro e o n' s) with Some d => [d] | None => [] end
  end.

(** The abbreviations defined for block id [b], in order. *)
Definition regs_for (regs : list (N * abbrev)) (b : N) : list abbrev :=
  map snd (filter (fun r => fst r =? b) regs).
