(** Model of llvm-bitstream: abbrev.rs, parser.rs, record.rs, lib.rs.

    Written over the cursor operations record [cops] of [CursorModel]; the code is
    the instance [cursor_ops]. *)
From Verif Require Import Base CursorModel.
Local Open Scope N_scope.

(** llvm-support/src/bitcodes.rs:93-107 [AbbrevOpEnc]. *)
Inductive abbrev_enc : Set := EncFixed | EncVbr | EncArray | EncChar6 | EncBlob.
(** llvm-support/src/bitcodes.rs:94: the derived [TryFromPrimitive]. *)
Definition abbrev_enc_of (v : N) : option abbrev_enc :=
  match v with
  | 1 => Some EncFixed | 2 => Some EncVbr | 3 => Some EncArray
  | 4 => Some EncChar6 | 5 => Some EncBlob | _ => None
  end.

(** The messages of [Error::BadContainer] (lib.rs:56; 63-66), [StreamParse] (lib.rs:131; parser.rs:294;
    312-314), [AbbrevParse] (abbrev.rs:134-136; 178; 196-199; 210; the one at 143-145 is never reached) and
    [BadScope] (parser.rs:93-95; 109-111; 156-158; 216-219; 263-265), as values instead of texts. *)
Inductive box_fault : Set := BxLength | BxMagic (x : cerr).
(** lib.rs:131; parser.rs:294, 312-314: the texts of [StreamParse]. *)
Inductive parse_fault : Set := PfSeek (x : seek_err) | PfNoSetBid | PfRecordOutside.
(** abbrev.rs:134-136, 178, 196-199, 210: the texts of [AbbrevParse]. *)
Inductive abbrev_fault : Set := AfNoOperand | AfArrayPlace | AfArrayElement (x : abbrev_enc) | AfBlobPlace.
(** parser.rs:93-95, 109-111, 156-158, 216-219, 263-265: the texts of [BadScope]. *)
Inductive scope_fault : Set := SfNoAbbrevs | SfNoRecords | SfSetBid | SfWidth (w : N) | SfNoBlock.

(** llvm-bitstream/src/error.rs:9-42; [TryFromPrimitiveError] holds the number. *)
Inductive serr : Set :=
| SExhausted | SCursor (x : cerr) | SBadContainer (x : box_fault) | SBadBlockInfoCode (v : N) | SBadAbbrevOpEnc (v : N)
| SStreamParse (x : parse_fault) | SAbbrevParse (x : abbrev_fault) | SBadAbbrev (id : N) | SBadScope (x : scope_fault).

(** llvm-support/src/bitcodes.rs:79-91 [ReservedAbbrevId]; abbrev.rs:14-26 [AbbrevId]. *)
Inductive abbrev_id : Set :=
| IdEndBlock | IdEnterSubBlock | IdDefineAbbrev | IdUnabbrevRecord | IdDefined (id : N).
(** abbrev.rs:21-26: [From<u64> for AbbrevId]. *)
Definition abbrev_id_of (v : N) : abbrev_id :=
  match v with
  | 0 => IdEndBlock | 1 => IdEnterSubBlock | 2 => IdDefineAbbrev | 3 => IdUnabbrevRecord
  | _ => IdDefined v
  end.

(** llvm-support/src/bitcodes.rs:109-120 [BlockInfoCode]. *)
Inductive blockinfo_code : Set := BiSetBid | BiBlockName | BiSetRecordName.
(** llvm-support/src/bitcodes.rs:111: the derived [TryFromPrimitive]. *)
Definition blockinfo_code_of (v : N) : option blockinfo_code :=
  match v with
  | 1 => Some BiSetBid | 2 => Some BiBlockName | 3 => Some BiSetRecordName | _ => None
  end.

(** abbrev.rs:30-43 [AbbrevOp]. *)
Inductive abbrev_op : Set :=
| OpLiteral (v : N)
| OpVbr (w : N)
| OpFixed (w : N)
| OpArray (elem : abbrev_op)
| OpChar6
| OpBlob.

(** abbrev.rs:115-118 [Abbrev]. *)
Definition abbrev : Set := list abbrev_op.

(** llvm-support/src/lib.rs:41-42 [CHAR6_ALPHABET]:
    a-z (97..122), A-Z (65..90), 0-9 (48..57), '.' (46), '_' (95). *)
Definition char6_alphabet : list N :=
  [97;98;99;100;101;102;103;104;105;106;107;108;109;110;111;112;113;114;115;116;117;118;119;120;121;122;
   65;66;67;68;69;70;71;72;73;74;75;76;77;78;79;80;81;82;83;84;85;86;87;88;89;90;
   48;49;50;51;52;53;54;55;56;57;46;95].

(** abbrev.rs:50-54 [decode_char6]; an index outside the alphabet is the panic. *)
Definition decode_char6 {St E} (v : N) : M St E N :=
  match nth_error char6_alphabet (N.to_nat v) with
  | Some c => ret c
  | None => crash PChar6Range
  end.

(** [for _ in 0..n { acc.extend(m()?) }]: [n] runs of [m], results concatenated, first
    failure propagated. Recursion on the binary representation of [n] so that
    the definition computes for large [n]; [StreamProofs.times_nat] gives the
    one-by-one form. *)
Fixpoint times_pos {St E A} (m : M St E (list A)) (p : positive) : M St E (list A) :=
  match p with
  | xH => m
  | xO q => bind (times_pos m q) (fun a => bind (times_pos m q) (fun b => ret (a ++ b)))
  | xI q => bind (times_pos m q) (fun a => bind (times_pos m q) (fun b =>
              bind m (fun c => ret (a ++ b ++ c))))
  end.
(** The loops of abbrev.rs:82-84 and 102-104, parser.rs:326-328. *)
Definition times {St E A} (n : N) (m : M St E (list A)) : M St E (list A) :=
  match n with
  | 0 => ret []
  | Npos p => times_pos m p
  end.

(** [Vec::with_capacity(n)] (parser.rs:325; abbrev.rs:81, 101). *)
Definition with_capacity {St E} (e : env) (n : N) : M St E unit :=
  if n <=? alloc_limit e then ret tt else crash PAlloc.

(** record.rs:8-18, 42-47 and parser.rs:19-27 [StreamEntry]. *)
Inductive entry : Set :=
| EEndBlock
| ESubBlock (block_id len : N)
| ERecord (abbrev : option N) (code : N) (fields : list N).

(** parser.rs:47-55 [Scope]. *)
Inductive scope : Set :=
| ScInitial
| ScBlock (abbrev_id_width block_id : N) (blockinfo_bid : option N) (abbrevs : list abbrev).

(** parser.rs:75-82; llvm-support/src/lib.rs:30. *)
Definition sc_width (s : scope) : N :=
  match s with ScInitial => 2 | ScBlock w _ _ _ => w end.

(** parser.rs:88-101 [extend_abbrevs]. *)
Definition sc_extend (s : scope) (l : list abbrev) : option scope :=
  match s with
  | ScInitial => None
  | ScBlock w b i a => Some (ScBlock w b i (a ++ l))
  end.

(** parser.rs:123-128 [is_blockinfo]. *)
Definition sc_is_blockinfo (s : scope) : bool :=
  match s with ScInitial => false | ScBlock _ b _ _ => b =? 0 end.

(** parser.rs:134-141 [blockinfo_block_id]. *)
Definition sc_blockinfo_bid (s : scope) : option N :=
  match s with ScInitial => None | ScBlock _ _ i _ => i end.

(** parser.rs:147-159 [set_blockinfo_block_id]. *)
Definition sc_set_bid (s : scope) (bid : N) : option scope :=
  match s with
  | ScInitial => None
  | ScBlock w b _ a => Some (ScBlock w b (Some bid) a)
  end.

(** The [HashMap<u64, Vec<Abbrev>>] of parser.rs:174, as an association list. *)
Definition info_map : Set := list (N * list abbrev).
(** parser.rs:238: [get] on it. *)
Fixpoint info_get (m : info_map) (k : N) : option (list abbrev) :=
  match m with
  | [] => None
  | (k', v) :: m' => if k' =? k then Some v else info_get m' k
  end.
(** parser.rs:296-299: [entry(k).or_insert_with(Vec::new).push(a)]. *)
Fixpoint info_push (m : info_map) (k : N) (a : abbrev) : info_map :=
  match m with
  | [] => [(k, [a])]
  | (k', v) :: m' => if k' =? k then (k', v ++ [a]) :: m' else (k', v) :: info_push m' k a
  end.

(** parser.rs:171-175 [StreamParser]. The head of [p_scopes] is the last element of the
    Rust vector (the current scope). *)
Record sparser (C : Type) : Type := mkParser {
  p_cur : C;
  p_scopes : list scope;
  p_info : info_map
}.
Arguments mkParser {C}.
Arguments p_cur {C}.
Arguments p_scopes {C}.
Arguments p_info {C}.

(** parser.rs:181-187 [StreamParser::new]. *)
Definition parser_new {C} (c : C) : sparser C := mkParser c [ScInitial] [].

Section Stream.
  Context {C : Type} (e : env) (o : cops C).
  Local Open Scope m_scope.

  (** Cursor calls with [?]: [Error::Cursor(#[from] CursorError)]. *)
  Definition c_read (n : N) : M C serr N := lift_err SCursor (op_read o n).
  Definition c_vbr (w : N) : M C serr N := lift_err SCursor (read_vbr e o w).
  Definition c_read_as (t : ity) (n : N) : M C serr N := lift_err SCursor (read_as o t n).
  Definition c_align : M C serr unit := fun c => (Ok tt, op_align32 o c).

  (** abbrev.rs:58-110 [AbbrevOp::parse]. *)
  Fixpoint op_parse (op : abbrev_op) : M C serr (list N) :=
    match op with
    | OpLiteral v => ret [v]
    | OpVbr w => x <- c_vbr w ;; ret [x]
    | OpFixed w => x <- c_read_as u64t w ;; ret [x]
    | OpArray elem =>
        n <- c_vbr 6 ;;
        with_capacity e n ;;;
        times n (op_parse elem)
    | OpChar6 =>
        x <- c_read_as u8t 6 ;;
        y <- decode_char6 x ;;
        ret [y]
    | OpBlob =>
        n <- c_vbr 6 ;;
        c_align ;;;
        with_capacity e n ;;;
        bs <- times n (b <- c_read_as u8t 8 ;; ret [b]) ;;
        c_align ;;;
        ret bs
    end.

  (** [cur.read(3)?.try_into()?] (abbrev.rs:170, 187). *)
  Definition read_enc : M C serr abbrev_enc :=
    v <- c_read 3 ;;
    match abbrev_enc_of v with
    | Some x => ret x
    | None => fail (SBadAbbrevOpEnc v)
    end.

  (** abbrev.rs:186-203: the stolen element operand of an array. *)
  Definition array_elem : M C serr abbrev_op :=
    _ <- c_read 1 ;;
    enc <- read_enc ;;
    match enc with
    | EncFixed => w <- c_vbr 5 ;; ret (OpFixed w)
    | EncVbr => w <- c_vbr 5 ;; ret (OpVbr w)
    | EncChar6 => ret OpChar6
    | EncArray | EncBlob => fail (SAbbrevParse (AfArrayElement enc))
    end.

  (** abbrev.rs:151-224: the operand loop, [idx] counting up to [num]. Each iteration
      reads at least one bit, so [fuel] is taken from the cursor.
      [num - 2] (line 177) underflows for [num = 1]: panic with overflow checks,
      2^64 - 1 without. *)
  Fixpoint abbrev_loop (fuel : nat) (num idx : N) (acc : abbrev) : M C serr abbrev :=
    match fuel with
    | O => no_fuel
    | S f =>
        if num <=? idx then ret acc
        else
          kind <- c_read 1 ;;
          if kind =? 1 then
            v <- c_vbr 8 ;;
            abbrev_loop f num (idx + 1) (acc ++ [OpLiteral v])
          else
            enc <- read_enc ;;
            match enc with
            | EncFixed =>
                w <- c_vbr 5 ;; abbrev_loop f num (idx + 1) (acc ++ [OpFixed w])
            | EncVbr =>
                w <- c_vbr 5 ;; abbrev_loop f num (idx + 1) (acc ++ [OpVbr w])
            | EncArray =>
                if (num <? 2) && overflow_checks e then crash PAbbrevCount
                else
                  let last2 := if num <? 2 then num + two64 - 2 else num - 2 in
                  if negb (idx =? last2) then fail (SAbbrevParse AfArrayPlace)
                  else
                    elem <- array_elem ;;
                    ret (acc ++ [OpArray elem])
            | EncChar6 => abbrev_loop f num (idx + 1) (acc ++ [OpChar6])
            | EncBlob =>
                if negb (idx =? num - 1) then fail (SAbbrevParse AfBlobPlace)
                else abbrev_loop f num (idx + 1) (acc ++ [OpBlob])
            end
    end.

  (** abbrev.rs:124-227 [Abbrev::new]. *)
  Definition abbrev_new : M C serr abbrev :=
    num <- c_vbr 5 ;;
    if num <? 1 then fail (SAbbrevParse AfNoOperand)
    else fun c => abbrev_loop (S (op_fuel o c)) num 0 [] c.

  (** abbrev.rs:230-239 [Abbrev::parse]: all operands left to right, then flatten. *)
  Fixpoint abbrev_parse (a : abbrev) : M C serr (list N) :=
    match a with
    | [] => ret []
    | op :: a' =>
        x <- op_parse op ;;
        y <- abbrev_parse a' ;;
        ret (x ++ y)
    end.

  Notation PM := (M (sparser C) serr).

  (** Running a cursor action on [self.cursor]. *)
  Definition on_cur {A} (m : M C serr A) : PM A := fun s =>
    let (r, c) := m (p_cur s) in (r, mkParser c (p_scopes s) (p_info s)).

  (** parser.rs:190-195 [scope] and 198-203 [scope_mut]: [unwrap] of [last()]. *)
  Definition get_scope : PM scope := fun s =>
    match p_scopes s with
    | sc :: _ => (Ok sc, s)
    | [] => (Panic PNoScope, s)
    end.
  Definition set_scope (sc : scope) : PM unit := fun s =>
    match p_scopes s with
    | _ :: rest => (Ok tt, mkParser (p_cur s) (sc :: rest) (p_info s))
    | [] => (Panic PNoScope, s)
    end.
  Definition push_scope (sc : scope) : PM unit := fun s =>
    (Ok tt, mkParser (p_cur s) (sc :: p_scopes s) (p_info s)).

  (** [self.scope_mut().extend_abbrevs(l)?]. *)
  Definition extend_scope (l : list abbrev) : PM unit :=
    sc <- get_scope ;;
    match sc_extend sc l with
    | Some sc' => set_scope sc'
    | None => fail (SBadScope SfNoAbbrevs)
    end.

  (** parser.rs:209-253 [enter_block]. The length is [u32 * 4], no overflow. *)
  Definition enter_block : PM (option entry) :=
    block_id <- on_cur (c_vbr 8) ;;
    new_width <- on_cur (c_vbr 4) ;;
    on_cur c_align ;;;
    if new_width <? 1 then fail (SBadScope (SfWidth new_width))
    else
      words <- on_cur (c_read 32) ;;
      push_scope (ScBlock new_width block_id None []) ;;;
      (fun s => match info_get (p_info s) block_id with
                | Some l => extend_scope l s
                | None => ret tt s
                end) ;;;
      sc <- get_scope ;;
      if sc_is_blockinfo sc then ret None
      else ret (Some (ESubBlock block_id (words * 4))).

  (** parser.rs:256-280 [exit_block]. The debug log at line 272 calls [self.scope()]
      (an [unwrap]) after the pop. *)
  Definition exit_block : PM (option entry) :=
    on_cur c_align ;;;
    fun s =>
      match p_scopes s with
      | sc :: ((_ :: _) as rest) =>
          (Ok (if sc_is_blockinfo sc then None else Some EEndBlock),
           mkParser (p_cur s) rest (p_info s))
      | _ => (Err (SBadScope SfNoBlock), s)
      end.

  (** parser.rs:283-305 [define_abbrev]. *)
  Definition define_abbrev : PM unit :=
    a <- on_cur abbrev_new ;;
    sc <- get_scope ;;
    if sc_is_blockinfo sc then
      match sc_blockinfo_bid sc with
      | None => fail (SStreamParse PfNoSetBid)
      | Some bid => fun s => (Ok tt, mkParser (p_cur s) (p_scopes s) (info_push (p_info s) bid a))
      end
    else extend_scope [a].

  (** parser.rs:308-349 [parse_unabbrev]. *)
  Definition parse_unabbrev : PM (option entry) :=
    sc <- get_scope ;;
    match sc with
    | ScInitial => fail (SStreamParse PfRecordOutside)
    | ScBlock _ _ _ _ =>
        code <- on_cur (c_vbr 6) ;;
        num <- on_cur (c_vbr 6) ;;
        with_capacity e num ;;;
        fields <- on_cur (times num (x <- c_vbr 6 ;; ret [x])) ;;
        sc <- get_scope ;;
        if sc_is_blockinfo sc then
          match blockinfo_code_of code with
          | None => fail (SBadBlockInfoCode code)
          | Some BiSetBid =>
              match fields with
              | [] => crash PSetBidNoField
              | bid :: _ =>
                  match sc_set_bid sc bid with
                  | None => fail (SBadScope SfSetBid)
                  | Some sc' => set_scope sc' ;;; ret None
                  end
              end
          | Some _ => ret None
          end
        else ret (Some (ERecord None code fields))
    end.

  (** parser.rs:107-117 [get_abbrev]; [abbrev_id - 4] is checked (it cannot underflow:
      ids below 4 are reserved). *)
  Definition get_abbrev (sc : scope) (id : N) : PM abbrev :=
    match sc with
    | ScInitial => fail (SBadScope SfNoRecords)
    | ScBlock _ _ _ l =>
        if id <? 4 then crash PSubOverflow
        else match nth_error l (N.to_nat (id - 4)) with
             | Some a => ret a
             | None => fail (SBadAbbrev id)
             end
    end.

  (** parser.rs:352-377 [parse_with_abbrev]. *)
  Definition parse_with_abbrev (id : N) : PM (option entry) :=
    sc <- get_scope ;;
    a <- get_abbrev sc id ;;
    fields <- on_cur (abbrev_parse a) ;;
    match fields with
    | [] => crash PRemoveEmpty
    | code :: fields' =>
        sc <- get_scope ;;
        if sc_is_blockinfo sc then ret None
        else ret (Some (ERecord (Some id) code fields'))
    end.

  (** parser.rs:384-431 [advance], one level of its recursion: [None] is the recursive
      call. *)
  Definition step : PM (option entry) := fun s =>
    if op_exhausted o (p_cur s) then (Err SExhausted, s)
    else
      (sc <- get_scope ;;
       v <- on_cur (c_read (sc_width sc)) ;;
       match abbrev_id_of v with
       | IdEndBlock => exit_block
       | IdEnterSubBlock => enter_block
       | IdDefineAbbrev => define_abbrev ;;; ret None
       | IdUnabbrevRecord => parse_unabbrev
       | IdDefined id => parse_with_abbrev id
       end) s.

  (** parser.rs:384-431 [advance]. Each level reads at least one bit; the native stack
      depth of the recursion is not modelled. *)
  Fixpoint advance_loop (fuel : nat) : PM entry :=
    match fuel with
    | O => no_fuel
    | S f =>
        r <- step ;;
        match r with
        | Some x => ret x
        | None => advance_loop f
        end
    end.
  Definition advance : PM entry := fun s => advance_loop (op_fuel o (p_cur s)) s.

  (** lib.rs:147-153 [Iterator::next]. *)
  Definition next (s : sparser C) : option (outcome serr entry) * sparser C :=
    match advance s with
    | (Err SExhausted, s') => (None, s')
    | (r, s') => (Some r, s')
    end.
End Stream.

(** lib.rs:24-35 [BitcodeWrapper]. *)
Record wrapper : Set := mkWrapper {
  wr_magic : N; wr_version : N; wr_offset : N; wr_size : N; wr_cpu : N
}.

(** lib.rs:44-48 [Bitstream]. *)
Record bitstream : Set := mkBitstream { bs_magic : N; bs_parser : sparser cursor }.

(** lib.rs:51-70 [from_cursor]. *)
Definition from_cursor (c : cursor) : outcome serr bitstream :=
  if negb (byte_len c mod 4 =? 0) then Err (SBadContainer BxLength)
  else match read_exact cursor_ops u32t c with
       | (Ok magic, c') => Ok (mkBitstream magic (parser_new c'))
       | (Err x, _) => Err (SBadContainer (BxMagic x))
       | (Panic p, _) => Panic p
       | (OutOfFuel, _) => OutOfFuel
       end.

(** lib.rs:99-102 [from_raw]. *)
Definition from_raw (buf : list byte) : outcome serr bitstream := from_cursor (cur_new buf).

(** lib.rs:112-118: the header fields, in declaration order. *)
Definition read_wrapper : M cursor cerr wrapper :=
  bind (read_exact cursor_ops u32t) (fun magic =>
  bind (read_exact cursor_ops u32t) (fun version =>
  bind (read_exact cursor_ops u32t) (fun offset =>
  bind (read_exact cursor_ops u32t) (fun size =>
  bind (read_exact cursor_ops u32t) (fun cpu =>
  ret (mkWrapper magic version offset size cpu)))))).

(** lib.rs:109-134 [from_wrapped]. [size + 20] cannot overflow a 64-bit usize. *)
Definition from_wrapped (e : env) (buf : list byte) : outcome serr (wrapper * bitstream) :=
  let? w := omap_err SCursor (fst (read_wrapper (cur_new buf))) in
  let? c := omap_err SCursor (cur_new_with_len buf (wr_size w + 20)) in
  match seek e (SeekStart (wr_offset w)) c with
  | (Ok _, c') => let? b := from_cursor c' in Ok (w, b)
  | (Err x, _) => Err (SStreamParse (PfSeek x))
  | (Panic p, _) => Panic p
  | (OutOfFuel, _) => OutOfFuel
  end.

(** llvm-support/src/lib.rs:27. *)
Definition BITCODE_WRAPPER_MAGIC : N := 0x0b17c0de.

(** lib.rs:74-91 [from]. *)
Definition from (e : env) (buf : list byte) : outcome serr (option wrapper * bitstream) :=
  let? magic := omap_err SCursor (fst (read_exact cursor_ops u32t (cur_new buf))) in
  if magic =? BITCODE_WRAPPER_MAGIC
  then let? wb := from_wrapped e buf in Ok (Some (fst wb), snd wb)
  else let? b := from_raw buf in Ok (None, b).
