(** Model of the code on targets whose [usize] is not 64 bits wide: [U] is the number of values of a
    [usize] ([two32] on 32-bit targets such as wasm32 or i686, [two64] on 64-bit ones).

    Every function of the crates in which the width of [usize] can make a difference has a copy here,
    with [as usize], additions, subtractions and multiplications of [usize]s taken modulo [U] (or
    panicking with overflow checks). The functions of the other models that do not compute with
    [usize]s read from the input are used as they are. A slice has fewer than [U] elements. *)
From Verif Require Import Base Strings EnumModel SupportModel LayoutModel CursorModel StreamModel UnrollModel
  AttributeModel TablesModel TypeTableModel RecordModel ModuleModel.
Local Open Scope N_scope.

Section Word.
  Context (U : N) (e : env).

  (** [v as usize]. *)
  Definition us (v : N) : N := v mod U.
  (** [a + b], [a - b] and [a * b] on [usize]. *)
  Definition w_add {E} (a b : N) : outcome E N :=
    if a + b <? U then Ok (a + b) else if overflow_checks e then Panic PAddOverflow else Ok ((a + b) mod U).
  Definition w_sub {E} (a b : N) : outcome E N :=
    if b <=? a then Ok (a - b) else if overflow_checks e then Panic PSubOverflow else Ok (a + U - b).
  Definition w_mul {E} (a b : N) : outcome E N :=
    if a * b <? U then Ok (a * b) else if overflow_checks e then Panic PMulOverflow else Ok ((a * b) mod U).

  (** ** llvm-bitcursor *)

  (** llvm-bitcursor/src/lib.rs:93-95 [bit_len]. *)
  Definition bit_len_w (c : cursor) : outcome cerr N := w_mul (byte_len c) 8.
  (** lib.rs:98-100 [tell_bit]. *)
  Definition tell_bit_w (c : cursor) : outcome cerr N := let? x := w_mul (byte_pos c) 8 in w_sub x (bit_index c).
  (** lib.rs:103-105 [tell_byte]. *)
  Definition tell_byte_w (c : cursor) : outcome cerr N := let? x := tell_bit_w c in Ok (x / 8).

  (** lib.rs:163-199 [load_current_block]. The repeated calls of [tell_byte] on the same cursor are
      one call; what it returns is at most [U / 8], so that adding 8 does not overflow. *)
  Definition load_current_block_w : M cursor cerr unit := fun c =>
    match tell_byte_w c with
    | Ok here =>
        if byte_len c <=? here then (Err Eof, c)
        else
          let c := clear_block_state c in
          match tell_byte_w c with
          | Ok here =>
              let block_bytes :=
                if here + 8 <? byte_len c then slice (inner c) here (here + 8) else slice (inner c) here (byte_len c) in
              match block_bytes with
              | None => (Panic PSliceRange, c)
              | Some bs =>
                  match w_add (byte_pos c) (N.of_nat (length bs)) with
                  | Ok bp => (Ok tt, mkCursor (byte_len c) (inner c) bp (assemble 0 bs 0) (N.of_nat (length bs) * 8))
                  | Err x => (Err x, c)
                  | Panic p => (Panic p, c)
                  | OutOfFuel => (OutOfFuel, c)
                  end
              end
          | Err x => (Err x, c)
          | Panic p => (Panic p, c)
          | OutOfFuel => (OutOfFuel, c)
          end
    | Err x => (Err x, c)
    | Panic p => (Panic p, c)
    | OutOfFuel => (OutOfFuel, c)
    end.

  (** lib.rs:206-261 [read]. The block is a [u64] on every target. *)
  Definition read_w (nbits : N) : M cursor cerr N := fun c =>
    if (nbits =? 0) || (64 <=? nbits) then (Err InvalidReadSize, c)
    else if nbits <=? bit_index c then
      (Ok (mask_low (current_block c) nbits), drop_bits nbits c)
    else
      let bits_left := nbits - bit_index c in
      let part_1 := if 0 <? bit_index c then current_block c else 0 in
      match load_current_block_w c with
      | (Ok _, c') =>
          if bit_index c' <? bits_left then (Err Short, c')
          else
            let part_2 := mask_low (current_block c') bits_left in
            (Ok (N.lor part_1 (shl64 part_2 (nbits - bits_left))), drop_bits bits_left c')
      | (Err x, c') => (Err x, c')
      | (Panic p, c') => (Panic p, c')
      | (OutOfFuel, c') => (OutOfFuel, c')
      end.

  (** lib.rs:118-147 [seek_bit]; [pos] is a [usize]. *)
  Definition seek_bit_w (pos : N) : M cursor cerr unit := fun c =>
    let bp := N.ldiff (pos / 8) 7 in
    if byte_len c <? bp then (Err Eof, c)
    else
      let c := clear_block_state (mkCursor (byte_len c) (inner c) bp 0 0) in
      let bits_to_consume := pos mod 64 in
      if 0 <? bits_to_consume then
        match read_w bits_to_consume c with
        | (Ok _, c') => (Ok tt, c')
        | (Err x, c') => (Err x, c')
        | (Panic p, c') => (Panic p, c')
        | (OutOfFuel, c') => (OutOfFuel, c')
        end
      else (Ok tt, c).

  (** lib.rs:363-377; the result is cast to [usize]. [byte_len as i64] keeps the number. *)
  Definition seek_offset_w (c : cursor) (sf : seek_from) : outcome seek_err N :=
    match sf with
    | SeekStart pos => Ok (us pos)
    | SeekEnd pos =>
        if (0 <=? pos)%Z then Err SeekUnsupported
        else let? s := add_i64 e (as_i64 (byte_len c)) pos in Ok (us (as_u64 s))
    | SeekCurrent pos =>
        let? here := omap_err (fun _ => SeekInvalidInput) (tell_byte_w c) in
        let? s := add_i64 e (as_i64 here) pos in Ok (us (as_u64 s))
    end.
  (** lib.rs:357-399 [io::Seek::seek]. *)
  Definition seek_w (sf : seek_from) : M cursor seek_err N := fun c =>
    match seek_offset_w c sf with
    | Ok off =>
        if byte_len c <? off then (Err SeekInvalidInput, c)
        else (Ok off, clear_block_state (mkCursor (byte_len c) (inner c) off (current_block c) (bit_index c)))
    | Err x => (Err x, c)
    | Panic p => (Panic p, c)
    | OutOfFuel => (OutOfFuel, c)
    end.

  (** The operations the other methods are built on; [op_fuel] (an artefact of the model) is that of
      [cursor_ops]. *)
  Definition cursor_ops_w : cops cursor :=
    mkCops cursor read_w align32 exhausted (fun c => S (N.to_nat (bit_len c - tell_bit c))).

  (** lib.rs:321-333 [read_svbr]: [result as isize], and its negation. *)
  Definition as_isize (v : N) : Z := if us v <? U / 2 then Z.of_N (us v) else (Z.of_N (us v) - Z.of_N U)%Z.
  Definition read_svbr_w (width : N) : M cursor cerr Z :=
    bind (read_vbr e cursor_ops_w width) (fun r =>
      let m := as_isize (N.shiftr r 1) in
      if N.land r 1 =? 0 then ret m
      else if (m =? - (Z.of_N U / 2))%Z then if overflow_checks e then crash PSubOverflow else ret m
      else ret (- m)%Z).

  (** ** llvm-bitstream *)
  Local Open Scope m_scope.
  Notation o := cursor_ops_w.

  (** llvm-bitstream/src/abbrev.rs:58-110 [AbbrevOp::parse]: the casts of lines 73, 74, 79 and 95. *)
  Fixpoint op_parse_w (op : abbrev_op) : M cursor serr (list N) :=
    match op with
    | OpLiteral v => ret [v]
    | OpVbr w => x <- c_vbr e o (us w) ;; ret [x]
    | OpFixed w => x <- c_read_as o u64t (us w) ;; ret [x]
    | OpArray elem =>
        n <- c_vbr e o 6 ;;
        with_capacity e (us n) ;;;
        times (us n) (op_parse_w elem)
    | OpChar6 =>
        x <- c_read_as o u8t 6 ;;
        y <- decode_char6 x ;;
        ret [y]
    | OpBlob =>
        n <- c_vbr e o 6 ;;
        c_align o ;;;
        with_capacity e (us n) ;;;
        bs <- times (us n) (b <- c_read_as o u8t 8 ;; ret [b]) ;;
        c_align o ;;;
        ret bs
    end.
  (** abbrev.rs:230-239 [Abbrev::parse]. *)
  Fixpoint abbrev_parse_w (a : abbrev) : M cursor serr (list N) :=
    match a with
    | [] => ret []
    | op :: a' =>
        x <- op_parse_w op ;;
        y <- abbrev_parse_w a' ;;
        ret (x ++ y)
    end.

  Notation PM := (M (sparser cursor) serr).
  (** llvm-bitstream/src/parser.rs:107-117 [get_abbrev]: [(abbrev_id as usize) - 4]. *)
  Definition get_abbrev_w (sc : scope) (id : N) : PM abbrev :=
    match sc with
    | ScInitial => fail (SBadScope SfNoRecords)
    | ScBlock _ _ _ l => fun s =>
        match w_sub (us id) 4 with
        | Ok i => match nth_error l (N.to_nat i) with
                  | Some a => ret a s
                  | None => fail (SBadAbbrev id) s
                  end
        | Err x => (Err x, s)
        | Panic p => (Panic p, s)
        | OutOfFuel => (OutOfFuel, s)
        end
    end.
  (** parser.rs:352-377 [parse_with_abbrev]. *)
  Definition parse_with_abbrev_w (id : N) : PM (option entry) :=
    sc <- get_scope ;;
    a <- get_abbrev_w sc id ;;
    fields <- on_cur (abbrev_parse_w a) ;;
    match fields with
    | [] => crash PRemoveEmpty
    | code :: fields' =>
        sc <- get_scope ;;
        if sc_is_blockinfo sc then ret None
        else ret (Some (ERecord (Some id) code fields'))
    end.
  (** parser.rs:308-349 [parse_unabbrev]; the capacity is cast (325), the bound of the loop (326) is a
      [u64]. *)
  Definition parse_unabbrev_w : PM (option entry) :=
    sc <- get_scope ;;
    match sc with
    | ScInitial => fail (SStreamParse PfRecordOutside)
    | ScBlock _ _ _ _ =>
        code <- on_cur (c_vbr e o 6) ;;
        num <- on_cur (c_vbr e o 6) ;;
        with_capacity e (us num) ;;;
        fields <- on_cur (times num (x <- c_vbr e o 6 ;; ret [x])) ;;
        sc <- get_scope ;;
        if sc_is_blockinfo sc then
          match blockinfo_code_of code with
          | None => fail (SBadBlockInfoCode code)
          | Some BiSetBid =>
              match fields with
              | [] => crash PSetBidNoField
              | bid :: _ =>
                  match sc_set_bid sc bid with
                  | None => fail (SBadScope SfSetBid)
                  | Some sc' => set_scope sc' ;;; ret None
                  end
              end
          | Some _ => ret None
          end
        else ret (Some (ERecord None code fields))
    end.
  (** parser.rs:384-431 [advance]: the cast of line 400. *)
  Definition step_w : PM (option entry) := fun s =>
    if exhausted (p_cur s) then (Err SExhausted, s)
    else
      (sc <- get_scope ;;
       v <- on_cur (c_read o (us (sc_width sc))) ;;
       match abbrev_id_of v with
       | IdEndBlock => exit_block o
       | IdEnterSubBlock => enter_block e o
       | IdDefineAbbrev => define_abbrev e o ;;; ret None
       | IdUnabbrevRecord => parse_unabbrev_w
       | IdDefined id => parse_with_abbrev_w id
       end) s.
  (** parser.rs:384-431 [advance]. *)
  Fixpoint advance_loop_w (fuel : nat) : PM entry :=
    match fuel with
    | O => no_fuel
    | S f =>
        r <- step_w ;;
        match r with
        | Some x => ret x
        | None => advance_loop_w f
        end
    end.
  (** parser.rs:384-431 [advance]. *)
  Definition advance_w : PM entry := fun s => advance_loop_w (op_fuel o (p_cur s)) s.
  (** llvm-bitstream/src/lib.rs:147-153 [Iterator::next]. *)
  Definition next_w (s : sparser cursor) : option (outcome serr entry) * sparser cursor :=
    match advance_w s with
    | (Err SExhausted, s') => (None, s')
    | (r, s') => (Some r, s')
    end.

  (** lib.rs:51-70 [from_cursor]. *)
  Definition from_cursor_w (c : cursor) : outcome serr bitstream :=
    if negb (byte_len c mod 4 =? 0) then Err (SBadContainer BxLength)
    else match read_exact o u32t c with
         | (Ok magic, c') => Ok (mkBitstream magic (parser_new c'))
         | (Err x, _) => Err (SBadContainer (BxMagic x))
         | (Panic p, _) => Panic p
         | (OutOfFuel, _) => OutOfFuel
         end.
  (** lib.rs:99-102 [from_raw]. *)
  Definition from_raw_w (buf : list byte) : outcome serr bitstream := from_cursor_w (cur_new buf).
  (** lib.rs:112-118. *)
  Definition read_wrapper_w : M cursor cerr wrapper :=
    bind (read_exact o u32t) (fun magic =>
    bind (read_exact o u32t) (fun version =>
    bind (read_exact o u32t) (fun offset =>
    bind (read_exact o u32t) (fun size =>
    bind (read_exact o u32t) (fun cpu =>
    ret (mkWrapper magic version offset size cpu)))))).
  (** lib.rs:109-134 [from_wrapped]: [(wrapper.size as usize) + 20] on line 126. *)
  Definition from_wrapped_w (buf : list byte) : outcome serr (wrapper * bitstream) :=
    let? w := omap_err SCursor (fst (read_wrapper_w (cur_new buf))) in
    let? len := w_add (us (wr_size w)) 20 in
    let? c := omap_err SCursor (cur_new_with_len buf len) in
    match seek_w (SeekStart (wr_offset w)) c with
    | (Ok _, c') => let? b := from_cursor_w c' in Ok (w, b)
    | (Err x, _) => Err (SStreamParse (PfSeek x))
    | (Panic p, _) => Panic p
    | (OutOfFuel, _) => OutOfFuel
    end.
  (** lib.rs:74-91 [from]. *)
  Definition from_w (buf : list byte) : outcome serr (option wrapper * bitstream) :=
    let? magic := omap_err SCursor (fst (read_exact o u32t (cur_new buf))) in
    if magic =? BITCODE_WRAPPER_MAGIC
    then let? wb := from_wrapped_w buf in Ok (Some (fst wb), snd wb)
    else let? b := from_raw_w buf in Ok (None, b).

  (** ** llvm-mapper *)

  (** llvm-mapper/src/unroll.rs:265-408. *)
  Definition unroll_w (s : sparser cursor) : outcome unroll_err (list partial) :=
    let? rparts := tops next_w (N.to_nat (bit_len (p_cur s)) + 2) [] s in
    Ok (rev rparts).

  (** llvm-mapper/src/block/strtab.rs:79-89 [try_get] of the reference made of two fields
      (llvm-support/src/lib.rs:143-147: both are cast). *)
  Definition strtab_try_get_w (t : strtab) (offset size : N) : outcome strtab_err str :=
    let len := N.of_nat (length t) in
    let offset := us offset in
    let size := us size in
    if size =? 0 then Err SbBadRange
    else if len <=? offset then Err SbBadRange
    else
      let? last := w_add offset size in
      if len <? last then Err SbBadRange
      else
        let? last := w_add offset size in
        match slice t offset last with
        | None => Panic PSliceRange
        | Some raw => ok_or (utf8_decode raw) (SbBadString (utf8_error 0 raw))
        end.
  (** strtab.rs:97-101 [read_name]. *)
  Definition strtab_read_name_w (t : strtab) (r : record) : outcome strtab_err str :=
    match r_fields r with
    | offset :: size :: _ => strtab_try_get_w t offset size
    | _ => Panic PSliceRange
    end.

  (** llvm-mapper/src/block/type_table.rs:66-80: the cast that makes a [TypeRef] (374, 395, 405, 433,
      456, 485, 489). *)
  Definition cast_refs (p : ptype) : ptype :=
    match p with
    | PtFunction r ps va => PtFunction (us r) (map us ps) va
    | PtPointer r a => PtPointer (us r) a
    | PtStruct name fs packed => PtStruct name (map us fs) packed
    | PtArray n r => PtArray n (us r)
    | PtFixedVector n r => PtFixedVector n (us r)
    | PtScalableVector n r => PtScalableVector n (us r)
    | p => p
    end.
  (** type_table.rs:312-508: one turn of the loop. The turn adds or replaces at most one entry, with
      its references cast; that the references of the other entries, which are cast already, are
      cast again makes no difference. *)
  Definition type_step_w (st : list ptype * str) (r : record) : outcome tt_err (list ptype * str) :=
    let? (partials, name) := type_step e st r in Ok (map cast_refs partials, name).
  (** type_table.rs:311-508: the loop. *)
  Fixpoint type_loop_w (l : list record) (st : list ptype * str) : outcome tt_err (list ptype * str) :=
    match l with
    | [] => Ok st
    | r :: l' => let? st := type_step_w st r in type_loop_w l' st
    end.
  (** type_table.rs:290-512 [TryFrom<&Block> for TypeTable]: the cast of line 300. *)
  Definition type_table_of_w (b : block) : outcome tt_err type_table :=
    let? r := ok_or (one (type_code_num TcNumEntry) (b_records b)) TtBadTable in
    let? n := ok_or (hd_error (r_fields r)) TtBadTable in
    let n := us n in
    if alloc_limit e <? n then Panic PAlloc
    else
      let? (partials, _) := type_loop_w (b_records b) ([], []) in
      reify n partials.
  (** type_table.rs:284-287 [get] of an [Into<TypeRef>], here always a [u64] (75-79). *)
  Definition types_get_w (t : type_table) (i : N) : option ty := types_get t (us i).
  (** llvm-mapper/src/block/attributes.rs:462-464 [Attributes::get]. *)
  Definition attributes_get_w (l : attributes) (id : N) : option (list attr_group) := attributes_get l (us id).

  (** llvm-mapper/src/record/comdat.rs:67-92 [Comdat::try_map]. *)
  Definition comdat_of_w (version : N) (t : strtab) (r : record) : outcome comdat_err comdat :=
    if negb (2 <=? version) then Err CdV1
    else
      match r_fields r with
      | [offset; size; kind] =>
          let? name := omap_err CdName (strtab_try_get_w t offset size) in
          let? k := ok_or (selection_kind_of kind) (CdKind kind) in
          Ok (mkComdat k name)
      | l => Err (CdTooShort (N.of_nat (length l)))
      end.
  (** llvm-mapper/src/record/function.rs:110-220 [Function::try_map]: the casts of lines 160 and 176. *)
  Definition fn_of_w (c : mctx) (r : record) : outcome fn_err fn_rec :=
    if negb (use_strtab c) then Err FeV1
    else if (length (r_fields r) <? 10)%nat then Err (FeTooShort (N.of_nat (length (r_fields r))))
    else
      let? name := omap_err FeStrtab (strtab_read_name_w (cx_strtab c) r) in
      let? t := ok_or (types_get_w (cx_types c) (fld r 2)) (FeTypeId (fld r 2)) in
      let? t := match t with TFunction _ _ _ => Ok t | _ => Err FeType end in
      let? cc := ok_or (calling_convention_of (fld r 3)) (FeCallingConvention (fld r 3)) in
      let decl := negb (fld r 4 =? 0) in
      let link := linkage_of (fld r 5) in
      let? attrs :=
        if fld r 6 =? 0 then Ok None
        else let? a := ok_or (attributes_get_w (cx_attributes c) (fld r 6 - 1)) (FeAttribute (fld r 6)) in Ok (Some a) in
      let? al := omap_err FeAlignment (maybe_align_of (fld r 7 mod 256)) in
      let? sec := table_entry FeSection (cx_sections c) (us (fld r 8)) in
      let? vis := ok_or (visibility_of (fld r 9)) (FeVisibility (fld r 9)) in
      let? gc := match nth_error (r_fields r) 10 with
                 | None => Ok None
                 | Some i => table_entry FeGc (cx_gcs c) (us i)
                 end in
      let ua := match nth_error (r_fields r) 11 with Some v => unnamed_addr_of v | None => UaNone end in
      let? dll := match nth_error (r_fields r) 13 with
                  | None => Ok DllDefault
                  | Some v => ok_or (dll_storage_class_of v) (FeStorage v)
                  end in
      Ok (mkFn name t cc decl link attrs al sec vis gc ua dll).
  (** llvm-mapper/src/record/alias.rs:74-138 [Alias::try_map]. *)
  Definition alias_of_w (c : mctx) (r : record) : outcome alias_err alias_rec :=
    if negb (use_strtab c) then Err AlV1
    else if (length (r_fields r) <? 5)%nat then Err (AlTooShort (N.of_nat (length (r_fields r))))
    else
      let? name := omap_err AlStrtab (strtab_read_name_w (cx_strtab c) r) in
      let? t := ok_or (types_get_w (cx_types c) (fld r 2)) (AlType (fld r 2)) in
      let value := fld r 3 in
      let link := linkage_of (fld r 4) in
      let? vis := match nth_error (r_fields r) 5 with
                  | None => Ok VisDefault
                  | Some v => ok_or (visibility_of v) (AlVisibility v)
                  end in
      let? dll := match nth_error (r_fields r) 6 with
                  | None => Ok DllDefault
                  | Some v => ok_or (dll_storage_class_of v) (AlStorage v)
                  end in
      let tls := match nth_error (r_fields r) 7 with Some v => tls_mode_of v | None => TlsNotThreadLocal end in
      let ua := match nth_error (r_fields r) 8 with Some v => unnamed_addr_of v | None => UaNone end in
      let pre := match nth_error (r_fields r) 9 with Some v => preemption_of v | None => RpDsoPreemptable end in
      Ok (mkAlias name t value link vis dll tls ua pre).

  (** llvm-mapper/src/block/function/mod.rs:95-105 [get_type!]. *)
  Definition inst_type_w (code : function_code) (t : type_table) (i : N) : outcome fb_err ty :=
    ok_or (types_get_w t i) (FbBadInst (InType code i)).
  (** function/mod.rs:80-196: one turn of the loop. *)
  Definition fb_step_w (t : type_table) (r : record) : outcome fb_err unit :=
    let? code := ok_or (function_code_of (r_code r)) (FbUnknownCode (r_code r)) in
    match code with
    | FcDeclareBlocks => Ok tt
    | FcInstBinop =>
        let? fs := unpack code 4 r in
        let? t := inst_type_w code t (fld r 1) in
        let? _ := omap_err FbBadBinOp (binary_op_of (fld r 3) t) in
        Ok tt
    | FcInstCast | FcInstAlloca | FcInstLoad | FcInstStore => let? fs := unpack code 4 r in Ok tt
    | FcInstUnop =>
        let? fs := unpack code 3 r in
        let? _ := inst_type_w code t (fld r 1) in
        let? _ := omap_err FbBadUnOp (unary_op_of (fld r 2)) in
        Ok tt
    | _ => Panic PUnimplemented
    end.
  (** function/mod.rs:54-200: the cast of line 75. *)
  Definition fn_block_of_w (t : type_table) (b : block) : outcome fb_err unit :=
    let? r := omap_err FbMap (exactly_one (function_code_num FcDeclareBlocks) (b_records b)) in
    let? n := ok_or (hd_error (r_fields r)) FbInvalidBlockCount in
    if alloc_limit e <? us n then Panic PAlloc
    else
      let? _ := collect (fb_step_w t) (b_records b) in
      Panic PUnimplemented.

  (** llvm-mapper/src/block/module.rs:76-165: the context. *)
  Definition module_ctx_w (t : strtab) (b : block) : outcome module_err mctx :=
    let? r := omap_err MdInconsistent (exactly_one (module_code_num McVersion) (b_records b)) in
    let? version := ok_or (hd_error (r_fields r)) MdMissingVersion in
    let? r := maybe_record McDataLayout b in
    let? lay := match r with
                | None => Ok layout_default
                | Some r => let? s := omap_err MdLayoutString (try_string e r 0) in
                            omap_err MdLayout (layout_from_str s)
                end in
    let? sections := strings_of e McSectionName b in
    let? gcs := strings_of e McGcName b in
    let? tb := sub_block IbType b in
    let? types := omap_err MdTypes (type_table_of_w tb) in
    let? vb := sub_block IbValueSymtab b in
    let _ := vst_of vb in
    let? gb := maybe_block IbParamAttrGroup b in
    let? groups := match gb with None => Ok [] | Some gb => omap_err MdAttributes (attr_groups_of gb) end in
    let? ab := maybe_block IbParamAttr b in
    let? attrs := match ab with None => Ok [] | Some ab => omap_err MdAttributes (attributes_of groups ab) end in
    let? comdats := omap_err MdComdat (collect (comdat_of_w version t) (by_code (module_code_num McComdat) (b_records b))) in
    Ok (mkCtx version lay sections gcs t groups attrs types comdats).
  (** module.rs:76-233 [TryFrom<(&Block, &mut PartialMapCtx)> for Module]. *)
  Definition module_map_w (host : str) (t : strtab) (b : block)
    : outcome module_err (module * mctx * list fn_rec * list alias_rec) :=
    let? c := module_ctx_w t b in
    let? r := maybe_record McTriple b in
    let? triple := match r with None => Ok host | Some r => omap_err MdString (try_string e r 0) end in
    let? r := maybe_record McAsm b in
    let? asm := match r with
                | None => Ok []
                | Some r => let? s := omap_err MdString (try_string e r 0) in Ok (split_on newline s)
                end in
    let? deplibs := strings_of e McDepLib b in
    let? fns := omap_err MdFunction (collect (fn_of_w c) (by_code (module_code_num McFunction) (b_records b))) in
    let? _ := omap_err MdBlock (collect (fn_block_of_w (cx_types c)) (by_id (BIr IbFunction) b)) in
    let? aliases := omap_err MdAlias (collect (alias_of_w c) (by_code (module_code_num McAlias) (b_records b))) in
    Ok (mkModule triple asm deplibs, c, fns, aliases).
  (** module.rs:79-232 [try_from]. *)
  Definition module_of_w (host : str) (t : strtab) (b : block) : outcome module_err module :=
    let? x := module_map_w host t b in
    let '(m, _, _, _) := x in Ok m.

  (** unroll.rs:446-484 [PartialBitcodeModule::reify]. *)
  Definition reify_module_w (host : str) (p : partial) : outcome bitcode_err bitcode_module :=
    let? sb := ok_or (pt_strtab p) BcNoStrtab in
    let? t := omap_err BcStrtab (strtab_of e sb) in
    let? i := omap_err BcIdentification (identification_of e (pt_identification p)) in
    let? mb := ok_or (pt_module p) BcNoModule in
    let? m := omap_err BcModule (module_of_w host t mb) in
    let? s := match pt_symtab p with
              | None => Ok None
              | Some b => let? s := omap_err BcSymtab (symtab_of e b) in Ok (Some s)
              end in
    Ok (mkBitcodeModule i m t s).
  (** unroll.rs:261-417 [TryFrom<Bitstream<T>> for Bitcode]. *)
  Definition bitcode_of_stream_w (host : str) (s : sparser cursor) : outcome bitcode_err (list bitcode_module) :=
    let? ps := omap_err BcUnroll (unroll_w s) in
    collect (reify_module_w host) ps.
  (** unroll.rs:248-259 [TryFrom<&[u8]> for Bitcode]. *)
  Definition bitcode_of_w (host : str) (buf : list byte) : outcome bitcode_err (list bitcode_module) :=
    let? (_, b) := omap_err (fun x => BcUnroll (UParse x)) (from_w buf) in
    bitcode_of_stream_w host (bs_parser b).
End Word.
