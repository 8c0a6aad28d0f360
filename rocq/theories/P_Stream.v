(** Property theorems C13-C26: the bitstream parser (llvm-bitstream).

    [write_stream] (StreamSpec.v) is the independent writer for abstract bitstreams,
    [run e cursor_ops n s] the results of [n] calls of [Iterator::next],
    [parser_reachable e s]: [s] is a fresh parser on a reachable cursor after any number of
    calls, whatever they returned. *)
From Verif Require Import Base CursorModel CursorSpec CursorHist StreamModel StreamSpec StreamHist
  StreamProofs StreamEffect StreamMain StreamEnd StreamBox StreamExt StreamAbb StreamTrace StreamApi StreamExact.
Local Open Scope N_scope.

(** A stream with a BLOCKINFO block, nested blocks and every kind of abbreviation operand. *)
Definition ex_ab1 : abbrev := [OpLiteral 7; OpFixed 3; OpVbr 6; OpArray OpChar6].
Definition ex_ab2 : abbrev := [OpFixed 5; OpBlob].
Definition ex_items : list item :=
  [IBlock 8 3 23
     [IBlock 0 3 4 [IUnabbrev 1 [9]; IDefine ex_ab1; IUnabbrev 2 [65; 66]; IDefine ex_ab2];
      IUnabbrev 100 [1; 2; 18446744073709551615];
      IDefine [OpVbr 4; OpFixed 63];
      IBlock 9 4 8 [IAbbrev 4 7 [5; 1000; 97; 95; 48]; IAbbrev 5 31 [255; 0; 7; 8; 9];
                    IUnabbrev 3 []; IBlock 10 2 1 []];
      IAbbrev 4 77 [123456789012]]].
Definition ex_bits : list bool := match write_stream 0xdec04342 ex_items with Some b => b | None => [] end.
Definition ex_bytes : list byte := bytes_of_bits ex_bits.
Definition ex_cursor : cursor := snd (read_exact cursor_ops u32t (cur_new ex_bytes)).
Definition ex_parser : sparser cursor := parser_new ex_cursor.

Example ex_written : write_stream 0xdec04342 ex_items = Some ex_bits /\ length ex_bytes = 104%nat /\
  forallb (item_small (alloc_limit debug_env)) ex_items = true /\
  from_raw ex_bytes = Ok (mkBitstream 0xdec04342 ex_parser).
Proof. repeat split; vm_compute; reflexivity. Qed.
Lemma ex_parser_reachable e : parser_reachable e ex_parser.
Proof.
  apply PRNew. exists (cur_new ex_bytes), [OReadExact u32t]. split; [left; eexists; reflexivity|reflexivity].
Qed.

(** Parsers on hand-written (possibly malformed) bits. *)
Definition bits_parser (l : list bool) : sparser cursor :=
  parser_new (snd (read_exact cursor_ops u32t (cur_new (bytes_of_bits (fixed_bits 32 0xdec04342 ++ l))))).
Definition enter_bits (bid width : N) : list bool :=
  let h := fixed_bits 2 1 ++ vbr_bits 8 bid ++ vbr_bits 4 width in h ++ pad (blen h) ++ fixed_bits 32 1.
Lemma bits_parser_reachable e l : parser_reachable e (bits_parser l).
Proof.
  apply PRNew. eexists _, [OReadExact u32t]. split; [left; eexists; reflexivity|reflexivity].
Qed.

(** *** C13 *)

Theorem C13_parsing_inverts_writing : forall e magic l bits,
  write_stream magic l = Some bits -> forallb (item_small (alloc_limit e)) l = true ->
  exists s, from_raw (bytes_of_bits bits) = Ok (mkBitstream magic s) /\
    forall k, run e cursor_ops (length (entries l) + k) s =
              map (fun x => Some (Ok x)) (entries l) ++ repeat None k.
Proof. exact written_raw. Qed.
Print Assumptions C13_parsing_inverts_writing.

Example C13_example :
  entries ex_items =
    [ESubBlock 8 92; ERecord None 100 [1; 2; 18446744073709551615];
     ESubBlock 9 32; ERecord (Some 4) 7 [5; 1000; 97; 95; 48]; ERecord (Some 5) 31 [255; 0; 7; 8; 9];
     ERecord None 3 []; ESubBlock 10 4; EEndBlock; EEndBlock;
     ERecord (Some 4) 77 [123456789012]; EEndBlock] /\
  run debug_env cursor_ops 13 ex_parser = map (fun x => Some (Ok x)) (entries ex_items) ++ [None; None].
Proof. split; vm_compute; reflexivity. Qed.

(** *** C14 *)

Theorem C14_advance_terminates_and_progresses : forall e s, parser_reachable e s ->
  fst (advance e cursor_ops s) <> OutOfFuel /\
  (forall x s', advance e cursor_ops s = (Ok x, s') -> pos s < pos s' <= total s) /\
  (forall x s', advance e cursor_ops s = (Err x, s') -> pos s <= pos s' <= total s).
Proof. intros e s H. destruct (advance_main e s H) as (A & B & F & _). exact (conj F (conj A B)). Qed.
Print Assumptions C14_advance_terminates_and_progresses.

Theorem C14_at_most_one_entry_per_bit : forall e n s, parser_reachable e s ->
  N.of_nat (length (leading (run e cursor_ops n s))) <= total s - pos s.
Proof. exact run_leading. Qed.
Print Assumptions C14_at_most_one_entry_per_bit.

Example C14_example :
  pos ex_parser = 32 /\ total ex_parser = 832 /\
  length (leading (run debug_env cursor_ops 20 ex_parser)) = 11%nat /\
  map pos [after debug_env cursor_ops 1 ex_parser; after debug_env cursor_ops 2 ex_parser;
           after debug_env cursor_ops 11 ex_parser] = [96; 399; 832].
Proof. repeat split; vm_compute; reflexivity. Qed.

(** *** C15 *)

Theorem C15_blocks_nest_and_contain_the_records : forall e c n i, (i <= n)%nat ->
  let l := run e cursor_ops n (parser_new c) in
  (count is_end (firstn i l) <= count is_start (firstn i l))%nat /\
  (forall a code fs, nth_error l i = Some (Some (Ok (ERecord a code fs))) ->
     (count is_end (firstn i l) < count is_start (firstn i l))%nat).
Proof. exact run_nested. Qed.
Print Assumptions C15_blocks_nest_and_contain_the_records.

(** A malformed stream: errors in between, entries afterwards. *)
Definition ex_bad : sparser cursor :=
  bits_parser (enter_bits 8 3 ++ fixed_bits 3 7 ++ fixed_bits 3 3 ++ vbr_bits 6 1 ++ vbr_bits 6 0 ++
               fixed_bits 3 0 ++ repeat false 40).
Example C15_example :
  run debug_env cursor_ops 6 ex_bad =
    [Some (Ok (ESubBlock 8 4)); Some (Err (SBadAbbrev 7)); Some (Ok (ERecord None 1 []));
     Some (Ok EEndBlock); Some (Err (SBadScope SfNoBlock)); None].
Proof. vm_compute. reflexivity. Qed.

(** *** C16 *)

(** [micro e cursor_ops n (parser_new c)] is the parser after [n] single steps;
    [advance] is a run of steps that report nothing followed by one that gives its
    result. *)
Theorem C16_advance_is_a_run_of_steps : forall e s, parser_reachable e s ->
  (exists c n, reachable e c /\ s = micro e cursor_ops n (parser_new c)) /\
  exists k, snd (advance e cursor_ops s) = micro e cursor_ops (S k) s /\
    (forall i, (i < k)%nat -> fst (step e cursor_ops (micro e cursor_ops i s)) = Ok None) /\
    match fst (advance e cursor_ops s) with
    | Ok x => fst (step e cursor_ops (micro e cursor_ops k s)) = Ok (Some x)
    | Err x => fst (step e cursor_ops (micro e cursor_ops k s)) = Err x
    | Panic p => fst (step e cursor_ops (micro e cursor_ops k s)) = Panic p
    | OutOfFuel => False
    end.
Proof. intros e s H. exact (conj (reachable_micro e s H) (advance_micro e s H)). Qed.
Print Assumptions C16_advance_is_a_run_of_steps.

(** An entered block has exactly the abbreviations that BLOCKINFO blocks defined for its
    id so far; blocks, records and block ends are only reported for blocks other than
    BLOCKINFO. *)
Theorem C16_blockinfo_is_transparent : forall e c n x s',
  let s := micro e cursor_ops n (parser_new c) in step e cursor_ops s = (Ok x, s') ->
  match x with
  | Some (ESubBlock b _) => b <> 0 /\
      exists w, p_scopes s' =
        ScBlock w b None (regs_for (definitions e cursor_ops n (parser_new c)) b) :: p_scopes s
  | Some (ERecord _ _ _) =>
      exists w b i l rest, b <> 0 /\ p_scopes s = ScBlock w b i l :: rest /\ p_scopes s' = p_scopes s
  | Some EEndBlock => exists w b i l, b <> 0 /\ p_scopes s = ScBlock w b i l :: p_scopes s'
  | None => True
  end.
Proof. intros e c n x s'. exact (micro_step e cursor_ops n c x s'). Qed.
Print Assumptions C16_blockinfo_is_transparent.

Theorem C16_no_blockinfo_entry : forall e s b len s', parser_reachable e s ->
  next e cursor_ops s = (Some (Ok (ESubBlock b len)), s') -> b <> 0.
Proof. exact next_blockinfo. Qed.
Print Assumptions C16_no_blockinfo_entry.

Example C16_example :
  definitions debug_env cursor_ops 10 ex_parser = [(9, ex_ab1); (9, ex_ab2)] /\
  p_scopes (after debug_env cursor_ops 3 ex_parser) =
    [ScBlock 4 9 None [ex_ab1; ex_ab2]; ScBlock 3 8 None [[OpVbr 4; OpFixed 63]]; ScInitial].
Proof. split; vm_compute; reflexivity. Qed.

(** *** C17 *)

Theorem C17_end_is_final : forall e s s', parser_reachable e s ->
  next e cursor_ops s = (None, s') -> forall k, run e cursor_ops k s' = repeat None k.
Proof. exact none_stays. Qed.
Print Assumptions C17_end_is_final.

Example C17_end_example :
  fst (next release_env cursor_ops (after release_env cursor_ops 11 ex_parser)) = None.
Proof. vm_compute. reflexivity. Qed.

(** A block whose abbreviation ids are 64 bits wide: the id cannot be read, the error does
    not advance the cursor, and iteration goes on forever. *)
Definition ex_wide : sparser cursor := bits_parser (enter_bits 8 64 ++ repeat false 32).
Lemma ex_wide_endless : forall k, ~ In None (run release_env cursor_ops k ex_wide).
Proof.
  apply (stuck_after1 _ _ _ (Some (Ok (ESubBlock 8 4))) (after release_env cursor_ops 1 ex_wide)
           (Some (Err (SCursor InvalidReadSize)))); try discriminate; vm_compute; reflexivity.
Qed.
Theorem C17_iteration_ends_refuted : exists buf b,
  from_raw buf = Ok b /\ parser_reachable release_env (bs_parser b) /\
  forall k, ~ In None (run release_env cursor_ops k (bs_parser b)).
Proof.
  exists (bytes_of_bits (fixed_bits 32 0xdec04342 ++ enter_bits 8 64 ++ repeat false 32)),
    (mkBitstream 0xdec04342 ex_wide).
  split; [vm_compute; reflexivity|]. split; [apply bits_parser_reachable|exact ex_wide_endless].
Qed.
Print Assumptions C17_iteration_ends_refuted.

(** Missing for the full claim: the case of a block with abbreviation ids of 64 or more
    bits, see the refutation. *)
Theorem C17_iteration_ends_partial : forall e s, parser_reachable e s ->
  exists n, N.of_nat n <= 2 * (total s - pos s) + 1 /\
    ((exists s', next e cursor_ops (after e cursor_ops n s) = (None, s')) \/
     64 <= id_width (after e cursor_ops n s)).
Proof. exact ends_or_wide. Qed.
Print Assumptions C17_iteration_ends_partial.

Example C17_partial_example :
  fst (next debug_env cursor_ops (after debug_env cursor_ops 5 ex_bad)) = None /\
  id_width (after debug_env cursor_ops 1 ex_wide) = 64.
Proof. split; vm_compute; reflexivity. Qed.

(** Exactly the iterations that do not end: some scope has ids of 64 or more bits and input is
    left. From then on every call returns the same error. *)
Theorem C17_endless_exactly : forall e s, parser_reachable e s ->
  (forall k, ~ In None (run e cursor_ops k s)) <->
  exists n, 64 <= id_width (after e cursor_ops n s) /\ pos (after e cursor_ops n s) < total (after e cursor_ops n s).
Proof. exact endless_iff. Qed.
Print Assumptions C17_endless_exactly.

Theorem C17_endless_error : forall e s n, parser_reachable e s ->
  64 <= id_width (after e cursor_ops n s) -> pos (after e cursor_ops n s) < total (after e cursor_ops n s) ->
  forall k, run e cursor_ops k (after e cursor_ops n s) = repeat (Some (Err (SCursor InvalidReadSize))) k.
Proof. exact endless_yields. Qed.
Print Assumptions C17_endless_error.

(** Both sides of the equivalence hold of [ex_wide] and fail for [ex_bad]. *)
Example C17_endless_example :
  (id_width (after debug_env cursor_ops 1 ex_wide), pos (after debug_env cursor_ops 1 ex_wide),
   total (after debug_env cursor_ops 1 ex_wide)) = (64, 96, 128) /\
  In None (run debug_env cursor_ops 6 ex_bad).
Proof. split; vm_compute; tauto. Qed.

(** *** C18 *)

(** A SETBID record without fields. *)
Definition ex_setbid : sparser cursor :=
  bits_parser (enter_bits 0 3 ++ fixed_bits 3 3 ++ vbr_bits 6 1 ++ vbr_bits 6 0 ++ repeat false 17).
Theorem C18_never_panics_refuted : exists buf b,
  from_raw buf = Ok b /\ fst (advance release_env cursor_ops (bs_parser b)) = Panic PSetBidNoField /\
  fst (advance debug_env cursor_ops (bs_parser b)) = Panic PSetBidNoField.
Proof.
  exists (bytes_of_bits (fixed_bits 32 0xdec04342 ++
    enter_bits 0 3 ++ fixed_bits 3 3 ++ vbr_bits 6 1 ++ vbr_bits 6 0 ++ repeat false 17)),
    (mkBitstream 0xdec04342 ex_setbid).
  repeat split; vm_compute; reflexivity.
Qed.
Print Assumptions C18_never_panics_refuted.

(** Missing for the full claim: the panics of [input_panic], all of which occur. *)
Theorem C18_only_input_panics_partial : forall e s p, parser_reachable e s ->
  fst (advance e cursor_ops s) = Panic p ->
  match p with
  | PAlloc | PSetBidNoField | PRemoveEmpty => True
  | PShiftOverflow | PAbbrevCount => overflow_checks e = true
  | _ => False
  end.
Proof. intros e s p H. destruct (advance_main e s H) as (_ & _ & _ & P). exact (P p). Qed.
Print Assumptions C18_only_input_panics_partial.

(** An abbreviated record without a code; an absurd field count; a one-operand array
    abbreviation; an overlong VBR. *)
Definition in_block (l : list bool) : sparser cursor :=
  after debug_env cursor_ops 1 (bits_parser (enter_bits 8 3 ++ l ++ repeat false 64)).
Example C18_example :
  fst (advance release_env cursor_ops (in_block
    (fixed_bits 3 2 ++ vbr_bits 5 2 ++ [false] ++ fixed_bits 3 3 ++ [false] ++ fixed_bits 3 4 ++
     fixed_bits 3 4 ++ vbr_bits 6 0))) = Panic PRemoveEmpty /\
  fst (advance release_env cursor_ops (in_block
    (fixed_bits 3 3 ++ vbr_bits 6 1 ++ vbr_bits 6 9223372036854775808))) = Panic PAlloc /\
  fst (advance debug_env cursor_ops (in_block
    (fixed_bits 3 2 ++ vbr_bits 5 1 ++ [false] ++ fixed_bits 3 3))) = Panic PAbbrevCount /\
  fst (advance debug_env cursor_ops (in_block (fixed_bits 3 3 ++ repeat true 120))) = Panic PShiftOverflow.
Proof. repeat split; vm_compute; reflexivity. Qed.

(** *** C19 *)

(** From entering a nested block (the height grows at the first step) until its end (the
    first return to the same height): the enclosing block's scope, and all further out,
    are as before. *)
Theorem C19_leaving_a_block_restores_the_scopes : forall e n (s : sparser cursor), (2 <= n)%nat ->
  (forall i, (1 <= i < n)%nat -> (height s < height (micro e cursor_ops i s))%nat) ->
  height (micro e cursor_ops n s) = height s ->
  p_scopes (micro e cursor_ops n s) = p_scopes s.
Proof. intros e. exact (enter_leave e cursor_ops). Qed.
Print Assumptions C19_leaving_a_block_restores_the_scopes.

(** Outside BLOCKINFO blocks nothing is registered for blocks entered later (what those
    get is C16). *)
Theorem C19_definitions_stay_in_their_block : forall e n (s : sparser cursor),
  (forall i, (i < n)%nat -> in_blockinfo (micro e cursor_ops i s) = false) ->
  p_info (micro e cursor_ops n s) = p_info s.
Proof. intros e. exact (micro_info e cursor_ops). Qed.
Print Assumptions C19_definitions_stay_in_their_block.

(** Steps 9 to 16 of the example: block 9 with the nested block 10. *)
Example C19_example :
  map height (map (fun i => micro debug_env cursor_ops i ex_parser) (seq 9 8)) = [2; 3; 3; 3; 3; 4; 3; 2]%nat /\
  map in_blockinfo (map (fun i => micro debug_env cursor_ops i ex_parser) (seq 0 9)) =
    [false; false; true; true; true; true; true; false; false] /\
  p_scopes (micro debug_env cursor_ops 16 ex_parser) = [ScBlock 3 8 None [[OpVbr 4; OpFixed 63]]; ScInitial] /\
  p_scopes (micro debug_env cursor_ops 9 ex_parser) = [ScBlock 3 8 None [[OpVbr 4; OpFixed 63]]; ScInitial].
Proof. repeat split; vm_compute; reflexivity. Qed.

(** *** C20 *)

Theorem C20_wrapped_parses_like_raw : forall e w payload padding, wrapper_ok w ->
  wr_offset w = 20 -> wr_size w = N.of_nat (length payload) ->
  let buf := wrapper_header w ++ payload ++ padding in
  (forall w' b, from_wrapped e buf = Ok (w', b) -> w' = w) /\
  same_stream e (payload_result (from_wrapped e buf)) (from_raw payload).
Proof. exact wrapper_main. Qed.
Print Assumptions C20_wrapped_parses_like_raw.

Theorem C20_wrapped_input_is_recognised : forall e w rest, wrapper_ok w -> wr_magic w = 0x0b17c0de ->
  let buf := wrapper_header w ++ rest in
  from e buf = match from_wrapped e buf with
               | Ok (w, b) => Ok (Some w, b)
               | Err x => Err x | Panic p => Panic p | OutOfFuel => OutOfFuel
               end.
Proof. exact wrapper_dispatch. Qed.
Print Assumptions C20_wrapped_input_is_recognised.

Definition ex_wrapper : wrapper := mkWrapper 0x0b17c0de 0 20 104 0x01000007.
Definition ex_wrapped : list byte := wrapper_header ex_wrapper ++ ex_bytes ++ map b8 [1; 2; 3; 4; 5; 6; 7].
Example C20_example :
  match from release_env ex_wrapped with
  | Ok (Some w, b) => w = ex_wrapper /\ bs_magic b = 0xdec04342 /\
      run release_env cursor_ops 13 (bs_parser b) = run release_env cursor_ops 13 ex_parser
  | _ => False
  end.
Proof. vm_compute. repeat split. Qed.

(** *** C21 *)

(** offset = 24, size = 4, one junk word before a one-word payload. *)
Definition ex_wrapper24 : wrapper := mkWrapper 0x0b17c0de 0 24 4 7.
Theorem C21_offset_and_size_delimit_the_payload_refuted : exists w rest,
  wrapper_ok w /\
  let buf := wrapper_header w ++ rest in
  wr_offset w + wr_size w = N.of_nat (length buf) /\
  from_wrapped release_env buf = Err (SBadContainer (BxMagic Eof)) /\
  exists b, from_raw (sub_bytes buf (wr_offset w) (wr_offset w + wr_size w)) = Ok b.
Proof.
  exists ex_wrapper24, (le32 0xffffffff ++ le32 0xdec04342).
  split; [unfold wrapper_ok, ex_wrapper24; cbn; repeat split; reflexivity|].
  split; [reflexivity|]. split; [vm_compute; reflexivity|]. eexists. vm_compute. reflexivity.
Qed.
Print Assumptions C21_offset_and_size_delimit_the_payload_refuted.

(** Missing: the end of the slice is [size + 20] whatever the offset, which is
    [offset + size] for the offset 20 only. Other offsets than multiples of 4, for which the
    slice is no input of its own: [C21_payload_at_any_offset] (P_Input.v). *)
Theorem C21_offset_and_size_delimit_the_payload_partial : forall e w rest, wrapper_ok w ->
  let buf := wrapper_header w ++ rest in
  wr_size w <= N.of_nat (length rest) -> wr_offset w <= wr_size w + 20 -> wr_offset w mod 4 = 0 ->
  (forall w' b, from_wrapped e buf = Ok (w', b) -> w' = w) /\
  same_stream e (payload_result (from_wrapped e buf)) (from_raw (sub_bytes buf (wr_offset w) (wr_size w + 20))).
Proof. exact from_wrapped_slice. Qed.
Print Assumptions C21_offset_and_size_delimit_the_payload_partial.

Example C21_example :
  let w := mkWrapper 0x0b17c0de 3 28 112 7 in
  let buf := wrapper_header w ++ le32 1 ++ le32 2 ++ ex_bytes ++ le32 3 in
  match from_wrapped release_env buf with
  | Ok (w', b) => w' = w /\ run release_env cursor_ops 13 (bs_parser b) = run release_env cursor_ops 13 ex_parser
  | _ => False
  end.
Proof. vm_compute. repeat split. Qed.

(** *** C22 *)

Theorem C22_raw_container_check : forall buf,
  (from_raw buf = Err (SBadContainer BxLength) <-> N.of_nat (length buf) mod 4 <> 0) /\
  (from_raw buf = Err (SBadContainer (BxMagic Eof)) <-> buf = []) /\
  (forall b0 b1 b2 b3 rest, buf = b0 :: b1 :: b2 :: b3 :: rest -> N.of_nat (length buf) mod 4 = 0 ->
     exists s, from_raw buf = Ok (mkBitstream (word32 b0 b1 b2 b3) s) /\
       pos s = 32 /\ total s = 8 * N.of_nat (length buf) /\ content (p_cur s) = bits_of_bytes buf /\
       p_scopes s = [ScInitial] /\ p_info s = []).
Proof. exact from_raw_cases. Qed.
Print Assumptions C22_raw_container_check.

Theorem C22_from_dispatches_on_the_magic : forall e b0 b1 b2 b3 rest,
  let buf := b0 :: b1 :: b2 :: b3 :: rest in
  from e buf =
    if word32 b0 b1 b2 b3 =? 0x0b17c0de
    then match from_wrapped e buf with
         | Ok (w, b) => Ok (Some w, b) | Err x => Err x | Panic p => Panic p | OutOfFuel => OutOfFuel end
    else match from_raw buf with
         | Ok b => Ok (None, b) | Err x => Err x | Panic p => Panic p | OutOfFuel => OutOfFuel end.
Proof. exact from_dispatch. Qed.
Print Assumptions C22_from_dispatches_on_the_magic.

Theorem C22_from_needs_four_bytes : forall e buf, (length buf < 4)%nat ->
  from e buf = Err (SCursor (match buf with [] => Eof | _ => Short end)).
Proof. exact from_short. Qed.
Print Assumptions C22_from_needs_four_bytes.

Example C22_example :
  from_raw (firstn 103 ex_bytes) = Err (SBadContainer BxLength) /\ from_raw [] = Err (SBadContainer (BxMagic Eof)) /\
  match from debug_env ex_bytes with Ok (None, b) => bs_magic b = 0xdec04342 | _ => False end /\
  from debug_env (firstn 3 ex_bytes) = Err (SCursor Short).
Proof. vm_compute. repeat split. Qed.

(** *** C23 *)

Theorem C23_meaning_independent_of_encoding : forall e magic l1 l2 bits1 bits2,
  write_stream magic l1 = Some bits1 -> write_stream magic l2 = Some bits2 ->
  forallb (item_small (alloc_limit e)) l1 = true -> forallb (item_small (alloc_limit e)) l2 = true ->
  meaning l1 = meaning l2 ->
  exists s1 s2, from_raw (bytes_of_bits bits1) = Ok (mkBitstream magic s1) /\
    from_raw (bytes_of_bits bits2) = Ok (mkBitstream magic s2) /\
    forall n, map bare_result (run e cursor_ops n s1) = map bare_result (run e cursor_ops n s2).
Proof. exact meaning_main. Qed.
Print Assumptions C23_meaning_independent_of_encoding.

(** The same records without abbreviations, in other widths and without BLOCKINFO. *)
Definition ex_plain : list item :=
  [IBlock 8 4 16
     [IUnabbrev 100 [1; 2; 18446744073709551615];
      IBlock 9 2 8 [IUnabbrev 7 [5; 1000; 97; 95; 48]; IUnabbrev 31 [255; 0; 7; 8; 9]; IUnabbrev 3 []; IBlock 10 5 1 []];
      IUnabbrev 77 [123456789012]]].
Example C23_example :
  meaning ex_plain = meaning ex_items /\ write_stream 0xdec04342 ex_plain <> None /\
  match write_stream 0xdec04342 ex_plain with
  | Some bits => match from_raw (bytes_of_bits bits) with
                 | Ok b => map bare_result (run debug_env cursor_ops 13 (bs_parser b)) =
                           map bare_result (run debug_env cursor_ops 13 ex_parser)
                 | _ => False
                 end
  | None => False
  end.
Proof. split; [reflexivity|]. split; vm_compute; [discriminate|reflexivity]. Qed.

(** *** C24 *)

Theorem C24_entries_depend_on_consumed_bytes : forall e buf suf b1,
  from_raw buf = Ok b1 -> N.of_nat (length suf) mod 4 = 0 ->
  exists b2, from_raw (buf ++ suf) = Ok b2 /\ bs_magic b2 = bs_magic b1 /\
    forall n, exists more,
      leading (run e cursor_ops n (bs_parser b2)) = leading (run e cursor_ops n (bs_parser b1)) ++ more.
Proof. exact raw_extended. Qed.
Print Assumptions C24_entries_depend_on_consumed_bytes.

(** The first 76 bytes of the example give its first five entries. *)
Example C24_example :
  match from_raw (firstn 76 ex_bytes) with
  | Ok b => leading (run debug_env cursor_ops 20 (bs_parser b)) = firstn 5 (entries ex_items)
  | _ => False
  end.
Proof. vm_compute. reflexivity. Qed.

(** *** C25 *)

Theorem C25_decoding_a_definition_returns_it : forall e c a bits rest, reachable e c ->
  def_bits a = Some bits -> skipn (N.to_nat (tell_bit c)) (content c) = bits ++ rest ->
  exists c', abbrev_new e cursor_ops c = (Ok a, c') /\
    tell_bit c' = tell_bit c + N.of_nat (length bits) /\ content c' = content c.
Proof. exact define_main. Qed.
Print Assumptions C25_decoding_a_definition_returns_it.

Theorem C25_accepted_definitions_are_well_shaped : forall e c a c',
  abbrev_new e cursor_ops c = (Ok a, c') -> shaped a = true.
Proof. intros e c a c'. exact (abbrev_new_shaped e cursor_ops c a c'). Qed.
Print Assumptions C25_accepted_definitions_are_well_shaped.

Theorem C25_stored_definitions_are_well_shaped : forall e s, parser_reachable e s ->
  forall w b i l a, In (ScBlock w b i l) (p_scopes s) -> In a l -> shaped a = true.
Proof. exact reachable_shaped. Qed.
Print Assumptions C25_stored_definitions_are_well_shaped.

Example C25_example :
  (exists bits, def_bits ex_ab1 = Some bits /\
     fst (abbrev_new debug_env cursor_ops (cur_new (bytes_of_bits (bits ++ repeat false 8)))) = Ok ex_ab1) /\
  map shaped [ex_ab1; ex_ab2; []; [OpBlob; OpFixed 3]; [OpArray OpChar6; OpChar6]; [OpArray OpBlob]] =
    [true; true; false; false; false; false] /\
  (* a blob that is not last *)
  fst (abbrev_new debug_env cursor_ops (cur_new (bytes_of_bits
    (vbr_bits 5 2 ++ [false] ++ fixed_bits 3 5 ++ [false] ++ fixed_bits 3 4 ++ repeat false 8)))) = Err (SAbbrevParse AfBlobPlace).
Proof. split; [eexists; split|split]; vm_compute; reflexivity. Qed.

(** *** C26 *)

Theorem C26_char6_decodes_to_the_alphabet : forall e c rest i, reachable e c -> i < 64 ->
  skipn (N.to_nat (tell_bit c)) (content c) = fixed_bits 6 i ++ rest ->
  exists x c', op_parse e cursor_ops OpChar6 c = (Ok [x], c') /\ tell_bit c' = tell_bit c + 6 /\
    char6_code x = Some i.
Proof. exact char6_main. Qed.
Print Assumptions C26_char6_decodes_to_the_alphabet.

Theorem C26_char6_stays_in_the_alphabet : forall e s, parser_reachable e s ->
  fst (advance e cursor_ops s) <> Panic PChar6Range.
Proof. exact no_char6_panic. Qed.
Print Assumptions C26_char6_stays_in_the_alphabet.

Example C26_example :
  map char6_code [97; 122; 65; 90; 48; 57; 46; 95] = map Some [0; 25; 26; 51; 52; 61; 62; 63] /\
  fst (op_parse debug_env cursor_ops (OpArray OpChar6) (cur_new (bytes_of_bits
    (vbr_bits 6 3 ++ fixed_bits 6 63 ++ fixed_bits 6 27 ++ fixed_bits 6 0)))) = Ok [95; 66; 97].
Proof. split; vm_compute; reflexivity. Qed.
