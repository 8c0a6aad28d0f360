(** Property theorems C62-C64: the example program dump-bitstream, orders and [Display] of
    alignments. *)
From Verif Require Import Base CursorModel CursorSpec CursorHist StreamModel StreamSpec StreamHist
  Strings SupportModel SupportSpec ExtraModel ExtraSpec ExtraProofs P_Stream.
Local Open Scope N_scope.

(** *** C62 *)

(** One line per entry, indented by the number of blocks around it; the program ends with the
    first result that is not an entry. *)
Theorem C62_dump_prints_the_entries : forall e buf,
  match from e buf with
  | Ok (w, b) => exists n body r, let l := run e cursor_ops (S n) (bs_parser b) in
      dump e buf = ((match w with Some w => [LWrapper w] | None => [] end ++ [LMagic (bs_magic b)]) ++ body, ending r) /\
      length body = n /\ nth_error l n = Some r /\ is_entry r = false /\
      forall i, (i < n)%nat -> exists x, nth_error l i = Some (Some (Ok x)) /\
        nth_error body i = Some (shown (depth_at l i) x) /\
        (count is_end (firstn (S i) l) <= count is_start (firstn i l))%nat
  | Err x => dump e buf = ([], Err x)
  | _ => False
  end.
Proof. exact dump_main. Qed.
Print Assumptions C62_dump_prints_the_entries.

(** It ends on every input and [scope -= 1] never underflows. *)
Theorem C62_dump_ends_without_underflow : forall e buf,
  snd (dump e buf) <> OutOfFuel /\ snd (dump e buf) <> Panic PSubOverflow /\
  forall p, snd (dump e buf) = Panic p -> input_panic e p.
Proof.
  intros e buf. destruct (dump_ends e buf) as [A B]. split; [exact A|]. split; [|exact B].
  intros H. apply B in H. exact H.
Qed.
Print Assumptions C62_dump_ends_without_underflow.

(** For written streams: the text of the tree, whatever the encoding. *)
Theorem C62_dump_of_written_streams : forall e magic l bits, write_stream magic l = Some bits ->
  forallb (item_small (alloc_limit e)) l = true -> magic <> 0x0b17c0de ->
  dump e (bytes_of_bits bits) = (LMagic magic :: flat_map (render 0) (meaning l), Ok tt).
Proof. exact dump_written. Qed.
Print Assumptions C62_dump_of_written_streams.

Definition ex_dump : list byte :=
  match write_stream 0xdec04342 ex_items with Some bits => bytes_of_bits bits | None => [] end.
Example C62_example :
  dump debug_env ex_dump =
    ([LMagic 0xdec04342; LBlock 0 8; LRecord 1 100 [1; 2; 18446744073709551615];
      LBlock 1 9; LRecord 2 7 [5; 1000; 97; 95; 48]; LRecord 2 31 [255; 0; 7; 8; 9];
      LRecord 2 3 []; LBlock 2 10; LEnd 2; LEnd 1; LRecord 1 77 [123456789012]; LEnd 0], Ok tt) /\
  snd (dump release_env (bytes_of_bits (fixed_bits 32 0xdec04342 ++ enter_bits 8 64 ++ repeat false 32))) =
    Err (SCursor InvalidReadSize) /\
  dump release_env [] = ([], Err (SCursor Eof)) /\
  snd (dump release_env (bytes_of_bits (fixed_bits 32 0xdec04342 ++
    enter_bits 0 3 ++ fixed_bits 3 3 ++ vbr_bits 6 1 ++ vbr_bits 6 0 ++ repeat false 17))) = Panic PSetBidNoField.
Proof. repeat split; vm_compute; reflexivity. Qed.

(** *** C63 *)

(** The orders of [Align], [AlignedType], [TypeAlignSpec] and [PointerAlignSpec] are total orders;
    the first three agree with [==]. *)
Theorem C63_orders : order_laws align_cmp /\ order_laws at_cmp /\ order_laws ts_cmp /\ order_laws ps_cmp /\
  agrees align_cmp align_eqb /\ agrees at_cmp at_eqb /\ agrees ts_cmp ts_eqb.
Proof.
  exact (conj align_order (conj at_order (conj ts_order (conj ps_order (conj align_agrees (conj at_agrees ts_agrees)))))).
Qed.
Print Assumptions C63_orders.

(** Kinds are ordered aggregate < float < integer < vector, within a kind the width decides. *)
Theorem C63_kinds_before_widths : forall v w,
  at_cmp AtAggregate (AtFloat w) = Lt /\ at_cmp (AtFloat v) (AtInteger w) = Lt /\ at_cmp (AtInteger v) (AtVector w) = Lt /\
  at_cmp (AtFloat v) (AtFloat w) = (v ?= w) /\ at_cmp (AtInteger v) (AtInteger w) = (v ?= w) /\
  at_cmp (AtVector v) (AtVector w) = (v ?= w).
Proof. intros v w. repeat split. Qed.
Print Assumptions C63_kinds_before_widths.

(** The order of [PointerAlignSpec] does not agree with its derived equality, which
    [std::cmp::Ord] requires; both values are accepted by the parser. *)
Theorem C63_pointer_specs_agree_refuted : exists s1 s2 x y,
  ptr_spec_from_str s1 = Ok x /\ ptr_spec_from_str s2 = Ok y /\
  ps_cmp x y = Eq /\ ps_eqb x y = false.
Proof.
  exists (lit "p1:32:32"), (lit "p1:64:64"). eexists. eexists. repeat split; vm_compute; reflexivity.
Qed.
Print Assumptions C63_pointer_specs_agree_refuted.

Example C63_example :
  at_cmp (AtInteger 64) (AtVector 8) = Lt /\ at_cmp (AtInteger 64) (AtFloat 128) = Gt /\
  ts_cmp (mkTypeSpec (AtInteger 64) (mkAlign 3) (mkAlign 3)) (mkTypeSpec (AtInteger 64) (mkAlign 2) (mkAlign 4)) = Eq.
Proof. repeat split. Qed.

(** *** C64 *)

(** [Display] of an alignment: the decimal numeral (without leading zero) of its bytes; reading it
    back gives the alignment. *)
Theorem C64_display_round_trip : forall e a, a_shift a <= 63 ->
  exists s, align_display e a = Ok s /\ parse_u64 s = Ok (2 ^ a_shift a) /\
    Forall (fun c => 48 <= c <= 57) s /\ s <> [] /\ hd 0 s <> 48 /\
    (let? v := omap_err SeBadInt (parse_u64 s) in omap_err SeParseAlign (from_byte_align v)) = Ok a.
Proof. exact display_main. Qed.
Print Assumptions C64_display_round_trip.

Example C64_example :
  align_display debug_env (mkAlign 4) = Ok (lit "16") /\
  align_display debug_env (mkAlign 0) = Ok (lit "1") /\
  align_display release_env (mkAlign 63) = Ok (lit "9223372036854775808").
Proof. repeat split; vm_compute; reflexivity. Qed.
