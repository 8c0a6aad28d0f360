(** Property theorems C21, C22 and C66: opening an input, where its payload is, and the fate of an input from its bits alone.

    [open_rule], [starts] and [first_word] are in OpenSpec.v; [stream_text], [entries_rule] and [input_rule] in InputSpec.v;
    [story] is the grammar of the format with what stops a reader (GrammarSpec.v, GrammarStopSpec.v). *)
From Verif Require Import Base Strings EnumModel CursorModel CursorSpec CursorHist StreamModel StreamSpec StreamHist CursorGap GrammarSpec GrammarStopSpec
  GrammarProofs GrammarStops UnrollModel UnrollSpec UnrollStopSpec ModuleModel PipelineSpec RuleSpec Rules VerdictSpec OpenSpec Opens InputSpec Inputs P_Stream P_Pipeline.
From Coq Require Import Lia.
Local Open Scope N_scope.

(** *** C22 *)

(** Which inputs can be opened, and the error for each of the others. *)
Theorem C22_opening_exactly : forall e buf v, verdict_of (from e buf) = v <-> open_rule buf v.
Proof. intros e buf v. exact (proj1 (from_exact e buf) v). Qed.
Print Assumptions C22_opening_exactly.
(** Where the stream of an opened input starts and ends, wherever its payload is. *)
Theorem C22_opened_at : forall e buf w b, from e buf = Ok (w, b) -> starts buf w b.
Proof. intros e buf. exact (proj2 (from_exact e buf)). Qed.
Print Assumptions C22_opened_at.

(** Every rule but the third and sixth, that succeed, with the error it gives; a payload at an odd byte. *)
Definition ex_wrap (offset size : N) (rest : list byte) : list byte := wrapper_header (mkWrapper wrapper_word 0 offset size 7) ++ rest.
Example C22_opening_example :
  open_rule [] (Fails (SCursor Eof)) /\ open_rule (firstn 3 ex_bytes) (Fails (SCursor Short)) /\
  open_rule ex_bytes Fine /\ open_rule (firstn 5 ex_bytes) (Fails (SBadContainer BxLength)) /\
  open_rule (firstn 16 ex_wrapped) (Fails (SCursor Eof)) /\ open_rule (firstn 18 ex_wrapped) (Fails (SCursor Short)) /\
  open_rule (firstn 123 ex_wrapped) (Fails (SCursor InvalidLength)) /\ open_rule ex_wrapped Fine /\
  open_rule (ex_wrap 25 4 ex_bytes) (Fails (SStreamParse (PfSeek SeekInvalidInput))) /\ open_rule (ex_wrap 20 5 ex_bytes) (Fails (SBadContainer BxLength)) /\
  open_rule (ex_wrap 24 4 ex_bytes) (Fails (SBadContainer (BxMagic Eof))) /\
  open_rule (ex_wrap 21 4 ex_bytes) (Fails (SBadContainer (BxMagic Short))) /\ open_rule (ex_wrap 21 8 ex_bytes) Fine /\
  match from debug_env (ex_wrap 21 8 (map b8 [9; 1; 2; 3; 4; 9; 9; 9])) with
  | Ok (_, b) => bs_magic b = 0x04030201 /\ pos (bs_parser b) = 200
  | _ => False
  end.
Proof. do 13 (split; [apply (C22_opening_exactly debug_env); vm_compute; reflexivity|]). vm_compute. split; reflexivity. Qed.
(** One of them by the rule. *)
Example C22_opening_by_hand : open_rule (ex_wrap 25 4 ex_bytes) (Fails (SStreamParse (PfSeek SeekInvalidInput))).
Proof.
  apply OgWrapped with (mkWrapper wrapper_word 0 25 4 7) ex_bytes; [reflexivity|repeat split; cbn; reflexivity|reflexivity|].
  apply IoNext; [constructor; cbn; vm_compute; discriminate|]. apply IoStop; [constructor; cbn; vm_compute; congruence|discriminate].
Qed.

(** *** C21 *)

(** Whatever the offset: the parser tells exactly what the bits of the slice from [offset] to [size + 20] tell. Alignments
    are counted from the start of the slice, in blocks of 64 bits; the last block, if it is shorter, has its own ([block_gap]). *)
Theorem C21_payload_at_any_offset : forall e buf w b xs x, from_wrapped e buf = Ok (w, b) ->
  (run e cursor_ops (S (length xs)) (bs_parser b) = map (fun y => Some (Ok y)) xs ++ [told x] <->
   story e (block_gap (8 * wr_offset w) (8 * (wr_size w + 20))) (8 * (wr_offset w + 4)) (fun _ => []) [ScInitial]
     (bits_of_bytes (sub_bytes buf (wr_offset w + 4) (wr_size w + 20))) xs x).
Proof. exact wrapped_story. Qed.
Print Assumptions C21_payload_at_any_offset.
(** In the whole blocks these are the multiples of 32 of the slice itself. *)
Theorem C21_alignment_is_that_of_the_payload : forall start total p, start <= p -> start + 64 * ((p - start) / 64 + 1) <= total ->
  block_gap start total p = word_gap (p - start).
Proof. exact block_gap_whole. Qed.
Print Assumptions C21_alignment_is_that_of_the_payload.
(** For whole words they are also those of the whole data. *)
Theorem C21_alignment_of_whole_words : forall start total p, start mod 32 = 0 -> total mod 32 = 0 -> start <= p <= total ->
  block_gap start total p = word_gap p.
Proof. exact block_word. Qed.
Print Assumptions C21_alignment_of_whole_words.

(** In the last block they are others, so that a payload at an odd byte is not read like the same payload as an input of its own: a
    block, the end of it, a block whose header is the last thing. *)
Definition ex_odd_bits : list bool :=
  fixed_bits 32 0xdec04342 ++
  fixed_bits 2 1 ++ fixed_bits 8 8 ++ fixed_bits 4 3 ++ repeat false 18 ++ fixed_bits 32 1 ++ fixed_bits 3 0 ++ repeat false 29 ++
  fixed_bits 2 1 ++ fixed_bits 8 9 ++ fixed_bits 4 3 ++ repeat false 18 ++ fixed_bits 32 1.
Definition ex_odd_payload : list byte := bytes_of_bits ex_odd_bits.
Definition ex_odd : list byte := ex_wrap 21 24 (b8 7 :: firstn 23 ex_odd_payload).
Theorem C21_payload_like_raw_refuted : exists e buf w b pad b',
  from_wrapped e buf = Ok (w, b) /\ (length pad < 4)%nat /\
  from_raw (sub_bytes buf (wr_offset w) (wr_size w + 20) ++ pad) = Ok b' /\
  run e cursor_ops 3 (bs_parser b) = map (fun y => Some (Ok y)) [ESubBlock 8 4; EEndBlock; ESubBlock 9 1024] /\
  run e cursor_ops 3 (bs_parser b') = map (fun y => Some (Ok y)) [ESubBlock 8 4; EEndBlock; ESubBlock 9 4].
Proof.
  exists debug_env, ex_odd.
  destruct (from_wrapped debug_env ex_odd) as [[w b]|x|p|] eqn:E; [|vm_compute in E; discriminate E..].
  destruct (from_raw (firstn 23 ex_odd_payload ++ [b8 0])) as [b'|x|p|] eqn:E'; [|vm_compute in E'; discriminate E'..].
  exists w, b, [b8 0], b'. split; [reflexivity|]. split; [cbn; auto|].
  assert (W : wr_offset w = 21 /\ wr_size w = 24) by (vm_compute in E; injection E as <- _; split; reflexivity).
  destruct W as [-> ->]. split.
  - rewrite <- E'. do 2 f_equal.
  - vm_compute in E, E'. injection E as _ <-. injection E' as <-. split; vm_compute; reflexivity.
Qed.
Print Assumptions C21_payload_like_raw_refuted.

(** *** C66 *)

Theorem C66_inputs_exactly : forall e host buf v, N.of_nat (length buf) < 2 ^ 61 ->
  (verdict_of (bitcode_of e host buf) = v <-> input_rule e buf v).
Proof. intros e host buf v L. exact (input_decided e host buf L v). Qed.
Print Assumptions C66_inputs_exactly.
Theorem C66_inputs_one_fate_each : forall e buf, N.of_nat (length buf) < 2 ^ 61 -> exists! v, input_rule e buf v.
Proof. exact input_unique. Qed.
Print Assumptions C66_inputs_one_fate_each.

Definition ex_good_bytes : list byte := bytes_of_bits (written ex_good).
Definition ex_endless_bytes : list byte := bytes_of_bits (written ex_recursive).
(** A good input; it as a payload between other bytes, at a whole word and at an odd byte; a payload with an endless loop; an input cut
    off, twice. *)
Definition ex_inside (l : list byte) : list byte := ex_wrap 24 (N.of_nat (length l) + 4) (le32 5 ++ l ++ le32 6).
Definition ex_inside_odd (n : N) (l : list byte) : list byte := ex_wrap 21 (N.of_nat (length l) + n) (b8 7 :: l ++ map b8 [0; 0; 0]).
Example C66_inputs_good : input_rule debug_env ex_good_bytes Fine.
Proof. apply (C66_inputs_exactly _ [104]); vm_compute; reflexivity. Qed.
Example C66_inputs_wrapped : input_rule debug_env (ex_inside ex_good_bytes) Fine.
Proof. apply (C66_inputs_exactly _ [104]); vm_compute; reflexivity. Qed.
(** At the byte 21 only without its last byte, and not if it is complete. *)
Example C66_inputs_odd : input_rule debug_env (ex_inside_odd 0 ex_good_bytes) Fine /\
  input_rule debug_env (ex_inside_odd 4 ex_good_bytes) (Fails (BcUnroll (UParse (SBadScope SfNoBlock)))).
Proof. split; apply (C66_inputs_exactly _ [104]); vm_compute; reflexivity. Qed.
Example C66_inputs_endless : input_rule debug_env (ex_inside ex_endless_bytes) Endless.
Proof. apply (C66_inputs_exactly _ [104]); vm_compute; reflexivity. Qed.
Example C66_inputs_cut : input_rule debug_env (firstn 64 ex_good_bytes) (Fails (BcUnroll (UParse (SCursor Eof)))).
Proof. apply (C66_inputs_exactly _ [104]); vm_compute; reflexivity. Qed.
Example C66_inputs_too_short : input_rule debug_env (firstn 3 ex_good_bytes) (Fails (BcUnroll (UParse (SCursor Short)))).
Proof. apply InClosed, OgCut. change (length (firstn 3 ex_good_bytes)) with 3%nat. lia. Qed.
