(** Property theorems C01-C12: the bit cursor (llvm-bitcursor/src/lib.rs).

    [reachable e c]: [c] is obtained from one of the two public constructors by any
    finite sequence of public operations, whatever they returned. [content c]: the
    bits of the first [byte_len] bytes of the buffer, least significant bit of each
    byte first. [e] is the build profile. *)
From Verif Require Import Base CursorModel CursorSpec CursorHist CursorMain CursorTwin CursorExact FloatModel FloatProofs.
Local Open Scope N_scope.

Definition ex_buf : list byte := map b8 [0xDE; 0xAD; 0xBE; 0xEF; 0x01; 0x23; 0x45; 0x67; 0x89; 0xAB].
Definition ex_cur : cursor :=
  fold_left (apply_op debug_env) [ORead 5; OReadVbr 6; OSeekBit 13; ORead 64; OReadAs i8t 7] (cur_new ex_buf).
Example ex_reachable : reachable debug_env ex_cur.
Proof. exists (cur_new ex_buf). eexists. split; [left; eexists; reflexivity|reflexivity]. Qed.

(** *** C01 *)

Theorem C01_read_returns_the_bits : forall e c n,
  reachable e c -> 1 <= n <= 63 -> tell_bit c + n <= bit_len c ->
  exists c', read n c = (Ok (N_of_bits (sub_bits (tell_bit c) n (content c))), c') /\
             tell_bit c' = tell_bit c + n /\ content c' = content c /\ bit_len c' = bit_len c.
Proof. exact read_main. Qed.
Print Assumptions C01_read_returns_the_bits.

Example C01_example :
  tell_bit ex_cur = 20 /\ bit_len ex_cur = 80 /\
  fst (read 57 ex_cur) = Ok (N_of_bits (sub_bits 20 57 (content ex_cur))) /\
  fst (read 12 ex_cur) = Ok 0xEFB.
Proof. repeat split; vm_compute; reflexivity. Qed.

Theorem C01_read_sequence_slices_the_bits : forall e c ns,
  reachable e c -> Forall (fun n => 1 <= n <= 63) ns ->
  tell_bit c + fold_right N.add 0 ns <= bit_len c ->
  exists c', read_seq ns c = (Ok (fields_of ns (skipn (N.to_nat (tell_bit c)) (content c))), c') /\
             tell_bit c' = tell_bit c + fold_right N.add 0 ns /\ content c' = content c.
Proof. exact read_seq_main. Qed.
Print Assumptions C01_read_sequence_slices_the_bits.

Example C01_sequence_example :
  fst (read_seq [4; 1; 3; 8; 33] ex_cur) = Ok [11; 1; 7; 30; 2524205616].
Proof. vm_compute. reflexivity. Qed.

(** *** C02 *)

Theorem C02_read_errors_exactly_when_out_of_range : forall e c n, reachable e c ->
  (fst (read n c) = Err InvalidReadSize <-> n = 0 \/ 64 <= n) /\
  (fst (read n c) = Err Eof <-> 1 <= n <= 63 /\ tell_bit c = bit_len c) /\
  (fst (read n c) = Err Short <-> 1 <= n <= 63 /\ tell_bit c < bit_len c < tell_bit c + n) /\
  ((exists v, fst (read n c) = Ok v) <-> 1 <= n <= 63 /\ tell_bit c + n <= bit_len c) /\
  (fst (read n c) = Err InvalidReadSize \/ fst (read n c) = Err Eof -> snd (read n c) = c).
Proof. exact read_cases. Qed.
Print Assumptions C02_read_errors_exactly_when_out_of_range.

Example C02_example :
  fst (read 61 ex_cur) = Err Short /\ fst (read 60 ex_cur) = Ok (N_of_bits (skipn 20 (content ex_cur))) /\
  fst (read 1 (snd (read 60 ex_cur))) = Err Eof /\ fst (read 64 ex_cur) = Err InvalidReadSize.
Proof. repeat split; vm_compute; reflexivity. Qed.

Theorem C02_bytes_past_the_limit_are_never_seen : forall e ops buf1 buf2 len c1 c2,
  cur_new_with_len buf1 len = Ok c1 -> cur_new_with_len buf2 len = Ok c2 ->
  firstn (N.to_nat len) buf1 = firstn (N.to_nat len) buf2 ->
  observe e c1 ops = observe e c2 ops.
Proof. exact observe_limit. Qed.
Print Assumptions C02_bytes_past_the_limit_are_never_seen.

Example C02_limit_example :
  let b1 := map b8 [1; 2; 3; 4] in let b2 := map b8 [1; 2; 3; 255; 255] in
  (exists c1 c2, cur_new_with_len b1 3 = Ok c1 /\ cur_new_with_len b2 3 = Ok c2) /\
  firstn 3 b1 = firstn 3 b2 /\
  cur_new_with_len b1 5 = Err InvalidLength.
Proof. split; [do 2 eexists; split; reflexivity|]. split; reflexivity. Qed.

(** *** C03: the full claim is false; what holds instead. *)

Theorem C03_failed_read_keeps_position_refuted :
  exists c n x, reachable debug_env c /\ fst (read n c) = Err x /\
    tell_bit (snd (read n c)) <> tell_bit c /\
    (** a narrower read that would have succeeded before *)
    (exists v, fst (read 1 c) = Ok v) /\ fst (read 1 c) <> fst (read 1 (snd (read n c))).
Proof.
  exists (snd (read 10 (cur_new (map b8 [0; 0x04; 0; 0; 0; 0; 0; 0; 0])))), 63, Short.
  split; [exists (cur_new (map b8 [0; 0x04; 0; 0; 0; 0; 0; 0; 0])), [ORead 10]; split; [left; eexists; reflexivity|reflexivity]|].
  split; [|split; [|split; [eexists|]]]; vm_compute; try reflexivity; discriminate.
Qed.
Print Assumptions C03_failed_read_keeps_position_refuted.

Theorem C03_failed_read_partial : forall e c n x c',
  reachable e c -> read n c = (Err x, c') ->
  tell_bit c <= tell_bit c' <= bit_len c /\ content c' = content c /\ bit_len c' = bit_len c /\
  reachable e c' /\ (x <> Short -> c' = c).
Proof. exact read_fail_main. Qed.
Print Assumptions C03_failed_read_partial.

Example C03_example :
  exists c', read 61 ex_cur = (Err Short, c') /\ tell_bit ex_cur = 20 /\ tell_bit c' = 64.
Proof. eexists. repeat split; vm_compute; reflexivity. Qed.

(** What the failed read skips: the bits left in the loaded block ([bit_index]). *)
Theorem C03_short_read_skips_the_loaded_bits : forall e c n c', reachable e c ->
  read n c = (Err Short, c') -> tell_bit c' = tell_bit c + bit_index c.
Proof. exact short_read_main. Qed.
Print Assumptions C03_short_read_skips_the_loaded_bits.

Example C03_short_example : fst (read 61 ex_cur) = Err Short /\ bit_index ex_cur = 44.
Proof. split; vm_compute; reflexivity. Qed.

(** *** C04 *)

Theorem C04_seek_bit_exact : forall e c p, reachable e c ->
  (p <= bit_len c ->
   exists c', seek_bit p c = (Ok tt, c') /\ tell_bit c' = p /\ content c' = content c /\ reachable e c') /\
  (bit_len c < p -> exists x c', seek_bit p c = (Err x, c') /\ (x = Eof \/ x = Short)).
Proof. exact seek_bit_main. Qed.
Print Assumptions C04_seek_bit_exact.

Example C04_example :
  fst (seek_bit 77 ex_cur) = Ok tt /\ tell_bit (snd (seek_bit 77 ex_cur)) = 77 /\
  fst (read 3 (snd (seek_bit 77 ex_cur))) = Ok 5 /\
  fst (seek_bit 80 ex_cur) = Ok tt /\ fst (seek_bit 81 ex_cur) = Err Short /\ fst (seek_bit 128 ex_cur) = Err Eof.
Proof. repeat split; vm_compute; reflexivity. Qed.

(** Which error, and where the cursor is left: a seek that fails behind the last block leaves it alone, any other one leaves it
    at the block of the target. *)
Theorem C04_failed_seeks : forall e c p, reachable e c -> bit_len c < p ->
  exists c', seek_bit p c = (Err (if bit_len c <=? 64 * (p / 64) then Eof else Short), c') /\
    tell_bit c' = (if bit_len c <? 64 * (p / 64) then tell_bit c else 64 * (p / 64)) /\ content c' = content c.
Proof. exact seek_bit_fails. Qed.
Print Assumptions C04_failed_seeks.

Example C04_failed_example :
  bit_len ex_cur = 80 /\ seek_bit 128 ex_cur = (Err Eof, ex_cur) /\
  fst (seek_bit 81 ex_cur) = Err Short /\ tell_bit (snd (seek_bit 81 ex_cur)) = 64 /\
  fst (seek_bit 65 (cur_new (map b8 (repeat 7 8)))) = Err Eof /\ tell_bit (snd (seek_bit 65 (cur_new (map b8 (repeat 7 8))))) = 64.
Proof. repeat split; vm_compute; reflexivity. Qed.

(** *** C05 *)

(** The last hypothesis excludes only [Current(d)] with [tell_byte + d > i64::MAX]
    in builds with overflow checks, see the refutation below. *)
Theorem C05_seek_partial : forall e c sf,
  reachable e c -> byte_len c < 9223372036854775808 -> seek_arg_ok sf ->
  ((seek_target c sf <= 9223372036854775807)%Z \/ overflow_checks e = false \/ (exists p, sf = SeekStart p)) ->
  ((0 <= seek_target c sf <= Z.of_N (byte_len c))%Z /\ ~ seek_forward_from_end sf ->
   exists c', seek e sf c = (Ok (Z.to_N (seek_target c sf)), c') /\
     tell_bit c' = 8 * Z.to_N (seek_target c sf) /\ content c' = content c /\ reachable e c') /\
  (~ ((0 <= seek_target c sf <= Z.of_N (byte_len c))%Z /\ ~ seek_forward_from_end sf) ->
   exists x, seek e sf c = (Err x, c)).
Proof. exact seek_main. Qed.
Print Assumptions C05_seek_partial.

Example C05_example :
  seek_target ex_cur (SeekCurrent 3) = 5%Z /\ fst (seek debug_env (SeekCurrent 3) ex_cur) = Ok 5 /\
  seek_target ex_cur (SeekEnd (-1)) = 9%Z /\ fst (seek debug_env (SeekEnd (-1)) ex_cur) = Ok 9 /\
  fst (seek debug_env (SeekCurrent (-3)) ex_cur) = Err SeekInvalidInput /\
  fst (seek debug_env (SeekStart 10) ex_cur) = Ok 10 /\
  fst (seek debug_env (SeekStart 11) ex_cur) = Err SeekInvalidInput.
Proof. repeat split; vm_compute; reflexivity. Qed.

(** Which error. *)
Theorem C05_failed_seeks : forall e c sf, reachable e c -> byte_len c < 9223372036854775808 -> seek_arg_ok sf ->
  ((seek_target c sf <= 9223372036854775807)%Z \/ overflow_checks e = false \/ (exists p, sf = SeekStart p)) ->
  ~ ((0 <= seek_target c sf <= Z.of_N (byte_len c))%Z /\ ~ seek_forward_from_end sf) ->
  seek e sf c = (Err (match sf with SeekEnd d => if (0 <=? d)%Z then SeekUnsupported else SeekInvalidInput | _ => SeekInvalidInput end), c).
Proof. exact seek_fails. Qed.
Print Assumptions C05_failed_seeks.

Example C05_failed_example :
  seek debug_env (SeekEnd 0) ex_cur = (Err SeekUnsupported, ex_cur) /\ seek debug_env (SeekEnd (-11)) ex_cur = (Err SeekInvalidInput, ex_cur) /\
  seek_target ex_cur (SeekEnd (-11)) = (-1)%Z /\ seek debug_env (SeekStart 11) ex_cur = (Err SeekInvalidInput, ex_cur).
Proof. repeat split; vm_compute; reflexivity. Qed.

Theorem C05_seek_never_panics_refuted :
  exists c sf p, reachable debug_env c /\ seek_arg_ok sf /\ fst (seek debug_env sf c) = Panic p.
Proof.
  exists ex_cur, (SeekCurrent 9223372036854775807), PAddOverflow.
  split; [exact ex_reachable|]. split; [vm_compute; split; discriminate|reflexivity].
Qed.
Print Assumptions C05_seek_never_panics_refuted.

(** The exact condition of the panic. *)
Theorem C05_panics_exactly : forall e c sf p,
  reachable e c -> byte_len c < 9223372036854775808 -> seek_arg_ok sf ->
  (fst (seek e sf c) = Panic p <->
   p = PAddOverflow /\ overflow_checks e = true /\
   exists d, sf = SeekCurrent d /\ (9223372036854775807 < Z.of_N (tell_byte c) + d)%Z).
Proof. exact seek_panics. Qed.
Print Assumptions C05_panics_exactly.

Example C05_panic_example :
  tell_byte ex_cur = 2 /\ fst (seek debug_env (SeekCurrent 9223372036854775806) ex_cur) = Panic PAddOverflow /\
  fst (seek debug_env (SeekCurrent 9223372036854775805) ex_cur) = Err SeekInvalidInput /\
  fst (seek release_env (SeekCurrent 9223372036854775807) ex_cur) = Err SeekInvalidInput.
Proof. repeat split; vm_compute; reflexivity. Qed.

(** *** C06 *)

Theorem C06_vbr_round_trip : forall e c w v rest,
  reachable e c -> 2 <= w <= 32 -> v < two64 ->
  skipn (N.to_nat (tell_bit c)) (content c) = vbr_bits w v ++ rest ->
  exists c', read_vbr e cursor_ops w c = (Ok v, c') /\
    tell_bit c' = tell_bit c + N.of_nat (length (vbr_bits w v)) /\ content c' = content c.
Proof. exact read_vbr_main. Qed.
Print Assumptions C06_vbr_round_trip.

Theorem C06_other_widths_rejected : forall e c w,
  w < 2 \/ 32 < w -> read_vbr e cursor_ops w c = (Err InvalidVbrWidth, c).
Proof. exact read_vbr_bad_width. Qed.
Print Assumptions C06_other_widths_rejected.

(** A cursor standing at bit 3 on the VBR6 text of 1000. *)
Example C06_example :
  let c := snd (read 3 (cur_new (map b8 [0x45; 0x3F; 0x01; 0x00]))) in
  let v := 1000 in
  length (vbr_bits 6 v) = 12%nat /\ vbr_bits 4 27 = map (N.testbit 0x3B) [0;1;2;3;4;5;6;7] /\
  (exists rest, skipn 3 (content c) = vbr_bits 6 v ++ rest) /\
  fst (read_vbr debug_env cursor_ops 6 c) = Ok v.
Proof.
  cbv zeta. split; [vm_compute; reflexivity|]. split; [vm_compute; reflexivity|].
  split; [eexists; vm_compute; reflexivity|vm_compute; reflexivity].
Qed.

(** *** C07: false for i64::MIN only. *)

Theorem C07_svbr_round_trip_partial : forall e c w z rest,
  reachable e c -> 2 <= w <= 32 -> (-9223372036854775808 < z <= 9223372036854775807)%Z ->
  skipn (N.to_nat (tell_bit c)) (content c) = svbr_bits w z ++ rest ->
  exists c', read_svbr e cursor_ops w c = (Ok z, c') /\
    tell_bit c' = tell_bit c + N.of_nat (length (svbr_bits w z)) /\ content c' = content c.
Proof. exact read_svbr_main. Qed.
Print Assumptions C07_svbr_round_trip_partial.

Example C07_example :
  svbr_bits 4 (-3) = [true; true; true; false] /\
  fst (read_svbr debug_env cursor_ops 4 (cur_new [b8 0x07])) = Ok (-3)%Z.
Proof. split; vm_compute; reflexivity. Qed.

Theorem C07_svbr_min_reads_zero : forall e c w rest,
  reachable e c -> 2 <= w <= 32 ->
  skipn (N.to_nat (tell_bit c)) (content c) = svbr_bits w (-9223372036854775808) ++ rest ->
  exists c', read_svbr e cursor_ops w c = (Ok 0%Z, c').
Proof. exact read_svbr_min. Qed.
Print Assumptions C07_svbr_min_reads_zero.

Example C07_min_example :
  svbr_bits 4 (-9223372036854775808) = [true; false; false; false] /\
  fst (read_svbr debug_env cursor_ops 4 (cur_new [b8 0x01])) = Ok 0%Z.
Proof. split; vm_compute; reflexivity. Qed.

Theorem C07_svbr_round_trip_refuted :
  exists c w z, reachable debug_env c /\ 2 <= w <= 32 /\ (-9223372036854775808 <= z <= 9223372036854775807)%Z /\
    (exists rest, skipn (N.to_nat (tell_bit c)) (content c) = svbr_bits w z ++ rest) /\
    fst (read_svbr debug_env cursor_ops w c) <> Ok z.
Proof.
  exists (cur_new [b8 0x01]), 4, (-9223372036854775808)%Z.
  split; [exists (cur_new [b8 0x01]), []; split; [left; eexists; reflexivity|reflexivity]|].
  split; [split; discriminate|]. split; [split; discriminate|].
  split; [eexists; vm_compute; reflexivity|]. vm_compute. discriminate.
Qed.
Print Assumptions C07_svbr_round_trip_refuted.

(** The value of every signed text: bit 0 is the sign. *)
Theorem C07_svbr_value : forall e c w v rest,
  reachable e c -> 2 <= w <= 32 -> v < two64 ->
  skipn (N.to_nat (tell_bit c)) (content c) = vbr_bits w v ++ rest ->
  exists c', read_svbr e cursor_ops w c = (Ok (if N.even v then Z.of_N (v / 2) else (- Z.of_N (v / 2))%Z), c') /\
    tell_bit c' = tell_bit c + N.of_nat (length (vbr_bits w v)) /\ content c' = content c.
Proof. exact svbr_value. Qed.
Print Assumptions C07_svbr_value.

Example C07_value_example :
  fst (read_svbr debug_env cursor_ops 6 (cur_new (map b8 [0xFF; 0x07]))) = Ok (-511)%Z /\
  firstn 12 (content (cur_new (map b8 [0xFF; 0x07]))) = vbr_bits 6 1023.
Proof. split; vm_compute; reflexivity. Qed.

(** *** C08 *)

Theorem C08_read_vbr_terminates : forall e c w,
  reachable e c -> fst (read_vbr e cursor_ops w c) <> OutOfFuel.
Proof. exact read_vbr_terminates. Qed.
Print Assumptions C08_read_vbr_terminates.

(** Every chunk sequence: [ps] the payloads of the continued groups, [last] the
    payload of the last one. *)
Theorem C08_read_vbr_value_partial : forall e c w ps last rest,
  reachable e c -> 2 <= w <= 32 ->
  Forall (fun p => N.of_nat (length p) = w - 1) ps -> N.of_nat (length last) = w - 1 ->
  skipn (N.to_nat (tell_bit c)) (content c) = vbr_text ps last ++ rest ->
  (N.of_nat (length ps) * (w - 1) < 64 ->
    exists c', read_vbr e cursor_ops w c = (Ok (vbr_value ps last mod two64), c') /\
      tell_bit c' = tell_bit c + N.of_nat (length (vbr_text ps last)) /\ content c' = content c) /\
  (64 <= N.of_nat (length ps) * (w - 1) -> overflow_checks e = true ->
    fst (read_vbr e cursor_ops w c) = Panic PShiftOverflow) /\
  (overflow_checks e = false -> vbr_value ps last < two64 ->
    exists c', read_vbr e cursor_ops w c = (Ok (vbr_value ps last), c') /\
      tell_bit c' = tell_bit c + N.of_nat (length (vbr_text ps last)) /\ content c' = content c).
Proof. exact read_vbr_text. Qed.
Print Assumptions C08_read_vbr_value_partial.

Theorem C08_read_vbr_success_consumes_a_text : forall e c w v c',
  reachable e c -> read_vbr e cursor_ops w c = (Ok v, c') ->
  exists ps last rest,
    2 <= w <= 32 /\ Forall (fun p => N.of_nat (length p) = w - 1) ps /\ N.of_nat (length last) = w - 1 /\
    skipn (N.to_nat (tell_bit c)) (content c) = vbr_text ps last ++ rest /\
    tell_bit c' = tell_bit c + N.of_nat (length (vbr_text ps last)).
Proof. exact read_vbr_sound. Qed.
Print Assumptions C08_read_vbr_success_consumes_a_text.

(** Without overflow checks the shift wraps: a group beyond bit 63 is or-ed in at its position
    modulo 64. *)
Theorem C08_read_vbr_wraps : forall e c w ps last rest,
  reachable e c -> 2 <= w <= 32 ->
  Forall (fun p => N.of_nat (length p) = w - 1) ps -> N.of_nat (length last) = w - 1 ->
  skipn (N.to_nat (tell_bit c)) (content c) = vbr_text ps last ++ rest -> overflow_checks e = false ->
  exists c', read_vbr e cursor_ops w c = (Ok (wrapped_groups w 0 (ps ++ [last])), c') /\
    tell_bit c' = tell_bit c + N.of_nat (length (vbr_text ps last)) /\ content c' = content c.
Proof. exact vbr_wrapped. Qed.
Print Assumptions C08_read_vbr_wraps.

(** A text that the data cut short. *)
Theorem C08_cut_texts_fail : forall e c w ps tail,
  reachable e c -> 2 <= w <= 32 ->
  Forall (fun p => N.of_nat (length p) = w - 1) ps -> N.of_nat (length tail) < w ->
  skipn (N.to_nat (tell_bit c)) (content c) = flat_map (fun p => p ++ [true]) ps ++ tail ->
  fst (read_vbr e cursor_ops w c) =
    if overflow_checks e && (64 + (w - 1) <=? N.of_nat (length ps) * (w - 1)) then Panic PShiftOverflow
    else Err (match tail with [] => Eof | _ => Short end).
Proof. exact vbr_cut. Qed.
Print Assumptions C08_cut_texts_fail.

(** There is no third case. *)
Theorem C08_complete_or_cut : forall w l, 2 <= w ->
  (exists ps last rest, l = vbr_text ps last ++ rest /\
     Forall (fun p => N.of_nat (length p) = w - 1) ps /\ N.of_nat (length last) = w - 1) \/
  (exists ps tail, l = flat_map (fun p => p ++ [true]) ps ++ tail /\
     Forall (fun p => N.of_nat (length p) = w - 1) ps /\ N.of_nat (length tail) < w).
Proof. exact vbr_cases. Qed.
Print Assumptions C08_complete_or_cut.

(** Ten 0xFF-like groups of width 8: seventy payload bits. *)
Definition ex_overlong : cursor := cur_new (map b8 [255;255;255;255;255;255;255;255;255;255;1]).
Example C08_example :
  let ps := repeat (repeat true 7) 10 in let last := [true; false; false; false; false; false; false] in
  skipn (N.to_nat (tell_bit ex_overlong)) (content ex_overlong) = vbr_text ps last ++ [] /\
  Forall (fun p => N.of_nat (length p) = 8 - 1) ps /\
  vbr_value ps last = 2 ^ 71 - 1 /\ vbr_value [[true; false]] [false; true] = 9.
Proof.
  cbv zeta. split; [vm_compute; reflexivity|]. split; [vm_compute; repeat constructor|].
  split; vm_compute; reflexivity.
Qed.

Example C08_wraps_example :
  fst (read_vbr release_env cursor_ops 8 (cur_new (map b8 [128;128;128;128;128;128;128;128;128;128;1]))) = Ok 64 /\
  wrapped_groups 8 0 (repeat (repeat false 7) 10 ++ [[true; false; false; false; false; false; false]]) = 64 /\
  fst (read_vbr debug_env cursor_ops 8 (cur_new (map b8 (repeat 128 10)))) = Err Eof /\
  fst (read_vbr debug_env cursor_ops 8 (cur_new (map b8 (repeat 128 11)))) = Panic PShiftOverflow /\
  fst (read_vbr debug_env cursor_ops 6 (cur_new (map b8 [0xFF]))) = Err Short.
Proof. repeat split; vm_compute; reflexivity. Qed.

(** Overlong input panics with overflow checks, and otherwise yields a number that is
    not the one written. *)
Theorem C08_overlong_vbr_refuted :
  exists c, reachable debug_env c /\ reachable release_env c /\
    fst (read_vbr debug_env cursor_ops 8 c) = Panic PShiftOverflow /\
    (exists ps last v,
       skipn (N.to_nat (tell_bit c)) (content c) = vbr_text ps last /\
       fst (read_vbr release_env cursor_ops 8 c) = Ok v /\ v <> vbr_value ps last).
Proof.
  exists ex_overlong.
  split; [exists ex_overlong, []; split; [left; eexists; reflexivity|reflexivity]|].
  split; [exists ex_overlong, []; split; [left; eexists; reflexivity|reflexivity]|].
  split; [vm_compute; reflexivity|].
  exists (repeat (repeat true 7) 10), [true; false; false; false; false; false; false], u64_max.
  split; [vm_compute; reflexivity|]. split; [vm_compute; reflexivity|]. vm_compute. discriminate.
Qed.
Print Assumptions C08_overlong_vbr_refuted.

(** *** C09 *)

Theorem C09_align32_partial : forall e c, word_reachable e c ->
  tell_bit (align32 c) = 32 * ((tell_bit c + 31) / 32) /\ content (align32 c) = content c.
Proof. exact align32_main. Qed.
Print Assumptions C09_align32_partial.

Example C09_example :
  let c := fold_left (apply_op debug_env) [OSeek (SeekStart 4); OReadVbr 6; OSeekBit 69] (cur_new (map b8 (repeat 7 12))) in
  word_reachable debug_env c /\ tell_bit c = 69 /\ tell_bit (align32 c) = 96.
Proof.
  split; [|split; vm_compute; reflexivity].
  exists (cur_new (map b8 (repeat 7 12))). eexists. split; [left; eexists; reflexivity|].
  split; [reflexivity|]. split; [|reflexivity]. repeat constructor.
Qed.

Theorem C09_align32_refuted :
  exists c, reachable debug_env c /\ tell_bit c = 16 /\ bit_len c = 128 /\ tell_bit (align32 c) = 40.
Proof.
  exists (fold_left (apply_op debug_env) [OSeek (SeekStart 1); ORead 8] (cur_new (map b8 (repeat 7 16)))).
  split; [|repeat split; vm_compute; reflexivity].
  exists (cur_new (map b8 (repeat 7 16))). eexists. split; [left; eexists; reflexivity|reflexivity].
Qed.
Print Assumptions C09_align32_refuted.

(** Every cursor: the new position is the next one that is a whole number of 32-bit words away from
    the last byte loaded, which is a word boundary only if [byte_pos] is a multiple of 4. *)
Theorem C09_align32_exactly : forall e c, reachable e c ->
  tell_bit c <= tell_bit (align32 c) < tell_bit c + 32 /\ tell_bit (align32 c) <= bit_len c /\ content (align32 c) = content c /\
  tell_bit (align32 c) mod 32 = 8 * (byte_pos c mod 4) /\
  (tell_bit (align32 c) = 32 * ((tell_bit c + 31) / 32) <-> byte_pos c mod 4 = 0).
Proof. exact align32_exact. Qed.
Print Assumptions C09_align32_exactly.

Example C09_exactly_example :
  let c := fold_left (apply_op debug_env) [OSeek (SeekStart 1); ORead 8] (cur_new (map b8 (repeat 7 16))) in
  reachable debug_env c /\ byte_pos c = 9 /\ tell_bit c = 16 /\ tell_bit (align32 c) = 40.
Proof.
  split; [|repeat split; vm_compute; reflexivity].
  exists (cur_new (map b8 (repeat 7 16))). eexists. split; [left; eexists; reflexivity|reflexivity].
Qed.

(** *** C10 *)

Theorem C10_read_as_checked_cast : forall e c t n,
  reachable e c -> 1 <= n <= 63 -> tell_bit c + n <= bit_len c ->
  let v := N_of_bits (sub_bits (tell_bit c) n (content c)) in
  let bound := if ity_signed t then 2 ^ (ity_bits t - 1) else 2 ^ ity_bits t in
  exists c', read_as cursor_ops t n c = ((if v <? bound then Ok v else Err BadCast), c') /\
             tell_bit c' = tell_bit c + n /\ content c' = content c.
Proof. exact read_as_main. Qed.
Print Assumptions C10_read_as_checked_cast.

Example C10_example :
  fst (read_as cursor_ops u8t 10 ex_cur) = Err BadCast /\ fst (read_as cursor_ops u16t 10 ex_cur) = fst (read 10 ex_cur).
Proof. split; vm_compute; reflexivity. Qed.

(** The types of Rust; usize and isize are u64 and i64. *)
Theorem C10_primitive_types : forall e c t bound n,
  In (t, bound) [(u8t, 256); (u16t, 65536); (u32t, 4294967296); (u64t, 18446744073709551616);
                 (i8t, 128); (i16t, 32768); (i32t, 2147483648); (i64t, 9223372036854775808)] ->
  reachable e c -> 1 <= n <= 63 -> tell_bit c + n <= bit_len c ->
  let v := N_of_bits (sub_bits (tell_bit c) n (content c)) in
  exists c', read_as cursor_ops t n c = ((if v <? bound then Ok v else Err BadCast), c').
Proof.
  intros e c t bound n I R Hn Hr v. destruct (read_as_main e c t n R Hn Hr) as (c' & E & _). exists c'. rewrite E. unfold v.
  cbn in I. repeat destruct I as [[= <- <-]|I]; try contradiction; reflexivity.
Qed.
Print Assumptions C10_primitive_types.
Example C10_primitive_example :
  fst (read_as cursor_ops i16t 16 (cur_new (map b8 [255; 127]))) = Ok 32767 /\ fst (read_as cursor_ops i16t 16 (cur_new (map b8 [0; 128]))) = Err BadCast.
Proof. split; vm_compute; reflexivity. Qed.

(** f32 and f64: never [BadCast]; the number is rounded, so it is the one [read] returns only if the type has it. *)
Theorem C10_read_as_float_partial : forall e c t n, In t [f32t; f64t] ->
  reachable e c -> 1 <= n <= 63 -> tell_bit c + n <= bit_len c ->
  let v := N_of_bits (sub_bits (tell_bit c) n (content c)) in
  let p := if fty_bits t =? 32 then 24 else 53 in
  exists x c', read_as_float cursor_ops t n c = (Ok x, c') /\ rounds_to p v x /\ (x = v <-> representable p v) /\
               tell_bit c' = tell_bit c + n /\ content c' = content c.
Proof.
  intros e c t n I HR Hn Hr v p. assert (1 <= fty_digits t /\ p = fty_digits t) as [D ->] by (destruct I as [<-|[<-|[]]]; split; reflexivity || discriminate).
  exact (read_as_float_main e c t n HR D Hn Hr).
Qed.
Print Assumptions C10_read_as_float_partial.
Theorem C10_read_as_float_fails : forall c c' t n x, read_as_float cursor_ops t n c = (Err x, c') <-> read n c = (Err x, c').
Proof. intros c c' t n x. exact (read_as_float_fails c' c t n x). Qed.
Print Assumptions C10_read_as_float_fails.
Theorem C10_read_as_float_refuted : exists c, reachable debug_env c /\
  fst (read 25 c) = Ok 16777217 /\ fst (read_as_float cursor_ops f32t 25 c) = Ok 16777216 /\
  fst (read_exact_float cursor_ops f32t c) = Ok 16777216.
Proof.
  exists (cur_new (map b8 [1; 0; 0; 1])). split; [exists (cur_new (map b8 [1; 0; 0; 1])), []; split; [left; eexists; reflexivity|reflexivity]|].
  repeat split; vm_compute; reflexivity.
Qed.
Print Assumptions C10_read_as_float_refuted.
Theorem C10_read_exact_f64_always_fails : forall c, read_exact_float cursor_ops f64t c = (Err InvalidReadSize, c).
Proof. reflexivity. Qed.
Print Assumptions C10_read_exact_f64_always_fails.
(** Ties go to the even significand, here down and up; a number with few digits is exact. *)
Example C10_float_example :
  let c l := cur_new (map b8 l) in
  fst (read_as_float cursor_ops f32t 26 (c [2; 0; 0; 2])) = Ok 33554432 /\ fst (read_as_float cursor_ops f32t 26 (c [6; 0; 0; 2])) = Ok 33554440 /\
  fst (read_as_float cursor_ops f32t 32 (c [0; 1; 0; 255])) = Ok 4278190336 /\
  fst (read_as_float cursor_ops f64t 63 (c (repeat 255 8))) = Ok (2 ^ 63) /\ fst (read_as_float cursor_ops f32t 9 (c [1])) = Err Short.
Proof. repeat split; vm_compute; reflexivity. Qed.

(** u8, u16, u32 (any unsigned type narrower than 64 bits). *)
Theorem C10_read_exact_partial : forall e c t,
  reachable e c -> ity_signed t = false -> 1 <= ity_bits t <= 63 ->
  tell_bit c + ity_bits t <= bit_len c ->
  exists c', read_exact cursor_ops t c = (Ok (N_of_bits (sub_bits (tell_bit c) (ity_bits t) (content c))), c') /\
             tell_bit c' = tell_bit c + ity_bits t /\ content c' = content c.
Proof. exact read_exact_main. Qed.
Print Assumptions C10_read_exact_partial.

Example C10_exact_example :
  fst (read_exact cursor_ops u32t (cur_new ex_buf)) = Ok 0xEFBEADDE.
Proof. vm_compute. reflexivity. Qed.

Theorem C10_read_exact_signed : forall e c t,
  reachable e c -> ity_signed t = true -> 1 <= ity_bits t <= 63 ->
  tell_bit c + ity_bits t <= bit_len c ->
  let v := N_of_bits (sub_bits (tell_bit c) (ity_bits t) (content c)) in
  exists c', read_exact cursor_ops t c = ((if v <? 2 ^ (ity_bits t - 1) then Ok v else Err BadCast), c') /\
             tell_bit c' = tell_bit c + ity_bits t /\ content c' = content c.
Proof. exact read_exact_signed. Qed.
Print Assumptions C10_read_exact_signed.

Example C10_signed_example :
  fst (read_exact cursor_ops i8t (cur_new ex_buf)) = Err BadCast /\
  fst (read_exact cursor_ops i8t (cur_new [b8 127])) = Ok 127.
Proof. split; vm_compute; reflexivity. Qed.

(** 64-bit types can never be read. *)
Theorem C10_read_exact_64_always_fails : forall t c,
  ity_bits t = 64 -> read_exact cursor_ops t c = (Err InvalidReadSize, c).
Proof. exact read_exact_64. Qed.
Print Assumptions C10_read_exact_64_always_fails.

Example C10_exact_64_example : ity_bits u64t = 64 /\ tell_bit (cur_new ex_buf) + 64 <= bit_len (cur_new ex_buf).
Proof. split; vm_compute; [reflexivity|discriminate]. Qed.

Theorem C10_read_exact_64_refuted :
  exists c, reachable debug_env c /\ tell_bit c + 64 <= bit_len c /\
    fst (read_exact cursor_ops u64t c) = Err InvalidReadSize.
Proof.
  exists (cur_new ex_buf).
  split; [exists (cur_new ex_buf), []; split; [left; eexists; reflexivity|reflexivity]|].
  split; vm_compute; [discriminate|reflexivity].
Qed.
Print Assumptions C10_read_exact_64_refuted.

(** Signed types cannot hold what [read] returns for a negative number. *)
Theorem C10_read_exact_signed_refuted :
  exists c, reachable debug_env c /\ tell_bit c + 8 <= bit_len c /\
    fst (read 8 c) = Ok 255 /\ fst (read_exact cursor_ops i8t c) = Err BadCast.
Proof.
  exists (cur_new [b8 255]).
  split; [exists (cur_new [b8 255]), []; split; [left; eexists; reflexivity|reflexivity]|].
  repeat split; vm_compute; try reflexivity. discriminate.
Qed.
Print Assumptions C10_read_exact_signed_refuted.

(** *** C11 *)

Theorem C11_exhausted_iff_at_end : forall e c, reachable e c ->
  (exhausted c = true <-> tell_bit c = bit_len c) /\
  (exhausted c = true <-> exists x, fst (read 1 c) = Err x).
Proof. exact exhausted_main. Qed.
Print Assumptions C11_exhausted_iff_at_end.

Example C11_example :
  exhausted ex_cur = false /\ exhausted (snd (read 60 ex_cur)) = true /\ exhausted (snd (read 59 ex_cur)) = false.
Proof. repeat split; vm_compute; reflexivity. Qed.

(** *** C12 *)

Theorem C12_cursor_is_a_position_in_a_bit_string : forall e c0 ops,
  fresh c0 ->
  let c := fold_left (apply_op e) ops c0 in
  content c = content c0 /\ bit_len c = bit_len c0 /\ tell_bit c <= bit_len c /\
  (** the subtraction in [tell_bit] does not underflow *)
  bit_index c <= byte_pos c * 8 /\
  N.of_nat (length (content c)) = bit_len c /\
  forall n, 1 <= n <= 63 -> tell_bit c + n <= bit_len c ->
    exists c', read n c = (Ok (N_of_bits (sub_bits (tell_bit c) n (content c))), c') /\
               tell_bit c' = tell_bit c + n.
Proof. exact history_main. Qed.
Print Assumptions C12_cursor_is_a_position_in_a_bit_string.

Example C12_example : fresh (cur_new ex_buf) /\ bit_len ex_cur = 80 /\ tell_bit ex_cur = 20.
Proof. split; [left; eexists; reflexivity|]. split; vm_compute; reflexivity. Qed.

(** [read] panics in no reachable state. *)
Theorem C12_read_never_panics : forall e c n p, reachable e c -> fst (read n c) <> Panic p.
Proof. exact read_never_panics. Qed.
Print Assumptions C12_read_never_panics.
