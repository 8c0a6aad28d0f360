(** Model of [BitCursor], /repo/llvm-bitcursor/src/lib.rs. *)
From Verif Require Import Base.
Local Open Scope N_scope.

(** llvm-bitcursor/src/error.rs:9-31. *)
Inductive cerr : Set :=
| Eof | InvalidLength | BadCast | InvalidReadSize | InvalidVbrWidth | Short.

(** lib.rs:33-52 [struct BitCursor]. The buffer type [T: AsRef<[u8]>] is a list of
    bytes (simplification: [as_ref] is assumed to return the same slice on each
    call). *)
Record cursor : Set := mkCursor {
  byte_len : N;
  inner : list byte;
  byte_pos : N;
  current_block : N;
  bit_index : N
}.

(** lib.rs:60-68 [BitCursor::new]. *)
Definition cur_new (buf : list byte) : cursor :=
  mkCursor (N.of_nat (length buf)) buf 0 0 0.

(** lib.rs:73-85 [BitCursor::new_with_len]. *)
Definition cur_new_with_len (buf : list byte) (len : N) : outcome cerr cursor :=
  if N.of_nat (length buf) <? len then Err InvalidLength
  else Ok (mkCursor len buf 0 0 0).

(** lib.rs:93-95 [bit_len]. Unbounded (exact for buffers below 2^61 bytes). *)
Definition bit_len (c : cursor) : N := byte_len c * 8.

(** lib.rs:98-100 [tell_bit]. Unbounded multiplication (exact for buffers below 2^61
    bytes); the subtraction is truncated, the invariant in [CursorProofs] shows
    that it never underflows. *)
Definition tell_bit (c : cursor) : N := byte_pos c * 8 - bit_index c.

(** lib.rs:103-105 [tell_byte]. *)
Definition tell_byte (c : cursor) : N := tell_bit c / 8.

(** lib.rs:109-111 [exhausted]. *)
Definition exhausted (c : cursor) : bool :=
  (bit_index c =? 0) && (byte_len c <=? byte_pos c).

(** lib.rs:154-157 [clear_block_state]. *)
Definition clear_block_state (c : cursor) : cursor :=
  mkCursor (byte_len c) (inner c) (byte_pos c) 0 0.

(** lib.rs:181-184: the loop assembling [current_block]; [idx] is the index of the
    next byte ([idx * 8 <= 56], so the shift never overflows). *)
Fixpoint assemble (idx : N) (bs : list byte) (acc : N) : N :=
  match bs with
  | [] => acc
  | b :: bs' => assemble (idx + 1) bs' (N.lor acc (shl64 (Byte.to_N b) (idx * 8)))
  end.

(** lib.rs:163-199 [load_current_block]. *)
Definition load_current_block : M cursor cerr unit := fun c =>
  if byte_len c <=? tell_byte c then (Err Eof, c)
  else
    let c := clear_block_state c in
    let block_bytes :=
      if tell_byte c + 8 <? byte_len c
      then slice (inner c) (tell_byte c) (tell_byte c + 8)
      else slice (inner c) (tell_byte c) (byte_len c) in
    match block_bytes with
    | None => (Panic PSliceRange, c)
    | Some bs =>
        (Ok tt, mkCursor (byte_len c) (inner c)
                         (byte_pos c + N.of_nat (length bs))
                         (assemble 0 bs 0)
                         (N.of_nat (length bs) * 8))
    end.

(** lib.rs:223/248: [block & (!0 >> (64 - n))] for [1 <= n <= 64]. *)
Definition mask_low (block n : N) : N := N.land block (N.shiftr u64_max (64 - n)).

(** lib.rs:225-226/250-251: drop [n] bits from the front of the block. *)
Definition drop_bits (n : N) (c : cursor) : cursor :=
  mkCursor (byte_len c) (inner c) (byte_pos c)
           (N.shiftr (current_block c) n) (bit_index c - n).

(** lib.rs:206-261 [read]. *)
Definition read (nbits : N) : M cursor cerr N := fun c =>
  if (nbits =? 0) || (64 <=? nbits) then (Err InvalidReadSize, c)
  else if nbits <=? bit_index c then
    (Ok (mask_low (current_block c) nbits), drop_bits nbits c)
  else
    let bits_left := nbits - bit_index c in
    let part_1 := if 0 <? bit_index c then current_block c else 0 in
    match load_current_block c with
    | (Ok _, c') =>
        if bit_index c' <? bits_left then (Err Short, c')
        else
          let part_2 := mask_low (current_block c') bits_left in
          (Ok (N.lor part_1 (shl64 part_2 (nbits - bits_left))),
           drop_bits bits_left c')
    | (Err e, c') => (Err e, c')
    | (Panic p, c') => (Panic p, c')
    | (OutOfFuel, c') => (OutOfFuel, c')
    end.

(** lib.rs:118-147 [seek_bit]. [(pos / 8) & !7]. *)
Definition seek_bit (pos : N) : M cursor cerr unit := fun c =>
  let bp := N.ldiff (pos / 8) 7 in
  if byte_len c <? bp then (Err Eof, c)
  else
    let c := clear_block_state (mkCursor (byte_len c) (inner c) bp 0 0) in
    let bits_to_consume := pos mod 64 in
    if 0 <? bits_to_consume then
      match read bits_to_consume c with
      | (Ok _, c') => (Ok tt, c')
      | (Err e, c') => (Err e, c')
      | (Panic p, c') => (Panic p, c')
      | (OutOfFuel, c') => (OutOfFuel, c')
      end
    else (Ok tt, c).

(** lib.rs:338-347 [align32]. *)
Definition align32 (c : cursor) : cursor :=
  if 32 <=? bit_index c then
    mkCursor (byte_len c) (inner c) (byte_pos c)
             (N.shiftr (current_block c) (bit_index c - 32)) 32
  else clear_block_state c.

(** std::io::SeekFrom, with the u64/i64 arguments as [N]/[Z]. *)
Inductive seek_from : Set :=
| SeekStart (pos : N)
| SeekEnd (pos : Z)
| SeekCurrent (pos : Z).

(** std::io::ErrorKind, the two kinds used at lib.rs:367-370 and 385-388. *)
Inductive seek_err : Set := SeekUnsupported | SeekInvalidInput.

(** i64 addition: panics (overflow checks) or wraps. *)
Definition add_i64 (e : env) (a b : Z) : outcome seek_err Z :=
  let s := (a + b)%Z in
  if ((i64_min <=? s) && (s <=? i64_max))%Z then Ok s
  else if overflow_checks e then Panic PAddOverflow
  else Ok (as_i64 (as_u64 s)).

(** lib.rs:363-377: computation of the target offset. *)
Definition seek_offset (e : env) (c : cursor) (sf : seek_from) : outcome seek_err N :=
  match sf with
  | SeekStart pos => Ok pos
  | SeekEnd pos =>
      if (0 <=? pos)%Z then Err SeekUnsupported
      else let? s := add_i64 e (as_i64 (byte_len c)) pos in Ok (as_u64 s)
  | SeekCurrent pos =>
      let? s := add_i64 e (as_i64 (tell_byte c)) pos in Ok (as_u64 s)
  end.

(** lib.rs:357-399 [io::Seek::seek]. *)
Definition seek (e : env) (sf : seek_from) : M cursor seek_err N := fun c =>
  match seek_offset e c sf with
  | Ok off =>
      if byte_len c <? off then (Err SeekInvalidInput, c)
      else (Ok off, clear_block_state (mkCursor (byte_len c) (inner c) off
                                                (current_block c) (bit_index c)))
  | Err x => (Err x, c)
  | Panic p => (Panic p, c)
  | OutOfFuel => (OutOfFuel, c)
  end.

(** lib.rs:401-403 [io::Seek::stream_position]. *)
Definition stream_position (c : cursor) : N := tell_byte c.

(** ** Operations defined on top of [read] and [align32]

    The methods below (and the whole bitstream parser) reach the cursor only
    through [read], [align32] and [exhausted]; they are written over a record of
    these operations, instantiated with the model above by [cursor_ops].
    [op_fuel] bounds loops whose iterations each consume at least one bit. *)
Record cops (C : Type) : Type := mkCops {
  op_read : N -> M C cerr N;
  op_align32 : C -> C;
  op_exhausted : C -> bool;
  op_fuel : C -> nat
}.
Arguments op_read {C}.
Arguments op_align32 {C}.
Arguments op_exhausted {C}.
Arguments op_fuel {C}.

(** The operations of [BitCursor]: lib.rs:206-261 [read], 338-347 [align32], 109-111 [exhausted]. *)
Definition cursor_ops : cops cursor :=
  mkCops cursor read align32 exhausted
         (fun c => S (N.to_nat (bit_len c - tell_bit c))).

(** Integer types for [read_as]/[read_exact]: signedness and size in bits
    (u8..u64, i8..i64, usize, isize). Floating-point targets of [NumCast] are in
    FloatModel.v. *)
Record ity : Set := mkIty { ity_signed : bool; ity_bits : N }.
(** The primitive type u8 as a target of lib.rs:267-277. *)
Definition u8t := mkIty false 8.
(** The primitive type u16 as a target of lib.rs:267-277. *)
Definition u16t := mkIty false 16.
(** The primitive type u32 as a target of lib.rs:267-277. *)
Definition u32t := mkIty false 32.
(** The primitive type u64 as a target of lib.rs:267-277. *)
Definition u64t := mkIty false 64.
(** The primitive type i8 as a target of lib.rs:267-277. *)
Definition i8t := mkIty true 8.
(** The primitive type i16 as a target of lib.rs:267-277. *)
Definition i16t := mkIty true 16.
(** The primitive type i32 as a target of lib.rs:267-277. *)
Definition i32t := mkIty true 32.
(** The primitive type i64 as a target of lib.rs:267-277. *)
Definition i64t := mkIty true 64.

(** [num::cast::<u64, Int>]: [Some] exactly when the value is representable. *)
Definition num_cast (t : ity) (v : N) : option N :=
  if v <? (if ity_signed t then 2 ^ (ity_bits t - 1) else 2 ^ ity_bits t)
  then Some v else None.

Section Ops.
  Context {C : Type} (e : env) (ops : cops C).
  Local Open Scope m_scope.

  (** lib.rs:267-270 [read_as]. *)
  Definition read_as (t : ity) (nbits : N) : M C cerr N :=
    v <- op_read ops nbits ;;
    match num_cast t v with
    | Some x => ret x
    | None => fail BadCast
    end.

  (** lib.rs:275-277 [read_exact]; lib.rs:23-27 [bitsize]. *)
  Definition read_exact (t : ity) : M C cerr N := read_as t (ity_bits t).

  (** lib.rs:295-313: the VBR loop. *)
  Fixpoint vbr_loop (fuel : nat) (width result shift : N) : M C cerr N :=
    match fuel with
    | O => no_fuel
    | S f =>
        block <- op_read ops width ;;
        let block_mask := shl64 1 (width - 1) in
        if (64 <=? shift) && overflow_checks e then crash PShiftOverflow
        else
          let result' := N.lor result (shl64 (N.ldiff block block_mask) (shift mod 64)) in
          if N.land block block_mask =? 0 then ret result'
          else vbr_loop f width result' (shift + (width - 1))
    end.

  (** lib.rs:284-314 [read_vbr]. *)
  Definition read_vbr (width : N) : M C cerr N := fun c =>
    if (2 <=? width) && (width <=? 32)
    then vbr_loop (op_fuel ops c) width 0 0 c
    else (Err InvalidVbrWidth, c).

  (** lib.rs:321-333 [read_svbr]. [result >> 1 < 2^63], so the cast to isize and the
      negation are exact. *)
  Definition read_svbr (width : N) : M C cerr Z :=
    r <- read_vbr width ;;
    let m := N.shiftr r 1 in
    if N.land r 1 =? 0 then ret (Z.of_N m) else ret (- Z.of_N m)%Z.
End Ops.
