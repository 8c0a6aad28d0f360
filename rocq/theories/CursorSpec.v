(** Specification vocabulary for bit-level reading: data as a string of bits
    (LSB-first within each byte), numbers as little-endian bit strings, and the
    LLVM VBR encodings. Nothing here mentions the cursor's implementation. *)
From Verif Require Import Base.
Local Open Scope N_scope.

(** The eight bits of a byte, least significant first. *)
Definition byte_bits (b : byte) : list bool :=
  map (fun i => N.testbit (Byte.to_N b) i) [0; 1; 2; 3; 4; 5; 6; 7].

(** The bit string held by a sequence of bytes. *)
Definition bits_of_bytes (bs : list byte) : list bool := flat_map byte_bits bs.

(** The number whose binary digits, least significant first, are given. *)
Fixpoint N_of_bits (bs : list bool) : N :=
  match bs with
  | [] => 0
  | b :: bs' => (if b then 1 else 0) + 2 * N_of_bits bs'
  end.

(** The [n] low binary digits of [v], least significant first. *)
Fixpoint bits_of_N (n : nat) (v : N) : list bool :=
  match n with
  | O => []
  | S n' => N.odd v :: bits_of_N n' (v / 2)
  end.

(** A field of fixed width. *)
Definition fixed_bits (width v : N) : list bool := bits_of_N (N.to_nat width) v.

(** LLVM's VBR encoding of width [w]: groups of [w-1] payload bits, each followed by
    a continuation bit, least significant group first (BitstreamWriter::EmitVBR64).
    The first argument bounds the number of groups. *)
Fixpoint vbr_groups (n : nat) (w v : N) : list bool :=
  match n with
  | O => fixed_bits w v
  | S n' =>
      if v <? 2 ^ (w - 1) then fixed_bits w v
      else fixed_bits (w - 1) v ++ [true] ++ vbr_groups n' w (v / 2 ^ (w - 1))
  end.

(** A number has at most as many groups as it has binary digits. *)
Definition vbr_bits (w v : N) : list bool := vbr_groups (N.size_nat v) w v.

(** LLVM's signed VBR (emitSignedInt64): sign in bit 0, magnitude above;
    [i64::MIN] is written as 1. *)
Definition svbr_number (z : Z) : N :=
  if (0 <=? z)%Z then Z.to_N z * 2
  else (Z.to_N (- z) * 2 + 1) mod two64.
Definition svbr_bits (w : N) (z : Z) : list bool := vbr_bits w (svbr_number z).
