(** Model of [read_as] and [read_exact] with a floating-point type as target (llvm-bitcursor/src/lib.rs:267-277). *)
From Verif Require Import Base CursorModel.
Local Open Scope N_scope.

(** f32 and f64 as targets of lib.rs:267-277: bits of the significand and size in bits. *)
Record fty : Set := mkFty { fty_digits : N; fty_bits : N }.
(** The primitive type f32 as a target of lib.rs:267-277. *)
Definition f32t := mkFty 24 32.
(** The primitive type f64 as a target of lib.rs:267-277. *)
Definition f64t := mkFty 53 64.

(** [num::cast::<u64, f32>] and [num::cast::<u64, f64>] (lib.rs:268): [v as f32] and [v as f64], which round to
    the nearest, ties to even, and never fail. The results are integers, and the model returns them as such. *)
Definition float_cast (t : fty) (v : N) : N :=
  let k := N.size v - fty_digits t in
  let q := v / 2 ^ k in
  let r := v mod 2 ^ k in
  let up := (2 ^ k <? 2 * r) || ((2 * r =? 2 ^ k) && N.odd q) in
  (if up then q + 1 else q) * 2 ^ k.

Section Ops.
  Context {C : Type} (ops : cops C).
  Local Open Scope m_scope.
  (** lib.rs:267-270 [read_as]; [num::cast] is [Some]. *)
  Definition read_as_float (t : fty) (nbits : N) : M C cerr N :=
    v <- op_read ops nbits ;; ret (float_cast t v).
  (** lib.rs:275-277 [read_exact]; lib.rs:23-27 [bitsize]. *)
  Definition read_exact_float (t : fty) : M C cerr N := read_as_float t (fty_bits t).
End Ops.
