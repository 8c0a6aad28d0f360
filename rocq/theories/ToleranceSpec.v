(** Specification: what LLVM's reader makes of fields of width zero.

    [BitstreamCursor::ReadAbbrevRecord] (llvm/lib/Bitstream/Reader/BitstreamReader.cpp): "As a special case, handle fixed(0) (i.e., a
    fixed field with zero bits) and vbr(0) as a literal zero. This is decoded the same way, and avoids ever having to read a zero-bit
    field." *)
From Verif Require Import Base CursorModel StreamModel.
Local Open Scope N_scope.

Definition zero_width (op : abbrev_op) : bool := match op with OpFixed w | OpVbr w => w =? 0 | _ => false end.
Definition as_llvm (op : abbrev_op) : abbrev_op := if zero_width op then OpLiteral 0 else op.
(** The error of the first field of width zero, if there is one: [read] refuses zero bits (llvm-bitcursor/src/lib.rs:214-216),
    [read_vbr] refuses a width below two (287-289). *)
Definition zero_width_error (a : abbrev) : option cerr :=
  match find zero_width a with Some (OpFixed _) => Some InvalidReadSize | Some _ => Some InvalidVbrWidth | None => None end.
