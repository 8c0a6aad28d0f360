(** Model of the example program of llvm-bitstream and of trait implementations on alignments that
    the other models do not need. *)
From Verif Require Import Base CursorModel StreamModel Strings SupportModel.
Local Open Scope N_scope.

(** ** llvm-bitstream/examples/dump-bitstream.rs *)

(** One line of output: dump-bitstream.rs:31-33 (the [Debug] text of the wrapper is the wrapper),
    35, 41, 46 and 49-54; [tabs] is the number of tabulators at the beginning of the line. *)
Inductive line : Set :=
| LWrapper (w : wrapper) | LMagic (magic : N)
| LBlock (tabs : N) (bid : N) | LEnd (tabs : N) | LRecord (tabs : N) (code : N) (fields : list N).

(** dump-bitstream.rs:45 [scope -= 1] on a usize. *)
Definition scope_dec {E} (e : env) (scope : N) : outcome E N :=
  if 1 <=? scope then Ok (scope - 1) else if overflow_checks e then Panic PSubOverflow else Ok u64_max.

(** dump-bitstream.rs:37-57: the loop; the lines printed and how it ends. The memory for the
    tabulators is not modelled. *)
Fixpoint dump_loop (fuel : nat) (e : env) (scope : N) (s : sparser cursor) : list line * outcome serr unit :=
  match fuel with
  | O => ([], OutOfFuel)
  | S f =>
      match next e cursor_ops s with
      | (None, _) => ([], Ok tt)
      | (Some (Err x), _) => ([], Err x)
      | (Some (Panic p), _) => ([], Panic p)
      | (Some OutOfFuel, _) => ([], OutOfFuel)
      | (Some (Ok (ESubBlock bid _)), s') =>
          let (l, r) := dump_loop f e (scope + 1) s' in (LBlock scope bid :: l, r)
      | (Some (Ok EEndBlock), s') =>
          match scope_dec e scope with
          | Ok scope' => let (l, r) := dump_loop f e scope' s' in (LEnd scope' :: l, r)
          | Err x => ([], Err x)
          | Panic p => ([], Panic p)
          | OutOfFuel => ([], OutOfFuel)
          end
      | (Some (Ok (ERecord _ code fields)), s') =>
          let (l, r) := dump_loop f e scope s' in (LRecord scope code fields :: l, r)
      end
  end.

(** dump-bitstream.rs:20-60 [main], from the contents of the file on. Each entry costs at least
    one bit, hence the fuel. *)
Definition dump (e : env) (buf : list byte) : list line * outcome serr unit :=
  match from e buf with
  | Ok (w, b) =>
      let header := match w with Some w => [LWrapper w] | None => [] end ++ [LMagic (bs_magic b)] in
      let (l, r) := dump_loop (S (8 * length buf)) e 0 (bs_parser b) in (header ++ l, r)
  | Err x => ([], Err x)
  | Panic p => ([], Panic p)
  | OutOfFuel => ([], OutOfFuel)
  end.

(** ** llvm-support/src/align.rs *)

(** align.rs:319-329 [PartialOrd] and [Ord] for [TypeAlignSpec], 573-583 for [PointerAlignSpec]. *)
Definition ts_cmp (x y : type_spec) : comparison := at_cmp (ts_type x) (ts_type y).
(** align.rs:579-583 [Ord for PointerAlignSpec]. *)
Definition ps_cmp (x y : ptr_spec) : comparison := ps_space x ?= ps_space y.
(** align.rs:30: the derived [Ord] of [Align], and [PartialEq]. *)
Definition align_cmp (x y : align) : comparison := a_shift x ?= a_shift y.
(** align.rs:30: the derived [PartialEq] of [Align]. *)
Definition align_eqb (x y : align) : bool := a_shift x =? a_shift y.

(** [Display for u64]: decimal digits without leading zeros. *)
Fixpoint decimal_loop (fuel : nat) (v : N) (acc : str) : str :=
  match fuel with
  | O => acc
  | S f => let acc := (ch "0" + v mod 10) :: acc in if v / 10 =? 0 then acc else decimal_loop f (v / 10) acc
  end.
(** [write!(f, "{}", _)] of a u64 (align.rs:43); there are no more decimal digits than binary ones. *)
Definition decimal (v : N) : str := decimal_loop (S (N.to_nat (N.log2 v))) v [].

(** align.rs:41-45 [Display for Align]. *)
Definition align_display (e : env) (a : align) : outcome align_err str := let? b := byte_align e a in Ok (decimal b).
