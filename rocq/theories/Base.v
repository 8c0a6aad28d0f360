(** Common vocabulary: outcomes of Rust functions, the state-passing monad, and
    the fixed-width arithmetic used by the models. *)
From Coq Require Export List NArith ZArith Bool.
From Coq Require Strings.Byte.
Export ListNotations.
Notation byte := Byte.byte.

(** Sites at which the Rust code can panic (or is prevented from panicking only
    by an argument made in a comment). *)
Inductive panic : Set :=
| PShiftOverflow      (* u64 << shift with shift >= 64, overflow checks on: llvm-bitcursor/src/lib.rs:301; align.rs:113 *)
| PAddOverflow        (* i64/usize addition overflow, overflow checks on: llvm-bitcursor/src/lib.rs:374, 376; strtab.rs:82 *)
| PSubOverflow        (* usize/u64 subtraction underflow, overflow checks on: unroll.rs:37, 57 *)
| PAbbrevCount        (* num_abbrev_opnds - 2 with one operand, overflow checks on: abbrev.rs:177 *)
| PMulOverflow        (* multiplication overflow, overflow checks on: align.rs:118 *)
| PSliceRange         (* slice or vector index out of range: unroll.rs:42, 62; strtab.rs:87; attributes.rs:396; align.rs:344, 614; datalayout.rs:145, 219 *)
| PAlloc              (* Vec::with_capacity: capacity overflow or allocation failure: parser.rs:325; abbrev.rs:81, 101; type_table.rs:231 *)
| PSetBidNoField      (* record.fields[0] on an empty SETBID record: parser.rs:335 *)
| PRemoveEmpty        (* fields.remove(0) on an empty field list: parser.rs:366 *)
| PNoScope            (* scopes.last().unwrap() on an empty scope stack: parser.rs:194, 202, 270 *)
| PChar6Range         (* CHAR6_ALPHABET[i] out of range: abbrev.rs:53 *)
| PUnimplemented      (* unimplemented!() / todo!(): attributes.rs:478 *)
| PUnwrap.            (* unwrap()/expect() on None/Err: align.rs:343; datalayout.rs:117 *)

(** The result of running a Rust function: [Ok]/[Err] are the two variants of
    [Result]; [Panic] is an unwinding panic or an abort; [OutOfFuel] is an
    artefact of recursion on fuel, shown not to arise by the theorems. *)
Inductive outcome (E A : Type) : Type :=
| Ok (a : A)
| Err (e : E)
| Panic (p : panic)
| OutOfFuel.
Arguments Ok {E A} a.
Arguments Err {E A} e.
Arguments Panic {E A} p.
Arguments OutOfFuel {E A}.

(** State-passing computations ([&mut self] methods). *)
Definition M (St E A : Type) : Type := St -> outcome E A * St.

(** [Ok(a)]. *)
Definition ret {St E A} (a : A) : M St E A := fun s => (Ok a, s).
(** [return Err(e)]. *)
Definition fail {St E A} (e : E) : M St E A := fun s => (Err e, s).
(** A panic. *)
Definition crash {St E A} (p : panic) : M St E A := fun s => (Panic p, s).
(** No more fuel. *)
Definition no_fuel {St E A} : M St E A := fun s => (OutOfFuel, s).

(** The [?] operator. *)
Definition bind {St E A B} (m : M St E A) (k : A -> M St E B) : M St E B :=
  fun s => match m s with
           | (Ok a, s') => k a s'
           | (Err e, s') => (Err e, s')
           | (Panic p, s') => (Panic p, s')
           | (OutOfFuel, s') => (OutOfFuel, s')
           end.

(** [?] with a [From] conversion between error types. *)
Definition lift_err {St E F A} (f : E -> F) (m : M St E A) : M St F A :=
  fun s => match m s with
           | (Ok a, s') => (Ok a, s')
           | (Err e, s') => (Err (f e), s')
           | (Panic p, s') => (Panic p, s')
           | (OutOfFuel, s') => (OutOfFuel, s')
           end.

(** The same for functions without state. *)
Definition obind {E A B} (m : outcome E A) (k : A -> outcome E B) : outcome E B :=
  match m with
  | Ok a => k a
  | Err e => Err e
  | Panic p => Panic p
  | OutOfFuel => OutOfFuel
  end.

(** [map_err(f)]. *)
Definition omap_err {E F A} (f : E -> F) (m : outcome E A) : outcome F A :=
  match m with
  | Ok a => Ok a
  | Err e => Err (f e)
  | Panic p => Panic p
  | OutOfFuel => OutOfFuel
  end.

Declare Scope m_scope.
Delimit Scope m_scope with m.
Notation "x <- m ;; k" := (bind m (fun x => k))
  (at level 61, m at next level, right associativity) : m_scope.
Notation "m ;;; k" := (bind m (fun _ => k))
  (at level 61, right associativity) : m_scope.
Notation "'let?' x ':=' m 'in' k" := (obind m (fun x => k))
  (at level 200, x pattern, m at level 100, k at level 200, right associativity).

(** Build and machine parameters.
    [overflow_checks]: whether the crate is compiled with arithmetic overflow
    checks (the debug profile) or without (release).
    [alloc_limit]: the largest element count for which [Vec::with_capacity]
    succeeds; larger requests panic ("capacity overflow") or abort. One limit is
    used for all element types (simplification). *)
Record env : Set := { overflow_checks : bool; alloc_limit : N }.

(** The debug profile, with a limit used in examples only. *)
Definition debug_env : env := {| overflow_checks := true; alloc_limit := 1000 |}.
(** The release profile, with a limit used in examples only. *)
Definition release_env : env := {| overflow_checks := false; alloc_limit := 1000 |}.

(** 2^64. *)
Definition two64 : N := 18446744073709551616.
(** 2^32. *)
Definition two32 : N := 4294967296.
(** [u64::MAX], which is [usize::MAX] too. *)
Definition u64_max : N := 18446744073709551615.

(** [x << s] on u64 for [s < 64]: bits shifted out are lost. *)
Definition shl64 (x s : N) : N := (N.shiftl x s) mod two64.

(** [x as i64] and [x as u64]. *)
Definition as_i64 (x : N) : Z :=
  if (x mod two64 <? 9223372036854775808)%N then Z.of_N (x mod two64)
  else (Z.of_N (x mod two64) - 18446744073709551616)%Z.
(** [x as u64] of an i64 (llvm-bitcursor/src/lib.rs:374, 376). *)
Definition as_u64 (z : Z) : N := Z.to_N (z mod 18446744073709551616)%Z.
(** [i64::MIN]. *)
Definition i64_min : Z := (-9223372036854775808)%Z.
(** [i64::MAX]. *)
Definition i64_max : Z := 9223372036854775807%Z.

(** [&l[a..b]]: [None] is the panic for an out-of-range slice. *)
Definition slice {A} (l : list A) (a b : N) : option (list A) :=
  if ((a <=? b) && (b <=? N.of_nat (length l)))%N
  then Some (firstn (N.to_nat (b - a)) (skipn (N.to_nat a) l))
  else None.

(** Literal bytes for examples; out-of-range numbers are reduced mod 256. *)
Definition b8 (n : N) : byte :=
  match Byte.of_N (n mod 256) with Some b => b | None => Byte.x00 end.
