(** Rust strings and the standard-library functions on them that the code calls.

    A [&str]/[String] is the list of its characters (Unicode scalar values); its bytes are
    the UTF-8 encoding. Standard-library behaviour is modelled from the standard
    library's documentation, it is not part of /repo. *)
From Coq Require Export Ascii String.
From Verif Require Export Base.
Local Open Scope N_scope.

Definition str : Set := list N.

(** Character and string literals (datalayout.rs:118-213; align.rs:349-416). *)
Definition ch (a : ascii) : N := N_of_ascii a.
Arguments ch a%char.
(** String literals of the specification and of examples. *)
Fixpoint lit (s : string) : str :=
  match s with
  | EmptyString => []
  | String a s' => ch a :: lit s'
  end.
Arguments lit s%string.

(** The standard library's [char]: a Unicode scalar value. *)
Definition is_scalar_value (c : N) : bool :=
  (c <? 0xD800) || ((0xDFFF <? c) && (c <? 0x110000)).

(** [str::is_ascii] (datalayout.rs:103). *)
Definition is_ascii (s : str) : bool := forallb (fun c => c <? 128) s.

(** [&s[1..]] on a non-empty string: the slice panics when byte 1 is not a character
    boundary, that is, when the first character takes more than one byte. *)
Definition tail_from_1 {E} (s : str) : outcome E str :=
  match s with
  | [] => Panic PSliceRange
  | c :: s' => if c <? 128 then Ok s' else Panic PSliceRange
  end.

(** [str::split(c)] (datalayout.rs:108, 220, 239; align.rs:345, 352, 614; module.rs:190) for a single character: always at least one piece. *)
Fixpoint split_on (c : N) (s : str) : list str :=
  match s with
  | [] => [[]]
  | x :: s' =>
      if x =? c then [] :: split_on c s'
      else match split_on c s' with
           | p :: ps => (x :: p) :: ps
           | [] => [[x]]
           end
  end.

(** [core::num::IntErrorKind] (in the [ParseIntError] of datalayout.rs:41, align.rs:291) as produced by the unsigned [from_str] functions. *)
Inductive int_err : Set := IntEmpty | IntInvalidDigit | IntPosOverflow.

(** The digit loop of [from_str_radix(_, 10)]: in each step the multiplication is done
    first, an invalid digit is reported before an overflow of the multiplication. *)
Fixpoint parse_digits (max : N) (acc : N) (s : str) : outcome int_err N :=
  match s with
  | [] => Ok acc
  | c :: s' =>
      if (48 <=? c) && (c <=? 57) then
        if max <? acc * 10 then Err IntPosOverflow
        else if max <? acc * 10 + (c - 48) then Err IntPosOverflow
        else parse_digits max (acc * 10 + (c - 48)) s'
      else Err IntInvalidDigit
  end.

(** [str::parse::<u32>] and [::<u64>]: an optional leading [+], then one or more digits. *)
Definition parse_uint (max : N) (s : str) : outcome int_err N :=
  match s with
  | [] => Err IntEmpty
  | c :: s' =>
      if c =? ch "+" then
        match s' with
        | [] => Err IntInvalidDigit
        | _ => parse_digits max 0 s'
        end
      else parse_digits max 0 s
  end.
(** [u32::MAX]. *)
Definition u32_max : N := 4294967295.
(** [str::parse::<u32>] (datalayout.rs:125, 128, 131, 222, 240; align.rs:397, 627). *)
Definition parse_u32 : str -> outcome int_err N := parse_uint u32_max.
(** [str::parse::<u64>] (datalayout.rs:122, 145; align.rs:369-407, 629-644). *)
Definition parse_u64 : str -> outcome int_err N := parse_uint u64_max.

(** [iter.map(f).collect::<Result<Vec<_>, _>>()] (unroll.rs:45, 65, 413; module.rs:108, 116, 165, 200, 208, 214, 223 and others): first error wins. *)
Fixpoint collect {E A B} (f : A -> outcome E B) (l : list A) : outcome E (list B) :=
  match l with
  | [] => Ok []
  | a :: l' => let? b := f a in let? bs := collect f l' in Ok (b :: bs)
  end.

(** [Option::ok_or] and [ok_or_else] (unroll.rs:281, 324, 353; strtab.rs:59 and others). *)
Definition ok_or {E A} (o : option A) (x : E) : outcome E A :=
  match o with Some a => Ok a | None => Err x end.

(** UTF-8 validation and decoding as done by [str::from_utf8]/[String::from_utf8]
    (Unicode standard, table 3-7): no overlong forms, no surrogates, nothing above
    U+10FFFF. [None] is the error, of which [utf8_error] is the contents. *)
Definition cont (b : N) : bool := (0x80 <=? b) && (b <=? 0xBF).
(** A byte range of that table. *)
Definition between (a b x : N) : bool := (a <=? x) && (x <=? b).
(** unroll.rs:48, attributes.rs:407 ([String::from_utf8]), strtab.rs:86 ([str::from_utf8]). *)
Fixpoint utf8_decode (l : list N) : option str :=
  match l with
  | [] => Some []
  | b0 :: l0 =>
      if b0 <? 0x80 then option_map (cons b0) (utf8_decode l0)
      else if between 0xC2 0xDF b0 then
        match l0 with
        | b1 :: l1 =>
            if cont b1
            then option_map (cons ((b0 - 0xC0) * 64 + (b1 - 0x80))) (utf8_decode l1)
            else None
        | _ => None
        end
      else if between 0xE0 0xEF b0 then
        match l0 with
        | b1 :: b2 :: l2 =>
            if (if b0 =? 0xE0 then between 0xA0 0xBF b1
                else if b0 =? 0xED then between 0x80 0x9F b1
                else cont b1) && cont b2
            then option_map (cons ((b0 - 0xE0) * 4096 + (b1 - 0x80) * 64 + (b2 - 0x80)))
                   (utf8_decode l2)
            else None
        | _ => None
        end
      else if between 0xF0 0xF4 b0 then
        match l0 with
        | b1 :: b2 :: b3 :: l3 =>
            if (if b0 =? 0xF0 then between 0x90 0xBF b1
                else if b0 =? 0xF4 then between 0x80 0x8F b1
                else cont b1) && cont b2 && cont b3
            then option_map (cons ((b0 - 0xF0) * 262144 + (b1 - 0x80) * 4096
                                   + (b2 - 0x80) * 64 + (b3 - 0x80))) (utf8_decode l3)
            else None
        | _ => None
        end
      else None
  end.

(** [Utf8Error]: [valid_up_to] and [error_len]. *)
Record utf8_err : Set := mkUtf8Err { valid_up_to : N; error_len : option N }.
(** The error for bytes that [utf8_decode] rejects, [off] bytes of the buffer being before them
    ([run_utf8_validation] in core: [None] at the end of the buffer inside a character, else the number
    of bytes before the one that does not fit). On other bytes the result has no meaning. *)
Fixpoint utf8_error (off : N) (l : list N) : utf8_err :=
  match l with
  | [] => mkUtf8Err off None
  | b0 :: l0 =>
      if b0 <? 0x80 then utf8_error (off + 1) l0
      else if between 0xC2 0xDF b0 then
        match l0 with
        | [] => mkUtf8Err off None
        | b1 :: l1 => if cont b1 then utf8_error (off + 2) l1 else mkUtf8Err off (Some 1)
        end
      else if between 0xE0 0xEF b0 then
        match l0 with
        | [] => mkUtf8Err off None
        | b1 :: l1 =>
            if negb (if b0 =? 0xE0 then between 0xA0 0xBF b1
                     else if b0 =? 0xED then between 0x80 0x9F b1
                     else cont b1) then mkUtf8Err off (Some 1)
            else
              match l1 with
              | [] => mkUtf8Err off None
              | b2 :: l2 => if cont b2 then utf8_error (off + 3) l2 else mkUtf8Err off (Some 2)
              end
        end
      else if between 0xF0 0xF4 b0 then
        match l0 with
        | [] => mkUtf8Err off None
        | b1 :: l1 =>
            if negb (if b0 =? 0xF0 then between 0x90 0xBF b1
                     else if b0 =? 0xF4 then between 0x80 0x8F b1
                     else cont b1) then mkUtf8Err off (Some 1)
            else
              match l1 with
              | [] => mkUtf8Err off None
              | b2 :: l2 =>
                  if negb (cont b2) then mkUtf8Err off (Some 2)
                  else
                    match l2 with
                    | [] => mkUtf8Err off None
                    | b3 :: l3 => if cont b3 then utf8_error (off + 4) l3 else mkUtf8Err off (Some 3)
                    end
              end
        end
      else mkUtf8Err off (Some 1)
  end.

(** The UTF-8 encoding of a string, [str::as_bytes]. *)
Definition utf8_char (c : N) : list N :=
  if c <? 0x80 then [c]
  else if c <? 0x800 then [0xC0 + c / 64; 0x80 + c mod 64]
  else if c <? 0x10000 then [0xE0 + c / 4096; 0x80 + (c / 64) mod 64; 0x80 + c mod 64]
  else [0xF0 + c / 262144; 0x80 + (c / 4096) mod 64; 0x80 + (c / 64) mod 64; 0x80 + c mod 64].
(** [as_bytes] of a whole string (attributes.rs:410). *)
Definition utf8_encode (s : str) : list N := flat_map utf8_char s.

(** A beginning of a character. *)
Definition begins_char (p : list N) : Prop := exists c t, is_scalar_value c = true /\ utf8_char c = p ++ t.

(** What the standard library documents: [valid_up_to] is the length of the longest beginning that is a
    string. Then comes no whole character: either the buffer ends inside one ([None]), or [error_len] is the
    length of the longest beginning of a character, at least one. *)
Definition utf8_fault (raw : list N) (x : utf8_err) : Prop :=
  exists good rest s, raw = good ++ rest /\ forallb is_scalar_value s = true /\ utf8_encode s = good /\
    N.of_nat (length good) = valid_up_to x /\
    rest <> [] /\ (forall c t, is_scalar_value c = true -> rest <> utf8_char c ++ t) /\
    match error_len x with
    | None => begins_char rest
    | Some n => 1 <= n <= N.of_nat (length rest) /\ (n = 1 \/ begins_char (firstn (N.to_nat n) rest)) /\
                ~ begins_char (firstn (S (N.to_nat n)) rest)
    end.
