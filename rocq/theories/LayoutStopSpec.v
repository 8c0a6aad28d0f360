(** Vocabulary: why a data layout string is rejected. [number], [bits], [pieces] and [pref_text] are those
    of the language of layout strings. *)
From Verif Require Import Base Strings SupportModel SupportSpec LayoutModel LayoutSpec RuleSpec.
Local Open Scope N_scope.

(** What is behind the optional plus sign. *)
Definition digits_of (s d : str) : Prop := s = ch "+" :: d \/ (s = d /\ forall s', s <> ch "+" :: s').
(** Numbers up to [max]: the first character that is no digit, or that makes the number too large, decides. *)
Inductive number_rule (max : N) (s : str) : rule int_err :=
| NuFine n : number s n -> n <= max -> number_rule max s Fine
| NuEmpty : s = [] -> number_rule max s (Fails IntEmpty)
| NuPlus : s = [ch "+"] -> number_rule max s (Fails IntInvalidDigit)
| NuDigit ds c rest : digits_of s (ds ++ c :: rest) -> Forall digit ds -> ~ digit c -> numeral_value ds <= max ->
    number_rule max s (Fails IntInvalidDigit)
| NuLarge ds rest : digits_of s (ds ++ rest) -> Forall digit ds -> max < numeral_value ds -> number_rule max s (Fails IntPosOverflow).
(** A number and a rule for it. *)
Definition number_with {E} (max : N) (f : int_err -> E) (R : N -> rule E) (s : str) : rule E :=
  in_order [ relabel f (number_rule max s); fun v => exists n, number s n /\ R n v ].

(** Alignments in bits. *)
Inductive align_rule (n : N) : rule align_err :=
| AgFine k : n = 8 * 2 ^ k -> align_rule n Fine
| AgByte : ~ (exists m, n = 8 * m) -> align_rule n (Fails (ANotByteMultiple n))
| AgPower m : n = 8 * m -> (forall k, m <> 2 ^ k) -> align_rule n (Fails (ANotPowerOfTwo m)).
Definition bits_rule {E} (f : int_err -> E) (g : align_err -> E) : str -> rule E :=
  number_with (2 ^ 64 - 1) f (fun n => relabel g (align_rule n)).
(** Address spaces. *)
Definition address_rule {E} (f : int_err -> E) (g : space_err -> E) : str -> rule E :=
  number_with (2 ^ 32 - 1) f (fun n => demand (n <= 8388607) (g (SpTooBig n))).
(** A piece that may be missing. *)
Definition if_there {E} (o : option str) (R : str -> rule E) : rule E :=
  match o with Some s => R s | None => fun v => v = Fine end.

(** The alignments of a type: ABI, and maybe the preferred one; [more] is checked in between. *)
Definition alignments_rule (a : str) (l : list str) (more : list (rule spec_err)) : rule spec_err :=
  in_order ([ bits_rule (fun x => SeParse (ApNumber x)) SeParseAlign a;
              if_there (nth_error l 0) (bits_rule SeBadInt SeParseAlign) ] ++ more ++
            [ fun v => exists abi pref, bits a abi /\ pref_text abi l pref /\
                in_order [ demand (a_shift abi <= a_shift pref) (SeAlignPref pref abi);
                           demand (a_shift pref <= 15) (SeAbiAlignTooLarge abi) ] v ]).
(** [TypeAlignSpec::from_str] on the letter [c] and the rest [s]. *)
Inductive type_rule (c : N) (s : str) : rule spec_err :=
| TyNoAggregate : c = ch "a" -> s = [] -> type_rule c s (Fails (SeParse ApEmptyAggregate))
| TyNoColon x s' : c = ch "a" -> s = x :: s' -> x <> ch ":" -> type_rule c s (Fails (SeParse (ApBeforeAggregate x)))
| TyAggregate s' a l v : c = ch "a" -> s = ch ":" :: s' -> pieces (ch ":") s' (a :: l) -> alignments_rule a l [] v -> type_rule c s v
| TyOnePiece : c <> ch "a" -> ~ In (ch ":") s -> type_rule c s (Fails (SeParse (ApFewParts c 1)))
| TyScalar w a l v : c <> ch "a" -> pieces (ch ":") s (w :: a :: l) ->
    in_order [ number_with (2 ^ 32 - 1) (fun x => SeParse (ApNumber x)) (fun n => demand (1 <= n <= 8388607) (SeBadTypeWidth (WTooBig n))) w;
               alignments_rule a l [ demand (In c [ch "i"; ch "v"; ch "f"]) (SeParse (ApUnknownType c)) ] ] v -> type_rule c s v.
(** [PointerAlignSpec::from_str] behind the first character. *)
Inductive pointer_rule (s : str) : rule spec_err :=
| PoFew l : pieces (ch ":") s l -> (length l < 3)%nat -> pointer_rule s (Fails (SeParse (ApFewPointerParts (N.of_nat (length l)))))
| PoSpec p0 p1 p2 l v : pieces (ch ":") s (p0 :: p1 :: p2 :: l) ->
    in_order [ (fun v => p0 = [] /\ v = Fine \/ p0 <> [] /\ address_rule SeBadInt SeBadAddressSpace p0 v);
               relabel SeBadInt (number_rule (2 ^ 64 - 1) p1);
               bits_rule (fun x => SeParse (ApNumber x)) SeParseAlign p2;
               if_there (nth_error l 0) (bits_rule SeBadInt SeParseAlign);
               if_there (nth_error l 1) (fun x => relabel SeBadInt (number_rule (2 ^ 64 - 1) x)) ] v -> pointer_rule s v.
(** On whole strings: [x] for the empty one; the first character must be an ASCII one. *)
Inductive from_str_rule (x : spec_fault) (R : N -> str -> rule spec_err) (s : str) : rule spec_err :=
| FsEmpty : s = [] -> from_str_rule x R s (Fails (SeParse x))
| FsPanics c s' : s = c :: s' -> 128 <= c -> from_str_rule x R s (Panics PSliceRange)
| FsRest c s' v : s = c :: s' -> c < 128 -> R c s' v -> from_str_rule x R s v.

(** One specification of a layout string. *)
Inductive setting_rule : str -> rule layout_err :=
| SrEmpty : setting_rule [] (Fails LeEmptySpec)
| SrEndian c s : In c [ch "e"; ch "E"] -> setting_rule (c :: s) Fine
| SrStack s v : bits_rule LeBadInt LeBadAlign s v -> setting_rule (ch "S" :: s) v
| SrSpace c s v : In c [ch "P"; ch "G"; ch "A"] -> address_rule LeBadInt LeBadAddressSpace s v -> setting_rule (c :: s) v
| SrPointer s v : relabel LeBadAlignSpec (pointer_rule s) v -> setting_rule (ch "p" :: s) v
| SrType c s v : In c [ch "i"; ch "v"; ch "f"; ch "a"] -> relabel LeBadAlignSpec (type_rule c s) v -> setting_rule (c :: s) v
| SrNoFn : setting_rule [ch "F"] (Fails (LeBadSpecParse LfNoFn))
| SrFn x s v : in_order [ bits_rule LeBadInt LeBadAlign s; demand (In x [ch "i"; ch "n"]) (LeBadSpecParse (LfFnLetter x)) ] v -> setting_rule (ch "F" :: x :: s) v
| SrNoMangling : setting_rule [ch "m"] (Fails (LeBadSpecParse LfNoMangling))
| SrSeparator x s : x <> ch ":" -> setting_rule (ch "m" :: x :: s) (Fails (LeBadSpecParse (LfSeparator x)))
| SrNoKind : setting_rule [ch "m"; ch ":"] (Fails (LeBadSpecParse LfNoKind))
| SrMangling k s v : demand (exists m, In (m, k) mangling_letter) (LeBadSpecParse (LfKind k)) v -> setting_rule (ch "m" :: ch ":" :: k :: s) v
| SrNoNative : setting_rule [ch "n"] (Fails (LeBadSpecParse LfNoWidth))
| SrNoNonIntegral : setting_rule [ch "n"; ch "i"] (Fails (LeBadSpecParse LfNoSpace))
| SrNonIntegral x s l v : pieces (ch ":") s l ->
    in_order (map (number_with (2 ^ 32 - 1) LeBadInt (fun n => in_order [ demand (n <= 8388607) (LeBadAddressSpace (SpTooBig n));
                                                                         demand (n <> 0) (LeBadSpecParse LfSpaceZero) ])) l) v ->
    setting_rule (ch "n" :: ch "i" :: x :: s) v
| SrNative x s l v : x <> ch "i" -> pieces (ch ":") (x :: s) l -> in_order (map (fun p => relabel LeBadInt (number_rule (2 ^ 32 - 1) p)) l) v ->
    setting_rule (ch "n" :: x :: s) v
| SrUnknown c s : ~ In c (lit "eESPGApivfaFmn") -> setting_rule (c :: s) (Fails (LeUnknownSpec c)).
(** The whole string. *)
Definition layout_string_rule (s : str) : rule layout_err :=
  in_order [ demand (Forall (fun c => c < 128) s) LeBadEncoding;
             fun v => exists l, pieces (ch "-") s l /\ in_order (map setting_rule l) v ].
