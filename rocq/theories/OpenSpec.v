(** Vocabulary: which inputs can be starts, why the others cannot, and where the stream starts. *)
From Verif Require Import Base CursorModel CursorSpec CursorHist StreamModel StreamHist RuleSpec.
Local Open Scope N_scope.

(** The input starts with the word [n], least significant byte first. *)
Definition first_word (buf : list byte) (n : N) : Prop :=
  exists b0 b1 b2 b3 rest, buf = b0 :: b1 :: b2 :: b3 :: rest /\ word32 b0 b1 b2 b3 = n.
Definition wrapper_word : N := 0x0b17c0de.

Inductive open_rule (buf : list byte) : rule serr :=
| OgEmpty : buf = [] -> open_rule buf (Fails (SCursor Eof))
| OgCut : (0 < length buf < 4)%nat -> open_rule buf (Fails (SCursor Short))
| OgRaw n v : first_word buf n -> n <> wrapper_word -> demand (N.of_nat (length buf) mod 4 = 0) (SBadContainer BxLength) v -> open_rule buf v
| OgHeaderEnd : first_word buf wrapper_word -> (length buf < 20)%nat -> N.of_nat (length buf) mod 4 = 0 -> open_rule buf (Fails (SCursor Eof))
| OgHeaderCut : first_word buf wrapper_word -> (length buf < 20)%nat -> N.of_nat (length buf) mod 4 <> 0 -> open_rule buf (Fails (SCursor Short))
| OgWrapped w rest v : buf = wrapper_header w ++ rest -> wrapper_ok w -> wr_magic w = wrapper_word ->
    in_order [ demand (wr_size w <= N.of_nat (length rest)) (SCursor InvalidLength);
               demand (wr_offset w <= wr_size w + 20) (SStreamParse (PfSeek SeekInvalidInput));
               demand (wr_size w mod 4 = 0) (SBadContainer BxLength);
               demand (wr_offset w <> wr_size w + 20) (SBadContainer (BxMagic Eof));
               demand (wr_offset w + 4 <= wr_size w + 20) (SBadContainer (BxMagic Short)) ] v -> open_rule buf v.

(** The parser reads the first [len] bytes of the input, from the byte [start] on, where the magic is. *)
Definition starts_at (buf : list byte) (start len : N) (b : bitstream) : Prop :=
  first_word (skipn (N.to_nat start) buf) (bs_magic b) /\
  pos (bs_parser b) = 8 * start + 32 /\ total (bs_parser b) = 8 * len /\
  content (p_cur (bs_parser b)) = bits_of_bytes (firstn (N.to_nat len) buf) /\
  p_scopes (bs_parser b) = [ScInitial] /\ p_info (bs_parser b) = [].
Inductive starts (buf : list byte) : option wrapper -> bitstream -> Prop :=
| BgRaw n b : first_word buf n -> n <> wrapper_word -> starts_at buf 0 (N.of_nat (length buf)) b -> starts buf None b
| BgWrapped w rest b : buf = wrapper_header w ++ rest -> wrapper_ok w -> wr_magic w = wrapper_word ->
    starts_at buf (wr_offset w) (wr_size w + 20) b -> starts buf (Some w) b.
