(** Specification of the LLVM bitstream container format: an independent writer for
    abstract bitstreams (https://llvm.org/docs/BitCodeFormat.html, sections "Bitstream
    Format", "Blocks", "Data Records", "Abbreviations", "BLOCKINFO").

    [None] from a writer function means that the abstract stream is not well formed
    (a value does not fit its encoding, an abbreviation id is not in scope, ...).
    Positions are counted in bits from the start of the stream; they matter for the
    32-bit alignments only. *)
From Verif Require Import Base CursorSpec StreamModel.
Local Open Scope N_scope.

Notation "'do!' x ':=' m 'in' k" := (match m with Some x => k | None => None end)
  (at level 200, x pattern, m at level 100, k at level 200, right associativity).
Notation "'guard!' b 'in' k" := (if b%bool then k else None)
  (at level 200, b at level 100, k at level 200, right associativity).

Definition blen (l : list bool) : N := N.of_nat (length l).

(** Zero bits up to the next multiple of 32. *)
Definition pad (pos : N) : list bool := repeat false (N.to_nat ((32 - pos mod 32) mod 32)).

Definition fits64 (v : N) : bool := v <? two64.
Definition vbr (w v : N) : option (list bool) := guard! fits64 v in Some (vbr_bits w v).
Definition fixed (w v : N) : option (list bool) := guard! v <? 2 ^ w in Some (fixed_bits w v).

(** *** Char6: 'a'..'z', 'A'..'Z', '0'..'9', '.', '_' are 0..63. *)
Definition char6_code (c : N) : option N :=
  if (97 <=? c) && (c <=? 122) then Some (c - 97)
  else if (65 <=? c) && (c <=? 90) then Some (c - 65 + 26)
  else if (48 <=? c) && (c <=? 57) then Some (c - 48 + 52)
  else if c =? 46 then Some 62
  else if c =? 95 then Some 63
  else None.

(** *** Abbreviation definitions *)

Definition is_scalar (op : abbrev_op) : bool :=
  match op with OpFixed _ | OpVbr _ | OpChar6 => true | _ => false end.

(** Number of operands announced for an operand: an array is followed by its element
    type, which is counted. *)
Definition op_count (op : abbrev_op) : N := match op with OpArray _ => 2 | _ => 1 end.

Definition scalar_def_bits (op : abbrev_op) : option (list bool) :=
  match op with
  | OpFixed w => do! x := vbr 5 w in Some ([false] ++ fixed_bits 3 1 ++ x)
  | OpVbr w => do! x := vbr 5 w in Some ([false] ++ fixed_bits 3 2 ++ x)
  | OpChar6 => Some ([false] ++ fixed_bits 3 4)
  | _ => None
  end.

(** Operands; arrays and blobs are last. *)
Fixpoint ops_def_bits (a : abbrev) : option (list bool) :=
  match a with
  | [] => Some []
  | OpLiteral v :: a' =>
      do! x := vbr 8 v in do! y := ops_def_bits a' in Some ([true] ++ x ++ y)
  | [OpArray elem] =>
      do! x := scalar_def_bits elem in Some ([false] ++ fixed_bits 3 3 ++ x)
  | [OpBlob] => Some ([false] ++ fixed_bits 3 5)
  | op :: a' =>
      do! x := scalar_def_bits op in do! y := ops_def_bits a' in Some (x ++ y)
  end.

Definition def_bits (a : abbrev) : option (list bool) :=
  guard! negb (length a =? 0)%nat in
  do! n := vbr 5 (fold_right (fun op n => op_count op + n) 0 a) in
  do! x := ops_def_bits a in
  Some (n ++ x).

(** *** Records *)

Fixpoint concat_opt {A} (f : A -> option (list bool)) (l : list A) : option (list bool) :=
  match l with
  | [] => Some []
  | a :: l' => do! x := f a in do! y := concat_opt f l' in Some (x ++ y)
  end.

(** A single value in a scalar encoding. *)
Definition scalar_bits (op : abbrev_op) (v : N) : option (list bool) :=
  match op with
  | OpFixed w => guard! (1 <=? w) && (w <=? 63) in fixed w v
  | OpVbr w => guard! (2 <=? w) && (w <=? 32) in vbr w v
  | OpChar6 => do! i := char6_code v in Some (fixed_bits 6 i)
  | _ => None
  end.

(** The values of a record (code first) written with an abbreviation. Literals take no
    space; an array or a blob takes all remaining values. *)
Fixpoint rec_bits (pos : N) (a : abbrev) (vals : list N) : option (list bool) :=
  match a with
  | [] => match vals with [] => Some [] | _ => None end
  | OpLiteral v :: a' =>
      match vals with
      | x :: vals' => guard! x =? v in rec_bits pos a' vals'
      | [] => None
      end
  | OpArray elem :: a' =>
      guard! (length a' =? 0)%nat in
      do! n := vbr 6 (N.of_nat (length vals)) in
      do! x := concat_opt (scalar_bits elem) vals in
      Some (n ++ x)
  | OpBlob :: a' =>
      guard! (length a' =? 0)%nat in
      do! n := vbr 6 (N.of_nat (length vals)) in
      do! x := concat_opt (fixed 8) vals in
      let head := n ++ pad (pos + blen n) in
      Some (head ++ x ++ pad (pos + blen head + blen x))
  | op :: a' =>
      match vals with
      | v :: vals' =>
          do! x := scalar_bits op v in
          do! y := rec_bits (pos + blen x) a' vals' in
          Some (x ++ y)
      | [] => None
      end
  end.

(** An unabbreviated record, after its abbreviation id. *)
Definition unabbrev_bits (code : N) (fields : list N) : option (list bool) :=
  do! c := vbr 6 code in
  do! n := vbr 6 (N.of_nat (length fields)) in
  do! x := concat_opt (vbr 6) fields in
  Some (c ++ n ++ x).

(** *** Streams *)

(** Contents of a block (or, for blocks only, of the top level). [words] is the block's
    length field. *)
Inductive item : Set :=
| IDefine (a : abbrev)
| IUnabbrev (code : N) (fields : list N)
| IAbbrev (id code : N) (fields : list N)
| IBlock (bid width words : N) (body : list item).

(** Where an item stands: abbreviation id width and, inside a block, its id. *)
Inductive place : Set := AtTop | InBlock (width bid : N).
Definition place_width (p : place) : N := match p with AtTop => 2 | InBlock w _ => w end.

(** Abbreviations registered by BLOCKINFO for each block id; the block id selected by
    the last SETBID; the abbreviations usable in the current block. *)
Record wstate : Type := mkW {
  w_info : N -> list abbrev;
  w_bid : option N;
  w_abbrevs : list abbrev
}.

Definition register (info : N -> list abbrev) (b : N) (a : abbrev) : N -> list abbrev :=
  fun k => if k =? b then info k ++ [a] else info k.

Fixpoint write_item (it : item) (p : place) (pos : N) (st : wstate) {struct it}
  : option (list bool * wstate) :=
  match it with
  | IDefine a =>
      match p with
      | AtTop => None
      | InBlock w bid =>
          do! i := fixed w 2 in
          do! d := def_bits a in
          do! st' := (if bid =? 0 then
                        do! b := w_bid st in
                        Some (mkW (register (w_info st) b a) (w_bid st) (w_abbrevs st))
                      else Some (mkW (w_info st) (w_bid st) (w_abbrevs st ++ [a]))) in
          Some (i ++ d, st')
      end
  | IUnabbrev code fields =>
      match p with
      | AtTop => None
      | InBlock w bid =>
          do! i := fixed w 3 in
          do! d := unabbrev_bits code fields in
          do! st' := (if bid =? 0 then
                        match code, fields with
                        | 1, b :: _ => Some (mkW (w_info st) (Some b) (w_abbrevs st))
                        | 2, _ | 3, _ => Some st
                        | _, _ => None
                        end
                      else Some st) in
          Some (i ++ d, st')
      end
  | IAbbrev id code fields =>
      match p with
      | AtTop => None
      | InBlock w bid =>
          guard! 4 <=? id in
          do! i := fixed w id in
          do! a := nth_error (w_abbrevs st) (N.to_nat (id - 4)) in
          do! d := rec_bits (pos + blen i) a (code :: fields) in
          Some (i ++ d, st)
      end
  | IBlock bid w' words body =>
      guard! (1 <=? w') && (w' <=? 63) in
      do! i := fixed (place_width p) 1 in
      do! b := vbr 8 bid in
      do! n := vbr 4 w' in
      do! l := fixed 32 words in
      let h := i ++ b ++ n in
      let head := h ++ pad (pos + blen h) ++ l in
      let start := pos + blen head in
      do! (x, st') :=
        (fix write_list (l : list item) (pos : N) (st : wstate) {struct l}
           : option (list bool * wstate) :=
           match l with
           | [] => Some ([], st)
           | it :: l' =>
               do! (x, st1) := write_item it (InBlock w' bid) pos st in
               do! (y, st2) := write_list l' (pos + blen x) st1 in
               Some (x ++ y, st2)
           end) body start (mkW (w_info st) None (w_info st bid)) in
      let tail := fixed_bits w' 0 in
      let y := x ++ tail ++ pad (start + blen x + blen tail) in
      guard! blen y =? 32 * words in
      Some (head ++ y, mkW (w_info st') (w_bid st) (w_abbrevs st))
  end.

Fixpoint write_items (p : place) (l : list item) (pos : N) (st : wstate)
  : option (list bool * wstate) :=
  match l with
  | [] => Some ([], st)
  | it :: l' =>
      do! (x, st1) := write_item it p pos st in
      do! (y, st2) := write_items p l' (pos + blen x) st1 in
      Some (x ++ y, st2)
  end.

(** A whole stream: 32-bit magic, then blocks. *)
Definition write_stream (magic : N) (l : list item) : option (list bool) :=
  do! m := fixed 32 magic in
  do! (x, _) := write_items AtTop l 32 (mkW (fun _ => []) None []) in
  Some (m ++ x).

(** The entries a reader should report for an item, in a BLOCKINFO block or elsewhere. *)
Fixpoint item_entries (in_info : bool) (it : item) : list entry :=
  match it with
  | IDefine _ => []
  | IUnabbrev code fields => if in_info then [] else [ERecord None code fields]
  | IAbbrev id code fields => if in_info then [] else [ERecord (Some id) code fields]
  | IBlock bid _ words body =>
      if bid =? 0 then flat_map (item_entries true) body
      else ESubBlock bid (4 * words) :: flat_map (item_entries false) body ++ [EEndBlock]
  end.
Definition entries (l : list item) : list entry := flat_map (item_entries false) l.

(** Every record has fewer than [lim] fields. *)
Fixpoint item_small (lim : N) (it : item) : bool :=
  match it with
  | IDefine _ => true
  | IUnabbrev _ fields | IAbbrev _ _ fields => N.of_nat (length fields) <? lim
  | IBlock _ _ _ body => forallb (item_small lim) body
  end.

(** Packing bits into bytes. *)
Fixpoint bytes_of_bits (l : list bool) : list byte :=
  match l with
  | b0 :: b1 :: b2 :: b3 :: b4 :: b5 :: b6 :: b7 :: l' =>
      b8 (N_of_bits [b0; b1; b2; b3; b4; b5; b6; b7]) :: bytes_of_bits l'
  | _ => []
  end.

(** Results of [n] successive calls of [Iterator::next]. *)
Fixpoint run {C} (e : env) (o : CursorModel.cops C) (n : nat) (s : sparser C)
  : list (option (outcome serr entry)) :=
  match n with
  | O => []
  | S n' => let (r, s') := next e o s in r :: run e o n' s'
  end.
