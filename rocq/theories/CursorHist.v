(** Observable content of a cursor and histories of public operations on it. *)
From Verif Require Import Base CursorModel CursorSpec.
Local Open Scope N_scope.

(** The bit string a cursor ranges over: the first [byte_len] bytes of its buffer. *)
Definition content (c : cursor) : list bool :=
  bits_of_bytes (firstn (N.to_nat (byte_len c)) (inner c)).

(** [n] bits of [l] from position [p] on. *)
Definition sub_bits (p n : N) (l : list bool) : list bool :=
  firstn (N.to_nat n) (skipn (N.to_nat p) l).

(** The public mutating operations of [BitCursor] with their arguments
    (lib.rs:118, 206, 267, 275, 284, 321, 338, 358). *)
Inductive cur_op : Set :=
| ORead (n : N)
| OReadAs (t : ity) (n : N)
| OReadExact (t : ity)
| OReadVbr (w : N)
| OReadSvbr (w : N)
| OAlign32
| OSeekBit (p : N)
| OSeek (sf : seek_from).

(** The cursor after an operation, whatever the operation returned. *)
Definition apply_op (e : env) (c : cursor) (o : cur_op) : cursor :=
  match o with
  | ORead n => snd (read n c)
  | OReadAs t n => snd (read_as cursor_ops t n c)
  | OReadExact t => snd (read_exact cursor_ops t c)
  | OReadVbr w => snd (read_vbr e cursor_ops w c)
  | OReadSvbr w => snd (read_svbr e cursor_ops w c)
  | OAlign32 => align32 c
  | OSeekBit p => snd (seek_bit p c)
  | OSeek sf => snd (seek e sf c)
  end.

(** Fresh cursors: the two public constructors. *)
Definition fresh (c : cursor) : Prop :=
  (exists buf, c = cur_new buf) \/
  (exists buf len, cur_new_with_len buf len = Ok c).

(** Cursors obtained from a fresh one by any sequence of operations. *)
Definition reachable (e : env) (c : cursor) : Prop :=
  exists c0 ops, fresh c0 /\ c = fold_left (apply_op e) ops c0.

(** The same, when the limit is a multiple of 4 bytes and [io::Seek] is only used
    with absolute offsets that are multiples of 4 bytes. *)
Definition word_op (o : cur_op) : Prop :=
  match o with
  | OSeek (SeekStart p) => p mod 4 = 0
  | OSeek _ => False
  | _ => True
  end.
Definition word_reachable (e : env) (c : cursor) : Prop :=
  exists c0 ops, fresh c0 /\ byte_len c0 mod 4 = 0 /\ Forall word_op ops /\
                 c = fold_left (apply_op e) ops c0.

(** Reading a sequence of fields. *)
Fixpoint read_seq (ns : list N) : M cursor cerr (list N) :=
  match ns with
  | [] => ret []
  | n :: ns' => bind (read n) (fun x => bind (read_seq ns') (fun xs => ret (x :: xs)))
  end.

(** What a sequence of fields of the given widths should be, from a bit string. *)
Fixpoint fields_of (ns : list N) (l : list bool) : list N :=
  match ns with
  | [] => []
  | n :: ns' => N_of_bits (firstn (N.to_nat n) l) :: fields_of ns' (skipn (N.to_nat n) l)
  end.

(** A VBR text: payload groups each followed by a set continuation bit, then a
    last group followed by a clear one. *)
Definition vbr_text (ps : list (list bool)) (last : list bool) : list bool :=
  flat_map (fun p => p ++ [true]) ps ++ last ++ [false].

(** The number a VBR text denotes (unbounded). *)
Definition vbr_value (ps : list (list bool)) (last : list bool) : N :=
  N_of_bits (concat ps ++ last).

(** The number made of the groups of a VBR text when every group is shifted modulo 64 and
    or-ed in (groups counted from [i]). *)
Fixpoint wrapped_groups (w i : N) (ps : list (list bool)) : N :=
  match ps with
  | [] => 0
  | p :: ps' => N.lor ((N_of_bits p * 2 ^ (i * (w - 1) mod 64)) mod two64) (wrapped_groups w (i + 1) ps')
  end.

(** Results of public operations. *)
Inductive op_result : Type :=
| ResN (r : outcome cerr N)
| ResZ (r : outcome cerr Z)
| ResUnit (r : outcome cerr unit)
| ResSeek (r : outcome seek_err N)
| ResNone.

Definition result_of (e : env) (c : cursor) (o : cur_op) : op_result :=
  match o with
  | ORead n => ResN (fst (read n c))
  | OReadAs t n => ResN (fst (read_as cursor_ops t n c))
  | OReadExact t => ResN (fst (read_exact cursor_ops t c))
  | OReadVbr w => ResN (fst (read_vbr e cursor_ops w c))
  | OReadSvbr w => ResZ (fst (read_svbr e cursor_ops w c))
  | OAlign32 => ResNone
  | OSeekBit p => ResUnit (fst (seek_bit p c))
  | OSeek sf => ResSeek (fst (seek e sf c))
  end.

(** Everything a caller observes from a sequence of operations: the results and the
    position after each. *)
Fixpoint observe (e : env) (c : cursor) (ops : list cur_op) : list (op_result * N * bool) :=
  match ops with
  | [] => []
  | o :: ops' =>
      let c' := apply_op e c o in
      (result_of e c o, tell_bit c', exhausted c') :: observe e c' ops'
  end.

(** The absolute byte offset a seek request denotes. *)
Definition seek_target (c : cursor) (sf : seek_from) : Z :=
  match sf with
  | SeekStart p => Z.of_N p
  | SeekEnd d => (Z.of_N (byte_len c) + d)%Z
  | SeekCurrent d => (Z.of_N (tell_byte c) + d)%Z
  end.

(** The argument is a u64, respectively an i64. *)
Definition seek_arg_ok (sf : seek_from) : Prop :=
  match sf with
  | SeekStart p => p < two64
  | SeekEnd d | SeekCurrent d => (-9223372036854775808 <= d <= 9223372036854775807)%Z
  end.

(** Seeking relative to the end is only offered backwards. *)
Definition seek_forward_from_end (sf : seek_from) : Prop :=
  match sf with SeekEnd d => (0 <= d)%Z | _ => False end.
