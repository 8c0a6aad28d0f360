(** Vocabulary for C74 and C75: histories of cursors on a target with [U] values of [usize], and the requests
    that say the same on every target. *)
From Verif Require Import Base EnumModel CursorModel CursorHist StreamModel UnrollModel WordModel.
Local Open Scope N_scope.

(** The cursor after an operation, and what the operation returned, on such a target. *)
Definition apply_op_w (U : N) (e : env) (c : cursor) (o : cur_op) : cursor :=
  match o with
  | ORead n => snd (read_w U e n c)
  | OReadAs t n => snd (read_as (cursor_ops_w U e) t n c)
  | OReadExact t => snd (read_exact (cursor_ops_w U e) t c)
  | OReadVbr w => snd (read_vbr e (cursor_ops_w U e) w c)
  | OReadSvbr w => snd (read_svbr_w U e w c)
  | OAlign32 => align32 c
  | OSeekBit p => snd (seek_bit_w U e p c)
  | OSeek sf => snd (seek_w U e sf c)
  end.
Definition result_of_w (U : N) (e : env) (c : cursor) (o : cur_op) : op_result :=
  match o with
  | ORead n => ResN (fst (read_w U e n c))
  | OReadAs t n => ResN (fst (read_as (cursor_ops_w U e) t n c))
  | OReadExact t => ResN (fst (read_exact (cursor_ops_w U e) t c))
  | OReadVbr w => ResN (fst (read_vbr e (cursor_ops_w U e) w c))
  | OReadSvbr w => ResZ (fst (read_svbr_w U e w c))
  | OAlign32 => ResNone
  | OSeekBit p => ResUnit (fst (seek_bit_w U e p c))
  | OSeek sf => ResSeek (fst (seek_w U e sf c))
  end.
(** The results and the position after each operation; computing the position can panic. *)
Fixpoint observe_w (U : N) (e : env) (c : cursor) (ops : list cur_op) : list (op_result * outcome cerr N * bool) :=
  match ops with
  | [] => []
  | o :: ops' =>
      let c' := apply_op_w U e c o in
      (result_of_w U e c o, tell_bit_w U e c', exhausted c') :: observe_w U e c' ops'
  end.

(** Operations whose arguments say the same on a 32-bit target: seeks by less than 2 GiB, or to a position
    that is a [u32]. The result of [read_svbr] is an [isize], which is another type there. *)
Definition same_request (o : cur_op) : Prop :=
  match o with
  | OSeek (SeekStart p) => p < two32
  | OSeek (SeekEnd d) | OSeek (SeekCurrent d) => (-2147483648 <= d <= 2147483647)%Z
  | OReadSvbr _ => False
  | _ => True
  end.

(** The results of calling [next] [n] times. *)
Fixpoint run_w (U : N) (e : env) (n : nat) (s : sparser cursor) : list (option (outcome serr entry)) :=
  match n with
  | O => []
  | S n' => let (r, s') := next_w U e s in r :: run_w U e n' s'
  end.

(** The fields of the records of a block and of the blocks in it are below [k]. *)
Definition fields_below (k : N) (r : record) : Prop := Forall (fun f => f < k) (r_fields r).
Definition module_below (k : N) (b : block) : Prop :=
  Forall (fields_below k) (b_records b) /\ forall id b', In b' (by_id id b) -> Forall (fields_below k) (b_records b').

(** What a target with [U] values of [usize] makes of the fields of a record: those that are positions in a table are
    taken modulo [U], the others (numbers of elements, widths, address spaces, flags) are not. *)
Fixpoint fields_by (g : nat -> N -> N) (i : nat) (l : list N) : list N :=
  match l with
  | [] => []
  | f :: l' => g i f :: fields_by g (S i) l'
  end.
Definition word_record (g : nat -> N -> N) (r : record) : record := mkRecord (r_abbrev r) (r_code r) (fields_by g 0 (r_fields r)).
(** FUNCTION (8): offset and size of the name, type, attributes (0 for none, else one more than the position), section,
    collector. ALIAS (14): name and type. COMDAT (12): name. *)
Definition module_field (U code : N) (i : nat) (f : N) : N :=
  match code, i with
  | 8, 0%nat | 8, 1%nat | 8, 2%nat | 8, 8%nat | 8, 10%nat => f mod U
  | 8, 6%nat => if f =? 0 then 0 else (f - 1) mod U + 1
  | 14, 0%nat | 14, 1%nat | 14, 2%nat => f mod U
  | 12, 0%nat | 12, 1%nat => f mod U
  | _, _ => f
  end.
(** NUMENTRY (1): the number of types. POINTER (8): the pointee. ARRAY (11), VECTOR (12): the element. STRUCT_ANON (18),
    STRUCT_NAMED (20): the members. FUNCTION (21): result and parameters. *)
Definition type_field_word (U code : N) (i : nat) (f : N) : N :=
  match code, i with
  | 1, 0%nat | 8, 0%nat | 11, 1%nat | 12, 1%nat => f mod U
  | 18, S _ | 20, S _ | 21, S _ => f mod U
  | _, _ => f
  end.
Definition word_types (U : N) (b : block) : block :=
  mkBlock (b_id b) (map (fun r => word_record (type_field_word U (r_code r)) r) (b_records b)) (b_blocks b).
Definition word_module (U : N) (b : block) : block :=
  mkBlock (b_id b) (map (fun r => word_record (module_field U (r_code r)) r) (b_records b))
    (map (fun x => (fst x, if block_id_dec (fst x) (BIr IbType) then map (word_types U) (snd x) else snd x)) (b_blocks b)).
