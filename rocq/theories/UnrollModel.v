(** Model of llvm-mapper/src/unroll.rs: records, blocks, and the unrolling of a bitstream
    into blocks grouped by module. The mapping of the blocks ([reify]) is in
    [ModuleModel.v]. *)
From Verif Require Import Base Strings EnumModel CursorModel StreamModel.
Local Open Scope N_scope.

(** llvm-mapper/src/block/mod.rs:47-54 [BlockId]. *)
Inductive block_id : Set :=
| BReserved (r : reserved_block_id) | BIr (i : ir_block_id) | BUnknown (v : N).

(** block/mod.rs:68-77 [From<u64> for BlockId]. *)
Definition block_id_of (v : N) : block_id :=
  match reserved_block_id_of v with
  | Some r => BReserved r
  | None => match ir_block_id_of v with Some i => BIr i | None => BUnknown v end
  end.

(** The derived equality (and hash) of line 46. *)
Definition block_id_dec (x y : block_id) : {x = y} + {x <> y}.
Proof. decide equality; try apply N.eq_dec; decide equality. Defined.

(** unroll.rs:21-22 [Record], llvm-bitstream/src/record.rs:42-53. *)
Record record : Set := mkRecord { r_abbrev : option N; r_code : N; r_fields : list N }.

(** record/mod.rs:26-36 [RecordStringError], 41-48 [RecordBlobError]. [FromUtf8Error] has the bytes and the
    [Utf8Error]. *)
Inductive string_err : Set := StBadIndex (idx len : N) | StBadCharacter | StBadEncoding (raw : list N) (x : utf8_err).
(** record/mod.rs:41-48 [RecordBlobError]. *)
Inductive blob_err : Set := BlBadIndex (idx len : N) | BlBadByte.

(** unroll.rs:37-43 and 57-63: [idx >= fields.len() - 1] is an error, then
    [&fields[idx..]]. The subtraction on usize panics with overflow checks and wraps
    without when there are no fields. *)
Definition fields_from {E} (e : env) (bad_index : N -> N -> E) (r : record) (idx : N) : outcome E (list N) :=
  let len := N.of_nat (length (r_fields r)) in
  let? last := if len =? 0 then (if overflow_checks e then Panic PSubOverflow else Ok u64_max)
               else Ok (len - 1) in
  if last <=? idx then Err (bad_index idx len)
  else if len <? idx then Panic PSliceRange
  else Ok (skipn (N.to_nat idx) (r_fields r)).

(** [u8::try_from] on a field. *)
Definition u8_of {E} (bad : E) (f : N) : outcome E N := if f <? 256 then Ok f else Err bad.

(** unroll.rs:34-49 [Record::try_string]. *)
Definition try_string (e : env) (r : record) (idx : N) : outcome string_err str :=
  let? fs := fields_from e StBadIndex r idx in
  let? raw := collect (u8_of StBadCharacter) fs in
  ok_or (utf8_decode raw) (StBadEncoding raw (utf8_error 0 raw)).

(** unroll.rs:54-66 [Record::try_blob]. *)
Definition try_blob (e : env) (r : record) (idx : N) : outcome blob_err (list N) :=
  let? fs := fields_from e BlBadIndex r idx in
  collect (u8_of BlBadByte) fs.

(** unroll.rs:77-93 [ConsistencyError]. *)
Inductive cons_err : Set :=
| CeMissingBlock (id : block_id) | CeTooManyBlocks (id : block_id)
| CeMissingRecord (code : N) | CeTooManyRecords (code : N).

(** unroll.rs:104-110 [Records::by_code], 116-118 [one]. *)
Definition by_code (code : N) (l : list record) : list record := filter (fun r => r_code r =? code) l.
(** unroll.rs:116-118 [Records::one]. *)
Definition one (code : N) (l : list record) : option record := hd_error (by_code code l).

(** unroll.rs:122-136 and 140-154, 179-190 and 194-208: at most two calls of [next]. *)
Definition exactly_one_of {A} (missing too_many : cons_err) (l : list A) : outcome cons_err A :=
  match l with
  | [] => Err missing
  | a :: l' => match l' with [] => Ok a | _ => Err too_many end
  end.
(** unroll.rs:147-153, 201-207. *)
Definition one_or_none_of {A} (too_many : cons_err) (l : list A) : outcome cons_err (option A) :=
  match l with
  | [] => Ok None
  | a :: l' => match l' with [] => Ok (Some a) | _ => Err too_many end
  end.
(** unroll.rs:122-136 [Records::exactly_one]. *)
Definition exactly_one (code : N) (l : list record) : outcome cons_err record :=
  exactly_one_of (CeMissingRecord code) (CeTooManyRecords code) (by_code code l).
(** unroll.rs:140-154 [Records::one_or_none]. *)
Definition one_or_none (code : N) (l : list record) : outcome cons_err (option record) :=
  one_or_none_of (CeTooManyRecords code) (by_code code l).

(** unroll.rs:168 [Blocks(IndexMap<BlockId, Vec<Block>>)] and 214-228 [Block]; the map is
    the list of its entries in insertion order. *)
Inductive block : Set := mkBlock {
  b_id : block_id;
  b_records : list record;
  b_blocks : list (block_id * list block)
}.

(** unroll.rs:176: [IndexMap::get]. *)
Fixpoint map_get {A} (k : block_id) (m : list (block_id * A)) : option A :=
  match m with
  | [] => None
  | (k', v) :: m' => if block_id_dec k' k then Some v else map_get k m'
  end.
(** unroll.rs:287-292: [entry(k).or_insert_with(Vec::new).push(v)]. *)
Fixpoint map_push {A} (k : block_id) (v : A) (m : list (block_id * list A)) : list (block_id * list A) :=
  match m with
  | [] => [(k, [v])]
  | (k', vs) :: m' => if block_id_dec k' k then (k', vs ++ [v]) :: m' else (k', vs) :: map_push k v m'
  end.

(** unroll.rs:174-177 [Blocks::by_id], 179-190 [exactly_one], 194-208 [one_or_none]. *)
Definition by_id (id : block_id) (b : block) : list block :=
  match map_get id (b_blocks b) with Some l => l | None => [] end.
(** unroll.rs:179-190 [Blocks::exactly_one]. *)
Definition exactly_one_block (id : block_id) (b : block) : outcome cons_err block :=
  exactly_one_of (CeMissingBlock id) (CeTooManyBlocks id) (by_id id b).
(** unroll.rs:194-208 [Blocks::one_or_none]. *)
Definition one_or_none_block (id : block_id) (b : block) : outcome cons_err (option block) :=
  one_or_none_of (CeTooManyBlocks id) (by_id id b).

(** unroll.rs:230-237 [Block::new]. *)
Definition block_new (id : N) : block := mkBlock (block_id_of id) [] [].
(** unroll.rs:284: push a record; 287-292: push a sub-block. *)
Definition push_record (r : record) (b : block) : block :=
  mkBlock (b_id b) (b_records b ++ [r]) (b_blocks b).
(** unroll.rs:287-292. *)
Definition push_block (c : block) (b : block) : block :=
  mkBlock (b_id b) (b_records b) (map_push (b_id c) c (b_blocks b)).

(** error.rs:13-25 [Error], without the mapping errors; one constructor per message of
    [Error::Unroll]. *)
Inductive unroll_err : Set :=
| UParse (x : serr) | UStreamEnd | UTopLevel | UNoIdentification | UAdjacentModules | UUnexpectedBlock (id : block_id).

(** unroll.rs:423-428 [PartialBitcodeModule], 432-439 [new]. *)
Record partial : Set := mkPartial {
  pt_identification : block;
  pt_module : option block;
  pt_strtab : option block;
  pt_symtab : option block
}.
(** unroll.rs:432-439 [new]. *)
Definition partial_new (i : block) : partial := mkPartial i None None None.
(** unroll.rs:363. *)
Definition set_module (b : block) (p : partial) : partial :=
  mkPartial (pt_identification p) (Some b) (pt_strtab p) (pt_symtab p).
(** unroll.rs:383. *)
Definition set_strtab (b : block) (p : partial) : partial :=
  mkPartial (pt_identification p) (pt_module p) (Some b) (pt_symtab p).
(** unroll.rs:398. *)
Definition set_symtab (b : block) (p : partial) : partial :=
  mkPartial (pt_identification p) (pt_module p) (pt_strtab p) (Some b).

(** unroll.rs:378-384, 393-399: [iter_mut().take_while(p)] with an assignment as the loop body. *)
Fixpoint update_while {A} (p : A -> bool) (f : A -> A) (l : list A) : list A :=
  match l with
  | [] => []
  | a :: l' => if p a then f a :: update_while p f l' else l
  end.

(** [Option::is_none] (unroll.rs:381, 396). *)
Definition is_none {A} (o : option A) : bool := match o with None => true | Some _ => false end.

(** unroll.rs:339-407: what a top-level block does to the list of partial modules. The list
    is kept in reverse order (the code iterates with [rev()] and [last_mut()]). *)
Definition group (top : block) (rparts : list partial) : outcome unroll_err (list partial) :=
  match b_id top with
  | BIr IbIdentification => Ok (partial_new top :: rparts)
  | BIr IbModule =>
      match rparts with
      | [] => Err UNoIdentification
      | p :: ps => match pt_module p with
                   | Some _ => Err UAdjacentModules
                   | None => Ok (set_module top p :: ps)
                   end
      end
  | BIr IbStrtab => Ok (update_while (fun p => is_none (pt_strtab p)) (set_strtab top) rparts)
  | BIr IbSymtab => Ok (update_while (fun p => is_none (pt_symtab p)) (set_symtab top) rparts)
  | id => Err (UUnexpectedBlock id)
  end.

Section Unroll.
  Context {S : Type} (nxt : S -> option (outcome serr entry) * S).

  (** unroll.rs:266-302 [enter_block]; [b] is the block being filled. Each turn of the loop
      takes one unit of fuel; the recursive call on line 286 is the call in the [let?]. *)
  Fixpoint enter (fuel : nat) (b : block) (s : S) : outcome unroll_err (block * S) :=
    match fuel with
    | O => OutOfFuel
    | Datatypes.S f =>
        match nxt s with
        | (None, _) => Err UStreamEnd
        | (Some r, s') =>
            let? x := omap_err UParse r in
            match x with
            | ERecord a c fs => enter f (push_record (mkRecord a c fs) b) s'
            | ESubBlock id _ =>
                let? (child, s'') := enter f (block_new id) s' in
                enter f (push_block child b) s''
            | EEndBlock => Ok (b, s')
            end
        end
    end.

  (** unroll.rs:304-408: the loop over the top-level blocks. *)
  Fixpoint tops (fuel : nat) (rparts : list partial) (s : S) : outcome unroll_err (list partial) :=
    match fuel with
    | O => OutOfFuel
    | Datatypes.S f =>
        match nxt s with
        | (None, _) => Ok rparts
        | (Some r, s') =>
            let? x := omap_err UParse r in
            match x with
            | ESubBlock id _ =>
                let? (top, s'') := enter f (block_new id) s' in
                let? rparts' := group top rparts in
                tops f rparts' s''
            | _ => Err UTopLevel
            end
        end
    end.
End Unroll.

(** unroll.rs:265-408 on a parser: the partial modules in stream order. Every entry takes
    at least one bit, so the number of remaining bits bounds the number of turns. *)
Definition unroll (e : env) (s : sparser cursor) : outcome unroll_err (list partial) :=
  let? rparts := tops (next e cursor_ops) (N.to_nat (bit_len (p_cur s)) + 2) [] s in
  Ok (rev rparts).
