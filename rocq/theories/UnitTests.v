(** The unit tests of the code, run on the model. They are tests of the faithfulness of the models,
    not proofs of properties: each test of /repo is restated with the inputs and the expected
    values of its assertions. Tests that concern constants of the build (target triple) only are
    left out. *)
From Verif Require Import Base CursorModel Strings EnumModel SupportModel LayoutModel UnrollModel TablesModel.
Local Open Scope N_scope.

Definition raw (l : list N) : list byte :=
  flat_map (fun n => match Byte.of_N n with Some b => [b] | None => [] end) l.

(** Statements and assertions of the tests of the cursor. *)
Inductive cstep : Set :=
| SLen (bits bytes : N) | STell (bit byte : N) | SIndex (n : N) | SBlock (n : N)
| SRead (n v : N) | SReadAny (n : N) | SReadErr (n : N)
| SReadAs (t : ity) (n v : N) | SReadAsErr (t : ity) (n : N) | SExact (t : ity) (v : N)
| SVbr (w v : N) | SVbrErr (w : N) | SSvbr (w : N) (v : Z)
| SAlign | SSeekBit (p : N) | SSeek (s : seek_from) | SSeekErr (s : seek_from).

Definition expect {E A} (same : A -> bool) (r : outcome E A * cursor) : option cursor :=
  match r with (Ok a, c) => if same a then Some c else None | _ => None end.
Definition expect_err {E A} (r : outcome E A * cursor) : option cursor :=
  match r with (Err _, c) => Some c | _ => None end.
Definition check (b : bool) (c : cursor) : option cursor := if b then Some c else None.
Definition crun1 (e : env) (c : cursor) (s : cstep) : option cursor :=
  match s with
  | SLen a b => check ((bit_len c =? a) && (byte_len c =? b)) c
  | STell a b => check ((tell_bit c =? a) && (tell_byte c =? b)) c
  | SIndex n => check (bit_index c =? n) c
  | SBlock n => check (current_block c =? n) c
  | SRead n v => expect (N.eqb v) (read n c)
  | SReadAny n => expect (fun _ => true) (read n c)
  | SReadErr n => expect_err (read n c)
  | SReadAs t n v => expect (N.eqb v) (read_as cursor_ops t n c)
  | SReadAsErr t n => expect_err (read_as cursor_ops t n c)
  | SExact t v => expect (N.eqb v) (read_exact cursor_ops t c)
  | SVbr w v => expect (N.eqb v) (read_vbr e cursor_ops w c)
  | SVbrErr w => expect_err (read_vbr e cursor_ops w c)
  | SSvbr w v => expect (Z.eqb v) (read_svbr e cursor_ops w c)
  | SAlign => Some (align32 c)
  | SSeekBit p => expect (fun _ => true) (seek_bit p c)
  | SSeek s => expect (fun _ => true) (seek e s c)
  | SSeekErr s => expect_err (seek e s c)
  end.
Fixpoint crun (e : env) (l : list cstep) (c : cursor) : bool :=
  match l with
  | [] => true
  | s :: l' => match crun1 e c s with Some c' => crun e l' c' | None => false end
  end.
Definition cpasses (buf : list N) (l : list cstep) : bool :=
  crun debug_env l (cur_new (raw buf)) && crun release_env l (cur_new (raw buf)).

(** llvm-bitcursor/src/lib.rs:421-424. *)
Example test_new_with_len_invalid_length :
  exists x, cur_new_with_len (raw [255; 238]) 3 = Err x.
Proof. eexists. reflexivity. Qed.

(** llvm-bitcursor/src/lib.rs:426-453. *)
Example test_read_basic :
  cpasses [27]
    [SLen 8 1; STell 0 0; SRead 2 3; STell 2 0; SRead 2 2; STell 4 0; SRead 2 1; STell 6 0; SRead 2 0; STell 8 1; SReadErr 1] = true.
Proof. vm_compute. reflexivity. Qed.

(** llvm-bitcursor/src/lib.rs:455-464. *)
Example test_invalid_reads :
  cpasses [170; 187; 204; 221; 238; 255; 17; 34]
    [SVbrErr 33; SReadErr 64] = true.
Proof. vm_compute. reflexivity. Qed.

(** llvm-bitcursor/src/lib.rs:466-476. *)
Example test_read_multiple_sizes :
  cpasses [170; 187; 204; 149]
    [SRead 24 13417386; SRead 5 21; SRead 3 4; SReadErr 1] = true.
Proof. vm_compute. reflexivity. Qed.

(** llvm-bitcursor/src/lib.rs:478-485. *)
Example test_read_bounds :
  cpasses [170]
    [SReadErr 0; SReadErr 65] = true.
Proof. vm_compute. reflexivity. Qed.

(** llvm-bitcursor/src/lib.rs:487-492. *)
Example test_read_llvm_wrapper_magic :
  cpasses [222; 192; 23; 11]
    [SRead 32 186106078] = true.
Proof. vm_compute. reflexivity. Qed.

(** llvm-bitcursor/src/lib.rs:494-499. *)
Example test_read_llvm_raw_magic :
  cpasses [66; 67; 192; 222]
    [SRead 32 3737142082] = true.
Proof. vm_compute. reflexivity. Qed.

(** llvm-bitcursor/src/lib.rs:501-511. *)
Example test_read_across_blocks :
  cpasses [17; 34; 51; 68; 85; 102; 119; 136; 17; 34; 51; 68; 85; 102; 119; 136]
    [SRead 56 33608038631023121; SRead 24 2232712] = true.
Proof. vm_compute. reflexivity. Qed.

(** llvm-bitcursor/src/lib.rs:513-525. *)
Example test_read_across_blocks_unaligned :
  cpasses [17; 34; 51; 68; 85; 102; 119; 255; 25; 34; 51; 68; 85; 102; 119; 136]
    [SRead 56 33608038631023121; SRead 5 31; SRead 5 15; SRead 6 6] = true.
Proof. vm_compute. reflexivity. Qed.

(** llvm-bitcursor/src/lib.rs:527-544. *)
Example test_read_and_align :
  cpasses [17; 34; 51; 68; 85; 102; 119; 255; 25; 34; 51; 68; 85; 102; 119; 136]
    [SRead 56 33608038631023121; SRead 5 31; SRead 5 15; SAlign; SRead 8 85; SRead 16 30566; SRead 5 8; SRead 3 4; SReadErr 1] = true.
Proof. vm_compute. reflexivity. Qed.

(** llvm-bitcursor/src/lib.rs:546-552. *)
Example test_read_as :
  cpasses [170; 187; 204; 221]
    [SReadAs u16t 16 48042; SReadAs u32t 16 56780] = true.
Proof. vm_compute. reflexivity. Qed.

(** llvm-bitcursor/src/lib.rs:554-561. *)
Example test_read_as_bounds :
  cpasses [255; 255; 255; 255]
    [SReadAsErr u16t 17] = true.
Proof. vm_compute. reflexivity. Qed.

(** llvm-bitcursor/src/lib.rs:563-575. *)
Example test_read_exact :
  cpasses [170; 187; 204; 221; 238]
    [SExact u32t 3721182122; STell 32 4; SExact u8t 238; STell 40 5] = true.
Proof. vm_compute. reflexivity. Qed.

(** llvm-bitcursor/src/lib.rs:577-604. *)
Example test_seek_bit :
  cpasses [254; 167]
    [SRead 4 14; SSeekBit 4; STell 4 0; SIndex 12; SRead 8 127; STell 12 1; SIndex 4; SRead 4 10; SReadErr 1] = true.
Proof. vm_compute. reflexivity. Qed.

(** llvm-bitcursor/src/lib.rs:606-645. *)
Example test_seek :
  cpasses [170; 187; 204; 221]
    [SRead 32 3721182122; STell 32 4; SSeek (SeekCurrent (-2)); STell 16 2; SRead 16 56780; STell 32 4; SSeek (SeekStart 0); STell 0 0; SRead 32 3721182122; STell 32 4; SSeek (SeekStart 1); STell 8 1; SRead 8 187; SSeek (SeekEnd (-1)); STell 24 3; SRead 8 221; SSeekErr (SeekEnd 1)] = true.
Proof. vm_compute. reflexivity. Qed.

(** llvm-bitcursor/src/lib.rs:647-653. *)
Example test_vbr2_continuation :
  cpasses [107]
    [SVbr 2 9] = true.
Proof. vm_compute. reflexivity. Qed.

(** llvm-bitcursor/src/lib.rs:655-661. *)
Example test_vbr4_basic :
  cpasses [7]
    [SVbr 4 7] = true.
Proof. vm_compute. reflexivity. Qed.

(** llvm-bitcursor/src/lib.rs:663-669. *)
Example test_vbr4_continuation :
  cpasses [59]
    [SVbr 4 27] = true.
Proof. vm_compute. reflexivity. Qed.

(** llvm-bitcursor/src/lib.rs:671-677. *)
Example test_vbr6_basic :
  cpasses [16]
    [SVbr 6 16; STell 6 0] = true.
Proof. vm_compute. reflexivity. Qed.

(** llvm-bitcursor/src/lib.rs:679-686. *)
Example test_vbr6_continuation :
  cpasses [97; 57; 156]
    [SVbr 6 3233; SRead 3 7; SRead 3 4] = true.
Proof. vm_compute. reflexivity. Qed.

(** llvm-bitcursor/src/lib.rs:688-695. *)
Example test_svbr4 :
  cpasses [7]
    [SSvbr 4 (-3)] = true.
Proof. vm_compute. reflexivity. Qed.

(** llvm-bitcursor/src/lib.rs:697-709. *)
Example test_align32_1 :
  cpasses [170; 187; 204; 221; 238; 255; 17; 34]
    [SRead 8 170; SAlign; STell 32 4; SRead 8 238; SRead 24 2232831; STell 64 8] = true.
Proof. vm_compute. reflexivity. Qed.

(** llvm-bitcursor/src/lib.rs:711-720. *)
Example test_align32_2 :
  cpasses [170; 187; 204; 221; 238; 255; 17; 34]
    [SAlign; STell 0 0; SReadAny 32; SAlign; STell 32 4] = true.
Proof. vm_compute. reflexivity. Qed.

(** llvm-bitcursor/src/lib.rs:722-743. *)
Example test_align32_3 :
  cpasses [17; 34; 51; 68; 85; 102; 119; 136; 153; 170; 187; 204; 221; 238; 255; 0]
    [SReadAny 63; SReadAny 1; STell 64 8; SAlign; STell 64 8; SSeekBit 0; SReadAny 63; SReadAny 1; SReadAny 32; SAlign; STell 96 12; SReadAny 1; SAlign; STell 128 16] = true.
Proof. vm_compute. reflexivity. Qed.

(** llvm-bitcursor/src/lib.rs:746-754. *)
Example test_align32_unaligned :
  cpasses [28; 187; 204; 221; 238; 255; 17; 34]
    [SRead 5 28; SAlign; STell 32 4; SRead 32 571604974; STell 64 8] = true.
Proof. vm_compute. reflexivity. Qed.

(** llvm-bitcursor/src/lib.rs:757-770. *)
Example test_align32_next_block_1 :
  cpasses [17; 34; 51; 68; 85; 102; 119; 136; 153; 170; 187; 204; 221; 238; 255; 0]
    [SReadAny 56; SAlign; SRead 32 3434850969; STell 96 12] = true.
Proof. vm_compute. reflexivity. Qed.

(** llvm-bitcursor/src/lib.rs:772-784. *)
Example test_align32_next_block_2 :
  cpasses [17; 34; 51; 68; 85; 102; 119; 136; 153; 170; 187; 204; 221; 238; 255; 0]
    [SReadAny 56; SReadAny 17; SAlign; SRead 32 16772829; STell 128 16] = true.
Proof. vm_compute. reflexivity. Qed.

(** llvm-bitcursor/src/lib.rs:787-815. *)
Example test_parse_unabbrev :
  cpasses [23; 4; 6; 255; 23; 4; 6; 255; 189; 32; 0; 3]
    [SVbr 2 3; SVbr 6 1; SVbr 6 1; SVbr 6 6; SAlign; SVbr 2 3; SVbr 6 1; SVbr 6 1; SVbr 6 6; STell 54 6; SRead 13 6140; SVbr 2 3; SVbr 6 1; SVbr 6 1; SVbr 6 32] = true.
Proof. vm_compute. reflexivity. Qed.

(** llvm-bitcursor/src/lib.rs:817-837. *)
Example test_pseudo_bitstream1 :
  cpasses [170; 170; 66; 67; 192; 222; 53; 20; 0; 0; 5; 0; 0; 0; 98; 12]
    [SRead 16 43690; SRead 32 3737142082; SRead 2 1; SVbr 8 13; SVbr 5 5; SIndex 1; STell 63 7; SAlign; SIndex 0; SBlock 0; STell 64 8; SReadAny 16; SRead 32 5] = true.
Proof. vm_compute. reflexivity. Qed.

(** ** llvm-support/src/align.rs *)
Definition ok_with {E A} (p : A -> bool) (r : outcome E A) : bool := match r with Ok a => p a | _ => false end.
Definition is_ok {E A} (r : outcome E A) : bool := ok_with (fun _ => true) r.
Definition is_err {E A} (r : outcome E A) : bool := match r with Err _ => true | _ => false end.
Definition shift_is (n : N) (r : outcome align_err align) : bool := ok_with (fun a => a_shift a =? n) r.

(** align.rs:748-755. *)
Example test_align_constants :
  map (fun a => byte_align (E := Empty_set) debug_env a) [ALIGN8; ALIGN16; ALIGN32; ALIGN64; ALIGN128]
  = map Ok [1; 2; 4; 8; 16].
Proof. reflexivity. Qed.

(** align.rs:757-771. *)
Example test_align_is_pow2 :
  map is_pow2 [1; 2; 4; 8; 16; 32; 64; 3; 6; 12; 65]
  = [true; true; true; true; true; true; true; false; false; false; false].
Proof. reflexivity. Qed.

(** align.rs:773-780. *)
Example test_align_compares :
  forall a b, from_shift 1 = Ok a -> from_shift 2 = Ok b ->
  align_lt a b = true /\ align_le a b = true /\ align_lt b a = false /\ align_le b a = false /\ align_le a a = true.
Proof. intros a b [= <-] [= <-]. repeat split. Qed.

(** align.rs:782-794. *)
Example test_align_log2 : map align_log2 [1; 2; 4; 8; 16; 32; 64; 65] = [0; 1; 2; 3; 4; 5; 6; 6].
Proof. reflexivity. Qed.

(** align.rs:796-805. *)
Example test_align_basic :
  forallb (fun '(s, ba) =>
    ok_with (N.eqb ba) (byte_align (E := Empty_set) debug_env (mkAlign s))
    && ok_with (N.eqb (ba * 8)) (bit_align (E := Empty_set) debug_env (mkAlign s)))
    [(0, 1); (1, 2); (2, 4); (3, 8); (4, 16); (5, 32); (6, 64)] = true.
Proof. vm_compute. reflexivity. Qed.

(** align.rs:807-823. *)
Example test_align_from_byte_align :
  forallb (fun '(v, s) => shift_is s (from_byte_align v))
    [(1, 0); (2, 1); (4, 2); (8, 3); (16, 4); (32, 5); (64, 6); (128, 7)]
  && forallb (fun v => is_err (from_byte_align v)) [0; 3; 7; 22; 24] = true.
Proof. vm_compute. reflexivity. Qed.

(** align.rs:825-842. *)
Example test_align_from_bit_align :
  forallb (fun '(v, s) => shift_is s (from_bit_align v))
    [(8, 0); (16, 1); (32, 2); (64, 3); (128, 4); (256, 5); (512, 6); (1024, 7)]
  && forallb (fun v => is_err (from_bit_align v)) [0; 1; 7; 9; 24; 33] = true.
Proof. vm_compute. reflexivity. Qed.

(** align.rs:844-851. *)
Example test_maybe_align : maybe_align_of 0 = Ok None /\ maybe_align_of 1 = Ok (Some (mkAlign 0)).
Proof. split; reflexivity. Qed.

Fixpoint count_from (a : N) (n : nat) : list N := match n with O => [] | S n' => a :: count_from (a + 1) n' end.
Definition range (a n : N) : list N := count_from a (N.to_nat n).
(** align.rs:853-861. *)
Example test_aligned_type_width :
  forallb (fun i => is_ok (aligned_width_of i)) (range 1 32767)
  && is_err (aligned_width_of 0) && is_err (aligned_width_of u32_max) = true.
Proof. vm_compute. reflexivity. Qed.

Definition is_lt (x y : aligned_type) : bool := match at_cmp x y with Lt => true | _ => false end.
Definition is_gt (x y : aligned_type) : bool := match at_cmp x y with Gt => true | _ => false end.
(** align.rs:863-914. *)
Example test_aligned_type_ordering :
  at_eqb (AtInteger 1) (AtInteger 1) && at_eqb (AtVector 1) (AtVector 1) && at_eqb (AtFloat 1) (AtFloat 1)
  && forallb (fun i =>
       is_lt (AtInteger i) (AtVector i) && is_lt (AtInteger (i + 1)) (AtVector (i - 1))
       && is_gt (AtInteger i) (AtFloat i) && is_gt (AtInteger (i + 1)) (AtFloat (i - 1))
       && is_gt (AtInteger i) AtAggregate) (range 2 32766)
  && at_eqb AtAggregate AtAggregate = true.
Proof. vm_compute. reflexivity. Qed.

(** align.rs:916-967; the two messages show the two alignments. *)
Example test_type_align_spec :
  is_ok (type_spec_new (AtInteger 64) ALIGN64 ALIGN64) = true
  /\ is_ok (type_spec_new (AtInteger 64) ALIGN64 ALIGN128) = true
  /\ is_ok (type_spec_new (AtFloat 32) ALIGN32 ALIGN32) = true
  /\ is_ok (type_spec_new (AtFloat 32) ALIGN32 ALIGN64) = true
  /\ type_spec_new (AtInteger 8) (mkAlign 2) (mkAlign 1) = Err (SeAlignPref (mkAlign 1) (mkAlign 2))
  /\ type_spec_new (AtInteger 8) (mkAlign 16) (mkAlign 16) = Err (SeAbiAlignTooLarge (mkAlign 16)).
Proof. repeat split. Qed.

(** align.rs:969-979. *)
Example test_type_align_spec_equality :
  forall x y, type_spec_new (AtInteger 8) ALIGN16 ALIGN16 = Ok x -> type_spec_new (AtInteger 8) ALIGN16 ALIGN32 = Ok y ->
  ts_eqb x y = true.
Proof. intros x y [= <-] [= <-]. reflexivity. Qed.

Fixpoint in_order (l : list type_spec) : bool :=
  match l with
  | x :: (y :: _) as l' => ts_le x y && in_order l'
  | _ => true
  end.
(** align.rs:981-988. *)
Example test_type_align_specs_default_sorted : in_order type_specs_default = true.
Proof. reflexivity. Qed.

(** align.rs:990-1077. *)
Example test_type_align_specs_update :
  let i8 := mkTypeSpec (AtInteger 8) ALIGN16 ALIGN16 in
  let agg := mkTypeSpec AtAggregate ALIGN64 ALIGN64 in
  let f16 := mkTypeSpec (AtFloat 16) ALIGN16 ALIGN16 in
  let run := fold_left type_specs_update in
  length (run [i8] []) = 1%nat
  /\ length (run [i8; mkTypeSpec (AtInteger 8) ALIGN16 ALIGN32] []) = 1%nat
  /\ Forall (fun l => in_order (run l []) = true /\ length (run l []) = length l) [[agg; i8]; [i8; agg]; [i8; agg; f16]].
Proof. cbv zeta. repeat split. repeat constructor. Qed.

(** align.rs:1079-1118. *)
Example test_type_align_spec_parse :
  type_spec_from_str (lit "i64:64:64") = Ok (mkTypeSpec (AtInteger 64) ALIGN64 ALIGN64)
  /\ type_spec_from_str (lit "i32:32:64") = Ok (mkTypeSpec (AtInteger 32) ALIGN32 ALIGN64)
  /\ type_spec_from_str (lit "a:32:64") = Ok (mkTypeSpec AtAggregate ALIGN32 ALIGN64)
  /\ type_spec_from_str (lit "a:32") = Ok (mkTypeSpec AtAggregate ALIGN32 ALIGN32).
Proof. vm_compute. repeat split. Qed.

(** align.rs:1120-1181. *)
Example test_pointer_align_spec_parse :
  ptr_spec_from_str (lit "p:64:64:64") = Ok (mkPtrSpec 0 ALIGN64 ALIGN64 64 64)
  /\ ptr_spec_from_str (lit "p0:64:64:64") = Ok (mkPtrSpec 0 ALIGN64 ALIGN64 64 64)
  /\ ptr_spec_from_str (lit "p:64:64:64:64") = Ok (mkPtrSpec 0 ALIGN64 ALIGN64 64 64)
  /\ ptr_spec_from_str (lit "p:64:64:64:32") = Ok (mkPtrSpec 0 ALIGN64 ALIGN64 64 32)
  /\ ptr_spec_from_str (lit "p1:64:64:64") = Ok (mkPtrSpec 1 ALIGN64 ALIGN64 64 64)
  /\ ptr_spec_from_str (lit "p1:64:64") = Ok (mkPtrSpec 1 ALIGN64 ALIGN64 64 64).
Proof. vm_compute. repeat split. Qed.

(** align.rs:1183-1190. *)
Example test_address_space :
  map (fun v => is_ok (address_space_of v)) [0; 1; MAX_SPACE; MAX_SPACE + 1] = [true; true; true; false].
Proof. reflexivity. Qed.

(** ** llvm-support/src/ty.rs *)

(** ty.rs:538-570. *)
Example test_integer_type :
  map is_ok (map new_integer [0; MAX_INT_BITS + 1; MIN_INT_BITS; MAX_INT_BITS; 31; 32])
  = [false; false; true; true; true; true]
  /\ map int_byte_width [MIN_INT_BITS; MAX_INT_BITS; 31; 32] = [1; 2097152; 4; 4]
  /\ forallb (fun i => ok_with (fun t => match t with TInteger w => w =? i | _ => false end) (new_integer i)
                       && (int_byte_width i =? 1)) (range 1 8) = true.
Proof. vm_compute. repeat split. Qed.

(** ty.rs:572-592. *)
Example test_pointer_type :
  forallb (fun t => is_err (new_pointer t 0)) [TVoid; TLabel; TMetadata; TToken; TX86Amx] = true
  /\ new_pointer TDouble 0 = Ok (TPointer TDouble 0)
  /\ (let? t := new_integer 32 in new_pointer t 0) = Ok (TPointer (TInteger 32) 0).
Proof. repeat split. Qed.

(** ** llvm-mapper *)
Definition text_record : record := mkRecord None 0 (255 :: 255 :: lit "valid string!").

(** unroll.rs:511-525. *)
Example test_unrolled_record_try_string :
  try_string debug_env text_record 2 = Ok (lit "valid string!")
  /\ try_string debug_env text_record 8 = Ok (lit "string!")
  /\ map (fun i => is_err (try_string debug_env text_record i)) [0; 15; 14] = [true; true; true].
Proof. vm_compute. repeat split. Qed.

(** unroll.rs:527-540. *)
Example test_unrolled_record_try_blob :
  try_blob debug_env text_record 0 = Ok (255 :: 255 :: lit "valid string!")
  /\ try_blob debug_env text_record 8 = Ok (lit "string!")
  /\ map (fun i => is_err (try_blob debug_env text_record i)) [15; 14] = [true; true].
Proof. vm_compute. repeat split. Qed.

(** block/strtab.rs:112-127. *)
Example test_strtab :
  let t := lit "this is a string table" in
  map (fun '(o, s) => strtab_get debug_env t o s) [(0, 4); (0, 7); (8, 14); (0, 22); (22, 0); (0, 23); (0, 0)]
  = [Ok (Some (lit "this")); Ok (Some (lit "this is")); Ok (Some (lit "a string table")); Ok (Some t); Ok None; Ok None; Ok None].
Proof. vm_compute. reflexivity. Qed.

(** block/mod.rs:83-95. *)
Example test_blockid_from_u64 :
  map block_id_of [0; 7; 8; 2384629342] = [BReserved RbBlockInfo; BReserved RbReserved7; BIr IbModule; BUnknown 2384629342].
Proof. reflexivity. Qed.

(** record/datalayout.rs:271-277. *)
Example test_datalayout_has_defaults :
  dl_types layout_default = type_specs_default /\ dl_pointers layout_default = ptr_specs_default.
Proof. split; reflexivity. Qed.

Definition layout_has (s : string) (p : layout -> Prop) : Prop :=
  exists d, layout_from_str (lit s) = Ok d /\ p d.
Definition layout_fails (s : string) (x : layout_err) : Prop := layout_from_str (lit s) = Err x.
(** record/datalayout.rs:279-445; the messages of the errors are those of the constructors. *)
Example test_datalayout_parses :
  layout_from_str (lit "not ascii " ++ [172; 8747; 729; 730; 8730; 8706; 8710; 729; 8730; 223]) = Err LeBadEncoding
  /\ layout_fails "z" (LeUnknownSpec (ch "z"))
  /\ layout_has "E-S64" (fun d => dl_endianness d = Big /\ dl_stack d = Some (mkAlign 3) /\ dl_mangling d = None)
  /\ layout_has "e-S32" (fun d => dl_endianness d = Little /\ dl_stack d = Some (mkAlign 2))
  /\ layout_has "m:e" (fun d => dl_mangling d = Some MElf)
  /\ layout_fails "m" (LeBadSpecParse LfNoMangling) /\ layout_fails "m:" (LeBadSpecParse LfNoKind) /\ layout_fails "m:?" (LeBadSpecParse (LfKind (ch "?")))
  /\ layout_has "Fi64" (fun d => dl_fn_ptr d = Some (FpIndependent ALIGN64))
  /\ layout_has "Fn8" (fun d => dl_fn_ptr d = Some (FpMultiple ALIGN8))
  /\ layout_fails "F" (LeBadSpecParse LfNoFn) /\ layout_fails "Fn" (LeBadInt IntEmpty)
  /\ layout_fails "Fn123" (LeBadAlign (ANotByteMultiple 123)) /\ layout_fails "F?64" (LeBadSpecParse (LfFnLetter (ch "?")))
  /\ layout_has "n8:16:32:64" (fun d => dl_native d = [8; 16; 32; 64])
  /\ layout_has "n64" (fun d => dl_native d = [64])
  /\ layout_fails "n" (LeBadSpecParse LfNoWidth) /\ layout_fails "nx" (LeBadInt IntInvalidDigit)
  /\ layout_fails "n:" (LeBadInt IntEmpty) /\ layout_fails "n8:" (LeBadInt IntEmpty)
  /\ layout_has "ni:1:10:20" (fun d => dl_non_integral d = [1; 10; 20])
  /\ layout_has "ni:1" (fun d => dl_non_integral d = [1])
  /\ layout_fails "ni" (LeBadSpecParse LfNoSpace) /\ layout_fails "ni0" (LeBadInt IntEmpty).
Proof.
  unfold layout_fails, layout_has.
  repeat match goal with
         | |- _ /\ _ => split
         | |- exists _, _ => eexists
         | |- _ => vm_compute; reflexivity
         end.
Qed.
