(** Property theorems C74, C75: targets with words of 32 bits.

    The code with [U] values of [usize] is in WordModel.v (the functions ending in [_w]); the other model has 64-bit words.
    [observe_w], [same_request], [run_w] and [module_below] are in WordSpec.v. *)
From Verif Require Import Base Strings EnumModel SupportModel SupportSpec LayoutModel LayoutSpec CursorModel CursorSpec CursorHist CursorProofs CursorMain
  StreamModel StreamSpec StreamHist UnrollModel UnrollSpec AttributeModel AttributeSpec TablesModel TablesSpec TypeTableModel TypeTableSpec
  RecordModel RecordSpec ModuleModel SourceSpec WordModel WordSpec WordCursor WordStream WordMapper WordSmall WordReduce WordEqual WordWitness.
From Coq Require Import Lia ZifyBool ZifyNat ZifyN.
Ltac Zify.zify_post_hook ::= Z.div_mod_to_equations.
Local Open Scope N_scope.

(** *** C74: what loads with 64-bit words loads to the same with 32-bit words *)

Theorem C74_files_load_alike : forall e host buf ms, N.of_nat (length buf) < 2 ^ 29 ->
  bitcode_of e host buf = Ok ms -> bitcode_of_w two32 e host buf = Ok ms.
Proof.
  intros e host buf ms L H. apply bitcode_keeps; [reflexivity| |exact H]. change (2 ^ 29) with 536870912 in L. unfold two32. lia.
Qed.
Print Assumptions C74_files_load_alike.

(** The entries up to the first error; all of them if there is none. *)
Theorem C74_entries_alike : forall e buf w b, N.of_nat (length buf) < 2 ^ 29 -> from e buf = Ok (w, b) ->
  from_w two32 e buf = Ok (w, b) /\
  forall n, let xs := leading (run e cursor_ops n (bs_parser b)) in
    firstn (length xs) (run_w two32 e n (bs_parser b)) = map (fun x => Some (Ok x)) xs /\
    (run e cursor_ops n (bs_parser b) = map (fun x => Some (Ok x)) xs ++ [None] ->
     run_w two32 e n (bs_parser b) = map (fun x => Some (Ok x)) xs ++ [None]).
Proof.
  intros e buf w b L H. apply entries_keep; [reflexivity| |exact H]. change (2 ^ 29) with 536870912 in L. unfold two32. lia.
Qed.
Print Assumptions C74_entries_alike.

(** Histories of cursors: the same results, positions and ends, the errors included. *)
Theorem C74_cursors_alike : forall e c0 ops, fresh c0 -> byte_len c0 < 2 ^ 29 -> Forall same_request ops ->
  observe_w two32 e c0 ops = map (fun x => let '(r, p, t) := x in (r, Ok p, t)) (observe e c0 ops).
Proof.
  intros e c0 ops F L R. apply observe_same; [exact R|]. split; [apply (fresh_inv c0 F)|]. change (2 ^ 29) with 536870912 in L. unfold two32. lia.
Qed.
Print Assumptions C74_cursors_alike.

(** Signed numbers that fit. *)
Theorem C74_signed_alike : forall e c w z, reachable e c -> byte_len c < 2 ^ 29 ->
  fst (read_svbr e cursor_ops w c) = Ok z -> (- 2 ^ 31 < z < 2 ^ 31)%Z -> read_svbr_w two32 e w c = read_svbr e cursor_ops w c.
Proof.
  intros e c w z R L H B. apply (svbr_same e w c z); [|exact H|exact B]. split; [exact (reachable_inv e c R)|].
  change (2 ^ 29) with 536870912 in L. unfold two32. lia.
Qed.
Print Assumptions C74_signed_alike.

(** With 64-bit words the code of WordModel.v is that of the other models, errors, panics and states included. *)
Theorem C74_words_of_64_bits : forall e host buf, N.of_nat (length buf) < 2 ^ 61 ->
  bitcode_of_w two64 e host buf = bitcode_of e host buf /\ from_w two64 e buf = from e buf /\
  (forall w b n, from e buf = Ok (w, b) -> run_w two64 e n (bs_parser b) = run e cursor_ops n (bs_parser b)) /\
  (forall ops, (forall p, In (OSeek (SeekStart p)) ops -> p < 2 ^ 64) ->
     observe_w two64 e (cur_new buf) ops = map (fun x => let '(r, p, t) := x in (r, Ok p, t)) (observe e (cur_new buf) ops)).
Proof.
  intros e host buf L. change (2 ^ 61) with 2305843009213693952 in L.
  assert (L8 : 8 * N.of_nat (length buf) < two64) by (unfold two64; lia).
  split; [now apply bitcode_equal|]. split; [now apply from_equal|]. split.
  - intros w b n F. apply run_equal; [apply N.le_refl|]. exact (from_J e buf w b L8 F).
  - intros ops H. apply observe_64; [exact H|]. now apply new_inv.
Qed.
Print Assumptions C74_words_of_64_bits.

(** *** C75: 32-bit words refuse what they cannot hold *)

(** Modules whose fields are below 2^31 get the same result in every case. *)
Theorem C75_small_fields_partial : forall e host t b, module_below (2 ^ 31) b ->
  module_map_w two32 e host t b = module_map e host t b.
Proof. intros e host t b. apply module_map_small; reflexivity || discriminate. Qed.
Print Assumptions C75_small_fields_partial.

(** In general the mapper makes of a module what it makes, with 64-bit words, of the module whose positions in tables are
    reduced modulo the size of a word. *)
Theorem C75_modules_exactly : forall U e host t b x, 8 <= U <= two64 -> N.of_nat (length t) < U ->
  module_map_w U e host t b = Ok x <-> module_map e host t (word_module U b) = Ok x.
Proof. intros U e host t b x [U1 U2] L. exact (module_values U e U1 U2 host t b L x). Qed.
Print Assumptions C75_modules_exactly.

(** A file that is rejected with 64-bit words is loaded: the name of a function is at 2^32 of a string table of two bytes. *)
Definition ex_wide : list node :=
  [NBlock 13 [NRecord 1 (lit "me"); NRecord 2 [0]];
   NBlock 8 [NRecord 1 [2]; NBlock 17 [NRecord 1 [2]; NRecord 2 []; NRecord 21 [0; 0]]; NBlock 14 [];
             NRecord 8 [2 ^ 32; 2; 1; 0; 1; 0; 0; 0; 0; 0]];
   NBlock 23 [NRecord 1 [102; 111]]].
Definition ex_wide_bits : list bool := match write_stream 0xdec04342 (map plain ex_wide) with Some b => b | None => [] end.
Definition ex_wide_file : list byte := bytes_of_bits ex_wide_bits.
Theorem C75_files_refuted : exists e host buf ms, N.of_nat (length buf) < 2 ^ 29 /\
  bitcode_of e host buf = Err (BcModule (MdFunction (FeStrtab SbBadRange))) /\ bitcode_of_w two32 e host buf = Ok ms.
Proof.
  exists debug_env, (lit "host"), ex_wide_file,
    [mkBitcodeModule (mkIdentification (lit "me") 0) (mkModule (lit "host") [] []) [102; 111] None].
  split; [vm_compute; reflexivity|]. split; vm_compute; reflexivity.
Qed.
Print Assumptions C75_files_refuted.

(** Streams that are errors with 64-bit words have entries, and one of them a panic. The block 9 is followed by [body]. *)
Definition ex_fill (l : list bool) : list bool := l ++ repeat false (N.to_nat ((32 - N.of_nat (length l) mod 32) mod 32)).
Definition ex_block (width : N) (body : list bool) : list byte :=
  bytes_of_bits (ex_fill (ex_fill (fixed_bits 32 0xdec04342 ++ fixed_bits 2 1 ++ vbr_bits 8 9 ++ vbr_bits 4 width) ++ fixed_bits 32 1 ++ body)).
(** An operand of 2^32 + 8 bits; a block with ids of 2^32 + 3 bits; an abbreviation with the id 2^32. *)
Definition ex_operand : list byte :=
  ex_block 3 (fixed_bits 3 2 ++ vbr_bits 5 2 ++ [true] ++ vbr_bits 8 1 ++ [false] ++ fixed_bits 3 1 ++ vbr_bits 5 (2 ^ 32 + 8) ++
              fixed_bits 3 4 ++ fixed_bits 8 77 ++ fixed_bits 3 0).
Definition ex_ids : list byte := ex_block (2 ^ 32 + 3) (fixed_bits 3 0).
Definition ex_id : list byte := ex_block 36 (fixed_bits 36 (2 ^ 32)).
Definition ex_parser (buf : list byte) : sparser cursor := match from_raw buf with Ok b => bs_parser b | _ => parser_new (cur_new []) end.

Theorem C75_operand_widths_refuted : exists e s n, parser_reachable e s /\
  run e cursor_ops n s = [Some (Ok (ESubBlock 9 4)); Some (Err (SCursor InvalidReadSize))] /\
  run_w two32 e n s = [Some (Ok (ESubBlock 9 4)); Some (Ok (ERecord (Some 4) 1 [77]))].
Proof.
  exists debug_env, (ex_parser ex_operand), 2%nat. split; [|split; vm_compute; reflexivity].
  unfold ex_parser. destruct (from_raw ex_operand) as [b| | |] eqn:E; [exact (UnrollApi.from_raw_reachable debug_env _ b E)|exfalso; revert E; vm_compute; discriminate..].
Qed.
Print Assumptions C75_operand_widths_refuted.

Theorem C75_id_widths_refuted : exists e s n, parser_reachable e s /\
  run e cursor_ops n s = [Some (Ok (ESubBlock 9 4)); Some (Err (SCursor InvalidReadSize)); Some (Err (SCursor InvalidReadSize))] /\
  run_w two32 e n s = [Some (Ok (ESubBlock 9 4)); Some (Ok EEndBlock); None].
Proof.
  exists debug_env, (ex_parser ex_ids), 3%nat. split; [|split; vm_compute; reflexivity].
  unfold ex_parser. destruct (from_raw ex_ids) as [b| | |] eqn:E; [exact (UnrollApi.from_raw_reachable debug_env _ b E)|exfalso; revert E; vm_compute; discriminate..].
Qed.
Print Assumptions C75_id_widths_refuted.

Theorem C75_ids_refuted : exists e s n, parser_reachable e s /\
  run e cursor_ops n s = [Some (Ok (ESubBlock 9 4)); Some (Err (SBadAbbrev (2 ^ 32)))] /\
  run_w two32 e n s = [Some (Ok (ESubBlock 9 4)); Some (Panic PSubOverflow)].
Proof.
  exists debug_env, (ex_parser ex_id), 2%nat. split; [|split; lazy; reflexivity].
  unfold ex_parser. destruct (from_raw ex_id) as [b| | |] eqn:E; [exact (UnrollApi.from_raw_reachable debug_env _ b E)|exfalso; revert E; vm_compute; discriminate..].
Qed.
Print Assumptions C75_ids_refuted.

(** Numbers of 2^32 + 6 bits with continuation; arrays and blobs of 2^32 + 1 elements; records of 2^32 + 1 fields. *)
Definition ex_vbr : list byte :=
  ex_block 3 (fixed_bits 3 2 ++ vbr_bits 5 2 ++ [true] ++ vbr_bits 8 1 ++ [false] ++ fixed_bits 3 2 ++ vbr_bits 5 (2 ^ 32 + 6) ++
              fixed_bits 3 4 ++ vbr_bits 6 77 ++ fixed_bits 3 0).
Definition ex_array : list byte :=
  ex_block 3 (fixed_bits 3 2 ++ vbr_bits 5 3 ++ [true] ++ vbr_bits 8 1 ++ [false] ++ fixed_bits 3 3 ++ [false] ++ fixed_bits 3 1 ++ vbr_bits 5 8 ++
              fixed_bits 3 4 ++ vbr_bits 6 (2 ^ 32 + 1) ++ fixed_bits 8 77 ++ fixed_bits 3 0).
Definition ex_blob : list byte :=
  ex_block 3 (fixed_bits 3 2 ++ vbr_bits 5 2 ++ [true] ++ vbr_bits 8 1 ++ [false] ++ fixed_bits 3 5 ++
              fixed_bits 3 4 ++ vbr_bits 6 (2 ^ 32 + 1) ++ repeat false 30 ++ fixed_bits 8 77 ++ fixed_bits 24 0 ++ fixed_bits 3 0).
Definition ex_count : list byte := ex_block 3 (fixed_bits 3 3 ++ vbr_bits 6 1 ++ vbr_bits 6 (2 ^ 32 + 1) ++ vbr_bits 6 5).
Theorem C75_vbr_widths_refuted : exists e s n, parser_reachable e s /\
  run e cursor_ops n s = [Some (Ok (ESubBlock 9 4)); Some (Err (SCursor InvalidVbrWidth))] /\
  run_w two32 e n s = [Some (Ok (ESubBlock 9 4)); Some (Ok (ERecord (Some 4) 1 [77]))].
Proof.
  exists debug_env, (ex_parser ex_vbr), 2%nat. split; [|split; vm_compute; reflexivity].
  unfold ex_parser. destruct (from_raw ex_vbr) as [b| | |] eqn:E; [exact (UnrollApi.from_raw_reachable debug_env _ b E)|exfalso; revert E; vm_compute; discriminate..].
Qed.
Print Assumptions C75_vbr_widths_refuted.

Theorem C75_arrays_refuted : exists e s n, parser_reachable e s /\
  run e cursor_ops n s = [Some (Ok (ESubBlock 9 4)); Some (Panic PAlloc)] /\
  run_w two32 e n s = [Some (Ok (ESubBlock 9 4)); Some (Ok (ERecord (Some 4) 1 [77]))].
Proof.
  exists debug_env, (ex_parser ex_array), 2%nat. split; [|split; vm_compute; reflexivity].
  unfold ex_parser. destruct (from_raw ex_array) as [b| | |] eqn:E; [exact (UnrollApi.from_raw_reachable debug_env _ b E)|exfalso; revert E; vm_compute; discriminate..].
Qed.
Print Assumptions C75_arrays_refuted.

Theorem C75_blobs_refuted : exists e s n, parser_reachable e s /\
  run e cursor_ops n s = [Some (Ok (ESubBlock 9 4)); Some (Panic PAlloc)] /\
  run_w two32 e n s = [Some (Ok (ESubBlock 9 4)); Some (Ok (ERecord (Some 4) 1 [77]))].
Proof.
  exists debug_env, (ex_parser ex_blob), 2%nat. split; [|split; vm_compute; reflexivity].
  unfold ex_parser. destruct (from_raw ex_blob) as [b| | |] eqn:E; [exact (UnrollApi.from_raw_reachable debug_env _ b E)|exfalso; revert E; vm_compute; discriminate..].
Qed.
Print Assumptions C75_blobs_refuted.

Theorem C75_capacities_refuted : exists e s n, parser_reachable e s /\
  run e cursor_ops n s = [Some (Ok (ESubBlock 9 4)); Some (Panic PAlloc)] /\
  run_w two32 e n s = [Some (Ok (ESubBlock 9 4)); Some (Err (SCursor Short))].
Proof.
  exists debug_env, (ex_parser ex_count), 2%nat. split; [|split; vm_compute; reflexivity].
  unfold ex_parser. destruct (from_raw ex_count) as [b| | |] eqn:E; [exact (UnrollApi.from_raw_reachable debug_env _ b E)|exfalso; revert E; vm_compute; discriminate..].
Qed.
Print Assumptions C75_capacities_refuted.

(** The references of the mapper are taken modulo 2^32. *)
Theorem C75_references_wrap : forall t i x, types_get t i = Some x -> N.of_nat (length t) <= 2 ^ 32 ->
  types_get t (2 ^ 32 + i) = None /\ types_get_w two32 t (2 ^ 32 + i) = Some x.
Proof.
  intros t i x H L. change (2 ^ 32) with two32 in *. assert (LT : (N.to_nat i < length t)%nat) by (apply nth_error_Some; unfold types_get in H; congruence).
  split.
  - unfold types_get. apply nth_error_None. lia.
  - unfold types_get_w. rewrite us_wraps by reflexivity. rewrite us_small by lia. exact H.
Qed.
Print Assumptions C75_references_wrap.

(** Seeking to 2^32 goes to the beginning; seeking 2^32 back from the end stays there, and from elsewhere too. *)
Theorem C75_positions_refuted : exists e buf, N.of_nat (length buf) < 2 ^ 29 /\
  fst (seek e (SeekStart (2 ^ 32)) (cur_new buf)) = Err SeekInvalidInput /\ fst (seek_w two32 e (SeekStart (2 ^ 32)) (cur_new buf)) = Ok 0 /\
  fst (seek e (SeekEnd (- 2 ^ 32)) (cur_new buf)) = Err SeekInvalidInput /\ fst (seek_w two32 e (SeekEnd (- 2 ^ 32)) (cur_new buf)) = Ok 2 /\
  fst (seek e (SeekCurrent (- 2 ^ 32)) (cur_new buf)) = Err SeekInvalidInput /\ fst (seek_w two32 e (SeekCurrent (- 2 ^ 32)) (cur_new buf)) = Ok 0.
Proof. exists debug_env, [Byte.x01; Byte.x02]. repeat split; vm_compute; reflexivity. Qed.
Print Assumptions C75_positions_refuted.

(** Past 512 MiB the beginning is read again, or the program panics if overflow is checked: 2^29 bytes in C74 is exact. *)
Theorem C75_past_512_MiB_refuted : exists buf c c', N.of_nat (length buf) = 2 ^ 29 + 1 /\
  seek release_env (SeekStart (2 ^ 29)) (cur_new buf) = (Ok (2 ^ 29), c) /\ fst (read 8 c) = Ok 42 /\
  seek_w two32 release_env (SeekStart (2 ^ 29)) (cur_new buf) = (Ok (2 ^ 29), c') /\ fst (read_w two32 release_env 8 c') = Ok 7 /\
  fst (read_w two32 debug_env 8 (snd (seek_w two32 debug_env (SeekStart (2 ^ 29)) (cur_new buf)))) = Panic PMulOverflow.
Proof.
  assert (exists k, N.of_nat k + 1 = 2 ^ 29) as (k & K) by (exists (N.to_nat (2 ^ 29 - 1)); rewrite N2Nat.id; reflexivity).
  destruct (long_reads k Byte.x07 Byte.x2a release_env (2 ^ 29) eq_refl K) as (c & c' & H). exists (long k Byte.x07 Byte.x2a), c, c'.
  split; [rewrite long_length; lia|exact H].
Qed.
Print Assumptions C75_past_512_MiB_refuted.

(** Signed numbers are cut to 32 bits: 2^32 + 2^31 becomes -2^31. *)
Theorem C75_signed_refuted : exists e buf, fst (read_svbr e cursor_ops 6 (cur_new buf)) = Ok (2 ^ 32 + 2 ^ 31)%Z /\
  fst (read_svbr_w two32 e 6 (cur_new buf)) = Ok (- 2 ^ 31)%Z.
Proof. exists release_env, (bytes_of_bits (ex_fill (vbr_bits 6 (2 ^ 33 + 2 ^ 32)))). split; vm_compute; reflexivity. Qed.
Print Assumptions C75_signed_refuted.

(** *** Examples *)

(** A file that loads on both; histories of a cursor. *)
Definition ex_narrow : list node :=
  [NBlock 13 [NRecord 1 (lit "me"); NRecord 2 [0]];
   NBlock 8 [NRecord 1 [2]; NBlock 17 [NRecord 1 [2]; NRecord 2 []; NRecord 21 [0; 0]]; NBlock 14 [];
             NRecord 8 [0; 2; 1; 0; 1; 0; 0; 0; 0; 0]];
   NBlock 23 [NRecord 1 [102; 111]]].
Definition ex_narrow_bits : list bool := match write_stream 0xdec04342 (map plain ex_narrow) with Some b => b | None => [] end.
Definition ex_narrow_file : list byte := bytes_of_bits ex_narrow_bits.
Example C74_example : N.of_nat (length ex_narrow_file) < 2 ^ 29 /\
  bitcode_of debug_env (lit "host") ex_narrow_file = Ok [mkBitcodeModule (mkIdentification (lit "me") 0) (mkModule (lit "host") [] []) [102; 111] None] /\
  (exists w b, from debug_env ex_narrow_file = Ok (w, b) /\ length (leading (run debug_env cursor_ops 40 (bs_parser b))) = 18%nat).
Proof.
  split; [vm_compute; reflexivity|]. split; [vm_compute; reflexivity|].
  destruct (from debug_env ex_narrow_file) as [[w b]| | |] eqn:E; [|exfalso; revert E; vm_compute; discriminate..].
  exists w, b. split; [reflexivity|]. assert (X := f_equal (fun r => match r with Ok (_, b) => length (leading (run debug_env cursor_ops 40 (bs_parser b))) | _ => 0%nat end) E).
  cbv beta iota in X. rewrite <- X. vm_compute. reflexivity.
Qed.
Example C74_cursor_example :
  let ops := [ORead 5; OSeek (SeekStart 3); ORead 8; OSeek (SeekCurrent (-2)); ORead 63; OSeek (SeekEnd (-1)); OReadVbr 4; OAlign32; OSeekBit 9; ORead 3] in
  let c := cur_new ([Byte.x01; Byte.x82; Byte.x03; Byte.x04; Byte.x05]) in
  Forall same_request ops /\ fresh c /\ byte_len c < 2 ^ 29 /\ map (fun x => snd (fst x)) (observe debug_env c ops) = [5; 24; 32; 16; 16; 32; 36; 40; 9; 12].
Proof.
  cbv zeta. split; [repeat constructor; cbn; lia|]. split; [left; eexists; reflexivity|]. split; vm_compute; reflexivity.
Qed.
(** A signed number that fits, and one that does not (the same on both with 64-bit words). *)
Example C74_signed_example :
  fst (read_svbr debug_env cursor_ops 6 (cur_new [Byte.x2d; Byte.x00])) = Ok (-6)%Z /\
  read_svbr_w two32 debug_env 6 (cur_new [Byte.x2d; Byte.x00]) = read_svbr debug_env cursor_ops 6 (cur_new [Byte.x2d; Byte.x00]).
Proof. split; vm_compute; reflexivity. Qed.
(** Outcomes that differ on 32-bit targets do not with 64-bit words. *)
Example C74_words_of_64_bits_example :
  N.of_nat (length ex_wide_file) < 2 ^ 61 /\ bitcode_of_w two64 debug_env (lit "host") ex_wide_file = Err (BcModule (MdFunction (FeStrtab SbBadRange))).
Proof. split; vm_compute; reflexivity. Qed.
(** The module of the file above has small fields; 2^31 in the bound is exact: two fields of that size overflow. *)
Definition ex_module : block :=
  mkBlock (BIr IbModule) [mkRecord None 1 [2]; mkRecord None 8 [0; 2; 1; 0; 1; 0; 0; 0; 0; 0]]
    [(BIr IbType, [mkBlock (BIr IbType) [mkRecord None 1 [2]; mkRecord None 2 []; mkRecord None 21 [0; 0]] []]); (BIr IbValueSymtab, [mkBlock (BIr IbValueSymtab) [] []])].
Example C75_example : module_below (2 ^ 31) ex_module /\ (exists x, module_map debug_env (lit "host") [102; 111] ex_module = Ok x) /\
  (strtab_try_get debug_env [102; 111] 1 (2 ^ 32 - 1) = Err SbBadRange /\ strtab_try_get_w two32 debug_env [102; 111] 1 (2 ^ 32 - 1) = Panic PAddOverflow).
Proof.
  split; [|split; [eexists; vm_compute; reflexivity|split; vm_compute; reflexivity]]. split.
  - repeat constructor.
  - intros id b' I. unfold by_id in I. cbn [b_blocks ex_module map_get] in I.
    destruct (block_id_dec (BIr IbType) id); [destruct I as [<-|[]]; repeat constructor|].
    destruct (block_id_dec (BIr IbValueSymtab) id); [destruct I as [<-|[]]; constructor|]. destruct I.
Qed.
(** A module with every kind of position, each beyond 2^32; the reduced module; what both become. *)
Definition ex_far (w : N) : block :=
  mkBlock (BIr IbModule)
    [mkRecord None 1 [2]; mkRecord None 5 (lit "sec"); mkRecord None 11 (lit "gc");
     mkRecord None 12 [w + 0; w + 1; 3]; mkRecord None 8 [w + 0; w + 2; w + 1; 0; 1; 0; w + 1; 0; w + 1; 0; w + 1];
     mkRecord None 14 [w + 1; w + 1; w + 2; 7; 0]]
    [(BIr IbType, [mkBlock (BIr IbType)
       [mkRecord None 1 [w + 8]; mkRecord None 2 []; mkRecord None 21 [0; w + 0; w + 2]; mkRecord None 7 [w + 32]; mkRecord None 8 [w + 2; 0];
        mkRecord None 11 [w + 9; w + 2]; mkRecord None 12 [w + 4; w + 2]; mkRecord None 18 [0; w + 2; w + 3];
        mkRecord None 19 (lit "st"); mkRecord None 21 [1; w + 2]] []]);
     (BIr IbValueSymtab, [mkBlock (BIr IbValueSymtab) [] []]);
     (BIr IbParamAttrGroup, [mkBlock (BIr IbParamAttrGroup) [mkRecord None 3 [1; 2; 0; 2]] []]);
     (BIr IbParamAttr, [mkBlock (BIr IbParamAttr) [mkRecord None 2 [1]] []])].
Definition ex_near : block :=
  mkBlock (BIr IbModule)
    [mkRecord None 1 [2]; mkRecord None 5 (lit "sec"); mkRecord None 11 (lit "gc");
     mkRecord None 12 [0; 1; 3]; mkRecord None 8 [0; 2; 1; 0; 1; 0; 1; 0; 1; 0; 1]; mkRecord None 14 [1; 1; 2; 7; 0]]
    [(BIr IbType, [mkBlock (BIr IbType)
       [mkRecord None 1 [8]; mkRecord None 2 []; mkRecord None 21 [0; 0; 2]; mkRecord None 7 [2 ^ 32 + 32]; mkRecord None 8 [2; 0];
        mkRecord None 11 [2 ^ 32 + 9; 2]; mkRecord None 12 [2 ^ 32 + 4; 2]; mkRecord None 18 [0; 2; 3];
        mkRecord None 19 (lit "st"); mkRecord None 21 [1; 2]] []]);
     (BIr IbValueSymtab, [mkBlock (BIr IbValueSymtab) [] []]);
     (BIr IbParamAttrGroup, [mkBlock (BIr IbParamAttrGroup) [mkRecord None 3 [1; 2; 0; 2]] []]);
     (BIr IbParamAttr, [mkBlock (BIr IbParamAttr) [mkRecord None 2 [1]] []])].
Example C75_modules_exactly_example :
  word_module two32 (ex_far (2 ^ 32)) = ex_near /\
  (exists x, module_map_w two32 debug_env (lit "host") [102; 111] (ex_far (2 ^ 32)) = Ok x /\ module_map debug_env (lit "host") [102; 111] ex_near = Ok x /\
             length (cx_types (snd (fst (fst x)))) = 8%nat /\ map fn_name (snd (fst x)) = [ [102; 111] ]) /\
  module_map debug_env (lit "host") [102; 111] (ex_far (2 ^ 32)) = Panic PAlloc.
Proof.
  split; [vm_compute; reflexivity|]. split; [|vm_compute; reflexivity]. eexists. split; [vm_compute; reflexivity|]. split; [vm_compute; reflexivity|]. split; vm_compute; reflexivity.
Qed.
(** Without overflow checks the abbreviation id 2^32 is refused, as with 64-bit words, also where an abbreviation is
    defined; a function body of 2^32 + 1 blocks is refused later. *)
Definition ex_id_defined : list byte :=
  ex_block 36 (fixed_bits 36 2 ++ vbr_bits 5 1 ++ [true] ++ vbr_bits 8 1 ++ fixed_bits 36 (2 ^ 32)).
Example C75_release_example :
  run release_env cursor_ops 2 (ex_parser ex_id_defined) = [Some (Ok (ESubBlock 9 4)); Some (Err (SBadAbbrev (2 ^ 32)))] /\
  run_w two32 release_env 2 (ex_parser ex_id_defined) = [Some (Ok (ESubBlock 9 4)); Some (Err (SBadAbbrev (2 ^ 32)))] /\
  (let b := mkBlock (BIr IbFunction) [mkRecord None 1 [2 ^ 32 + 1]] [] in
   fn_block_of release_env [] b = Panic PAlloc /\ fn_block_of_w two32 release_env [] b = Panic PUnimplemented).
Proof. split; [lazy; reflexivity|]. split; [lazy; reflexivity|]. split; vm_compute; reflexivity. Qed.
