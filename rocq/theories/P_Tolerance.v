(** Property theorems C81: what LLVM's reader tolerates and what it insists on.

    [as_llvm] and [zero_width_error] are in ToleranceSpec.v, [values_text] and [opened] in GrammarSpec.v. *)
From Verif Require Import Base Strings EnumModel SupportModel CursorModel CursorSpec StreamModel StreamSpec StreamHist StreamEffect GrammarSpec
  UnrollModel UnrollSpec AttributeModel TablesModel TypeTableModel RecordModel ModuleModel ToleranceSpec ToleranceProofs.
Local Open Scope N_scope.

(** *** Fields of width zero *)

(** A record that LLVM reads with an abbreviation, where fields of width zero are the literal zero: it is read if the abbreviation has
    no such field; otherwise the first of them is an error. *)
Theorem C81_zero_width_fields_partial : forall e gap s w b i l scs id a code fields t tr rest, opened e gap s ->
  p_scopes s = ScBlock w b i l :: scs -> b <> 0 -> fixed_text w id t -> 4 <= id -> nth_error l (N.to_nat (id - 4)) = Some a ->
  values_text e gap (pos s + blen t) (map as_llvm a) (code :: fields) tr -> unread s = t ++ tr ++ rest ->
  fst (next e cursor_ops s) =
    match zero_width_error a with None => Some (Ok (ERecord (Some id) code fields)) | Some c => Some (Err (SCursor c)) end.
Proof. exact zero_widths. Qed.
Print Assumptions C81_zero_width_fields_partial.

(** So no record is ever returned for an abbreviation with a field of width zero, whatever the input. *)
Theorem C81_no_record_with_zero_width_partial : forall e gap s id code fields s', opened e gap s ->
  next e cursor_ops s = (Some (Ok (ERecord (Some id) code fields)), s') ->
  exists w b i l scs a, p_scopes s' = ScBlock w b i l :: scs /\ nth_error l (N.to_nat (id - 4)) = Some a /\ zero_width_error a = None.
Proof. exact record_widths. Qed.
Print Assumptions C81_no_record_with_zero_width_partial.

(** An identification block whose EPOCH record (2) is written with an abbreviation [literal 2, op], [op] of width zero; the record
    consists of its abbreviation id. Before it there are the definition and the record of the producer. *)
Definition ex_epoch (op : abbrev_op) : list bool :=
  let head := fixed_bits 32 0xdec04342 ++ fixed_bits 2 1 ++ vbr_bits 8 13 ++ vbr_bits 4 5 in
  let def := match def_bits [OpLiteral 2; op] with Some d => d | None => [] end in
  let name := match unabbrev_bits 1 [76; 76; 86; 77] with Some d => d | None => [] end in
  let body := fixed_bits 5 2 ++ def ++ fixed_bits 5 3 ++ name ++ fixed_bits 5 4 ++ fixed_bits 5 0 in
  head ++ pad (blen head) ++ fixed_bits 32 ((blen body + 31) / 32) ++ body ++ pad (blen body).
Definition ex_entries (n : nat) (op : abbrev_op) : list (option (outcome serr entry)) :=
  match from_raw (bytes_of_bits (ex_epoch op)) with Ok b => run debug_env cursor_ops n (bs_parser b) | _ => [] end.
Example C81_zero_width_example :
  let before := [Some (Ok (ESubBlock 13 16)); Some (Ok (ERecord None 1 [76; 76; 86; 77]))] in
  ex_entries 5 (OpLiteral 0) = before ++ [Some (Ok (ERecord (Some 4) 2 [0])); Some (Ok EEndBlock); None] /\
  ex_entries 3 (OpFixed 0) = before ++ [Some (Err (SCursor InvalidReadSize))] /\
  ex_entries 3 (OpVbr 0) = before ++ [Some (Err (SCursor InvalidVbrWidth))].
Proof. vm_compute. repeat split. Qed.

(** The parser in front of the EPOCH record. *)
Definition ex_parser (op : abbrev_op) : sparser cursor :=
  match from_raw (bytes_of_bits (ex_epoch op)) with
  | Ok b => snd (next debug_env cursor_ops (snd (next debug_env cursor_ops (bs_parser b))))
  | _ => mkParser (cur_new []) [] []
  end.
Lemma ex_opened op : (exists b, from_raw (bytes_of_bits (ex_epoch op)) = Ok b) -> opened debug_env word_gap (ex_parser op).
Proof.
  intros [b E]. unfold ex_parser. rewrite E. apply OpNext, OpNext. exact (OpRaw debug_env _ b E).
Qed.
Theorem C81_zero_width_fields_are_zero_refuted : exists e gap s w b i l scs id a code fields t tr rest, opened e gap s /\
  p_scopes s = ScBlock w b i l :: scs /\ b <> 0 /\ fixed_text w id t /\ 4 <= id /\ nth_error l (N.to_nat (id - 4)) = Some a /\
  values_text e gap (pos s + blen t) (map as_llvm a) (code :: fields) tr /\ unread s = t ++ tr ++ rest /\
  fst (next e cursor_ops s) <> Some (Ok (ERecord (Some id) code fields)).
Proof.
  exists debug_env, word_gap, (ex_parser (OpFixed 0)), 5, 13, None, [[OpLiteral 2; OpFixed 0]], [ScInitial], 4, [OpLiteral 2; OpFixed 0], 2, [0],
    (fixed_bits 5 4), [], (skipn 5 (unread (ex_parser (OpFixed 0)))).
  split; [apply ex_opened; eexists; vm_compute; reflexivity|]. split; [vm_compute; reflexivity|]. split; [discriminate|].
  split; [split; [vm_compute; intuition discriminate|split; [vm_compute|]; reflexivity]|]. split; [vm_compute; discriminate|].
  split; [reflexivity|]. split; [cbn; repeat constructor|]. split; [vm_compute; reflexivity|]. vm_compute. discriminate.
Qed.
Print Assumptions C81_zero_width_fields_are_zero_refuted.

(** *** Something behind the last block *)

(** LLVM does not look for another module in fewer than eight bytes ("a client that leaves garbage at the end of the bitcode stream",
    [getBitcodeFileContents], llvm/lib/Bitcode/Reader/BitcodeReader.cpp). Here a written stream followed by a word of anything gives its
    entries and then an error (or a panic); by one to seven bytes of anything, it is not loaded. *)
Theorem C81_trailing_word_partial : forall e magic l bits suf,
  write_stream magic l = Some bits -> forallb (item_small (alloc_limit e)) l = true -> length suf = 4%nat ->
  exists s r, from_raw (bytes_of_bits bits ++ suf) = Ok (mkBitstream magic s) /\
    run e cursor_ops (S (length (entries l))) s = map (fun x => Some (Ok x)) (entries l) ++ [Some r] /\
    (forall x, r <> Ok x) /\ r <> OutOfFuel /\ r <> Err SExhausted /\ (suf = repeat Byte.x00 4 -> r = Err (SBadScope SfNoBlock)).
Proof. exact written_then. Qed.
Print Assumptions C81_trailing_word_partial.
Theorem C81_trailing_bytes_partial : forall e host magic l bits suf ms,
  write_stream magic l = Some bits -> forallb (item_small (alloc_limit e)) l = true -> magic <> 0x0b17c0de ->
  (1 <= length suf <= 7)%nat -> bitcode_of e host (bytes_of_bits bits ++ suf) <> Ok ms.
Proof. exact written_then_fails. Qed.
Print Assumptions C81_trailing_bytes_partial.
(** In a wrapper, which says where the stream ends, anything may follow: the file loads like its payload. *)
Theorem C81_padding_of_a_wrapper_partial : forall e host w b0 b1 b2 b3 rest padding,
  wrapper_ok w -> wr_magic w = 0x0b17c0de -> wr_offset w = 20 -> wr_size w = N.of_nat (length (b0 :: b1 :: b2 :: b3 :: rest)) ->
  word32 b0 b1 b2 b3 <> 0x0b17c0de ->
  bitcode_of e host (wrapper_header w ++ (b0 :: b1 :: b2 :: b3 :: rest) ++ padding) = bitcode_of e host (b0 :: b1 :: b2 :: b3 :: rest).
Proof. intros e host w b0 b1 b2 b3 rest padding W M O S N. exact (load_wrapped e host w [b0; b1; b2; b3] rest padding W M O S eq_refl N). Qed.
Print Assumptions C81_padding_of_a_wrapper_partial.

Definition ex_items : list item :=
  [IBlock 13 5 4 [IUnabbrev 1 [76; 76; 86; 77; 49; 52]; IUnabbrev 2 [0]];
   IBlock 8 3 10 [IUnabbrev 1 [2]; IBlock 17 4 3 [IUnabbrev 1 [2]; IUnabbrev 7 [32]; IUnabbrev 21 [0; 0; 0]]; IBlock 14 4 1 []];
   IBlock 23 3 4 [IUnabbrev 1 [109; 97; 105; 110; 103; 114; 112]]].
Definition ex_bytes (magic : N) : list byte :=
  match write_stream magic ex_items with Some b => bytes_of_bits b | None => [] end.
Definition ex_loaded : list bitcode_module :=
  [mkBitcodeModule (mkIdentification [76; 76; 86; 77; 49; 52] 0) (mkModule [104] [] []) [109; 97; 105; 110; 103; 114; 112] None].
Theorem C81_trailing_bytes_are_tolerated_refuted : exists magic l bits suf ms x,
  write_stream magic l = Some bits /\ magic = 0xdec04342 /\ suf = repeat Byte.x00 4 /\
  bitcode_of debug_env [104] (bytes_of_bits bits) = Ok ms /\ bitcode_of debug_env [104] (bytes_of_bits bits ++ suf) = Err x.
Proof.
  exists 0xdec04342, ex_items. destruct (write_stream 0xdec04342 ex_items) as [bits|] eqn:E; [|vm_compute in E; discriminate E].
  exists bits, (repeat Byte.x00 4), ex_loaded, (BcUnroll (UParse (SBadScope SfNoBlock))).
  vm_compute in E. injection E as <-. repeat split; vm_compute; reflexivity.
Qed.
Print Assumptions C81_trailing_bytes_are_tolerated_refuted.

(** *** The magic *)

(** LLVM reads files with the magic of IR, 'BC' C0 DE. Here the magic of a file that is not wrapped does not matter. *)
Theorem C81_magic_is_ignored_partial : forall e host a0 a1 a2 a3 b0 b1 b2 b3 rest,
  word32 a0 a1 a2 a3 <> 0x0b17c0de -> word32 b0 b1 b2 b3 <> 0x0b17c0de ->
  bitcode_of e host (a0 :: a1 :: a2 :: a3 :: rest) = bitcode_of e host (b0 :: b1 :: b2 :: b3 :: rest).
Proof. intros e host a0 a1 a2 a3 b0 b1 b2 b3 rest A B. exact (load_magic e host [a0; a1; a2; a3] [b0; b1; b2; b3] rest eq_refl eq_refl A B). Qed.
Print Assumptions C81_magic_is_ignored_partial.
Theorem C81_only_ir_is_loaded_refuted : exists buf w b ms,
  from debug_env buf = Ok (w, b) /\ bs_magic b <> 0xdec04342 /\ bitcode_of debug_env [104] buf = Ok ms.
Proof.
  exists (ex_bytes 0x12345678), None. eexists. exists ex_loaded. split; [vm_compute; reflexivity|]. split; vm_compute; [discriminate|reflexivity].
Qed.
Print Assumptions C81_only_ir_is_loaded_refuted.

Definition ex_wrapper (n : N) : wrapper := mkWrapper 0x0b17c0de 0 20 n 7.
Example C81_example :
  bitcode_of debug_env [104] (ex_bytes 0xdec04342) = Ok ex_loaded /\
  bitcode_of debug_env [104] (ex_bytes 0xdec04342 ++ map b8 [1; 2; 3; 4]) = Err (BcUnroll (UParse (SCursor Eof))) /\
  bitcode_of debug_env [104] (ex_bytes 0xdec04342 ++ map b8 [0; 0; 0; 0; 0]) = Err (BcUnroll (UParse (SBadContainer BxLength))) /\
  bitcode_of debug_env [104] (wrapper_header (ex_wrapper 100) ++ ex_bytes 0xdec04342 ++ map b8 [1; 2; 3; 4; 5]) = Ok ex_loaded /\
  bitcode_of debug_env [104] (map b8 [1; 2; 3; 4] ++ skipn 4 (ex_bytes 0xdec04342)) = Ok ex_loaded.
Proof. vm_compute. repeat split. Qed.
