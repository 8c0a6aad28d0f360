(** Property theorems C77: what an error and its causes say.

    A chain is the message of an error, the message of its cause ([source]), and so on (ChainModel.v); [shown] is which characters
    outside of ASCII [{:?}] prints as they are. *)
From Verif Require Import Base CursorModel CursorSpec CursorHist StreamModel StreamSpec StreamHist Strings EnumModel SupportModel LayoutModel UnrollModel AttributeModel
  TablesModel TypeTableModel RecordModel ModuleModel ExtraModel MessageModel DebugModel ChainModel ChainSpec ChainProofs ChainRepeats.
From Coq Require Import Lia.
Local Open Scope N_scope.

Definition ascii_only (c : N) : bool := false.

(** *** Chains identify errors *)

(** Two errors have the same chain exactly if they are the same, but for the bytes of a text that is not UTF-8: those of the data layout, of
    another string of the module, or of a name in its type table. *)
Theorem C77_chains : forall shown x y, bitcode_chain shown x = bitcode_chain shown y <->
  x = y \/ exists raw raw' u k, In k [MdLayoutString; MdString; fun s => MdTypes (TtString s)] /\
    x = BcModule (k (StBadEncoding raw u)) /\ y = BcModule (k (StBadEncoding raw' u)).
Proof. exact chains_exactly. Qed.
Print Assumptions C77_chains.
Example C77_chains_example :
  map (bitcode_chain ascii_only)
    [BcUnroll (UParse (SCursor Eof)); BcUnroll (UParse (SBadBlockInfoCode 9)); BcUnroll (UUnexpectedBlock (BUnknown 99)); BcSymtab (SyInvalidBlob BlBadByte);
     BcIdentification IeMissingEpoch; BcModule (MdLayout (LeBadAlignSpec (SeBadTypeWidth (WTooBig 0)))); BcModule (MdTypes (TtType (TeArrayElement TVoid)));
     BcModule (MdAttributes (AeUnknownKind 7)); BcModule (MdFunction (FeStrtab SbBadRange)); BcModule (MdAlias (AlVisibility 3));
     BcModule (MdBlock (FbBadBinOp (BeOpcode 13))); BcModule (MdBlock (FbBadBinOp (BeInvalidType TLabel))); BcModule (MdInconsistent (CeTooManyBlocks (BIr IbType)))] =
  map (map lit)
    [["error while parsing the bitstream"; "underlying bitcursor error"; "EOF while reading"];
     ["error while parsing the bitstream"; "bad record code for BLOCKINFO block"; "No discriminant in enum `BlockInfoCode` matches the value `9`"];
     ["error while unrolling the bitstream: unexpected top-level block: Unknown(99)"];
     ["error while mapping the bitsteam"; "error while mapping symbol table"; "invalid string table: impossible byte value in blob: out of range integral type conversion attempted";
      "impossible byte value in blob: out of range integral type conversion attempted"; "out of range integral type conversion attempted"];
     ["error while mapping the bitsteam"; "error while mapping identification block"; "identification block has no epoch"];
     ["error while mapping the bitsteam"; "error while mapping module"; "invalid datalayout record"; "cou't parse alignment spec: impossible bit width for underlying aligned type";
      "impossible bit width for underlying aligned type"; "bit width for type is too large (0 > 8388607 bits)"];
     ["error while mapping the bitsteam"; "error while mapping module"; "invalid type table block"; "invalid array type"; "invalid array element type: Void"];
     ["error while mapping the bitsteam"; "error while mapping module"; "invalid attribute block"; "unknown attribute kind"; "No discriminant in enum `AttributeKind` matches the value `7`"];
     ["error while mapping the bitsteam"; "error while mapping module"; "invalid function record"; "error while accessing string table"; "requested range in string table is invalid"];
     ["error while mapping the bitsteam"; "error while mapping module"; "invalid alias record"; "invalid visibility"; "No discriminant in enum `Visibility` matches the value `3`"];
     ["error while mapping the bitsteam"; "error while mapping module"; "invalid function block"; "invalid binary opcode"; "unknown opcode";
      "No discriminant in enum `BinaryOpcode` matches the value `13`"];
     ["error while mapping the bitsteam"; "error while mapping module"; "invalid function block"; "invalid binary opcode"; "invalid type for binary op: Label"];
     ["error while mapping the bitsteam"; "error while mapping module"; "generic mapping error"; "inconsistent block or record state";
      "expected exactly one block with Ir(Type) but got more than one"]]%string.
Proof. vm_compute. reflexivity. Qed.
(** The other causes. *)
Example C77_causes_example :
  map stream_chain [SBadAbbrevOpEnc 6; SBadAbbrev 4] =
    map (map lit) [["bad operand code for DEFINE_ABBREV operand"; "No discriminant in enum `AbbrevOpEnc` matches the value `6`"]; ["unknown abbreviation for ID: 4"]]%string /\
  map spec_chain [SeParseAlign (ANotByteMultiple 7); SeBadInt IntEmpty; SeBadAddressSpace (SpTooBig 8388608); SeAlignPref (mkAlign 0) (mkAlign 3)] =
    map (map lit) [["error while parsing inner alignment in spec"; "supplied value is not a multiple of 8: 7"];
                   ["error while parsing integer in alignment spec"; "cannot parse integer from empty string"];
                   ["invalid address space in spec"; "address space identifier is too large (8388608 > 8388607)"]; ["impossible preferred alignment: 1 must be >= 8"]]%string /\
  map layout_chain [LeBadAlign (ANotPowerOfTwo 24); LeBadAddressSpace (SpTooBig 8388608); LeBadInt IntInvalidDigit; LeEmptySpec] =
    map (map lit) [["bad alignment value: supplied value is not a power of two: 24"; "supplied value is not a power of two: 24"];
                   ["bad address space"; "address space identifier is too large (8388608 > 8388607)"];
                   ["couldn't parse spec field: invalid digit found in string"; "invalid digit found in string"]; ["empty specification in datalayout"]]%string /\
  map strtab_chain [SbMissingBlob; SbBadBlob (BlBadIndex 0 0); SbBadString (mkUtf8Err 2 None)] =
    map (map lit) [["malformed string table: missing blob"];
                   ["invalid string table: impossible blob index: 0 >= 0 (field count)"; "impossible blob index: 0 >= 0 (field count)"];
                   ["could not decode range into a UTF-8 string: incomplete utf-8 byte sequence from index 2"; "incomplete utf-8 byte sequence from index 2"]]%string /\
  map attr_chain [AeUnknownCode 5; AeUnknownId 200; AeTooShort] =
    map (map lit) [["unknown attribute code"; "No discriminant in enum `AttributeCode` matches the value `5`"]; ["unknown attribute ID"; "No discriminant in enum `AttributeId` matches the value `200`"];
                   ["attribute structure too short"]]%string /\
  map (tt_chain ascii_only) [TtUnknownCode 99; TtInvalid (TfPointerSpace (SpTooBig 8388608)); TtUnsupported; TtBadIndex 3] =
    map (map lit) [["unknown type code"; "No discriminant in enum `TypeCode` matches the value `99`"];
                   ["mapping error in string table"; "invalid: bad address space for pointer type: TooBig(8388608)"];
                   ["mapping error in string table"; "unsupported: unsupported: old function type codes; please implement!"]; ["invalid type table index: 3"]]%string /\
  map comdat_chain [CdName SbBadRange; CdKind 9] =
    map (map lit) [["error while accessing COMDAT name: requested range in string table is invalid"; "requested range in string table is invalid"];
                   ["unknown or invalid COMDAT selection kind: No discriminant in enum `SelectionKind` matches the value `9`"; "No discriminant in enum `SelectionKind` matches the value `9`"]]%string /\
  map fn_chain [FeCallingConvention 5; FeAlignment (AShiftTooBig 64); FeVisibility 3; FeStorage 3] =
    map (map lit) [["unknown calling convention"; "No discriminant in enum `CallingConvention` matches the value `5`"]; ["invalid alignment"; "supplied shift is too large (64 > 63)"];
                   ["invalid visibility"; "No discriminant in enum `Visibility` matches the value `3`"];
                   ["invalid storage class"; "No discriminant in enum `DllStorageClass` matches the value `3`"]]%string /\
  map alias_chain [AlStrtab SbBadRange; AlStorage 3] =
    map (map lit) [["error while accessing string table"; "requested range in string table is invalid"];
                   ["invalid storage class"; "No discriminant in enum `DllStorageClass` matches the value `3`"]]%string /\
  map (fb_chain ascii_only) [FbUnknownCode 99; FbBadUnOp 1; FbMap (CeMissingRecord 1)] =
    map (map lit) [["unknown function code"; "No discriminant in enum `FunctionCode` matches the value `99`"];
                   ["invalid unary opcode"; "unknown opcode"; "No discriminant in enum `UnaryOpcode` matches the value `1`"];
                   ["generic mapping error"; "inconsistent block or record state"; "expected a record of code 1 but not present"]]%string /\
  map (module_chain ascii_only) [MdLayoutString StBadCharacter; MdString (StBadIndex 0 0); MdMissingVersion] =
    map (map lit) [["invalid datalayout record"; "malformed datalayout record: impossible character value in string: out of range integral type conversion attempted";
                    "impossible character value in string: out of range integral type conversion attempted"; "out of range integral type conversion attempted"];
                   ["generic mapping error"; "error while extracting string: impossible string index: 0 >= 0 (field count)"; "impossible string index: 0 >= 0 (field count)"];
                   ["bitcode module has no version"]]%string /\
  bitcode_chain ascii_only (BcStrtab SbMissingBlob) = map lit ["error while mapping the bitsteam"; "error while mapping string table"; "malformed string table: missing blob"]%string.
Proof. vm_compute. repeat split. Qed.

(** The bytes are not told: two inputs are rejected with different errors and the same chain. *)
Definition ex_items (b : N) : list item :=
  [IBlock 13 5 3 [IUnabbrev 1 [76; 76; 86; 77]; IUnabbrev 2 [0]];
   IBlock 8 3 10 [IUnabbrev 1 [2]; IBlock 17 4 3 [IUnabbrev 1 [1]; IUnabbrev 19 [104; 105; b]]; IBlock 14 4 1 []];
   IBlock 23 3 2 [IUnabbrev 1 [109; 97]]].
Definition ex_buffer (b : N) : list byte := match write_stream 0xdec04342 (ex_items b) with Some bits => bytes_of_bits bits | None => [] end.
Theorem C77_bytes_refuted : exists e host buf buf' x y, bitcode_of e host buf = Err x /\ bitcode_of e host buf' = Err y /\ x <> y /\
  forall shown, bitcode_chain shown x = bitcode_chain shown y.
Proof.
  exists debug_env, [], (ex_buffer 255), (ex_buffer 254).
  exists (BcModule (MdTypes (TtString (StBadEncoding [104; 105; 255] (mkUtf8Err 2 (Some 1)))))), (BcModule (MdTypes (TtString (StBadEncoding [104; 105; 254] (mkUtf8Err 2 (Some 1)))))).
  split; [vm_compute; reflexivity|]. split; [vm_compute; reflexivity|]. split; [discriminate|]. intros shown. apply C77_chains. right.
  exists [104; 105; 255], [104; 105; 254], (mkUtf8Err 2 (Some 1)), (fun s => MdTypes (TtString s)). split; [now do 2 right; left|]. split; reflexivity.
Qed.
Print Assumptions C77_bytes_refuted.

(** *** How long chains are *)

Theorem C77_length : forall shown x, (1 <= length (bitcode_chain shown x) <= 7)%nat.
Proof. exact chain_length. Qed.
Print Assumptions C77_length.
(** Seven messages, of which the fifth contains the two after it. *)
Example C77_length_example :
  unroll_failure ascii_only debug_env (lit "h") (ex_buffer 255) = Some (map lit
    ["error while mapping the bitsteam"; "error while mapping module"; "invalid type table block"; "mapping error in string table";
     "error while extracting string: invalid string encoding: invalid utf-8 sequence of 1 bytes from index 2";
     "invalid string encoding: invalid utf-8 sequence of 1 bytes from index 2"; "invalid utf-8 sequence of 1 bytes from index 2"]%string).
Proof. vm_compute. reflexivity. Qed.

(** *** Messages that contain the message of their cause *)

(** It would be printed twice. This happens: *)
Theorem C77_repeats_refuted : exists e host buf x, bitcode_of e host buf = Err x /\ forall shown, repeats (bitcode_chain shown x).
Proof.
  exists debug_env, [], (ex_buffer 255), (BcModule (MdTypes (TtString (StBadEncoding [104; 105; 255] (mkUtf8Err 2 (Some 1)))))). split; [vm_compute; reflexivity|].
  intros shown. apply repeats_exactly. repeat constructor.
Qed.
Print Assumptions C77_repeats_refuted.
(** And for exactly these errors ([printed_twice], ChainSpec.v). *)
Theorem C77_repeats_exactly : forall shown x, repeats (bitcode_chain shown x) <-> printed_twice x.
Proof. exact repeats_exactly. Qed.
Print Assumptions C77_repeats_exactly.
Example C77_repeats_exactly_example :
  printed_twice (BcModule (MdLayout (LeBadInt IntEmpty))) /\ ~ printed_twice (BcModule (MdLayout (LeBadAddressSpace (SpTooBig 8388608)))).
Proof. split; [repeat constructor|]. intros H. inversion H as [| |x M]. inversion M. Qed.

(** *** The examples *)

(** unroll-bitstream fails exactly if the library does. *)
Theorem C77_unroll_fails : forall shown e host buf, (exists c, unroll_failure shown e host buf = Some c) <-> exists x, bitcode_of e host buf = Err x.
Proof. exact unroll_fails. Qed.
Print Assumptions C77_unroll_fails.
(** What it prints identifies the error in the same way, and tells whether the container was the cause. *)
Theorem C77_unroll_failures : forall shown e e' host host' buf buf' c,
  unroll_failure shown e host buf = Some c -> unroll_failure shown e' host' buf' = Some c ->
  exists x y, bitcode_of e host buf = Err x /\ bitcode_of e' host' buf' = Err y /\
    (x = y \/ exists raw raw' u k, In k [MdLayoutString; MdString; fun s => MdTypes (TtString s)] /\
       x = BcModule (k (StBadEncoding raw u)) /\ y = BcModule (k (StBadEncoding raw' u))) /\
    (forall z, from e buf = Err z <-> from e' buf' = Err z).
Proof. exact unroll_failures_unique. Qed.
Print Assumptions C77_unroll_failures.
(** A file of five bytes, and a file that ends within a block: the error is not, and is, below one of the mapper. *)
Example C77_unroll_failures_example :
  unroll_failure ascii_only debug_env [] (firstn 5 (ex_buffer 104)) = Some [lit "couldn't parse bitstream container: input is not 4-byte aligned"] /\
  unroll_failure ascii_only debug_env [] (firstn 16 (ex_buffer 104)) = Some (map lit ["error while parsing the bitstream"; "underlying bitcursor error"; "too little data to service request"]%string) /\
  dump_failure debug_env (firstn 16 (ex_buffer 104)) = Some (map lit ["underlying bitcursor error"; "too little data to service request"]%string).
Proof. vm_compute. repeat split. Qed.
(** dump-bitstream: the chain is that of one error. *)
Theorem C77_dump_failures : forall e e' buf buf' c, dump_failure e buf = Some c -> dump_failure e' buf' = Some c ->
  exists x, snd (dump e buf) = Err x /\ snd (dump e' buf') = Err x.
Proof. exact dump_failures_unique. Qed.
Print Assumptions C77_dump_failures.
