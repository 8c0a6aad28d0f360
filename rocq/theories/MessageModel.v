(** Model of the messages of the errors: the [Display] implementations that thiserror derives from
    the [#[error("..")]] attributes, and the texts that the code itself formats. A message is the
    list of its characters.

    The messages of the type errors of ty.rs:293-502 and of [BinaryOpError] (opcode.rs:135-147), which print the
    [Debug] text of a [Type], are in DebugModel.v; the causes of the errors are in ChainModel.v. *)
From Verif Require Import Base CursorModel StreamModel Strings EnumModel SupportModel LayoutModel UnrollModel
  AttributeModel TablesModel TypeTableModel RecordModel ModuleModel ExtraModel.
Local Open Scope N_scope.

(** ** Names *)

(** llvm-support/src/bitcodes.rs:260-269: the derived [Debug] of [AttributeCode] prints the name of the variant. *)
Definition attribute_code_debug (x : attribute_code) : str :=
  match x with
  | AcEntryOld => lit "EntryOld" | AcEntry => lit "Entry" | AcGroupCodeEntry => lit "GroupCodeEntry"
  end.

(** llvm-support/src/attribute.rs:22-197: the derived [Debug] of [AttributeId] prints the name of the variant. *)
Definition attribute_id_debug (x : attribute_id) : str :=
  match x with
  | AiAlignment => lit "Alignment" | AiAlwaysInline => lit "AlwaysInline" | AiByVal => lit "ByVal"
  | AiInlineHint => lit "InlineHint" | AiInReg => lit "InReg" | AiMinSize => lit "MinSize"
  | AiNaked => lit "Naked" | AiNest => lit "Nest" | AiNoAlias => lit "NoAlias"
  | AiNoBuiltin => lit "NoBuiltin" | AiNoCapture => lit "NoCapture" | AiNoDuplicate => lit "NoDuplicate"
  | AiNoImplicitFloat => lit "NoImplicitFloat" | AiNoInline => lit "NoInline"
  | AiNonLazyBind => lit "NonLazyBind" | AiNoRedZone => lit "NoRedZone" | AiNoReturn => lit "NoReturn"
  | AiNoUnwind => lit "NoUnwind" | AiOptimizeForSize => lit "OptimizeForSize" | AiReadNone => lit "ReadNone"
  | AiReadOnly => lit "ReadOnly" | AiReturned => lit "Returned" | AiReturnsTwice => lit "ReturnsTwice"
  | AiSExt => lit "SExt" | AiStackAlignment => lit "StackAlignment" | AiStackProtect => lit "StackProtect"
  | AiStackProtectReq => lit "StackProtectReq" | AiStackProtectStrong => lit "StackProtectStrong"
  | AiStructRet => lit "StructRet" | AiSanitizeAddress => lit "SanitizeAddress"
  | AiSanitizeThread => lit "SanitizeThread" | AiSanitizeMemory => lit "SanitizeMemory"
  | AiUwTable => lit "UwTable" | AiZExt => lit "ZExt" | AiBuiltin => lit "Builtin" | AiCold => lit "Cold"
  | AiOptimizeNone => lit "OptimizeNone" | AiInAlloca => lit "InAlloca" | AiNonNull => lit "NonNull"
  | AiJumpTable => lit "JumpTable" | AiDereferenceable => lit "Dereferenceable"
  | AiDereferenceableOrNull => lit "DereferenceableOrNull" | AiConvergent => lit "Convergent"
  | AiSafeStack => lit "SafeStack" | AiArgMemOnly => lit "ArgMemOnly" | AiSwiftSelf => lit "SwiftSelf"
  | AiSwiftError => lit "SwiftError" | AiNoRecurse => lit "NoRecurse"
  | AiInaccessiblememOnly => lit "InaccessiblememOnly"
  | AiInaccessiblememOrArgmemonly => lit "InaccessiblememOrArgmemonly" | AiAllocSize => lit "AllocSize"
  | AiWriteOnly => lit "WriteOnly" | AiSpeculatable => lit "Speculatable" | AiStrictFp => lit "StrictFp"
  | AiSanitizeHwAddress => lit "SanitizeHwAddress" | AiNoCfCheck => lit "NoCfCheck"
  | AiOptForFuzzing => lit "OptForFuzzing" | AiShadowcallstack => lit "Shadowcallstack"
  | AiSpeculativeLoadHardening => lit "SpeculativeLoadHardening" | AiImmArg => lit "ImmArg"
  | AiWillReturn => lit "WillReturn" | AiNoFree => lit "NoFree" | AiNoSync => lit "NoSync"
  | AiSanitizeMemtag => lit "SanitizeMemtag" | AiPreallocated => lit "Preallocated"
  | AiNoMerge => lit "NoMerge" | AiNullPointerIsValid => lit "NullPointerIsValid"
  | AiNoUndef => lit "NoUndef" | AiByRef => lit "ByRef" | AiMustProgress => lit "MustProgress"
  | AiNoCallback => lit "NoCallback" | AiHot => lit "Hot" | AiNoProfile => lit "NoProfile"
  | AiVScaleRange => lit "VScaleRange" | AiSwiftAsync => lit "SwiftAsync"
  | AiNoSanitizeCoverage => lit "NoSanitizeCoverage" | AiElementType => lit "ElementType"
  | AiDisableSanitizerInstrumentation => lit "DisableSanitizerInstrumentation"
  | AiNoSanitizeBounds => lit "NoSanitizeBounds" | AiAllocAlign => lit "AllocAlign"
  | AiAllocatedPointer => lit "AllocatedPointer" | AiAllocKind => lit "AllocKind"
  | AiPresplitCoroutine => lit "PresplitCoroutine" | AiFnretthunkExtern => lit "FnretthunkExtern"
  | AiSkipProfile => lit "SkipProfile" | AiMemory => lit "Memory"
  end.

(** llvm-support/src/bitcodes.rs:275-328: the derived [Debug] of [FunctionCode] prints the name of the variant. *)
Definition function_code_debug (x : function_code) : str :=
  match x with
  | FcDeclareBlocks => lit "DeclareBlocks" | FcInstBinop => lit "InstBinop" | FcInstCast => lit "InstCast"
  | FcInstGepOld => lit "InstGepOld" | FcInstSelect => lit "InstSelect"
  | FcInstExtractelt => lit "InstExtractelt" | FcInstInsertelt => lit "InstInsertelt"
  | FcInstShufflevec => lit "InstShufflevec" | FcInstCmp => lit "InstCmp" | FcInstRet => lit "InstRet"
  | FcInstBr => lit "InstBr" | FcInstSwitch => lit "InstSwitch" | FcInstInvoke => lit "InstInvoke"
  | FcInstUnreachable => lit "InstUnreachable" | FcInstPhi => lit "InstPhi"
  | FcInstAlloca => lit "InstAlloca" | FcInstLoad => lit "InstLoad" | FcInstVaarg => lit "InstVaarg"
  | FcInstStoreOld => lit "InstStoreOld" | FcInstExtractval => lit "InstExtractval"
  | FcInstInsertval => lit "InstInsertval" | FcInstCmp2 => lit "InstCmp2"
  | FcInstVselect => lit "InstVselect" | FcInstInboundsGepOld => lit "InstInboundsGepOld"
  | FcInstIndirectbr => lit "InstIndirectbr" | FcDebugLocAgain => lit "DebugLocAgain"
  | FcInstCall => lit "InstCall" | FcDebugLoc => lit "DebugLoc" | FcInstFence => lit "InstFence"
  | FcInstCmpxchgOld => lit "InstCmpxchgOld" | FcInstAtomicrmwOld => lit "InstAtomicrmwOld"
  | FcInstResume => lit "InstResume" | FcInstLandingpadOld => lit "InstLandingpadOld"
  | FcInstLoadatomic => lit "InstLoadatomic" | FcInstStoreatomicOld => lit "InstStoreatomicOld"
  | FcInstGep => lit "InstGep" | FcInstStore => lit "InstStore" | FcInstStoreatomic => lit "InstStoreatomic"
  | FcInstCmpxchg => lit "InstCmpxchg" | FcInstLandingpad => lit "InstLandingpad"
  | FcInstCleanupret => lit "InstCleanupret" | FcInstCatchret => lit "InstCatchret"
  | FcInstCatchpad => lit "InstCatchpad" | FcInstCleanuppad => lit "InstCleanuppad"
  | FcInstCatchswitch => lit "InstCatchswitch" | FcOperandBundle => lit "OperandBundle"
  | FcInstUnop => lit "InstUnop" | FcInstcallbr => lit "Instcallbr" | FcInstFreeze => lit "InstFreeze"
  | FcInstAtomicrmw => lit "InstAtomicrmw"
  end.

(** llvm-support/src/bitcodes.rs:13-32: the derived [Debug] of [ReservedBlockId] prints the name of the variant. *)
Definition reserved_block_id_debug (x : reserved_block_id) : str :=
  match x with
  | RbBlockInfo => lit "BlockInfo" | RbReserved1 => lit "Reserved1" | RbReserved2 => lit "Reserved2"
  | RbReserved3 => lit "Reserved3" | RbReserved4 => lit "Reserved4" | RbReserved5 => lit "Reserved5"
  | RbReserved6 => lit "Reserved6" | RbReserved7 => lit "Reserved7"
  end.

(** llvm-support/src/bitcodes.rs:36-77: the derived [Debug] of [IrBlockId] prints the name of the variant. *)
Definition ir_block_id_debug (x : ir_block_id) : str :=
  match x with
  | IbModule => lit "Module" | IbParamAttr => lit "ParamAttr" | IbParamAttrGroup => lit "ParamAttrGroup"
  | IbConstants => lit "Constants" | IbFunction => lit "Function" | IbIdentification => lit "Identification"
  | IbValueSymtab => lit "ValueSymtab" | IbMetadata => lit "Metadata"
  | IbMetadataAttachment => lit "MetadataAttachment" | IbType => lit "Type" | IbUselist => lit "Uselist"
  | IbModuleStrtab => lit "ModuleStrtab" | IbGlobalValSummary => lit "GlobalValSummary"
  | IbOperandBundleTags => lit "OperandBundleTags" | IbMetadataKind => lit "MetadataKind"
  | IbStrtab => lit "Strtab" | IbFullLtoGlobalValSummary => lit "FullLtoGlobalValSummary"
  | IbSymtab => lit "Symtab" | IbSyncScopeNames => lit "SyncScopeNames"
  end.

(** llvm-support/src/bitcodes.rs:94: the derived [Debug] of [AbbrevOpEnc]. *)
Definition abbrev_enc_debug (x : abbrev_enc) : str :=
  match x with
  | EncFixed => lit "Fixed" | EncVbr => lit "Vbr" | EncArray => lit "Array" | EncChar6 => lit "Char6"
  | EncBlob => lit "Blob"
  end.
(** llvm-mapper/src/block/mod.rs:46-54: the derived [Debug] of [BlockId]. *)
Definition block_id_debug (x : block_id) : str :=
  match x with
  | BReserved r => lit "Reserved(" ++ reserved_block_id_debug r ++ lit ")"
  | BIr i => lit "Ir(" ++ ir_block_id_debug i ++ lit ")"
  | BUnknown v => lit "Unknown(" ++ decimal v ++ lit ")"
  end.

(** ** The standard library and num_enum *)

(** [Display for ParseIntError]. *)
Definition int_text (x : int_err) : str :=
  match x with
  | IntEmpty => lit "cannot parse integer from empty string"
  | IntInvalidDigit => lit "invalid digit found in string"
  | IntPosOverflow => lit "number too large to fit in target type"
  end.
(** [Display for TryFromIntError]. *)
Definition try_from_int_text : str := lit "out of range integral type conversion attempted".
(** [Display for Utf8Error] and [FromUtf8Error]. *)
Definition utf8_text (x : utf8_err) : str :=
  match error_len x with
  | Some n => lit "invalid utf-8 sequence of " ++ decimal n ++ lit " bytes from index " ++ decimal (valid_up_to x)
  | None => lit "incomplete utf-8 byte sequence from index " ++ decimal (valid_up_to x)
  end.
(** [Display for TryFromPrimitiveError] of the enumeration with this name (num_enum). *)
Definition primitive_text (name : str) (v : N) : str :=
  lit "No discriminant in enum `" ++ name ++ lit "` matches the value `" ++ decimal v ++ lit "`".
(** [Debug] of the [io::Error]s of llvm-bitcursor/src/lib.rs:367-370 and 385-388. *)
Definition seek_debug (x : seek_err) : str :=
  lit "Custom { kind: " ++
  match x with
  | SeekUnsupported => lit "Unsupported, error: ""cannot seek past end"" }"
  | SeekInvalidInput => lit "InvalidInput, error: ""impossible seek requested"" }"
  end.

(** ** llvm-support/src/align.rs *)

(** align.rs:41-45 [Display for Align], in a message; the shift of an [Align] is at most 63, see
    [align_display]. *)
Definition align_text (a : align) : str := decimal (2 ^ a_shift a).
(** align.rs:17, 20 and 23 [AlignError]. *)
Definition align_err_text (x : align_err) : str :=
  match x with
  | AShiftTooBig s => lit "supplied shift is too large (" ++ decimal s ++ lit " > " ++ decimal MAX_SHIFT ++ lit ")"
  | ANotPowerOfTwo v => lit "supplied value is not a power of two: " ++ decimal v
  | ANotByteMultiple v => lit "supplied value is not a multiple of 8: " ++ decimal v
  end.
(** align.rs:130-133 [AlignedTypeWidthError]. *)
Definition width_text (x : width_err) : str :=
  match x with
  | WTooBig v => lit "bit width for type is too large (" ++ decimal v ++ lit " > " ++ decimal MAX_WIDTH ++ lit " bits)"
  end.
(** align.rs:520 [AddressSpaceError]. *)
Definition space_text (x : space_err) : str :=
  match x with
  | SpTooBig v => lit "address space identifier is too large (" ++ decimal v ++ lit " > " ++ decimal MAX_SPACE ++ lit ")"
  end.
(** align.rs:517: the derived [Debug] of [AddressSpaceError]. *)
Definition space_debug (x : space_err) : str := match x with SpTooBig v => lit "TooBig(" ++ decimal v ++ lit ")" end.
(** align.rs:336-338, 354-357, 359, 370, 388-392, 398, 402, 417-420, 609-611, 619-622 and 632: the texts in
    [AlignSpecError::Parse]. *)
Definition spec_fault_text (x : spec_fault) : str :=
  match x with
  | ApEmptyType => lit "cannot parse type alignment from an empty string"
  | ApBeforeAggregate c => lit "unexpected character before aggregate spec: " ++ [c]
  | ApEmptyAggregate => lit "empty aggregate specifier"
  | ApNumber x => int_text x
  | ApFewParts id n =>
      lit "wrong number of alignment parameters for spec '" ++ [id] ++ lit "': expected at least 2, got " ++ decimal n
  | ApUnknownType c => lit "unknown type for align spec: " ++ [c]
  | ApEmptyPointer => lit "cannot parse from an empty string"
  | ApFewPointerParts n => lit "pointer align spec has too few parts (" ++ decimal n ++ lit ", expected at least 4)"
  end.
(** align.rs:270-294 [AlignSpecError]. *)
Definition spec_text (x : spec_err) : str :=
  match x with
  | SeBadTypeWidth _ => lit "impossible bit width for underlying aligned type"
  | SeAlignPref pref abi => lit "impossible preferred alignment: " ++ align_text pref ++ lit " must be >= " ++ align_text abi
  | SeAbiAlignTooLarge a => lit "impossible ABI alignment for type: " ++ align_text a ++ lit " > " ++ align_text MAX_ALIGN
  | SeParse x => lit "error while parsing alignment spec: " ++ spec_fault_text x
  | SeParseAlign _ => lit "error while parsing inner alignment in spec"
  | SeBadInt _ => lit "error while parsing integer in alignment spec"
  | SeBadAddressSpace _ => lit "invalid address space in spec"
  end.

(** ** llvm-mapper/src/record *)

(** record/mod.rs:28, 31 and 34 [RecordStringError]. *)
Definition string_text (x : string_err) : str :=
  match x with
  | StBadIndex idx len =>
      lit "impossible string index: " ++ decimal idx ++ lit " >= " ++ decimal len ++ lit " (field count)"
  | StBadCharacter => lit "impossible character value in string: " ++ try_from_int_text
  | StBadEncoding _ x => lit "invalid string encoding: " ++ utf8_text x
  end.
(** record/mod.rs:43 and 46 [RecordBlobError]. *)
Definition blob_text (x : blob_err) : str :=
  match x with
  | BlBadIndex idx len => lit "impossible blob index: " ++ decimal idx ++ lit " >= " ++ decimal len ++ lit " (field count)"
  | BlBadByte => lit "impossible byte value in blob: " ++ try_from_int_text
  end.
(** record/datalayout.rs:154-157, 163-165, 175-178, 181-183, 190-192, 201-204, 215-217, 227-229 and 244-246: the
    texts in [DataLayoutError::BadSpecParse]. *)
Definition layout_fault_text (x : layout_fault) : str :=
  match x with
  | LfFnLetter c => lit "unknown function pointer alignment specifier: " ++ [c]
  | LfNoFn => lit "function pointer alignment spec is empty"
  | LfSeparator c => lit "bad separator for mangling spec: " ++ [c]
  | LfNoMangling => lit "mangling spec is empty"
  | LfNoKind => lit "mangling spec has no mangling kind"
  | LfKind c => lit "unknown mangling kind in spec: " ++ [c]
  | LfNoSpace => lit "cannot find address space 0"
  | LfSpaceZero => lit "address space 0 cannot be non-integral"
  | LfNoWidth => lit "integer width spec is empty"
  end.
(** record/datalayout.rs:22-47 [DataLayoutError]; [BadString] is [MdLayoutString]. *)
Definition layout_text (x : layout_err) : str :=
  match x with
  | LeBadAlign x => lit "bad alignment value: " ++ align_err_text x
  | LeBadAddressSpace _ => lit "bad address space"
  | LeUnknownSpec c => lit "unknown datalayout specification: " ++ [c]
  | LeEmptySpec => lit "empty specification in datalayout"
  | LeBadEncoding => lit "non-ASCII characters in datalayout string"
  | LeBadInt x => lit "couldn't parse spec field: " ++ int_text x
  | LeBadSpecParse x => lit "couldn't parse spec: " ++ layout_fault_text x
  | LeBadAlignSpec x => lit "cou't parse alignment spec: " ++ spec_text x
  end.

(** ** llvm-mapper/src/block: the tables *)

(** block/strtab.rs:18, 22, 26 and 30 [StrtabError]. *)
Definition strtab_text (x : strtab_err) : str :=
  match x with
  | SbMissingBlob => lit "malformed string table: missing blob"
  | SbBadBlob x => lit "invalid string table: " ++ blob_text x
  | SbBadRange => lit "requested range in string table is invalid"
  | SbBadString x => lit "could not decode range into a UTF-8 string: " ++ utf8_text x
  end.
(** block/symtab.rs:16 and 20 [SymtabError]. *)
Definition symtab_text (x : symtab_err) : str :=
  match x with
  | SyMissingBlob => lit "malformed symbol table: missing blob"
  | SyInvalidBlob x => lit "invalid string table: " ++ blob_text x
  end.
(** block/identification.rs:15, 19 and 23 [IdentificationError]. *)
Definition ident_text (x : ident_err) : str :=
  match x with
  | IeMissingProducer => lit "identification block has no producer"
  | IeBadProducer => lit "malformed producer string"
  | IeMissingEpoch => lit "identification block has no epoch"
  end.
(** unroll.rs:79, 83, 87 and 91 [ConsistencyError]. *)
Definition cons_text (x : cons_err) : str :=
  match x with
  | CeMissingBlock id => lit "expected a block with " ++ block_id_debug id ++ lit " but not present"
  | CeTooManyBlocks id => lit "expected exactly one block with " ++ block_id_debug id ++ lit " but got more than one"
  | CeMissingRecord c => lit "expected a record of code " ++ decimal c ++ lit " but not present"
  | CeTooManyRecords c => lit "expected exactly one record of code " ++ decimal c ++ lit " but got more than one"
  end.
(** block/attributes.rs:233, 281-284, 290-293 and 304-307, 298 and 312, 320-323, 348: the texts in
    [AttributeMalformed]. *)
Definition attr_fault_text (x : attr_fault) : str :=
  match x with
  | MfNotEnum => lit "non-enum attribute ID given"
  | MfNotInt => lit "expected int attribute, but given enum ID"
  | MfLargeAlignment => lit "attribute value too large (invalid alignment)"
  | MfAlignment => lit "invalid alignment"
  | MfAllocSize => lit "allocasize argument invalid: cannot be (0, 0)"
  | MfUwTable => lit "Unwind table variant error"
  end.
(** block/attributes.rs:18-58 [AttributeError]. *)
Definition attr_text (x : attr_err) : str :=
  match x with
  | AeUnknownCode _ => lit "unknown attribute code"
  | AeUnknownKind _ => lit "unknown attribute kind"
  | AeWrongBlock c => lit "wrong block for code: " ++ attribute_code_debug c
  | AeTooShort => lit "attribute structure too short"
  | AeBadString => lit "bad attribute string"
  | AeUnknownId _ => lit "unknown attribute ID"
  | AeMalformed x i =>
      lit "malformed attribute (format doesn't match ID): " ++ attr_fault_text x ++ lit ": " ++ attribute_id_debug i
  | AeIntUnsupported i => lit "FIXME: unsupported integer attribute: " ++ attribute_id_debug i
  | AeBadGroup g => lit "nonexistent attribute group: " ++ decimal g
  | AeGroupTooShort c len =>
      lit "attribute group record for " ++ attribute_code_debug c ++ lit " too short (" ++ decimal len ++ lit " < 3)"
  | AeGroupSize n0 n1 =>
      lit "under/overconsumed fields in attribute group record (" ++ decimal n0 ++ lit " fields, " ++ decimal n1
        ++ lit " consumed)"
  end.
(** block/type_table.rs:36-56: the six type errors. *)
Definition tt_type_text (x : ty_err) : str :=
  match x with
  | TeIntWidth => lit "invalid integer type"
  | TePointee _ => lit "invalid pointer type"
  | TeArrayElement _ => lit "invalid array type"
  | TeVectorElement _ => lit "invalid vector type"
  | TeStructElement _ => lit "invalid structure type"
  | TeReturn _ | TeParameter _ => lit "invalid function type"
  end.
(** block/type_table.rs:20-60 [TypeTableError]. *)
Definition tt_text (x : tt_err) : str :=
  match x with
  | TtBadSize n0 n1 =>
      lit "invalid type table size (expected " ++ decimal n0 ++ lit " elements, got " ++ decimal n1 ++ lit ")"
  | TtBadIndex i => lit "invalid type table index: " ++ decimal i
  | TtUnknownCode _ => lit "unknown type code"
  | TtBadTable => lit "invalid type table structure (broken records)"
  | TtType x => tt_type_text x
  | TtInvalid _ | TtUnsupported | TtString _ => lit "mapping error in string table"
  end.
(** block/type_table.rs:341-344, 352-355, 376-378, 464-468, 501-503 and 387-389 with map.rs:23, 28 and 32: the
    [MapError] below the message "mapping error in string table". *)
Definition tt_map_text (x : tt_err) : option str :=
  match x with
  | TtInvalid x => Some (lit "invalid: " ++
      match x with
      | TfNoName => lit "opaque type but no preceding type name"
      | TfNamed => lit "forward-declared opaque type already has name"
      | TfPointerSpace x => lit "bad address space for pointer type: " ++ space_debug x
      | TfFull => lit "forward-declared struct type already has name and/or type fields"
      | TfOpaqueSpace x => lit "bad address space in type: " ++ space_debug x
      end)
  | TtUnsupported => Some (lit "unsupported: unsupported: old function type codes; please implement!")
  | TtString x => Some (lit "error while extracting string: " ++ string_text x)
  | _ => None
  end.

(** ** Records of a module *)

(** record/comdat.rs:18-30 [ComdatError]. *)
Definition comdat_text (x : comdat_err) : str :=
  match x with
  | CdV1 => lit "unsupported COMDAT record format (v1)"
  | CdTooShort n => lit "COMDAT record doesn't have enough fields (" ++ decimal n ++ lit " < 3)"
  | CdName x => lit "error while accessing COMDAT name: " ++ strtab_text x
  | CdKind v => lit "unknown or invalid COMDAT selection kind: " ++ primitive_text (lit "SelectionKind") v
  end.
(** record/function.rs:21-65 [FunctionError]. *)
Definition fn_text (x : fn_err) : str :=
  match x with
  | FeTooShort n => lit "function record too short: " ++ decimal n ++ lit " < 10 fields"
  | FeV1 => lit "unsupported function record format (v1)"
  | FeStrtab _ => lit "error while accessing string table"
  | FeCallingConvention _ => lit "unknown calling convention"
  | FeTypeId v => lit "invalid type table index: " ++ decimal v
  | FeType => lit "non-function type for function"
  | FeAttribute v => lit "invalid attribute entry ID: " ++ decimal v
  | FeAlignment _ => lit "invalid alignment"
  | FeSection i => lit "invalid section table index: " ++ decimal i
  | FeVisibility _ => lit "invalid visibility"
  | FeGc i => lit "invalid GC table index: " ++ decimal i
  | FeStorage _ => lit "invalid storage class"
  end.
(** record/alias.rs:19-39 [AliasError]. *)
Definition alias_text (x : alias_err) : str :=
  match x with
  | AlTooShort n => lit "alias record too short: " ++ decimal n ++ lit " < 5 fields"
  | AlV1 => lit "unsupported alias record format (v1)"
  | AlStrtab _ => lit "error while accessing string table"
  | AlType v => lit "invalid type table index: " ++ decimal v
  | AlVisibility _ => lit "invalid visibility"
  | AlStorage _ => lit "invalid storage class"
  end.
(** block/function/mod.rs:22-42 [FunctionError], with the texts of lines 85-89 and 99-102. *)
Definition fb_text (x : fb_err) : str :=
  match x with
  | FbInvalidBlockCount => lit "function does not declare block count or has zero blocks"
  | FbUnknownCode _ => lit "unknown function code"
  | FbBadInst (InFields c n k) =>
      lit "invalid instruction encoding: bad " ++ function_code_debug c ++ lit ": expected " ++ decimal (N.of_nat n)
        ++ lit " fields, got " ++ decimal (N.of_nat k)
  | FbBadInst (InType c i) =>
      lit "invalid instruction encoding: bad " ++ function_code_debug c ++ lit ": invalid type table reference: "
        ++ decimal i
  | FbBadUnOp _ => lit "invalid unary opcode"
  | FbBadBinOp _ => lit "invalid binary opcode"
  | FbMap _ => lit "generic mapping error"
  end.
(** block/module.rs:24-60 [ModuleError]; [VstBlock] does not occur. *)
Definition module_text (x : module_err) : str :=
  match x with
  | MdMissingVersion => lit "bitcode module has no version"
  | MdLayoutString _ | MdLayout _ => lit "invalid datalayout record"
  | MdTypes _ => lit "invalid type table block"
  | MdAttributes _ => lit "invalid attribute block"
  | MdComdat _ => lit "invalid COMDAT record"
  | MdFunction _ => lit "invalid function record"
  | MdBlock _ => lit "invalid function block"
  | MdAlias _ => lit "invalid alias record"
  | MdInconsistent _ | MdString _ => lit "generic mapping error"
  end.

(** ** The bitstream *)

(** llvm-bitcursor/src/error.rs:13-29 [Error]. *)
Definition cursor_text (x : cerr) : str :=
  match x with
  | Eof => lit "EOF while reading"
  | InvalidLength => lit "invalid length for buffer supplied to cursor"
  | BadCast => lit "loss of data with cast"
  | InvalidReadSize => lit "invalid read size (zero or too large)"
  | InvalidVbrWidth => lit "invalid VBR width (must be > 1 but <= system word width)"
  | Short => lit "too little data to service request"
  end.
(** llvm-bitcursor/src/error.rs:8: the derived [Debug]. *)
Definition cursor_debug (x : cerr) : str :=
  match x with
  | Eof => lit "Eof" | InvalidLength => lit "InvalidLength" | BadCast => lit "BadCast"
  | InvalidReadSize => lit "InvalidReadSize" | InvalidVbrWidth => lit "InvalidVbrWidth" | Short => lit "Short"
  end.
(** llvm-bitstream/src/error.rs:12-41 [Error], with the texts of lib.rs:56, 63-66 and 131, parser.rs:93-95, 109-111,
    156-158, 216-219, 263-265, 294 and 312-314, abbrev.rs:134-136, 178, 196-199 and 210. *)
Definition stream_text (x : serr) : str :=
  match x with
  | SExhausted => lit "bitstream has been exhausted"
  | SCursor _ => lit "underlying bitcursor error"
  | SBadContainer x => lit "couldn't parse bitstream container: " ++
      match x with
      | BxLength => lit "input is not 4-byte aligned"
      | BxMagic x => lit "bitstream should have begun with magic, but errored: " ++ cursor_debug x
      end
  | SBadBlockInfoCode _ => lit "bad record code for BLOCKINFO block"
  | SBadAbbrevOpEnc _ => lit "bad operand code for DEFINE_ABBREV operand"
  | SStreamParse x => lit "error while parsing stream: " ++
      match x with
      | PfSeek x => lit "couldn't seek past bitcode wrapper: " ++ seek_debug x
      | PfNoSetBid => lit "DEFINE_ABBREV in BLOCKINFO but no preceding SETBID"
      | PfRecordOutside => lit "UNABBREV_RECORD outside of any block scope"
      end
  | SAbbrevParse x => lit "error while parsing abbrev record: " ++
      match x with
      | AfNoOperand => lit "expected at least one abbrev operand"
      | AfArrayPlace => lit "array operand at invalid index"
      | AfArrayElement x => lit "invalid element type for an array: " ++ abbrev_enc_debug x
      | AfBlobPlace => lit "blob operand at invalid index"
      end
  | SBadAbbrev id => lit "unknown abbreviation for ID: " ++ decimal id
  | SBadScope x => lit "error while parsing block scope: " ++
      match x with
      | SfNoAbbrevs => lit "non-block scope cannot reference abbreviations"
      | SfNoRecords => lit "non-block scope cannot contain records"
      | SfSetBid => lit "can't set BLOCKINFO block ID for non-BLOCKINFO scope"
      | SfWidth w => lit "can't enter block: invalid code side: " ++ decimal w
      | SfNoBlock => lit "malformed stream: cannot perform END_BLOCK because scope stack is empty"
      end
  end.
(** llvm-mapper/src/error.rs:16, 20 and 24 [Error], with the texts of unroll.rs:281, 325, 354, 359-361, 402-405, 454
    and 466. *)
Definition bitcode_text (x : bitcode_err) : str :=
  let unroll t := lit "error while unrolling the bitstream: " ++ t in
  match x with
  | BcUnroll (UParse _) => lit "error while parsing the bitstream"
  | BcUnroll UStreamEnd => unroll (lit "unexpected stream end during unroll")
  | BcUnroll UTopLevel => unroll (lit "bitstream has non-blocks at the top-level scope")
  | BcUnroll UNoIdentification =>
      unroll (lit "malformed bitstream: MODULE_BLOCK with no preceding IDENTIFICATION_BLOCK")
  | BcUnroll UAdjacentModules => unroll (lit "malformed bitstream: adjacent MODULE_BLOCKs")
  | BcUnroll (UUnexpectedBlock id) => unroll (lit "unexpected top-level block: " ++ block_id_debug id)
  | BcNoStrtab => unroll (lit "missing STRTAB_BLOCK for bitcode module")
  | BcNoModule => unroll (lit "missing MODULE_BLOCK for bitcode module")
  | BcStrtab _ | BcIdentification _ | BcModule _ | BcSymtab _ => lit "error while mapping the bitsteam"
  end.
