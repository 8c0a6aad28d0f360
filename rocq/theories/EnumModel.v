(** The wire enumerations of llvm-support (bitcodes.rs, attribute.rs, lib.rs).

    Each is an inductive type, the discriminant of each variant, and the decoder that
    num_enum derives. [ReservedAbbrevId], [AbbrevOpEnc] and [BlockInfoCode] are in
    [StreamModel]. *)
From Verif Require Import Base.
Local Open Scope N_scope.

(** llvm-support/src/bitcodes.rs:15-32 [ReservedBlockId]. *)
Inductive reserved_block_id : Set :=
| RbBlockInfo | RbReserved1 | RbReserved2 | RbReserved3 | RbReserved4 | RbReserved5
| RbReserved6 | RbReserved7.
(** llvm-support/src/bitcodes.rs:15-32: its discriminants ([as u64]/[IntoPrimitive]). *)
Definition reserved_block_id_num (x : reserved_block_id) : N :=
  match x with
  | RbBlockInfo => 0 | RbReserved1 => 1 | RbReserved2 => 2 | RbReserved3 => 3
  | RbReserved4 => 4 | RbReserved5 => 5 | RbReserved6 => 6 | RbReserved7 => 7
  end.
(** llvm-support/src/bitcodes.rs:15-32: the derived [TryFromPrimitive]. *)
Definition reserved_block_id_of (v : N) : option reserved_block_id :=
  match v with
  | 0 => Some RbBlockInfo | 1 => Some RbReserved1 | 2 => Some RbReserved2
  | 3 => Some RbReserved3 | 4 => Some RbReserved4 | 5 => Some RbReserved5
  | 6 => Some RbReserved6 | 7 => Some RbReserved7 | _ => None
  end.

(** llvm-support/src/bitcodes.rs:38-77 [IrBlockId]. *)
Inductive ir_block_id : Set :=
| IbModule | IbParamAttr | IbParamAttrGroup | IbConstants | IbFunction
| IbIdentification | IbValueSymtab | IbMetadata | IbMetadataAttachment | IbType
| IbUselist | IbModuleStrtab | IbGlobalValSummary | IbOperandBundleTags | IbMetadataKind
| IbStrtab | IbFullLtoGlobalValSummary | IbSymtab | IbSyncScopeNames.
(** llvm-support/src/bitcodes.rs:38-77: its discriminants ([as u64]/[IntoPrimitive]). *)
Definition ir_block_id_num (x : ir_block_id) : N :=
  match x with
  | IbModule => 8 | IbParamAttr => 9 | IbParamAttrGroup => 10 | IbConstants => 11
  | IbFunction => 12 | IbIdentification => 13 | IbValueSymtab => 14 | IbMetadata => 15
  | IbMetadataAttachment => 16 | IbType => 17 | IbUselist => 18 | IbModuleStrtab => 19
  | IbGlobalValSummary => 20 | IbOperandBundleTags => 21 | IbMetadataKind => 22
  | IbStrtab => 23 | IbFullLtoGlobalValSummary => 24 | IbSymtab => 25
  | IbSyncScopeNames => 26
  end.
(** llvm-support/src/bitcodes.rs:38-77: the derived [TryFromPrimitive]. *)
Definition ir_block_id_of (v : N) : option ir_block_id :=
  match v with
  | 8 => Some IbModule | 9 => Some IbParamAttr | 10 => Some IbParamAttrGroup
  | 11 => Some IbConstants | 12 => Some IbFunction | 13 => Some IbIdentification
  | 14 => Some IbValueSymtab | 15 => Some IbMetadata | 16 => Some IbMetadataAttachment
  | 17 => Some IbType | 18 => Some IbUselist | 19 => Some IbModuleStrtab
  | 20 => Some IbGlobalValSummary | 21 => Some IbOperandBundleTags
  | 22 => Some IbMetadataKind | 23 => Some IbStrtab | 24 => Some IbFullLtoGlobalValSummary
  | 25 => Some IbSymtab | 26 => Some IbSyncScopeNames | _ => None
  end.

(** llvm-support/src/bitcodes.rs:126-131 [IdentificationCode]. *)
Inductive identification_code : Set :=
| IcProducerString | IcEpoch.
(** llvm-support/src/bitcodes.rs:126-131: its discriminants ([as u64]/[IntoPrimitive]). *)
Definition identification_code_num (x : identification_code) : N :=
  match x with
  | IcProducerString => 1 | IcEpoch => 2
  end.
(** llvm-support/src/bitcodes.rs:126-131: the derived [TryFromPrimitive]. *)
Definition identification_code_of (v : N) : option identification_code :=
  match v with
  | 1 => Some IcProducerString | 2 => Some IcEpoch | _ => None
  end.

(** llvm-support/src/bitcodes.rs:137-181 [ModuleCode]. *)
Inductive module_code : Set :=
| McVersion | McTriple | McDataLayout | McAsm | McSectionName | McDepLib | McGlobalVar
| McFunction | McAliasOld | McGcName | McComdat | McVstOffset | McAlias
| McMetadataValuesUnused | McSourceFilename | McHash | McIFunc.
(** llvm-support/src/bitcodes.rs:137-181: its discriminants ([as u64]/[IntoPrimitive]). *)
Definition module_code_num (x : module_code) : N :=
  match x with
  | McVersion => 1 | McTriple => 2 | McDataLayout => 3 | McAsm => 4 | McSectionName => 5
  | McDepLib => 6 | McGlobalVar => 7 | McFunction => 8 | McAliasOld => 9 | McGcName => 11
  | McComdat => 12 | McVstOffset => 13 | McAlias => 14 | McMetadataValuesUnused => 15
  | McSourceFilename => 16 | McHash => 17 | McIFunc => 18
  end.
(** llvm-support/src/bitcodes.rs:137-181: the derived [TryFromPrimitive]. *)
Definition module_code_of (v : N) : option module_code :=
  match v with
  | 1 => Some McVersion | 2 => Some McTriple | 3 => Some McDataLayout | 4 => Some McAsm
  | 5 => Some McSectionName | 6 => Some McDepLib | 7 => Some McGlobalVar
  | 8 => Some McFunction | 9 => Some McAliasOld | 11 => Some McGcName
  | 12 => Some McComdat | 13 => Some McVstOffset | 14 => Some McAlias
  | 15 => Some McMetadataValuesUnused | 16 => Some McSourceFilename | 17 => Some McHash
  | 18 => Some McIFunc | _ => None
  end.

(** llvm-support/src/bitcodes.rs:186-237 [TypeCode]. *)
Inductive type_code : Set :=
| TcNumEntry | TcVoid | TcFloat | TcDouble | TcLabel | TcOpaque | TcInteger | TcPointer
| TcFunctionOld | TcHalf | TcArray | TcVector | TcX86Fp80 | TcFp128 | TcPpcFp128
| TcMetadata | TcX86Mmx | TcStructAnon | TcStructName | TcStructNamed | TcFunction
| TcToken | TcBFloat | TcX86Amx | TcOpaquePointer.
(** llvm-support/src/bitcodes.rs:186-237: its discriminants ([as u64]/[IntoPrimitive]). *)
Definition type_code_num (x : type_code) : N :=
  match x with
  | TcNumEntry => 1 | TcVoid => 2 | TcFloat => 3 | TcDouble => 4 | TcLabel => 5
  | TcOpaque => 6 | TcInteger => 7 | TcPointer => 8 | TcFunctionOld => 9 | TcHalf => 10
  | TcArray => 11 | TcVector => 12 | TcX86Fp80 => 13 | TcFp128 => 14 | TcPpcFp128 => 15
  | TcMetadata => 16 | TcX86Mmx => 17 | TcStructAnon => 18 | TcStructName => 19
  | TcStructNamed => 20 | TcFunction => 21 | TcToken => 22 | TcBFloat => 23
  | TcX86Amx => 24 | TcOpaquePointer => 25
  end.
(** llvm-support/src/bitcodes.rs:186-237: the derived [TryFromPrimitive]. *)
Definition type_code_of (v : N) : option type_code :=
  match v with
  | 1 => Some TcNumEntry | 2 => Some TcVoid | 3 => Some TcFloat | 4 => Some TcDouble
  | 5 => Some TcLabel | 6 => Some TcOpaque | 7 => Some TcInteger | 8 => Some TcPointer
  | 9 => Some TcFunctionOld | 10 => Some TcHalf | 11 => Some TcArray | 12 => Some TcVector
  | 13 => Some TcX86Fp80 | 14 => Some TcFp128 | 15 => Some TcPpcFp128
  | 16 => Some TcMetadata | 17 => Some TcX86Mmx | 18 => Some TcStructAnon
  | 19 => Some TcStructName | 20 => Some TcStructNamed | 21 => Some TcFunction
  | 22 => Some TcToken | 23 => Some TcBFloat | 24 => Some TcX86Amx
  | 25 => Some TcOpaquePointer | _ => None
  end.

(** llvm-support/src/bitcodes.rs:243-246 [StrtabCode]. *)
Inductive strtab_code : Set :=
| StcBlob.
(** llvm-support/src/bitcodes.rs:243-246: its discriminants ([as u64]/[IntoPrimitive]). *)
Definition strtab_code_num (x : strtab_code) : N :=
  match x with
  | StcBlob => 1
  end.
(** llvm-support/src/bitcodes.rs:243-246: the derived [TryFromPrimitive]. *)
Definition strtab_code_of (v : N) : option strtab_code :=
  match v with
  | 1 => Some StcBlob | _ => None
  end.

(** llvm-support/src/bitcodes.rs:252-255 [SymtabCode]. *)
Inductive symtab_code : Set :=
| SycBlob.
(** llvm-support/src/bitcodes.rs:252-255: its discriminants ([as u64]/[IntoPrimitive]). *)
Definition symtab_code_num (x : symtab_code) : N :=
  match x with
  | SycBlob => 1
  end.
(** llvm-support/src/bitcodes.rs:252-255: the derived [TryFromPrimitive]. *)
Definition symtab_code_of (v : N) : option symtab_code :=
  match v with
  | 1 => Some SycBlob | _ => None
  end.

(** llvm-support/src/bitcodes.rs:262-269 [AttributeCode]. *)
Inductive attribute_code : Set :=
| AcEntryOld | AcEntry | AcGroupCodeEntry.
(** llvm-support/src/bitcodes.rs:262-269: its discriminants ([as u64]/[IntoPrimitive]). *)
Definition attribute_code_num (x : attribute_code) : N :=
  match x with
  | AcEntryOld => 1 | AcEntry => 2 | AcGroupCodeEntry => 3
  end.
(** llvm-support/src/bitcodes.rs:262-269: the derived [TryFromPrimitive]. *)
Definition attribute_code_of (v : N) : option attribute_code :=
  match v with
  | 1 => Some AcEntryOld | 2 => Some AcEntry | 3 => Some AcGroupCodeEntry | _ => None
  end.

(** llvm-support/src/bitcodes.rs:277-328 [FunctionCode]. *)
Inductive function_code : Set :=
| FcDeclareBlocks | FcInstBinop | FcInstCast | FcInstGepOld | FcInstSelect
| FcInstExtractelt | FcInstInsertelt | FcInstShufflevec | FcInstCmp | FcInstRet
| FcInstBr | FcInstSwitch | FcInstInvoke | FcInstUnreachable | FcInstPhi | FcInstAlloca
| FcInstLoad | FcInstVaarg | FcInstStoreOld | FcInstExtractval | FcInstInsertval
| FcInstCmp2 | FcInstVselect | FcInstInboundsGepOld | FcInstIndirectbr | FcDebugLocAgain
| FcInstCall | FcDebugLoc | FcInstFence | FcInstCmpxchgOld | FcInstAtomicrmwOld
| FcInstResume | FcInstLandingpadOld | FcInstLoadatomic | FcInstStoreatomicOld
| FcInstGep | FcInstStore | FcInstStoreatomic | FcInstCmpxchg | FcInstLandingpad
| FcInstCleanupret | FcInstCatchret | FcInstCatchpad | FcInstCleanuppad
| FcInstCatchswitch | FcOperandBundle | FcInstUnop | FcInstcallbr | FcInstFreeze
| FcInstAtomicrmw.
(** llvm-support/src/bitcodes.rs:277-328: its discriminants ([as u64]/[IntoPrimitive]). *)
Definition function_code_num (x : function_code) : N :=
  match x with
  | FcDeclareBlocks => 1 | FcInstBinop => 2 | FcInstCast => 3 | FcInstGepOld => 4
  | FcInstSelect => 5 | FcInstExtractelt => 6 | FcInstInsertelt => 7
  | FcInstShufflevec => 8 | FcInstCmp => 9 | FcInstRet => 10 | FcInstBr => 11
  | FcInstSwitch => 12 | FcInstInvoke => 13 | FcInstUnreachable => 15 | FcInstPhi => 16
  | FcInstAlloca => 19 | FcInstLoad => 20 | FcInstVaarg => 23 | FcInstStoreOld => 24
  | FcInstExtractval => 26 | FcInstInsertval => 27 | FcInstCmp2 => 28
  | FcInstVselect => 29 | FcInstInboundsGepOld => 30 | FcInstIndirectbr => 31
  | FcDebugLocAgain => 33 | FcInstCall => 34 | FcDebugLoc => 35 | FcInstFence => 36
  | FcInstCmpxchgOld => 37 | FcInstAtomicrmwOld => 38 | FcInstResume => 39
  | FcInstLandingpadOld => 40 | FcInstLoadatomic => 41 | FcInstStoreatomicOld => 42
  | FcInstGep => 43 | FcInstStore => 44 | FcInstStoreatomic => 45 | FcInstCmpxchg => 46
  | FcInstLandingpad => 47 | FcInstCleanupret => 48 | FcInstCatchret => 49
  | FcInstCatchpad => 50 | FcInstCleanuppad => 51 | FcInstCatchswitch => 52
  | FcOperandBundle => 55 | FcInstUnop => 56 | FcInstcallbr => 57 | FcInstFreeze => 58
  | FcInstAtomicrmw => 59
  end.
(** llvm-support/src/bitcodes.rs:277-328: the derived [TryFromPrimitive]. *)
Definition function_code_of (v : N) : option function_code :=
  match v with
  | 1 => Some FcDeclareBlocks | 2 => Some FcInstBinop | 3 => Some FcInstCast
  | 4 => Some FcInstGepOld | 5 => Some FcInstSelect | 6 => Some FcInstExtractelt
  | 7 => Some FcInstInsertelt | 8 => Some FcInstShufflevec | 9 => Some FcInstCmp
  | 10 => Some FcInstRet | 11 => Some FcInstBr | 12 => Some FcInstSwitch
  | 13 => Some FcInstInvoke | 15 => Some FcInstUnreachable | 16 => Some FcInstPhi
  | 19 => Some FcInstAlloca | 20 => Some FcInstLoad | 23 => Some FcInstVaarg
  | 24 => Some FcInstStoreOld | 26 => Some FcInstExtractval | 27 => Some FcInstInsertval
  | 28 => Some FcInstCmp2 | 29 => Some FcInstVselect | 30 => Some FcInstInboundsGepOld
  | 31 => Some FcInstIndirectbr | 33 => Some FcDebugLocAgain | 34 => Some FcInstCall
  | 35 => Some FcDebugLoc | 36 => Some FcInstFence | 37 => Some FcInstCmpxchgOld
  | 38 => Some FcInstAtomicrmwOld | 39 => Some FcInstResume
  | 40 => Some FcInstLandingpadOld | 41 => Some FcInstLoadatomic
  | 42 => Some FcInstStoreatomicOld | 43 => Some FcInstGep | 44 => Some FcInstStore
  | 45 => Some FcInstStoreatomic | 46 => Some FcInstCmpxchg | 47 => Some FcInstLandingpad
  | 48 => Some FcInstCleanupret | 49 => Some FcInstCatchret | 50 => Some FcInstCatchpad
  | 51 => Some FcInstCleanuppad | 52 => Some FcInstCatchswitch
  | 55 => Some FcOperandBundle | 56 => Some FcInstUnop | 57 => Some FcInstcallbr
  | 58 => Some FcInstFreeze | 59 => Some FcInstAtomicrmw | _ => None
  end.

(** llvm-support/src/bitcodes.rs:336-338 [UnaryOpcode]. *)
Inductive unary_opcode : Set :=
| UoFNeg.
(** llvm-support/src/bitcodes.rs:336-338: its discriminants ([as u64]/[IntoPrimitive]). *)
Definition unary_opcode_num (x : unary_opcode) : N :=
  match x with
  | UoFNeg => 0
  end.
(** llvm-support/src/bitcodes.rs:336-338: the derived [TryFromPrimitive]. *)
Definition unary_opcode_of (v : N) : option unary_opcode :=
  match v with
  | 0 => Some UoFNeg | _ => None
  end.

(** llvm-support/src/bitcodes.rs:346-360 [BinaryOpcode]. *)
Inductive binary_opcode : Set :=
| BoAdd | BoSub | BoMul | BoUDiv | BoSDiv | BoURem | BoSRem | BoShl | BoLShr | BoAShr
| BoAnd | BoOr | BoXor.
(** llvm-support/src/bitcodes.rs:346-360: its discriminants ([as u64]/[IntoPrimitive]). *)
Definition binary_opcode_num (x : binary_opcode) : N :=
  match x with
  | BoAdd => 0 | BoSub => 1 | BoMul => 2 | BoUDiv => 3 | BoSDiv => 4 | BoURem => 5
  | BoSRem => 6 | BoShl => 7 | BoLShr => 8 | BoAShr => 9 | BoAnd => 10 | BoOr => 11
  | BoXor => 12
  end.
(** llvm-support/src/bitcodes.rs:346-360: the derived [TryFromPrimitive]. *)
Definition binary_opcode_of (v : N) : option binary_opcode :=
  match v with
  | 0 => Some BoAdd | 1 => Some BoSub | 2 => Some BoMul | 3 => Some BoUDiv
  | 4 => Some BoSDiv | 5 => Some BoURem | 6 => Some BoSRem | 7 => Some BoShl
  | 8 => Some BoLShr | 9 => Some BoAShr | 10 => Some BoAnd | 11 => Some BoOr
  | 12 => Some BoXor | _ => None
  end.

(** llvm-support/src/bitcodes.rs:367-381 [RMWOperation]. *)
Inductive rmw_operation : Set :=
| RmwXchg | RmwAdd | RmwSub | RmwAnd | RmwNand | RmwOr | RmwXor | RmwMax | RmwMin
| RmwUMax | RmwUMin | RmwFAdd | RmwFSub.
(** llvm-support/src/bitcodes.rs:367-381: its discriminants ([as u64]/[IntoPrimitive]). *)
Definition rmw_operation_num (x : rmw_operation) : N :=
  match x with
  | RmwXchg => 0 | RmwAdd => 1 | RmwSub => 2 | RmwAnd => 3 | RmwNand => 4 | RmwOr => 5
  | RmwXor => 6 | RmwMax => 7 | RmwMin => 8 | RmwUMax => 9 | RmwUMin => 10 | RmwFAdd => 11
  | RmwFSub => 12
  end.
(** llvm-support/src/bitcodes.rs:367-381: the derived [TryFromPrimitive]. *)
Definition rmw_operation_of (v : N) : option rmw_operation :=
  match v with
  | 0 => Some RmwXchg | 1 => Some RmwAdd | 2 => Some RmwSub | 3 => Some RmwAnd
  | 4 => Some RmwNand | 5 => Some RmwOr | 6 => Some RmwXor | 7 => Some RmwMax
  | 8 => Some RmwMin | 9 => Some RmwUMax | 10 => Some RmwUMin | 11 => Some RmwFAdd
  | 12 => Some RmwFSub | _ => None
  end.

(** llvm-support/src/attribute.rs:8-18 [AttributeKind]. *)
Inductive attribute_kind : Set :=
| AkEnum | AkIntKeyValue | AkStrKey | AkStrKeyValue.
(** llvm-support/src/attribute.rs:8-18: its discriminants ([as u64]/[IntoPrimitive]). *)
Definition attribute_kind_num (x : attribute_kind) : N :=
  match x with
  | AkEnum => 0 | AkIntKeyValue => 1 | AkStrKey => 3 | AkStrKeyValue => 4
  end.
(** llvm-support/src/attribute.rs:8-18: the derived [TryFromPrimitive]. *)
Definition attribute_kind_of (v : N) : option attribute_kind :=
  match v with
  | 0 => Some AkEnum | 1 => Some AkIntKeyValue | 3 => Some AkStrKey
  | 4 => Some AkStrKeyValue | _ => None
  end.

(** llvm-support/src/attribute.rs:24-197 [AttributeId]. *)
Inductive attribute_id : Set :=
| AiAlignment | AiAlwaysInline | AiByVal | AiInlineHint | AiInReg | AiMinSize | AiNaked
| AiNest | AiNoAlias | AiNoBuiltin | AiNoCapture | AiNoDuplicate | AiNoImplicitFloat
| AiNoInline | AiNonLazyBind | AiNoRedZone | AiNoReturn | AiNoUnwind | AiOptimizeForSize
| AiReadNone | AiReadOnly | AiReturned | AiReturnsTwice | AiSExt | AiStackAlignment
| AiStackProtect | AiStackProtectReq | AiStackProtectStrong | AiStructRet
| AiSanitizeAddress | AiSanitizeThread | AiSanitizeMemory | AiUwTable | AiZExt
| AiBuiltin | AiCold | AiOptimizeNone | AiInAlloca | AiNonNull | AiJumpTable
| AiDereferenceable | AiDereferenceableOrNull | AiConvergent | AiSafeStack
| AiArgMemOnly | AiSwiftSelf | AiSwiftError | AiNoRecurse | AiInaccessiblememOnly
| AiInaccessiblememOrArgmemonly | AiAllocSize | AiWriteOnly | AiSpeculatable
| AiStrictFp | AiSanitizeHwAddress | AiNoCfCheck | AiOptForFuzzing | AiShadowcallstack
| AiSpeculativeLoadHardening | AiImmArg | AiWillReturn | AiNoFree | AiNoSync
| AiSanitizeMemtag | AiPreallocated | AiNoMerge | AiNullPointerIsValid | AiNoUndef
| AiByRef | AiMustProgress | AiNoCallback | AiHot | AiNoProfile | AiVScaleRange
| AiSwiftAsync | AiNoSanitizeCoverage | AiElementType
| AiDisableSanitizerInstrumentation | AiNoSanitizeBounds | AiAllocAlign
| AiAllocatedPointer | AiAllocKind | AiPresplitCoroutine | AiFnretthunkExtern
| AiSkipProfile | AiMemory.
(** llvm-support/src/attribute.rs:24-197: its discriminants ([as u64]/[IntoPrimitive]). *)
Definition attribute_id_num (x : attribute_id) : N :=
  match x with
  | AiAlignment => 1 | AiAlwaysInline => 2 | AiByVal => 3 | AiInlineHint => 4
  | AiInReg => 5 | AiMinSize => 6 | AiNaked => 7 | AiNest => 8 | AiNoAlias => 9
  | AiNoBuiltin => 10 | AiNoCapture => 11 | AiNoDuplicate => 12 | AiNoImplicitFloat => 13
  | AiNoInline => 14 | AiNonLazyBind => 15 | AiNoRedZone => 16 | AiNoReturn => 17
  | AiNoUnwind => 18 | AiOptimizeForSize => 19 | AiReadNone => 20 | AiReadOnly => 21
  | AiReturned => 22 | AiReturnsTwice => 23 | AiSExt => 24 | AiStackAlignment => 25
  | AiStackProtect => 26 | AiStackProtectReq => 27 | AiStackProtectStrong => 28
  | AiStructRet => 29 | AiSanitizeAddress => 30 | AiSanitizeThread => 31
  | AiSanitizeMemory => 32 | AiUwTable => 33 | AiZExt => 34 | AiBuiltin => 35
  | AiCold => 36 | AiOptimizeNone => 37 | AiInAlloca => 38 | AiNonNull => 39
  | AiJumpTable => 40 | AiDereferenceable => 41 | AiDereferenceableOrNull => 42
  | AiConvergent => 43 | AiSafeStack => 44 | AiArgMemOnly => 45 | AiSwiftSelf => 46
  | AiSwiftError => 47 | AiNoRecurse => 48 | AiInaccessiblememOnly => 49
  | AiInaccessiblememOrArgmemonly => 50 | AiAllocSize => 51 | AiWriteOnly => 52
  | AiSpeculatable => 53 | AiStrictFp => 54 | AiSanitizeHwAddress => 55
  | AiNoCfCheck => 56 | AiOptForFuzzing => 57 | AiShadowcallstack => 58
  | AiSpeculativeLoadHardening => 59 | AiImmArg => 60 | AiWillReturn => 61
  | AiNoFree => 62 | AiNoSync => 63 | AiSanitizeMemtag => 64 | AiPreallocated => 65
  | AiNoMerge => 66 | AiNullPointerIsValid => 67 | AiNoUndef => 68 | AiByRef => 69
  | AiMustProgress => 70 | AiNoCallback => 71 | AiHot => 72 | AiNoProfile => 73
  | AiVScaleRange => 74 | AiSwiftAsync => 75 | AiNoSanitizeCoverage => 76
  | AiElementType => 77 | AiDisableSanitizerInstrumentation => 78
  | AiNoSanitizeBounds => 79 | AiAllocAlign => 80 | AiAllocatedPointer => 81
  | AiAllocKind => 82 | AiPresplitCoroutine => 83 | AiFnretthunkExtern => 84
  | AiSkipProfile => 85 | AiMemory => 86
  end.
(** llvm-support/src/attribute.rs:24-197: the derived [TryFromPrimitive]. *)
Definition attribute_id_of (v : N) : option attribute_id :=
  match v with
  | 1 => Some AiAlignment | 2 => Some AiAlwaysInline | 3 => Some AiByVal
  | 4 => Some AiInlineHint | 5 => Some AiInReg | 6 => Some AiMinSize | 7 => Some AiNaked
  | 8 => Some AiNest | 9 => Some AiNoAlias | 10 => Some AiNoBuiltin
  | 11 => Some AiNoCapture | 12 => Some AiNoDuplicate | 13 => Some AiNoImplicitFloat
  | 14 => Some AiNoInline | 15 => Some AiNonLazyBind | 16 => Some AiNoRedZone
  | 17 => Some AiNoReturn | 18 => Some AiNoUnwind | 19 => Some AiOptimizeForSize
  | 20 => Some AiReadNone | 21 => Some AiReadOnly | 22 => Some AiReturned
  | 23 => Some AiReturnsTwice | 24 => Some AiSExt | 25 => Some AiStackAlignment
  | 26 => Some AiStackProtect | 27 => Some AiStackProtectReq
  | 28 => Some AiStackProtectStrong | 29 => Some AiStructRet
  | 30 => Some AiSanitizeAddress | 31 => Some AiSanitizeThread
  | 32 => Some AiSanitizeMemory | 33 => Some AiUwTable | 34 => Some AiZExt
  | 35 => Some AiBuiltin | 36 => Some AiCold | 37 => Some AiOptimizeNone
  | 38 => Some AiInAlloca | 39 => Some AiNonNull | 40 => Some AiJumpTable
  | 41 => Some AiDereferenceable | 42 => Some AiDereferenceableOrNull
  | 43 => Some AiConvergent | 44 => Some AiSafeStack | 45 => Some AiArgMemOnly
  | 46 => Some AiSwiftSelf | 47 => Some AiSwiftError | 48 => Some AiNoRecurse
  | 49 => Some AiInaccessiblememOnly | 50 => Some AiInaccessiblememOrArgmemonly
  | 51 => Some AiAllocSize | 52 => Some AiWriteOnly | 53 => Some AiSpeculatable
  | 54 => Some AiStrictFp | 55 => Some AiSanitizeHwAddress | 56 => Some AiNoCfCheck
  | 57 => Some AiOptForFuzzing | 58 => Some AiShadowcallstack
  | 59 => Some AiSpeculativeLoadHardening | 60 => Some AiImmArg | 61 => Some AiWillReturn
  | 62 => Some AiNoFree | 63 => Some AiNoSync | 64 => Some AiSanitizeMemtag
  | 65 => Some AiPreallocated | 66 => Some AiNoMerge | 67 => Some AiNullPointerIsValid
  | 68 => Some AiNoUndef | 69 => Some AiByRef | 70 => Some AiMustProgress
  | 71 => Some AiNoCallback | 72 => Some AiHot | 73 => Some AiNoProfile
  | 74 => Some AiVScaleRange | 75 => Some AiSwiftAsync | 76 => Some AiNoSanitizeCoverage
  | 77 => Some AiElementType | 78 => Some AiDisableSanitizerInstrumentation
  | 79 => Some AiNoSanitizeBounds | 80 => Some AiAllocAlign
  | 81 => Some AiAllocatedPointer | 82 => Some AiAllocKind
  | 83 => Some AiPresplitCoroutine | 84 => Some AiFnretthunkExtern
  | 85 => Some AiSkipProfile | 86 => Some AiMemory | _ => None
  end.

(** llvm-support/src/lib.rs:154-163 [Visibility]. *)
Inductive visibility : Set :=
| VisDefault | VisHidden | VisProtected.
(** llvm-support/src/lib.rs:154-163: its discriminants ([as u64]/[IntoPrimitive]). *)
Definition visibility_num (x : visibility) : N :=
  match x with
  | VisDefault => 0 | VisHidden => 1 | VisProtected => 2
  end.
(** llvm-support/src/lib.rs:154-163: the derived [TryFromPrimitive]. *)
Definition visibility_of (v : N) : option visibility :=
  match v with
  | 0 => Some VisDefault | 1 => Some VisHidden | 2 => Some VisProtected | _ => None
  end.

(** llvm-support/src/lib.rs:170-179 [DllStorageClass]. *)
Inductive dll_storage_class : Set :=
| DllDefault | DllImport | DllExport.
(** llvm-support/src/lib.rs:170-179: its discriminants ([as u64]/[IntoPrimitive]). *)
Definition dll_storage_class_num (x : dll_storage_class) : N :=
  match x with
  | DllDefault => 0 | DllImport => 1 | DllExport => 2
  end.
(** llvm-support/src/lib.rs:170-179: the derived [TryFromPrimitive]. *)
Definition dll_storage_class_of (v : N) : option dll_storage_class :=
  match v with
  | 0 => Some DllDefault | 1 => Some DllImport | 2 => Some DllExport | _ => None
  end.

(** llvm-support/src/lib.rs:275-318 [CallingConvention]. *)
Inductive calling_convention : Set :=
| CcC | CcFast | CcCold | CcGHC | CcHiPE | CcWebKitJS | CcAnyReg | CcPreserveMost
| CcPreserveAll | CcSwift | CcCXXFASTTLS | CcX86Stdcall | CcX86Fastcall | CcARMAPCS
| CcARMAAPCS | CcARMAAPCSVFP | CcMSP430INTR | CcX86ThisCall | CcPTXKernel | CcPTXDevice
| CcSPIRFUNC | CcSPIRKERNEL | CcIntelOCLBI | CcX8664SysV | CcWin64 | CcX86VectorCall
| CcHHVM | CcHHVMC | CcX86INTR | CcAVRINTR | CcAVRSIGNAL | CcAVRBUILTIN | CcAMDGPUVS
| CcAMDGPUGS | CcAMDGPUPS | CcAMDGPUCS | CcAMDGPUKERNEL | CcX86RegCall | CcAMDGPUHS
| CcMSP430BUILTIN | CcAMDGPULS | CcAMDGPUES.
(** llvm-support/src/lib.rs:275-318: its discriminants ([as u64]/[IntoPrimitive]). *)
Definition calling_convention_num (x : calling_convention) : N :=
  match x with
  | CcC => 0 | CcFast => 8 | CcCold => 9 | CcGHC => 10 | CcHiPE => 11 | CcWebKitJS => 12
  | CcAnyReg => 13 | CcPreserveMost => 14 | CcPreserveAll => 15 | CcSwift => 16
  | CcCXXFASTTLS => 17 | CcX86Stdcall => 64 | CcX86Fastcall => 65 | CcARMAPCS => 66
  | CcARMAAPCS => 67 | CcARMAAPCSVFP => 68 | CcMSP430INTR => 69 | CcX86ThisCall => 70
  | CcPTXKernel => 71 | CcPTXDevice => 72 | CcSPIRFUNC => 75 | CcSPIRKERNEL => 76
  | CcIntelOCLBI => 77 | CcX8664SysV => 78 | CcWin64 => 79 | CcX86VectorCall => 80
  | CcHHVM => 81 | CcHHVMC => 82 | CcX86INTR => 83 | CcAVRINTR => 84 | CcAVRSIGNAL => 85
  | CcAVRBUILTIN => 86 | CcAMDGPUVS => 87 | CcAMDGPUGS => 88 | CcAMDGPUPS => 89
  | CcAMDGPUCS => 90 | CcAMDGPUKERNEL => 91 | CcX86RegCall => 92 | CcAMDGPUHS => 93
  | CcMSP430BUILTIN => 94 | CcAMDGPULS => 95 | CcAMDGPUES => 96
  end.
(** llvm-support/src/lib.rs:275-318: the derived [TryFromPrimitive]. *)
Definition calling_convention_of (v : N) : option calling_convention :=
  match v with
  | 0 => Some CcC | 8 => Some CcFast | 9 => Some CcCold | 10 => Some CcGHC
  | 11 => Some CcHiPE | 12 => Some CcWebKitJS | 13 => Some CcAnyReg
  | 14 => Some CcPreserveMost | 15 => Some CcPreserveAll | 16 => Some CcSwift
  | 17 => Some CcCXXFASTTLS | 64 => Some CcX86Stdcall | 65 => Some CcX86Fastcall
  | 66 => Some CcARMAPCS | 67 => Some CcARMAAPCS | 68 => Some CcARMAAPCSVFP
  | 69 => Some CcMSP430INTR | 70 => Some CcX86ThisCall | 71 => Some CcPTXKernel
  | 72 => Some CcPTXDevice | 75 => Some CcSPIRFUNC | 76 => Some CcSPIRKERNEL
  | 77 => Some CcIntelOCLBI | 78 => Some CcX8664SysV | 79 => Some CcWin64
  | 80 => Some CcX86VectorCall | 81 => Some CcHHVM | 82 => Some CcHHVMC
  | 83 => Some CcX86INTR | 84 => Some CcAVRINTR | 85 => Some CcAVRSIGNAL
  | 86 => Some CcAVRBUILTIN | 87 => Some CcAMDGPUVS | 88 => Some CcAMDGPUGS
  | 89 => Some CcAMDGPUPS | 90 => Some CcAMDGPUCS | 91 => Some CcAMDGPUKERNEL
  | 92 => Some CcX86RegCall | 93 => Some CcAMDGPUHS | 94 => Some CcMSP430BUILTIN
  | 95 => Some CcAMDGPULS | 96 => Some CcAMDGPUES | _ => None
  end.

(** llvm-support/src/lib.rs:187-202 [ThreadLocalMode]. *)
Inductive tls_mode : Set :=
| TlsNotThreadLocal | TlsGeneralDynamicTls | TlsLocalDynamicTls | TlsInitialExecTls
| TlsLocalExecTls.
(** llvm-support/src/lib.rs:187-202: its discriminants ([as u64]/[IntoPrimitive]). *)
Definition tls_mode_num (x : tls_mode) : N :=
  match x with
  | TlsNotThreadLocal => 0 | TlsGeneralDynamicTls => 1 | TlsLocalDynamicTls => 2
  | TlsInitialExecTls => 3 | TlsLocalExecTls => 4
  end.

(** llvm-support/src/lib.rs:221-230 [UnnamedAddr]. *)
Inductive unnamed_addr : Set :=
| UaNone | UaGlobal | UaLocal.
(** llvm-support/src/lib.rs:221-230: its discriminants ([as u64]/[IntoPrimitive]). *)
Definition unnamed_addr_num (x : unnamed_addr) : N :=
  match x with
  | UaNone => 0 | UaGlobal => 1 | UaLocal => 2
  end.

(** llvm-support/src/lib.rs:249-257 [RuntimePreemption]. *)
Inductive preemption : Set :=
| RpDsoPreemptable | RpDsoLocal.
(** llvm-support/src/lib.rs:249-257: its discriminants ([as u64]/[IntoPrimitive]). *)
Definition preemption_num (x : preemption) : N :=
  match x with
  | RpDsoPreemptable => 0 | RpDsoLocal => 1
  end.
