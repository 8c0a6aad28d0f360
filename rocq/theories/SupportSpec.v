(** Vocabulary for the llvm-support properties: alignments a caller can hold, what the
    specification lists should contain, the numbering of the wire enumerations. *)
From Verif Require Import Base Strings EnumModel SupportModel.
From Coq Require Import Sorted.
Local Open Scope N_scope.

(** Alignments a caller can hold: the field of [Align] is private, so every value comes from
    one of the constructors or constants. *)
Inductive align_held : align -> Prop :=
| AHShift s a : s < 256 -> from_shift s = Ok a -> align_held a
| AHByte v a : v < two64 -> from_byte_align v = Ok a -> align_held a
| AHBit v a : v < two64 -> from_bit_align v = Ok a -> align_held a
| AHMaybe v a : v < 256 -> maybe_align_of v = Ok (Some a) -> align_held a
| AHConst a : In a [ALIGN8; ALIGN16; ALIGN32; ALIGN64; ALIGN128; MAX_ALIGN] -> align_held a.

(** Keys of type specifications: rank of the kind (aggregate < float < integer < vector),
    then the width. *)
Definition kind_rank (t : aligned_type) : N :=
  match t with AtAggregate => 0 | AtFloat _ => 1 | AtInteger _ => 2 | AtVector _ => 3 end.
Definition width_of (t : aligned_type) : N :=
  match t with AtAggregate => 0 | AtFloat w | AtInteger w | AtVector w => w end.
Definition key_lt (x y : aligned_type) : Prop :=
  kind_rank x < kind_rank y \/ (kind_rank x = kind_rank y /\ width_of x < width_of y).

Definition type_key_dec (x y : aligned_type) : {x = y} + {x <> y}.
Proof. repeat decide equality. Defined.

(** First specification for a key in a list. *)
Definition spec_for (k : aligned_type) (l : list type_spec) : option type_spec :=
  find (fun s => if type_key_dec (ts_type s) k then true else false) l.

(** The specifications of an address space, in list order. *)
Definition specs_of (k : N) (l : list ptr_spec) : list ptr_spec :=
  filter (fun s => ps_space s =? k) l.

Definition ptr_spec_dec (x y : ptr_spec) : {x = y} + {x <> y}.
Proof. repeat decide equality. Defined.

(** A list without the elements that equal their predecessor. *)
Fixpoint collapse (l : list ptr_spec) : list ptr_spec :=
  match l with
  | x :: ((y :: _) as l') => if ptr_spec_dec x y then collapse l' else x :: collapse l'
  | _ => l
  end.

(** The operation LLVM's reader decodes ([getDecodedBinaryOpcode] in BitcodeReader.cpp):
    floating types admit 0, 1, 2, 4 and 6, integer types all of 0..12, other types none;
    vectors are treated as their element type. *)
Inductive scalar_class : Set := ClassInt | ClassFloat | ClassOther.
Definition elem_class (t : ty) : scalar_class :=
  match t with
  | THalf | TBFloat | TFloat | TDouble | TX86Fp80 | TFp128 | TPpcFp128 => ClassFloat
  | TInteger _ => ClassInt
  | _ => ClassOther
  end.
Definition class_of (t : ty) : scalar_class :=
  match t with
  | TFixedVector _ t' | TScalableVector _ t' => elem_class t'
  | _ => elem_class t
  end.
Definition int_operations : list binary_op :=
  [BAdd; BSub; BMul; BUDiv; BSDiv; BURem; BSRem; BShl; BLShr; BAShr; BAnd; BOr; BXor].
Definition float_operations : list (option binary_op) :=
  [Some BFAdd; Some BFSub; Some BFMul; None; Some BFDiv; None; Some BFRem].
Definition expected_operation (v : N) (t : ty) : option binary_op :=
  match class_of t with
  | ClassInt => nth_error int_operations (N.to_nat v)
  | ClassFloat => match nth_error float_operations (N.to_nat v) with Some (Some x) => Some x | _ => None end
  | ClassOther => None
  end.

(** *** Numbering (LLVMBitCodes.h, Attributes.td, CallingConv.h) *)

(** A decoder realises a numbering: it maps a number to a variant exactly when the table
    pairs them; the discriminants are those of the table; no number is used twice. *)
Definition realises {T : Set} (of : N -> option T) (num : T -> N) (table : list (T * N)) : Prop :=
  (forall v x, of v = Some x <-> In (x, v) table) /\
  (forall v x, num x = v <-> In (x, v) table) /\
  NoDup (map snd table).

Definition reserved_block_id_table : list (reserved_block_id * N) :=
  [ (RbBlockInfo, 0); (RbReserved1, 1); (RbReserved2, 2); (RbReserved3, 3);
    (RbReserved4, 4); (RbReserved5, 5); (RbReserved6, 6); (RbReserved7, 7) ].
Definition ir_block_id_table : list (ir_block_id * N) :=
  [ (IbModule, 8); (IbParamAttr, 9); (IbParamAttrGroup, 10); (IbConstants, 11);
    (IbFunction, 12); (IbIdentification, 13); (IbValueSymtab, 14); (IbMetadata, 15);
    (IbMetadataAttachment, 16); (IbType, 17); (IbUselist, 18); (IbModuleStrtab, 19);
    (IbGlobalValSummary, 20); (IbOperandBundleTags, 21); (IbMetadataKind, 22);
    (IbStrtab, 23); (IbFullLtoGlobalValSummary, 24); (IbSymtab, 25); (IbSyncScopeNames, 26) ].
Definition identification_code_table : list (identification_code * N) :=
  [ (IcProducerString, 1); (IcEpoch, 2) ].
Definition module_code_table : list (module_code * N) :=
  [ (McVersion, 1); (McTriple, 2); (McDataLayout, 3); (McAsm, 4); (McSectionName, 5);
    (McDepLib, 6); (McGlobalVar, 7); (McFunction, 8); (McAliasOld, 9); (McGcName, 11);
    (McComdat, 12); (McVstOffset, 13); (McAlias, 14); (McMetadataValuesUnused, 15);
    (McSourceFilename, 16); (McHash, 17); (McIFunc, 18) ].
Definition type_code_table : list (type_code * N) :=
  [ (TcNumEntry, 1); (TcVoid, 2); (TcFloat, 3); (TcDouble, 4); (TcLabel, 5); (TcOpaque, 6);
    (TcInteger, 7); (TcPointer, 8); (TcFunctionOld, 9); (TcHalf, 10); (TcArray, 11);
    (TcVector, 12); (TcX86Fp80, 13); (TcFp128, 14); (TcPpcFp128, 15); (TcMetadata, 16);
    (TcX86Mmx, 17); (TcStructAnon, 18); (TcStructName, 19); (TcStructNamed, 20);
    (TcFunction, 21); (TcToken, 22); (TcBFloat, 23); (TcX86Amx, 24); (TcOpaquePointer, 25) ].
Definition strtab_code_table : list (strtab_code * N) :=
  [ (StcBlob, 1) ].
Definition symtab_code_table : list (symtab_code * N) :=
  [ (SycBlob, 1) ].
Definition attribute_code_table : list (attribute_code * N) :=
  [ (AcEntryOld, 1); (AcEntry, 2); (AcGroupCodeEntry, 3) ].
Definition function_code_table : list (function_code * N) :=
  [ (FcDeclareBlocks, 1); (FcInstBinop, 2); (FcInstCast, 3); (FcInstGepOld, 4);
    (FcInstSelect, 5); (FcInstExtractelt, 6); (FcInstInsertelt, 7); (FcInstShufflevec, 8);
    (FcInstCmp, 9); (FcInstRet, 10); (FcInstBr, 11); (FcInstSwitch, 12); (FcInstInvoke, 13);
    (FcInstUnreachable, 15); (FcInstPhi, 16); (FcInstAlloca, 19); (FcInstLoad, 20);
    (FcInstVaarg, 23); (FcInstStoreOld, 24); (FcInstExtractval, 26); (FcInstInsertval, 27);
    (FcInstCmp2, 28); (FcInstVselect, 29); (FcInstInboundsGepOld, 30);
    (FcInstIndirectbr, 31); (FcDebugLocAgain, 33); (FcInstCall, 34); (FcDebugLoc, 35);
    (FcInstFence, 36); (FcInstCmpxchgOld, 37); (FcInstAtomicrmwOld, 38); (FcInstResume, 39);
    (FcInstLandingpadOld, 40); (FcInstLoadatomic, 41); (FcInstStoreatomicOld, 42);
    (FcInstGep, 43); (FcInstStore, 44); (FcInstStoreatomic, 45); (FcInstCmpxchg, 46);
    (FcInstLandingpad, 47); (FcInstCleanupret, 48); (FcInstCatchret, 49);
    (FcInstCatchpad, 50); (FcInstCleanuppad, 51); (FcInstCatchswitch, 52);
    (FcOperandBundle, 55); (FcInstUnop, 56); (FcInstcallbr, 57); (FcInstFreeze, 58);
    (FcInstAtomicrmw, 59) ].
Definition unary_opcode_table : list (unary_opcode * N) :=
  [ (UoFNeg, 0) ].
Definition binary_opcode_table : list (binary_opcode * N) :=
  [ (BoAdd, 0); (BoSub, 1); (BoMul, 2); (BoUDiv, 3); (BoSDiv, 4); (BoURem, 5); (BoSRem, 6);
    (BoShl, 7); (BoLShr, 8); (BoAShr, 9); (BoAnd, 10); (BoOr, 11); (BoXor, 12) ].
Definition rmw_operation_table : list (rmw_operation * N) :=
  [ (RmwXchg, 0); (RmwAdd, 1); (RmwSub, 2); (RmwAnd, 3); (RmwNand, 4); (RmwOr, 5);
    (RmwXor, 6); (RmwMax, 7); (RmwMin, 8); (RmwUMax, 9); (RmwUMin, 10); (RmwFAdd, 11);
    (RmwFSub, 12) ].
Definition attribute_kind_table : list (attribute_kind * N) :=
  [ (AkEnum, 0); (AkIntKeyValue, 1); (AkStrKey, 3); (AkStrKeyValue, 4) ].
Definition attribute_id_table : list (attribute_id * N) :=
  [ (AiAlignment, 1); (AiAlwaysInline, 2); (AiByVal, 3); (AiInlineHint, 4); (AiInReg, 5);
    (AiMinSize, 6); (AiNaked, 7); (AiNest, 8); (AiNoAlias, 9); (AiNoBuiltin, 10);
    (AiNoCapture, 11); (AiNoDuplicate, 12); (AiNoImplicitFloat, 13); (AiNoInline, 14);
    (AiNonLazyBind, 15); (AiNoRedZone, 16); (AiNoReturn, 17); (AiNoUnwind, 18);
    (AiOptimizeForSize, 19); (AiReadNone, 20); (AiReadOnly, 21); (AiReturned, 22);
    (AiReturnsTwice, 23); (AiSExt, 24); (AiStackAlignment, 25); (AiStackProtect, 26);
    (AiStackProtectReq, 27); (AiStackProtectStrong, 28); (AiStructRet, 29);
    (AiSanitizeAddress, 30); (AiSanitizeThread, 31); (AiSanitizeMemory, 32);
    (AiUwTable, 33); (AiZExt, 34); (AiBuiltin, 35); (AiCold, 36); (AiOptimizeNone, 37);
    (AiInAlloca, 38); (AiNonNull, 39); (AiJumpTable, 40); (AiDereferenceable, 41);
    (AiDereferenceableOrNull, 42); (AiConvergent, 43); (AiSafeStack, 44);
    (AiArgMemOnly, 45); (AiSwiftSelf, 46); (AiSwiftError, 47); (AiNoRecurse, 48);
    (AiInaccessiblememOnly, 49); (AiInaccessiblememOrArgmemonly, 50); (AiAllocSize, 51);
    (AiWriteOnly, 52); (AiSpeculatable, 53); (AiStrictFp, 54); (AiSanitizeHwAddress, 55);
    (AiNoCfCheck, 56); (AiOptForFuzzing, 57); (AiShadowcallstack, 58);
    (AiSpeculativeLoadHardening, 59); (AiImmArg, 60); (AiWillReturn, 61); (AiNoFree, 62);
    (AiNoSync, 63); (AiSanitizeMemtag, 64); (AiPreallocated, 65); (AiNoMerge, 66);
    (AiNullPointerIsValid, 67); (AiNoUndef, 68); (AiByRef, 69); (AiMustProgress, 70);
    (AiNoCallback, 71); (AiHot, 72); (AiNoProfile, 73); (AiVScaleRange, 74);
    (AiSwiftAsync, 75); (AiNoSanitizeCoverage, 76); (AiElementType, 77);
    (AiDisableSanitizerInstrumentation, 78); (AiNoSanitizeBounds, 79); (AiAllocAlign, 80);
    (AiAllocatedPointer, 81); (AiAllocKind, 82); (AiPresplitCoroutine, 83);
    (AiFnretthunkExtern, 84); (AiSkipProfile, 85); (AiMemory, 86) ].
Definition visibility_table : list (visibility * N) :=
  [ (VisDefault, 0); (VisHidden, 1); (VisProtected, 2) ].
Definition dll_storage_class_table : list (dll_storage_class * N) :=
  [ (DllDefault, 0); (DllImport, 1); (DllExport, 2) ].
Definition calling_convention_table : list (calling_convention * N) :=
  [ (CcC, 0); (CcFast, 8); (CcCold, 9); (CcGHC, 10); (CcHiPE, 11); (CcWebKitJS, 12);
    (CcAnyReg, 13); (CcPreserveMost, 14); (CcPreserveAll, 15); (CcSwift, 16);
    (CcCXXFASTTLS, 17); (CcX86Stdcall, 64); (CcX86Fastcall, 65); (CcARMAPCS, 66);
    (CcARMAAPCS, 67); (CcARMAAPCSVFP, 68); (CcMSP430INTR, 69); (CcX86ThisCall, 70);
    (CcPTXKernel, 71); (CcPTXDevice, 72); (CcSPIRFUNC, 75); (CcSPIRKERNEL, 76);
    (CcIntelOCLBI, 77); (CcX8664SysV, 78); (CcWin64, 79); (CcX86VectorCall, 80);
    (CcHHVM, 81); (CcHHVMC, 82); (CcX86INTR, 83); (CcAVRINTR, 84); (CcAVRSIGNAL, 85);
    (CcAVRBUILTIN, 86); (CcAMDGPUVS, 87); (CcAMDGPUGS, 88); (CcAMDGPUPS, 89);
    (CcAMDGPUCS, 90); (CcAMDGPUKERNEL, 91); (CcX86RegCall, 92); (CcAMDGPUHS, 93);
    (CcMSP430BUILTIN, 94); (CcAMDGPULS, 95); (CcAMDGPUES, 96) ].

(** Decoders with a default: numbers per variant. *)
Definition linkage_table : list (linkage * list N) :=
  [ (LkExternal, [0; 5; 6; 15]); (LkWeakAny, [1; 16]); (LkAppending, [2]); (LkInternal, [3]);
    (LkLinkOnceAny, [4; 18]); (LkExternalWeak, [7]); (LkCommon, [8]); (LkPrivate, [9; 13; 14]);
    (LkWeakOdr, [10; 17]); (LkLinkOnceOdr, [11; 19]); (LkAvailableExternally, [12]) ].
Definition tls_table : list (tls_mode * list N) :=
  [ (TlsNotThreadLocal, [0]); (TlsGeneralDynamicTls, [1]); (TlsLocalDynamicTls, [2]);
    (TlsInitialExecTls, [3]); (TlsLocalExecTls, [4]) ].
Definition unnamed_addr_table : list (unnamed_addr * list N) :=
  [ (UaNone, [0]); (UaGlobal, [1]); (UaLocal, [2]) ].
Definition preemption_table : list (preemption * list N) :=
  [ (RpDsoPreemptable, [0]); (RpDsoLocal, [1]) ].
Definition realises_with_default {T : Set} (of : N -> T) (table : list (T * list N)) (default : T) : Prop :=
  (forall v x l, In (x, l) table -> In v l -> of v = x) /\
  (forall v, (forall x l, In (x, l) table -> ~ In v l) -> of v = default).
