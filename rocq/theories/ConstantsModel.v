(** Model of llvm-constants (constants.rs, enums.rs), the older crate that the workspace (Cargo.toml:6-7) calls subsumed within
    llvm-support, and of what it is compared with there and not modelled elsewhere: constants and names of variants. *)
From Verif Require Import Base Strings EnumModel StreamModel MessageModel.
Local Open Scope N_scope.

(** ** llvm-constants *)

(** An enumeration of enums.rs: the names of its variants and their discriminants, in the order of the declaration. A value of
    it is the name (which is what the derived [Debug] prints); discriminants left out count on from the one before. *)
Definition enumeration : Set := list (str * N).
(** enums.rs:10 and others: the derived [TryFromPrimitive]. *)
Fixpoint variant_of (t : enumeration) (v : N) : option str :=
  match t with
  | [] => None
  | (name, n) :: t' => if n =? v then Some name else variant_of t' v
  end.

(** llvm-constants/src/enums.rs:12-29 [ReservedBlockId]. *)
Definition k_reserved_block_id : enumeration :=
  [(lit "BlockInfo", 0); (lit "Reserved1", 1); (lit "Reserved2", 2); (lit "Reserved3", 3); (lit "Reserved4", 4);
   (lit "Reserved5", 5); (lit "Reserved6", 6); (lit "Reserved7", 7)].

(** llvm-constants/src/enums.rs:35-74 [IrBlockId]. *)
Definition k_ir_block_id : enumeration :=
  [(lit "Module", 8); (lit "ParamAttr", 9); (lit "ParamAttrGroup", 10); (lit "Constants", 11); (lit "Function", 12);
   (lit "Identification", 13); (lit "ValueSymtab", 14); (lit "Metadata", 15); (lit "MetadataAttachment", 16);
   (lit "Type", 17); (lit "Uselist", 18); (lit "ModuleStrtab", 19); (lit "GlobalValSummary", 20);
   (lit "OperandBundleTags", 21); (lit "MetadataKind", 22); (lit "Strtab", 23); (lit "FullLtoGlobalValSummary", 24);
   (lit "Symtab", 25); (lit "SyncScopeNames", 26)].

(** llvm-constants/src/enums.rs:79-88 [ReservedAbbrevId]. *)
Definition k_reserved_abbrev_id : enumeration :=
  [(lit "EndBlock", 0); (lit "EnterSubBlock", 1); (lit "DefineAbbrev", 2); (lit "UnabbrevRecord", 3)].

(** llvm-constants/src/enums.rs:93-104 [AbbrevOpEnc]. *)
Definition k_abbrev_enc : enumeration :=
  [(lit "Fixed", 1); (lit "Vbr", 2); (lit "Array", 3); (lit "Char6", 4); (lit "Blob", 5)].

(** llvm-constants/src/enums.rs:111-154 [CallingConvention]. *)
Definition k_calling_convention : enumeration :=
  [(lit "C", 0); (lit "Fast", 8); (lit "Cold", 9); (lit "GHC", 10); (lit "HiPE", 11); (lit "WebKitJS", 12);
   (lit "AnyReg", 13); (lit "PreserveMost", 14); (lit "PreserveAll", 15); (lit "Swift", 16); (lit "CXXFASTTLS", 17);
   (lit "X86Stdcall", 64); (lit "X86Fastcall", 65); (lit "ARMAPCS", 66); (lit "ARMAAPCS", 67); (lit "ARMAAPCSVFP", 68);
   (lit "MSP430INTR", 69); (lit "X86ThisCall", 70); (lit "PTXKernel", 71); (lit "PTXDevice", 72); (lit "SPIRFUNC", 75);
   (lit "SPIRKERNEL", 76); (lit "IntelOCLBI", 77); (lit "X8664SysV", 78); (lit "Win64", 79); (lit "X86VectorCall", 80);
   (lit "HHVM", 81); (lit "HHVMC", 82); (lit "X86INTR", 83); (lit "AVRINTR", 84); (lit "AVRSIGNAL", 85);
   (lit "AVRBUILTIN", 86); (lit "AMDGPUVS", 87); (lit "AMDGPUGS", 88); (lit "AMDGPUPS", 89); (lit "AMDGPUCS", 90);
   (lit "AMDGPUKERNEL", 91); (lit "X86RegCall", 92); (lit "AMDGPUHS", 93); (lit "MSP430BUILTIN", 94);
   (lit "AMDGPULS", 95); (lit "AMDGPUES", 96)].

(** llvm-constants/src/enums.rs:160-167 [BlockInfoCode]. *)
Definition k_blockinfo_code : enumeration :=
  [(lit "SetBid", 1); (lit "BlockName", 2); (lit "SetRecordName", 3)].

(** llvm-constants/src/enums.rs:173-178 [IdentificationCode]. *)
Definition k_identification_code : enumeration :=
  [(lit "ProducerString", 1); (lit "Epoch", 2)].

(** llvm-constants/src/enums.rs:184-228 [ModuleCode]. *)
Definition k_module_code : enumeration :=
  [(lit "Version", 1); (lit "Triple", 2); (lit "DataLayout", 3); (lit "Asm", 4); (lit "SectionName", 5);
   (lit "DepLib", 6); (lit "GlobalVar", 7); (lit "Function", 8); (lit "AliasOld", 9); (lit "GcName", 11);
   (lit "Comdat", 12); (lit "VstOffset", 13); (lit "Alias", 14); (lit "MetadataValuesUnused", 15);
   (lit "SourceFilename", 16); (lit "Hash", 17); (lit "IFunc", 18)].

(** llvm-constants/src/enums.rs:233-284 [TypeCode]. *)
Definition k_type_code : enumeration :=
  [(lit "NumEntry", 1); (lit "Void", 2); (lit "Float", 3); (lit "Double", 4); (lit "Label", 5); (lit "Opaque", 6);
   (lit "Integer", 7); (lit "Pointer", 8); (lit "FunctionOld", 9); (lit "Half", 10); (lit "Array", 11);
   (lit "Vector", 12); (lit "X86Fp80", 13); (lit "Fp128", 14); (lit "PpcFp128", 15); (lit "Metadata", 16);
   (lit "X86Mmx", 17); (lit "StructAnon", 18); (lit "StructName", 19); (lit "StructNamed", 20); (lit "Function", 21);
   (lit "Token", 22); (lit "BFloat", 23); (lit "X86Amx", 24); (lit "OpaquePointer", 25)].

(** llvm-constants/src/enums.rs:290-293 [StrtabCode]. *)
Definition k_strtab_code : enumeration :=
  [(lit "Blob", 1)].

(** llvm-constants/src/enums.rs:299-302 [SymtabCode]. *)
Definition k_symtab_code : enumeration :=
  [(lit "Blob", 1)].

(** llvm-constants/src/enums.rs:309-316 [AttributeCode]. *)
Definition k_attribute_code : enumeration :=
  [(lit "EntryOld", 1); (lit "Entry", 2); (lit "GroupCodeEntry", 3)].

(** llvm-constants/src/constants.rs:4. *)
Definition K_LLVM_IR_MAGIC : N := 0xdec04342.
(** llvm-constants/src/constants.rs:8. *)
Definition K_BITCODE_WRAPPER_MAGIC : N := 0x0b17c0de.
(** llvm-constants/src/constants.rs:11. *)
Definition K_INITIAL_ABBREV_ID_WIDTH : N := 2.
(** llvm-constants/src/constants.rs:15. *)
Definition K_FIRST_APPLICATION_ABBREV_ID : N := 4.
(** llvm-constants/src/constants.rs:19. *)
Definition K_FIRST_APPLICATION_BLOCK_ID : N := 8.
(** llvm-constants/src/constants.rs:22-23. [TARGET_TRIPLE] (26) is the same line of build.rs in both crates. *)
Definition K_CHAR6_ALPHABET : list N := lit "abcdefghijklmnopqrstuvwxyzABCDEFGHIJKLMNOPQRSTUVWXYZ0123456789._".

(** ** llvm-support *)

(** llvm-support/src/lib.rs:23. *)
Definition LLVM_IR_MAGIC : N := 0xdec04342.
(** llvm-support/src/lib.rs:34. *)
Definition FIRST_APPLICATION_ABBREV_ID : N := 4.
(** llvm-support/src/lib.rs:38. *)
Definition FIRST_APPLICATION_BLOCK_ID : N := 8.

(** llvm-support/src/lib.rs:275-318: the derived [Debug] of [CallingConvention] prints the name of the variant. *)
Definition calling_convention_debug (x : calling_convention) : str :=
  match x with
  | CcC => lit "C" | CcFast => lit "Fast" | CcCold => lit "Cold" | CcGHC => lit "GHC" | CcHiPE => lit "HiPE"
  | CcWebKitJS => lit "WebKitJS" | CcAnyReg => lit "AnyReg" | CcPreserveMost => lit "PreserveMost"
  | CcPreserveAll => lit "PreserveAll" | CcSwift => lit "Swift" | CcCXXFASTTLS => lit "CXXFASTTLS"
  | CcX86Stdcall => lit "X86Stdcall" | CcX86Fastcall => lit "X86Fastcall" | CcARMAPCS => lit "ARMAPCS"
  | CcARMAAPCS => lit "ARMAAPCS" | CcARMAAPCSVFP => lit "ARMAAPCSVFP" | CcMSP430INTR => lit "MSP430INTR"
  | CcX86ThisCall => lit "X86ThisCall" | CcPTXKernel => lit "PTXKernel" | CcPTXDevice => lit "PTXDevice"
  | CcSPIRFUNC => lit "SPIRFUNC" | CcSPIRKERNEL => lit "SPIRKERNEL" | CcIntelOCLBI => lit "IntelOCLBI"
  | CcX8664SysV => lit "X8664SysV" | CcWin64 => lit "Win64" | CcX86VectorCall => lit "X86VectorCall"
  | CcHHVM => lit "HHVM" | CcHHVMC => lit "HHVMC" | CcX86INTR => lit "X86INTR" | CcAVRINTR => lit "AVRINTR"
  | CcAVRSIGNAL => lit "AVRSIGNAL" | CcAVRBUILTIN => lit "AVRBUILTIN" | CcAMDGPUVS => lit "AMDGPUVS"
  | CcAMDGPUGS => lit "AMDGPUGS" | CcAMDGPUPS => lit "AMDGPUPS" | CcAMDGPUCS => lit "AMDGPUCS"
  | CcAMDGPUKERNEL => lit "AMDGPUKERNEL" | CcX86RegCall => lit "X86RegCall" | CcAMDGPUHS => lit "AMDGPUHS"
  | CcMSP430BUILTIN => lit "MSP430BUILTIN" | CcAMDGPULS => lit "AMDGPULS" | CcAMDGPUES => lit "AMDGPUES"
  end.

(** llvm-support/src/bitcodes.rs:113-120: the derived [Debug] of [BlockInfoCode] prints the name of the variant. *)
Definition blockinfo_code_debug (x : blockinfo_code) : str :=
  match x with
  | BiSetBid => lit "SetBid" | BiBlockName => lit "BlockName" | BiSetRecordName => lit "SetRecordName"
  end.

(** llvm-support/src/bitcodes.rs:126-131: the derived [Debug] of [IdentificationCode] prints the name of the variant. *)
Definition identification_code_debug (x : identification_code) : str :=
  match x with
  | IcProducerString => lit "ProducerString" | IcEpoch => lit "Epoch"
  end.

(** llvm-support/src/bitcodes.rs:137-181: the derived [Debug] of [ModuleCode] prints the name of the variant. *)
Definition module_code_debug (x : module_code) : str :=
  match x with
  | McVersion => lit "Version" | McTriple => lit "Triple" | McDataLayout => lit "DataLayout" | McAsm => lit "Asm"
  | McSectionName => lit "SectionName" | McDepLib => lit "DepLib" | McGlobalVar => lit "GlobalVar"
  | McFunction => lit "Function" | McAliasOld => lit "AliasOld" | McGcName => lit "GcName" | McComdat => lit "Comdat"
  | McVstOffset => lit "VstOffset" | McAlias => lit "Alias" | McMetadataValuesUnused => lit "MetadataValuesUnused"
  | McSourceFilename => lit "SourceFilename" | McHash => lit "Hash" | McIFunc => lit "IFunc"
  end.

(** llvm-support/src/bitcodes.rs:186-237: the derived [Debug] of [TypeCode] prints the name of the variant. *)
Definition type_code_debug (x : type_code) : str :=
  match x with
  | TcNumEntry => lit "NumEntry" | TcVoid => lit "Void" | TcFloat => lit "Float" | TcDouble => lit "Double"
  | TcLabel => lit "Label" | TcOpaque => lit "Opaque" | TcInteger => lit "Integer" | TcPointer => lit "Pointer"
  | TcFunctionOld => lit "FunctionOld" | TcHalf => lit "Half" | TcArray => lit "Array" | TcVector => lit "Vector"
  | TcX86Fp80 => lit "X86Fp80" | TcFp128 => lit "Fp128" | TcPpcFp128 => lit "PpcFp128" | TcMetadata => lit "Metadata"
  | TcX86Mmx => lit "X86Mmx" | TcStructAnon => lit "StructAnon" | TcStructName => lit "StructName"
  | TcStructNamed => lit "StructNamed" | TcFunction => lit "Function" | TcToken => lit "Token"
  | TcBFloat => lit "BFloat" | TcX86Amx => lit "X86Amx" | TcOpaquePointer => lit "OpaquePointer"
  end.

(** llvm-support/src/bitcodes.rs:243-246: the derived [Debug] of [StrtabCode] prints the name of the variant. *)
Definition strtab_code_debug (x : strtab_code) : str :=
  match x with
  | StcBlob => lit "Blob"
  end.

(** llvm-support/src/bitcodes.rs:252-255: the derived [Debug] of [SymtabCode] prints the name of the variant. *)
Definition symtab_code_debug (x : symtab_code) : str :=
  match x with
  | SycBlob => lit "Blob"
  end.

(** llvm-support/src/bitcodes.rs:82-91: the name of the [ReservedAbbrevId] that an [AbbrevId] (abbrev.rs:14-26) holds. *)
Definition reserved_abbrev_id_debug (x : abbrev_id) : option str :=
  match x with
  | IdEndBlock => Some (lit "EndBlock") | IdEnterSubBlock => Some (lit "EnterSubBlock")
  | IdDefineAbbrev => Some (lit "DefineAbbrev") | IdUnabbrevRecord => Some (lit "UnabbrevRecord")
  | IdDefined _ => None
  end.
