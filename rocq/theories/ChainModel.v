(** Model of the causes of the errors: [std::error::Error::source], which thiserror derives for the fields marked [#[from]].
    The chain of an error is its own message, then the message of its source, and so on; [anyhow] prints it when [main] of an
    example returns an error.

    An error of the standard library, of num_enum or of llvm-bitcursor has no source. [shown] is as in DebugModel.v. *)
From Verif Require Import Base CursorModel StreamModel Strings EnumModel SupportModel LayoutModel UnrollModel
  AttributeModel TablesModel TypeTableModel RecordModel ModuleModel ExtraModel MessageModel DebugModel.
Local Open Scope N_scope.

(** ** llvm-bitstream *)

(** llvm-bitstream/src/error.rs:17 (cursor), 25 (BLOCKINFO code) and 30 (operand encoding) are [#[from]]. *)
Definition stream_chain (x : serr) : list str :=
  stream_text x ::
  match x with
  | SCursor x => [cursor_text x]
  | SBadBlockInfoCode v => [primitive_text (lit "BlockInfoCode") v]
  | SBadAbbrevOpEnc v => [primitive_text (lit "AbbrevOpEnc") v]
  | _ => []
  end.

(** ** llvm-support *)

(** align.rs:268-295 [AlignSpecError]. *)
Definition spec_chain (x : spec_err) : list str :=
  spec_text x ::
  match x with
  | SeBadTypeWidth x => [width_text x]
  | SeParseAlign x => [align_err_text x]
  | SeBadInt x => [int_text x]
  | SeBadAddressSpace x => [space_text x]
  | _ => []
  end.
(** opcode.rs:135-147 [BinaryOpError]. *)
Definition binary_op_chain (shown : N -> bool) (x : binary_op_err) : list str :=
  binary_op_text shown x :: match x with BeOpcode v => [primitive_text (lit "BinaryOpcode") v] | _ => [] end.
(** opcode.rs:69-74 [UnaryOpError]: the unknown opcode. *)
Definition unary_op_chain (v : N) : list str := [lit "unknown opcode"; primitive_text (lit "UnaryOpcode") v].

(** ** llvm-mapper: records and tables *)

(** record/mod.rs:26-36 [RecordStringError]. *)
Definition string_chain (x : string_err) : list str :=
  string_text x ::
  match x with StBadIndex _ _ => [] | StBadCharacter => [try_from_int_text] | StBadEncoding _ x => [utf8_text x] end.
(** record/mod.rs:41-48 [RecordBlobError]. *)
Definition blob_chain (x : blob_err) : list str :=
  blob_text x :: match x with BlBadIndex _ _ => [] | BlBadByte => [try_from_int_text] end.
(** record/datalayout.rs:20-48 [DataLayoutError], without [BadString]. *)
Definition layout_chain (x : layout_err) : list str :=
  layout_text x ::
  match x with
  | LeBadAlign x => [align_err_text x]
  | LeBadAddressSpace x => [space_text x]
  | LeBadInt x => [int_text x]
  | LeBadAlignSpec x => spec_chain x
  | _ => []
  end.
(** block/strtab.rs:16-36 [StrtabError]. *)
Definition strtab_chain (x : strtab_err) : list str :=
  strtab_text x :: match x with SbBadBlob x => blob_chain x | SbBadString x => [utf8_text x] | _ => [] end.
(** block/symtab.rs:14-26 [SymtabError]. *)
Definition symtab_chain (x : symtab_err) : list str :=
  symtab_text x :: match x with SyInvalidBlob x => blob_chain x | SyMissingBlob => [] end.
(** map.rs:12-38 [MapError]: the variants [Inconsistent] (18-19) and [RecordString] (32-33). *)
Definition inconsistent_chain (x : cons_err) : list str := [lit "inconsistent block or record state"; cons_text x].
Definition record_string_chain (x : string_err) : list str := (lit "error while extracting string: " ++ string_text x) :: string_chain x.
(** block/attributes.rs:16-64 [AttributeError]. *)
Definition attr_chain (x : attr_err) : list str :=
  attr_text x ::
  match x with
  | AeUnknownCode v => [primitive_text (lit "AttributeCode") v]
  | AeUnknownKind v => [primitive_text (lit "AttributeKind") v]
  | AeUnknownId v => [primitive_text (lit "AttributeId") v]
  | _ => []
  end.
(** block/type_table.rs:18-62 [TypeTableError]; [tt_map_text] is the message of the [MapError] in it. *)
Definition tt_chain (shown : N -> bool) (x : tt_err) : list str :=
  tt_text x ::
  match x with
  | TtUnknownCode v => [primitive_text (lit "TypeCode") v]
  | TtType x => [ty_err_text shown x]
  | TtInvalid _ | TtUnsupported => match tt_map_text x with Some s => [s] | None => [] end
  | TtString x => record_string_chain x
  | _ => []
  end.

(** ** llvm-mapper: the module *)

(** record/comdat.rs:16-36 [ComdatError]. *)
Definition comdat_chain (x : comdat_err) : list str :=
  comdat_text x :: match x with CdName x => strtab_chain x | CdKind v => [primitive_text (lit "SelectionKind") v] | _ => [] end.
(** record/function.rs:19-66 [FunctionError]. *)
Definition fn_chain (x : fn_err) : list str :=
  fn_text x ::
  match x with
  | FeStrtab x => strtab_chain x
  | FeCallingConvention v => [primitive_text (lit "CallingConvention") v]
  | FeAlignment x => [align_err_text x]
  | FeVisibility v => [primitive_text (lit "Visibility") v]
  | FeStorage v => [primitive_text (lit "DllStorageClass") v]
  | _ => []
  end.
(** record/alias.rs:17-40 [AliasError]. *)
Definition alias_chain (x : alias_err) : list str :=
  alias_text x ::
  match x with
  | AlStrtab x => strtab_chain x
  | AlVisibility v => [primitive_text (lit "Visibility") v]
  | AlStorage v => [primitive_text (lit "DllStorageClass") v]
  | _ => []
  end.
(** block/function/mod.rs:20-44 [FunctionError]. *)
Definition fb_chain (shown : N -> bool) (x : fb_err) : list str :=
  fb_text x ::
  match x with
  | FbUnknownCode v => [primitive_text (lit "FunctionCode") v]
  | FbBadUnOp v => unary_op_chain v
  | FbBadBinOp x => binary_op_chain shown x
  | FbMap x => inconsistent_chain x
  | FbInvalidBlockCount | FbBadInst _ => []
  end.
(** block/module.rs:22-61 [ModuleError]; record/datalayout.rs:22-23 is the message below [MdLayoutString]. *)
Definition module_chain (shown : N -> bool) (x : module_err) : list str :=
  module_text x ::
  match x with
  | MdMissingVersion => []
  | MdLayoutString x => (lit "malformed datalayout record: " ++ string_text x) :: string_chain x
  | MdLayout x => layout_chain x
  | MdTypes x => tt_chain shown x
  | MdAttributes x => attr_chain x
  | MdComdat x => comdat_chain x
  | MdFunction x => fn_chain x
  | MdBlock x => fb_chain shown x
  | MdAlias x => alias_chain x
  | MdInconsistent x => inconsistent_chain x
  | MdString x => record_string_chain x
  end.
(** error.rs:13-25 [Error], with block/mod.rs:25-43 [BlockMapError] below [Map]; block/identification.rs:13-29
    [IdentificationError] has no source. *)
Definition bitcode_chain (shown : N -> bool) (x : bitcode_err) : list str :=
  bitcode_text x ::
  match x with
  | BcUnroll (UParse x) => stream_chain x
  | BcUnroll _ | BcNoStrtab | BcNoModule => []
  | BcStrtab x => lit "error while mapping string table" :: strtab_chain x
  | BcIdentification x => [lit "error while mapping identification block"; ident_text x]
  | BcModule x => lit "error while mapping module" :: module_chain shown x
  | BcSymtab x => lit "error while mapping symbol table" :: symtab_chain x
  end.

(** ** The examples *)

(** llvm-mapper/examples/unroll-bitstream.rs:21-36: the chain of the error that [main] returns, if it does; what
    [Bitstream::from] (line 30) returns is not wrapped. *)
Definition unroll_failure (shown : N -> bool) (e : env) (host : str) (buf : list byte) : option (list str) :=
  match from e buf with
  | Err x => Some (stream_chain x)
  | Ok (_, b) => match bitcode_of_stream e host (bs_parser b) with Err x => Some (bitcode_chain shown x) | _ => None end
  | _ => None
  end.
(** llvm-bitstream/examples/dump-bitstream.rs:20-60: the same. *)
Definition dump_failure (e : env) (buf : list byte) : option (list str) :=
  match snd (dump e buf) with Err x => Some (stream_chain x) | _ => None end.
