(** Property theorems C76: what is printed identifies what it is printed of.

    [compact] and [pretty] are [{:?}] and [{:#?}] (DebugModel.v); [shown] is which characters outside of ASCII they print as they are.
    [rust_type], [rust_module] and [rust_type_error] (DebugSpec.v) say that numbers and texts fit into their Rust types. *)
From Verif Require Import Base CursorModel CursorSpec CursorHist StreamModel StreamSpec StreamHist Strings EnumModel SupportModel LayoutModel UnrollModel AttributeModel AttributeSpec
  TablesModel TypeTableModel RecordModel ModuleModel ExtraModel MessageModel DebugModel DebugSpec DebugProofs DebugMain DebugTypes.
From Coq Require Import Lia.
Local Open Scope N_scope.

Definition ascii_only (c : N) : bool := false.

(** *** Types *)

Theorem C76_types : forall shown t t',
  compact shown (debug_type t) = compact shown (debug_type t') \/ pretty shown (debug_type t) = pretty shown (debug_type t') -> t = t'.
Proof. exact type_text_unique. Qed.
Print Assumptions C76_types.
(** A struct with a name that would look like another struct if quotation marks were not escaped. *)
Definition ex_struct : ty := TStruct (Some (lit "a"", b")) [TInteger 8; TPointer (TArray 4 THalf) 1] true.
Example C76_types_example :
  compact ascii_only (debug_type ex_struct) =
    lit "Struct(StructType { name: Some(""a\"", b""), fields: [Integer(IntegerType { bit_width: 8 }), Pointer(PointerType { pointee: Array(ArrayType { num_elements: 4, element_type: Half }), address_space: AddressSpace(1) })], is_packed: true })" /\
  compact ascii_only (debug_type (TFunction TVoid [TFixedVector 2 TFloat; TScalableVector 3 TDouble] false)) =
    lit "Function(FunctionType { return_type: Void, param_types: [FixedVector(VectorType { num_elements: 2, element_type: Float }), ScalableVector(VectorType { num_elements: 3, element_type: Double })], is_vararg: false })" /\
  pretty ascii_only (debug_type (TFunction (TOpaquePointer 0) [TStruct None [] false] true)) =
    lit "Function(
    FunctionType {
        return_type: OpaquePointer(
            AddressSpace(
                0,
            ),
        ),
        param_types: [
            Struct(
                StructType {
                    name: None,
                    fields: [],
                    is_packed: false,
                },
            ),
        ],
        is_vararg: true,
    },
)".
Proof.
  split; [vm_compute; reflexivity|]. split; vm_compute; reflexivity.
Qed.
(** The other names, and characters that are escaped. *)
Example C76_names_example :
  map (fun t => compact ascii_only (debug_type t)) [THalf; TBFloat; TFloat; TDouble; TMetadata; TX86Fp80; TFp128; TPpcFp128; TVoid; TLabel; TX86Mmx; TX86Amx; TToken] =
  map lit ["Half"; "BFloat"; "Float"; "Double"; "Metadata"; "X86Fp80"; "Fp128"; "PpcFp128"; "Void"; "Label"; "X86Mmx"; "X86Amx"; "Token"]%string /\
  str_debug ascii_only [0; 9; 10; 13; 27; 32; 34; 39; 92; 126; 127; 233] = lit """\0\t\n\r\u{1b} \""'\\~\u{7f}\u{e9}""" /\
  str_debug (fun c => c =? 233) [233; 0x10abcd] = 34 :: 233 :: lit "\u{10abcd}""".
Proof. vm_compute. repeat split. Qed.

(** Whatever a type table is loaded from, its numbers and texts fit into their Rust types, and so do those of the types that an error is about. *)
Theorem C76_tables : forall e b, Forall fields64 (b_records b) ->
  (forall T, type_table_of e b = Ok T -> Forall rust_type T) /\ (forall x, type_table_of e b = Err (TtType x) -> rust_type_error x).
Proof.
  intros e b F. pose proof (table_fits e b F) as K. split; [intros T H|intros x H]; now rewrite H in K.
Qed.
Print Assumptions C76_tables.
Definition ex_table (i : N) : block :=
  mkBlock (BIr IbType) [mkRecord None 1 [4]; mkRecord None 19 [97; 98]; mkRecord None 20 [1; 1]; mkRecord None 7 [2 ^ 32 + 8]; mkRecord None 2 []; mkRecord None 11 [2 ^ 64 - 1; i]] [].
Example C76_tables_example :
  Forall fields64 (b_records (ex_table 0)) /\
  type_table_of debug_env (ex_table 0) = Ok [TStruct (Some (lit "ab")) [TInteger 8] true; TInteger 8; TVoid; TArray (2 ^ 64 - 1) (TStruct (Some (lit "ab")) [TInteger 8] true)] /\
  Forall fields64 (b_records (ex_table 2)) /\ type_table_of debug_env (ex_table 2) = Err (TtType (TeArrayElement TVoid)).
Proof.
  assert (F : forall i, i < two64 -> Forall fields64 (b_records (ex_table i))) by (intros i H; repeat (constructor || assumption)).
  split; [apply F; reflexivity|]. split; [vm_compute; reflexivity|]. split; [apply F; reflexivity|]. vm_compute. reflexivity.
Qed.

(** *** Messages *)

Theorem C76_type_errors : forall shown x y, ty_err_text shown x = ty_err_text shown y -> x = y.
Proof. exact type_message_unique. Qed.
Print Assumptions C76_type_errors.
Example C76_type_errors_example :
  map (ty_err_text ascii_only) [TeStructElement TLabel; TeIntWidth; TePointee TToken; TeArrayElement TVoid; TeVectorElement (TOpaquePointer 7); TeReturn TMetadata; TeParameter TVoid] =
  map lit ["invalid structure element type: Label"; "specified bit width is invalid (not in [1, 16777215])"; "invalid pointee type: Token"; "invalid array element type: Void";
           "invalid vector element type: OpaquePointer(AddressSpace(7))"; "invalid function return type: Metadata"; "invalid function parameter type: Void"]%string.
Proof. vm_compute. reflexivity. Qed.

Theorem C76_operator_errors : forall shown x y, binary_op_text shown x = binary_op_text shown y -> x = y \/ exists v v', x = BeOpcode v /\ y = BeOpcode v'.
Proof. exact op_message_unique. Qed.
Print Assumptions C76_operator_errors.
Example C76_operator_errors_example :
  binary_op_text ascii_only (BeInvalidType THalf) = lit "invalid type for binary op: Half" /\
  binary_op_text ascii_only (BeIncompatibleType (TInteger 32)) = lit "incompatible type for op: Integer(IntegerType { bit_width: 32 })".
Proof. vm_compute. easy. Qed.
(** The message about an unknown opcode does not say which. *)
Theorem C76_opcodes_refuted : exists t v v' x y, binary_op_of v t = Err x /\ binary_op_of v' t = Err y /\ x <> y /\ forall shown, binary_op_text shown x = binary_op_text shown y.
Proof. exists THalf, 13, 14, (BeOpcode 13), (BeOpcode 14). split; [reflexivity|]. split; [reflexivity|]. split; [discriminate|]. reflexivity. Qed.
Print Assumptions C76_opcodes_refuted.

(** *** unroll-bitstream *)

(** Two inputs with the same output have the same modules; [host] is the triple of the machine it was built for. *)
Theorem C76_unrolled : forall shown e e' host host' buf buf' s ms ms',
  unroll_output shown e host buf = Ok s -> unroll_output shown e' host' buf' = Ok s ->
  bitcode_of e host buf = Ok ms -> bitcode_of e' host' buf' = Ok ms' -> ms = ms'.
Proof. exact unroll_text_unique. Qed.
Print Assumptions C76_unrolled.
(** What is loaded fits into its Rust types. *)
Theorem C76_modules : forall e host buf ms, rust_text host -> bitcode_of e host buf = Ok ms -> Forall rust_module ms.
Proof. exact unrolled_rust. Qed.
Print Assumptions C76_modules.
(** A module of a few records; its assembly has two lines. *)
Definition ex_items : list item :=
  [IBlock 13 5 4 [IUnabbrev 1 [76; 76; 86; 77; 34]; IUnabbrev 2 [0]];
   IBlock 8 3 16 [IUnabbrev 1 [2]; IBlock 17 4 2 [IUnabbrev 1 [1]; IUnabbrev 7 [32]]; IUnabbrev 2 [120; 45; 121]; IUnabbrev 3 [101; 45; 83; 49; 50; 56]; IUnabbrev 4 [97; 10; 98];
                  IUnabbrev 6 [108; 109]; IBlock 14 4 1 []];
   IBlock 23 3 2 [IUnabbrev 1 [109; 97]];
   IBlock 25 3 2 [IUnabbrev 1 [1; 2; 3; 4]]].
Definition ex_buffer : list byte := match write_stream 0xdec04342 ex_items with Some bits => bytes_of_bits bits | None => [] end.
Example C76_unrolled_example :
  rust_text (lit "h") /\
  unroll_output ascii_only debug_env (lit "h") ex_buffer = Ok (lit "Bitcode {
    modules: [
        BitcodeModule {
            identification: Identification {
                producer: ""LLVM\"""",
                epoch: 0,
            },
            module: Module {
                triple: ""x-y"",
                asm: [
                    ""a"",
                    ""b"",
                ],
                deplibs: [
                    ""lm"",
                ],
            },
            strtab: Strtab(
                [
                    109,
                    97,
                ],
            ),
            symtab: Some(
                Symtab(
                    [
                        1,
                        2,
                        3,
                        4,
                    ],
                ),
            ),
        },
    ],
}
").
Proof. split; [repeat constructor|]. vm_compute. reflexivity. Qed.

(** *** dump-bitstream *)

Theorem C76_dump : forall shown e e' buf buf', dump_output shown e buf = dump_output shown e' buf' -> fst (dump e buf) = fst (dump e' buf').
Proof. exact dump_text_unique. Qed.
Print Assumptions C76_dump.
(** One line for the magic and for each entry, seven for the wrapper. *)
Theorem C76_dump_lines : forall shown e buf,
  count_occ N.eq_dec (dump_output shown e buf) 10 = list_sum (map (fun l => match l with LWrapper _ => 7%nat | _ => 1%nat end) (fst (dump e buf))).
Proof.
  intros shown e buf. rewrite dump_lines. f_equal. apply map_ext. now intros [].
Qed.
Print Assumptions C76_dump_lines.
Definition ex_small : list byte :=
  match write_stream 0xdec04342 [IBlock 8 3 8 [IUnabbrev 1 [2]; IBlock 9 3 1 [IUnabbrev 4 []]; IUnabbrev 7 [2 ^ 64 - 1; 0; 10]]] with Some bits => bytes_of_bits bits | None => [] end.
Definition ex_wrapped : list byte := wrapper_header (mkWrapper 0x0b17c0de 0 20 (N.of_nat (length ex_small)) 7) ++ ex_small.
Definition tab : str := [9].
Example C76_dump_example :
  dump_output ascii_only debug_env ex_wrapped = lit "Wrapper: BitcodeWrapper {
    magic: 186106078,
    version: 0,
    offset: 20,
    size: 44,
    cpu_type: 7,
}
Entered bitstream; magic: 0xDEC04342
BLOCK 8 {
" ++ tab ++ lit "RECORD { code: 1, fields: [2] }
" ++ tab ++ lit "BLOCK 9 {
" ++ tab ++ tab ++ lit "RECORD { code: 4, fields: [] }
" ++ tab ++ lit "}
" ++ tab ++ lit "RECORD { code: 7, fields: [18446744073709551615, 0, 10] }
}
".
Proof. vm_compute. reflexivity. Qed.
