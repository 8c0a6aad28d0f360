(** Model of the texts that the library and its example programs print with [{:?}] and [{:#?}]: the derived
    [Debug] of the types, of what is loaded from a file and of the wrapper; the messages that contain types; the
    output of the two example programs. A text is the list of its characters. *)
From Verif Require Import Base CursorModel StreamModel Strings EnumModel SupportModel LayoutModel UnrollModel
  AttributeModel TablesModel TypeTableModel RecordModel ModuleModel ExtraModel MessageModel.
Local Open Scope N_scope.

(** ** core::fmt *)

(** What a derived [Debug] hands to the formatter: a number, a string, a slice, a variant without fields (or a
    [bool]), a variant or struct with unnamed fields, and one with named fields. *)
Inductive dbg : Set :=
| DNum (n : N) | DStr (s : str) | DSeq (l : list dbg) | DUnit (name : str)
| DTuple (name : str) (l : list dbg) | DStruct (name : str) (l : list (str * dbg)).

(** Hexadecimal digits without leading zeros; [letter] is the digit for ten. *)
Fixpoint hex_loop (letter : N) (fuel : nat) (v : N) (acc : str) : str :=
  match fuel with
  | O => acc
  | S f =>
      let d := v mod 16 in
      let acc := (if d <? 10 then ch "0" + d else letter + (d - 10)) :: acc in
      if v / 16 =? 0 then acc else hex_loop letter f (v / 16) acc
  end.
(** [{:x}] and [{:X}] of an integer (core::fmt::num); there are no more such digits than binary ones. *)
Definition hex_lower (v : N) : str := hex_loop (ch "a") (S (N.to_nat (N.log2 v))) v [].
Definition hex_upper (v : N) : str := hex_loop (ch "A") (S (N.to_nat (N.log2 v))) v [].

(** The character of [ch "\n"]. *)
Definition nl : N := 10.
(** [char::escape_debug_ext] as [Debug for str] calls it. [shown] says which characters outside of ASCII are
    printable and not grapheme extenders (a table of core that depends on its version). *)
Definition escape (shown : N -> bool) (c : N) : str :=
  if c =? 0 then lit "\0"
  else if c =? 9 then lit "\t"
  else if c =? 13 then lit "\r"
  else if c =? 10 then lit "\n"
  else if (c =? 34) || (c =? 92) then [92; c]
  else if if c <? 128 then (32 <=? c) && (c <? 127) else shown c then [c]
  else lit "\u{" ++ hex_lower c ++ lit "}".
(** [Debug for str]. *)
Definition str_debug (shown : N -> bool) (s : str) : str := 34 :: flat_map (escape shown) s ++ [34].

(** The elements with ", " between them. *)
Definition commas (l : list str) : str := match l with [] => [] | x :: l' => x ++ flat_map (fun y => lit ", " ++ y) l' end.
(** [{:?}]: [DebugInner], [DebugTuple] and [DebugStruct] (core::fmt::builders) without the alternate flag. *)
Fixpoint compact (shown : N -> bool) (d : dbg) : str :=
  match d with
  | DNum n => decimal n
  | DStr s => str_debug shown s
  | DSeq l => lit "[" ++ commas (map (compact shown) l) ++ lit "]"
  | DUnit name => name
  | DTuple name l =>
      match l with
      | [] => name
      | _ => name ++ lit "(" ++ commas (map (compact shown) l) ++ lit ")"
      end
  | DStruct name l =>
      match l with
      | [] => name
      | _ => name ++ lit " { " ++ commas (map (fun x => match x with (f, d) => f ++ lit ": " ++ compact shown d end) l) ++ lit " }"
      end
  end.

(** [PadAdapter] (core::fmt::builders): four spaces at the beginning of each line; [start] is its [on_newline]. *)
Fixpoint pad (start : bool) (s : str) : str :=
  match s with
  | [] => []
  | c :: s' => (if start then lit "    " else []) ++ c :: pad (c =? nl) s'
  end.
(** [{:#?}]: the same with the alternate flag. *)
Fixpoint pretty (shown : N -> bool) (d : dbg) : str :=
  match d with
  | DNum n => decimal n
  | DStr s => str_debug shown s
  | DSeq l =>
      match l with
      | [] => lit "[]"
      | _ => lit "[" ++ [nl] ++ flat_map (fun x => pad true (x ++ lit "," ++ [nl])) (map (pretty shown) l) ++ lit "]"
      end
  | DUnit name => name
  | DTuple name l =>
      match l with
      | [] => name
      | _ => name ++ lit "(" ++ [nl] ++ flat_map (fun x => pad true (x ++ lit "," ++ [nl])) (map (pretty shown) l) ++ lit ")"
      end
  | DStruct name l =>
      match l with
      | [] => name
      | _ => name ++ lit " {" ++ [nl] ++
             flat_map (fun x => pad true (x ++ lit "," ++ [nl])) (map (fun x => match x with (f, d) => f ++ lit ": " ++ pretty shown d end) l) ++ lit "}"
      end
  end.

(** [Debug for bool] and [Option]. *)
Definition debug_bool (b : bool) : dbg := DUnit (if b then lit "true" else lit "false").
Definition debug_option {A} (f : A -> dbg) (o : option A) : dbg :=
  match o with None => DUnit (lit "None") | Some x => DTuple (lit "Some") [f x] end.

(** ** llvm-support *)

(** llvm-support/src/align.rs:525-526: the derived [Debug] of [AddressSpace]. *)
Definition debug_space (a : N) : dbg := DTuple (lit "AddressSpace") [DNum a].
(** llvm-support/src/ty.rs:63-86, 301-309, 346-350, 395-399, 430-434, 468-472 and 506-511: the derived [Debug] of
    [Type] and of the structs in it; a [Box] prints what is in it. *)
Fixpoint debug_type (t : ty) : dbg :=
  match t with
  | THalf => DUnit (lit "Half") | TBFloat => DUnit (lit "BFloat") | TFloat => DUnit (lit "Float")
  | TDouble => DUnit (lit "Double") | TMetadata => DUnit (lit "Metadata") | TX86Fp80 => DUnit (lit "X86Fp80")
  | TFp128 => DUnit (lit "Fp128") | TPpcFp128 => DUnit (lit "PpcFp128") | TVoid => DUnit (lit "Void")
  | TLabel => DUnit (lit "Label") | TX86Mmx => DUnit (lit "X86Mmx") | TX86Amx => DUnit (lit "X86Amx")
  | TToken => DUnit (lit "Token")
  | TInteger w => DTuple (lit "Integer") [DStruct (lit "IntegerType") [(lit "bit_width", DNum w)]]
  | TFunction r ps va =>
      DTuple (lit "Function")
        [DStruct (lit "FunctionType")
           [(lit "return_type", debug_type r); (lit "param_types", DSeq (map debug_type ps)); (lit "is_vararg", debug_bool va)]]
  | TPointer p a =>
      DTuple (lit "Pointer") [DStruct (lit "PointerType") [(lit "pointee", debug_type p); (lit "address_space", debug_space a)]]
  | TOpaquePointer a => DTuple (lit "OpaquePointer") [debug_space a]
  | TStruct name fs packed =>
      DTuple (lit "Struct")
        [DStruct (lit "StructType")
           [(lit "name", debug_option DStr name); (lit "fields", DSeq (map debug_type fs)); (lit "is_packed", debug_bool packed)]]
  | TArray n x =>
      DTuple (lit "Array") [DStruct (lit "ArrayType") [(lit "num_elements", DNum n); (lit "element_type", debug_type x)]]
  | TFixedVector n x =>
      DTuple (lit "FixedVector") [DStruct (lit "VectorType") [(lit "num_elements", DNum n); (lit "element_type", debug_type x)]]
  | TScalableVector n x =>
      DTuple (lit "ScalableVector") [DStruct (lit "VectorType") [(lit "num_elements", DNum n); (lit "element_type", debug_type x)]]
  end.
(** ty.rs:292-297, 331-340, 384-389, 421-426, 456-461 and 494-502: the messages of the type errors. *)
Definition ty_err_text (shown : N -> bool) (x : ty_err) : str :=
  match x with
  | TeStructElement t => lit "invalid structure element type: " ++ compact shown (debug_type t)
  | TeIntWidth => lit "specified bit width is invalid (not in [" ++ decimal MIN_INT_BITS ++ lit ", " ++ decimal MAX_INT_BITS ++ lit "])"
  | TePointee t => lit "invalid pointee type: " ++ compact shown (debug_type t)
  | TeArrayElement t => lit "invalid array element type: " ++ compact shown (debug_type t)
  | TeVectorElement t => lit "invalid vector element type: " ++ compact shown (debug_type t)
  | TeReturn t => lit "invalid function return type: " ++ compact shown (debug_type t)
  | TeParameter t => lit "invalid function parameter type: " ++ compact shown (debug_type t)
  end.
(** llvm-support/src/opcode.rs:134-147 [BinaryOpError]. *)
Definition binary_op_text (shown : N -> bool) (x : binary_op_err) : str :=
  match x with
  | BeInvalidType t => lit "invalid type for binary op: " ++ compact shown (debug_type t)
  | BeIncompatibleType t => lit "incompatible type for op: " ++ compact shown (debug_type t)
  | BeOpcode _ => lit "unknown opcode"
  end.

(** ** llvm-mapper *)

(** llvm-mapper/src/block/identification.rs:33-39. *)
Definition debug_identification (i : identification) : dbg :=
  DStruct (lit "Identification") [(lit "producer", DStr (id_producer i)); (lit "epoch", DNum (id_epoch i))].
(** llvm-mapper/src/block/module.rs:65-74. *)
Definition debug_module (m : module) : dbg :=
  DStruct (lit "Module") [(lit "triple", DStr (md_triple m)); (lit "asm", DSeq (map DStr (md_asm m))); (lit "deplibs", DSeq (map DStr (md_deplibs m)))].
(** llvm-mapper/src/unroll.rs:494-507; strtab.rs:39-40 and symtab.rs:32-33 are bytes. *)
Definition debug_bitcode_module (m : bitcode_module) : dbg :=
  DStruct (lit "BitcodeModule")
    [(lit "identification", debug_identification (bm_identification m)); (lit "module", debug_module (bm_module m));
     (lit "strtab", DTuple (lit "Strtab") [DSeq (map DNum (bm_strtab m))]);
     (lit "symtab", debug_option (fun l : symtab => DTuple (lit "Symtab") [DSeq (map DNum l)]) (bm_symtab m))].
(** unroll.rs:244-248 [Bitcode]. *)
Definition debug_bitcode (l : list bitcode_module) : dbg := DStruct (lit "Bitcode") [(lit "modules", DSeq (map debug_bitcode_module l))].
(** llvm-mapper/examples/unroll-bitstream.rs:21-36 [main], from the contents of the file on: what is printed, or the
    error that [main] returns; an error of [Bitstream::from] (line 30) is in [UParse] here, see [unroll_failure] in
    ChainModel.v. *)
Definition unroll_output (shown : N -> bool) (e : env) (host : str) (buf : list byte) : outcome bitcode_err str :=
  let? l := bitcode_of e host buf in Ok (pretty shown (debug_bitcode l) ++ [nl]).

(** ** llvm-bitstream *)

(** llvm-bitstream/src/lib.rs:23-35 [BitcodeWrapper]. *)
Definition debug_wrapper (w : wrapper) : dbg :=
  DStruct (lit "BitcodeWrapper")
    [(lit "magic", DNum (wr_magic w)); (lit "version", DNum (wr_version w)); (lit "offset", DNum (wr_offset w)); (lit "size", DNum (wr_size w));
     (lit "cpu_type", DNum (wr_cpu w))].
(** llvm-bitstream/examples/dump-bitstream.rs:31-33, 35, 41, 46 and 49-54: the text of a line, with its end. *)
Definition tabs (n : N) : str := repeat 9 (N.to_nat n).
Definition line_text (shown : N -> bool) (l : line) : str :=
  match l with
  | LWrapper w => lit "Wrapper: " ++ pretty shown (debug_wrapper w)
  | LMagic m => lit "Entered bitstream; magic: 0x" ++ hex_upper m
  | LBlock n bid => tabs n ++ lit "BLOCK " ++ decimal bid ++ lit " {"
  | LEnd n => tabs n ++ lit "}"
  | LRecord n code fields => tabs n ++ lit "RECORD { code: " ++ decimal code ++ lit ", fields: " ++ compact shown (DSeq (map DNum fields)) ++ lit " }"
  end ++ [nl].
(** dump-bitstream.rs:20-60 [main]: all that is printed. *)
Definition dump_output (shown : N -> bool) (e : env) (buf : list byte) : str := flat_map (line_text shown) (fst (dump e buf)).
