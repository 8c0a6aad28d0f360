(** Vocabulary for the properties of modules. *)
From Verif Require Import Base Strings EnumModel SupportModel SupportSpec LayoutModel LayoutSpec CursorModel StreamModel UnrollModel UnrollSpec
  AttributeModel AttributeSpec TablesModel TablesSpec TypeTableModel TypeTableSpec RecordModel RecordSpec ModuleModel.
Local Open Scope N_scope.

(** All fields of a record as text. Texts of one byte are not read, see C29; without overflow
    checks an empty record is an empty text. *)
Definition text_of (e : env) (r : record) (s : str) : Prop :=
  ((2 <= length (r_fields r))%nat /\ r_fields r = utf8_encode s /\ forallb is_scalar_value s = true) \/
  (overflow_checks e = false /\ r_fields r = [] /\ s = []).

(** The only record with a code; no record with a code; the records with a code, in order. *)
Definition sole (code : N) (b : block) (r : record) : Prop := once (fun r => r_code r = code) (b_records b) r.
Definition absent (code : N) (b : block) : Prop := Forall (fun r => r_code r <> code) (b_records b).
Definition all_with (code : N) (b : block) (rs : list record) : Prop :=
  selected (fun r => r_code r = code) (b_records b) rs.
Definition texts (e : env) (code : N) (b : block) (l : list str) : Prop :=
  exists rs, all_with code b rs /\ Forall2 (text_of e) rs l.

(** The codes are those of LLVMBitCodes.h: 1 VERSION, 2 TRIPLE, 3 DATALAYOUT, 4 ASM, 5 SECTIONNAME,
    6 DEPLIB, 8 FUNCTION, 11 GCNAME, 12 COMDAT, 14 ALIAS. What the sub-blocks and the layout string
    mean is the subject of C33, C36 and C39. *)
Record context_described (e : env) (t : strtab) (b : block) (c : mctx) : Prop := mkContextDescribed {
  cd_version : exists r l, sole 1 b r /\ r_fields r = cx_version c :: l;
  cd_layout : (absent 3 b /\ cx_layout c = layout_default) \/
              (exists r s, sole 3 b r /\ text_of e r s /\ layout_from_str s = Ok (cx_layout c));
  cd_sections : texts e 5 b (cx_sections c);
  cd_gcs : texts e 11 b (cx_gcs c);
  cd_strtab : cx_strtab c = t;
  cd_types : exists tb, blocks_under (BIr IbType) b = [tb] /\ type_table_of e tb = Ok (cx_types c);
  cd_symtab : exists vb, blocks_under (BIr IbValueSymtab) b = [vb];
  cd_groups : (blocks_under (BIr IbParamAttrGroup) b = [] /\ cx_groups c = []) \/
              (exists gb, blocks_under (BIr IbParamAttrGroup) b = [gb] /\ attr_groups_of gb = Ok (cx_groups c));
  cd_attributes : (blocks_under (BIr IbParamAttr) b = [] /\ cx_attributes c = []) \/
                  (exists ab, blocks_under (BIr IbParamAttr) b = [ab] /\ attributes_of (cx_groups c) ab = Ok (cx_attributes c));
  cd_comdats : exists rs, all_with 12 b rs /\
    Forall2 (fun r x => 2 <= cx_version c /\ comdat_described selection_table t r x) rs (cx_comdats c)
}.
Record module_described (e : env) (host : str) (t : strtab) (b : block)
  (m : module) (c : mctx) (fns : list fn_rec) (aliases : list alias_rec) : Prop := mkModuleDescribed {
  mdd_context : context_described e t b c;
  mdd_triple : (absent 2 b /\ md_triple m = host) \/ (exists r, sole 2 b r /\ text_of e r (md_triple m));
  mdd_asm : (absent 4 b /\ md_asm m = []) \/ (exists r s, sole 4 b r /\ text_of e r s /\ pieces 10 s (md_asm m));
  mdd_deplibs : texts e 6 b (md_deplibs m);
  mdd_functions : exists rs, all_with 8 b rs /\ Forall2 (fun r f => 2 <= cx_version c /\ function_described c r f) rs fns;
  mdd_bodies : blocks_under (BIr IbFunction) b = [];
  mdd_aliases : exists rs, all_with 14 b rs /\ Forall2 (fun r a => 2 <= cx_version c /\ alias_described c r a) rs aliases
}.

(** What becomes of one record of a function body: codes of LLVMBitCodes.h, 1 DECLAREBLOCKS, 2 BINOP
    [value, type, value, opcode], 3 CAST, 19 ALLOCA, 20 LOAD and 44 STORE (four fields), 56 UNOP
    [value, type, opcode]. Opcodes of binary operations are 0 to 12, of unary operations 0. *)
Inductive body_record (types : type_table) (r : record) : outcome fb_err unit -> Prop :=
| BrDeclare : r_code r = 1 -> body_record types r (Ok tt)
| BrFour : In (r_code r) [3; 19; 20; 44] -> length (r_fields r) = 4%nat -> body_record types r (Ok tt)
| BrFourBad c : In (c, r_code r) [(FcInstBinop, 2); (FcInstCast, 3); (FcInstAlloca, 19); (FcInstLoad, 20); (FcInstStore, 44)] ->
    length (r_fields r) <> 4%nat -> body_record types r (Err (FbBadInst (InFields c 4 (length (r_fields r)))))
| BrBinopType x i y op : r_code r = 2 -> r_fields r = [x; i; y; op] -> (length types <= N.to_nat i)%nat ->
    body_record types r (Err (FbBadInst (InType FcInstBinop i)))
| BrBinopOpcode x i y op t : r_code r = 2 -> r_fields r = [x; i; y; op] -> nth_error types (N.to_nat i) = Some t ->
    13 <= op -> body_record types r (Err (FbBadBinOp (BeOpcode op)))
| BrBinop x i y op t : r_code r = 2 -> r_fields r = [x; i; y; op] -> nth_error types (N.to_nat i) = Some t ->
    op < 13 -> body_record types r (Err (FbBadBinOp (BeInvalidType t)))
| BrUnopBad : r_code r = 56 -> length (r_fields r) <> 3%nat ->
    body_record types r (Err (FbBadInst (InFields FcInstUnop 3 (length (r_fields r)))))
| BrUnopType x i op : r_code r = 56 -> r_fields r = [x; i; op] -> (length types <= N.to_nat i)%nat ->
    body_record types r (Err (FbBadInst (InType FcInstUnop i)))
| BrUnop x i t : r_code r = 56 -> r_fields r = [x; i; 0] -> nth_error types (N.to_nat i) = Some t ->
    body_record types r (Ok tt)
| BrUnopOpcode x i op t : r_code r = 56 -> r_fields r = [x; i; op] -> nth_error types (N.to_nat i) = Some t ->
    op <> 0 -> body_record types r (Err (FbBadUnOp op))
| BrUnknown : ~ In (r_code r) (map snd function_code_table) -> body_record types r (Err (FbUnknownCode (r_code r)))
| BrTodo : In (r_code r) (map snd function_code_table) -> ~ In (r_code r) [1; 2; 3; 19; 20; 44; 56] ->
    body_record types r (Panic PUnimplemented).

(** What becomes of a function body: the number of its blocks first, then the records in turn. *)
Inductive body (e : env) (types : type_table) (b : block) : outcome fb_err unit -> Prop :=
| BoMissing : absent 1 b -> body e types b (Err (FbMap (CeMissingRecord 1)))
| BoTooMany l1 r l2 r' l3 : b_records b = l1 ++ r :: l2 ++ r' :: l3 -> r_code r = 1 -> r_code r' = 1 ->
    body e types b (Err (FbMap (CeTooManyRecords 1)))
| BoEmpty r : sole 1 b r -> r_fields r = [] -> body e types b (Err FbInvalidBlockCount)
| BoAlloc r n l : sole 1 b r -> r_fields r = n :: l -> alloc_limit e < n -> body e types b (Panic PAlloc)
| BoStop r n l l1 x l2 out : sole 1 b r -> r_fields r = n :: l -> n <= alloc_limit e ->
    b_records b = l1 ++ x :: l2 -> Forall (fun y => body_record types y (Ok tt)) l1 ->
    body_record types x out -> out <> Ok tt -> body e types b out
| BoEnd r n l : sole 1 b r -> r_fields r = n :: l -> n <= alloc_limit e ->
    Forall (fun y => body_record types y (Ok tt)) (b_records b) -> body e types b (Panic PUnimplemented).
