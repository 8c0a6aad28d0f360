(** Model of llvm-mapper/src/block/function/mod.rs and llvm-mapper/src/block/module.rs, of the rest
    of llvm-mapper/src/unroll.rs (reification) and of llvm-mapper/src/error.rs. *)
From Verif Require Import Base Strings EnumModel SupportModel LayoutModel CursorModel StreamModel UnrollModel
  AttributeModel TablesModel TypeTableModel RecordModel.
Local Open Scope N_scope.

(** The messages of [BadInst] (function/mod.rs:85-89; 99-102), with the values they name; [code] is what
    [{code:?}] prints. *)
Inductive inst_fault : Set :=
| InFields (code : function_code) (expected got : nat) | InType (code : function_code) (i : N).

(** function/mod.rs:19-44 [FunctionError]; [Map] is always an [Inconsistent]. *)
Inductive fb_err : Set :=
| FbInvalidBlockCount | FbUnknownCode (v : N) | FbBadInst (x : inst_fault) | FbBadUnOp (v : N) | FbBadBinOp (x : binary_op_err)
| FbMap (x : cons_err).

(** [unpack_fields!(n)] (function/mod.rs:83-93). *)
Definition unpack (code : function_code) (n : nat) (r : record) : outcome fb_err (list N) :=
  if (length (r_fields r) =? n)%nat then Ok (r_fields r)
  else Err (FbBadInst (InFields code n (length (r_fields r)))).
(** [get_type!] (function/mod.rs:95-105). *)
Definition inst_type (code : function_code) (t : type_table) (i : N) : outcome fb_err ty :=
  ok_or (types_get t i) (FbBadInst (InType code i)).

(** function/mod.rs:80-196: one turn of the loop. *)
Definition fb_step (t : type_table) (r : record) : outcome fb_err unit :=
  let? code := ok_or (function_code_of (r_code r)) (FbUnknownCode (r_code r)) in
  match code with
  | FcDeclareBlocks => Ok tt
  | FcInstBinop =>
      let? fs := unpack code 4 r in
      let? t := inst_type code t (fld r 1) in
      let? _ := omap_err FbBadBinOp (binary_op_of (fld r 3) t) in
      Ok tt
  | FcInstCast | FcInstAlloca | FcInstLoad | FcInstStore => let? fs := unpack code 4 r in Ok tt
  | FcInstUnop =>
      let? fs := unpack code 3 r in
      let? _ := inst_type code t (fld r 1) in
      let? _ := omap_err FbBadUnOp (unary_op_of (fld r 2)) in
      Ok tt
  | _ => Panic PUnimplemented
  end.
(** function/mod.rs:48-52 [Function] (a list of the basic blocks of basic_block.rs
    and instruction.rs, never constructed; [unit] here) and
    54-200 [TryFrom<(&Block, &MapCtx)>]. Line 77 is [Vec::with_capacity], line 199 is
    [unimplemented!()]. *)
Definition fn_block_of (e : env) (t : type_table) (b : block) : outcome fb_err unit :=
  let? r := omap_err FbMap (exactly_one (function_code_num FcDeclareBlocks) (b_records b)) in
  let? n := ok_or (hd_error (r_fields r)) FbInvalidBlockCount in
  if alloc_limit e <? n then Panic PAlloc
  else
    let? _ := collect (fb_step t) (b_records b) in
    Panic PUnimplemented.

(** module.rs:22-61 [ModuleError]; of [Map] the [Inconsistent] and [RecordString] variants occur;
    the [BadString] variant of [DataLayoutError] is a constructor of its own. *)
Inductive module_err : Set :=
| MdMissingVersion | MdLayoutString (x : string_err) | MdLayout (x : layout_err) | MdTypes (x : tt_err)
| MdAttributes (x : attr_err) | MdComdat (x : comdat_err) | MdFunction (x : fn_err) | MdBlock (x : fb_err)
| MdAlias (x : alias_err) | MdInconsistent (x : cons_err) | MdString (x : string_err).

(** module.rs:64-74 [Module]. *)
Record module : Set := mkModule { md_triple : str; md_asm : list str; md_deplibs : list str }.

(** [by_code(c).map(|rec| rec.try_string(0)).collect()]. *)
Definition strings_of (e : env) (code : module_code) (b : block) : outcome module_err (list str) :=
  omap_err MdString (collect (fun r => try_string e r 0) (by_code (module_code_num code) (b_records b))).
(** module.rs:95-98, 171-174, 181-184: [one_or_none(c)] on the records of the module. *)
Definition maybe_record (code : module_code) (b : block) : outcome module_err (option record) :=
  omap_err MdInconsistent (one_or_none (module_code_num code) (b_records b)).
(** module.rs:121-124, 129-132: [exactly_one] on its blocks. *)
Definition sub_block (id : ir_block_id) (b : block) : outcome module_err block :=
  omap_err MdInconsistent (exactly_one_block (BIr id) b).
(** module.rs:140-143, 150-153: [one_or_none] on its blocks. *)
Definition maybe_block (id : ir_block_id) (b : block) : outcome module_err (option block) :=
  omap_err MdInconsistent (one_or_none_block (BIr id) b).
(** module.rs:190: the character of [split('\n')]. *)
Definition newline : N := 10.

(** module.rs:76-165: the context, up to [reify] (map.rs:72-85, which cannot fail here). The
    default [AttributeGroups] and [Attributes] are empty; [t] is the string table put into the
    context before (unroll.rs:459). Line 90 of datalayout.rs (258-265) is [try_map]. *)
Definition module_ctx (e : env) (t : strtab) (b : block) : outcome module_err mctx :=
  let? r := omap_err MdInconsistent (exactly_one (module_code_num McVersion) (b_records b)) in
  let? version := ok_or (hd_error (r_fields r)) MdMissingVersion in
  let? r := maybe_record McDataLayout b in
  let? lay := match r with
              | None => Ok layout_default
              | Some r => let? s := omap_err MdLayoutString (try_string e r 0) in
                          omap_err MdLayout (layout_from_str s)
              end in
  let? sections := strings_of e McSectionName b in
  let? gcs := strings_of e McGcName b in
  let? tb := sub_block IbType b in
  let? types := omap_err MdTypes (type_table_of e tb) in
  let? vb := sub_block IbValueSymtab b in
  let _ := vst_of vb in
  let? gb := maybe_block IbParamAttrGroup b in
  let? groups := match gb with None => Ok [] | Some gb => omap_err MdAttributes (attr_groups_of gb) end in
  let? ab := maybe_block IbParamAttr b in
  let? attrs := match ab with None => Ok [] | Some ab => omap_err MdAttributes (attributes_of groups ab) end in
  let? comdats := omap_err MdComdat (collect (comdat_of e version t) (by_code (module_code_num McComdat) (b_records b))) in
  Ok (mkCtx version lay sections gcs t groups attrs types comdats).

(** module.rs:76-233 [TryFrom<(&Block, &mut PartialMapCtx)> for Module]. The result is accompanied
    by the context, the function records and the aliases, which the code only logs. [host] is
    [TARGET_TRIPLE] (llvm-support/src/lib.rs:45), a constant of the build. *)
Definition module_map (e : env) (host : str) (t : strtab) (b : block)
  : outcome module_err (module * mctx * list fn_rec * list alias_rec) :=
  let? c := module_ctx e t b in
  let? r := maybe_record McTriple b in
  let? triple := match r with None => Ok host | Some r => omap_err MdString (try_string e r 0) end in
  let? r := maybe_record McAsm b in
  let? asm := match r with
              | None => Ok []
              | Some r => let? s := omap_err MdString (try_string e r 0) in Ok (split_on newline s)
              end in
  let? deplibs := strings_of e McDepLib b in
  let? fns := omap_err MdFunction (collect (fn_of e c) (by_code (module_code_num McFunction) (b_records b))) in
  let? _ := omap_err MdBlock (collect (fn_block_of e (cx_types c)) (by_id (BIr IbFunction) b)) in
  let? aliases := omap_err MdAlias (collect (alias_of e c) (by_code (module_code_num McAlias) (b_records b))) in
  Ok (mkModule triple asm deplibs, c, fns, aliases).
(** module.rs:79-232 [try_from]. *)
Definition module_of (e : env) (host : str) (t : strtab) (b : block) : outcome module_err module :=
  let? x := module_map e host t b in
  let '(m, _, _, _) := x in Ok m.

(** error.rs:13-25 [Error] with block/mod.rs:25-43 [BlockMapError]; the two messages of
    [Error::Unroll] in unroll.rs:446-484 have a constructor each. *)
Inductive bitcode_err : Set :=
| BcUnroll (x : unroll_err) | BcNoStrtab | BcNoModule
| BcStrtab (x : strtab_err) | BcIdentification (x : ident_err) | BcModule (x : module_err) | BcSymtab (x : symtab_err).

(** unroll.rs:492-505 [BitcodeModule]. *)
Record bitcode_module : Set := mkBitcodeModule {
  bm_identification : identification;
  bm_module : module;
  bm_strtab : strtab;
  bm_symtab : option symtab
}.

(** unroll.rs:446-484 [PartialBitcodeModule::reify]. *)
Definition reify_module (e : env) (host : str) (p : partial) : outcome bitcode_err bitcode_module :=
  let? sb := ok_or (pt_strtab p) BcNoStrtab in
  let? t := omap_err BcStrtab (strtab_of e sb) in
  let? i := omap_err BcIdentification (identification_of e (pt_identification p)) in
  let? mb := ok_or (pt_module p) BcNoModule in
  let? m := omap_err BcModule (module_of e host t mb) in
  let? s := match pt_symtab p with
            | None => Ok None
            | Some b => let? s := omap_err BcSymtab (symtab_of e b) in Ok (Some s)
            end in
  Ok (mkBitcodeModule i m t s).

(** unroll.rs:261-417 [TryFrom<Bitstream<T>> for Bitcode]; [unroll] is the part up to line 408. A
    [Bitcode] (243-246) is the list of its modules. *)
Definition bitcode_of_stream (e : env) (host : str) (s : sparser cursor) : outcome bitcode_err (list bitcode_module) :=
  let? ps := omap_err BcUnroll (unroll e s) in
  collect (reify_module e host) ps.
(** unroll.rs:248-259 [TryFrom<&[u8]> for Bitcode]. *)
Definition bitcode_of (e : env) (host : str) (buf : list byte) : outcome bitcode_err (list bitcode_module) :=
  let? (_, b) := omap_err (fun x => BcUnroll (UParse x)) (from e buf) in
  bitcode_of_stream e host (bs_parser b).
