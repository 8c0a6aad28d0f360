(** Vocabulary for the round trip: modules as LLVM has them in memory, and the records and blocks LLVM's
    writer (BitcodeWriter.cpp) makes of them. Nothing here refers to functions of llvm-mapper. *)
From Verif Require Import Base Strings EnumModel SupportModel SupportSpec LayoutSpec CursorSpec StreamSpec StreamHist UnrollModel UnrollSpec
  AttributeModel AttributeSpec TablesSpec TypeTableSpec RecordModel.
Local Open Scope N_scope.

(** *** Types *)

(** An entry of the type table; parts are given by the indices of earlier entries (LLVM's ValueEnumerator numbers the
    parts of a type before the type; recursive structs are the exception and not covered, see C34). *)
Inductive stype : Set :=
| SSimple (code : N)
| SInteger (width : N)
| SPointer (pointee space : N)
| SOpaquePointer (space : N)
| SFunction (vararg : bool) (result : N) (params : list N)
| SStruct (name : option str) (packed : bool) (fields : list N)
| SOpaque (name : str)
| SArray (count element : N)
| SVector (count element : N)
| SScalable (count element : N).

(** All of them, or nothing. *)
Fixpoint every {A B : Type} (f : A -> option B) (l : list A) : option (list B) :=
  match l with
  | [] => Some []
  | a :: l' => match f a, every f l' with Some b, Some m => Some (b :: m) | _, _ => None end
  end.

Definition part {A} (T : list A) (i : N) : option A := nth_error T (N.to_nat i).
(** The type of an entry, [T] being the types of the entries before it. *)
Definition stype_means (T : list ty) (x : stype) : option ty :=
  match x with
  | SSimple c => option_map snd (find (fun p => fst p =? c) simple_types)
  | SInteger w => Some (TInteger w)
  | SPointer i a => option_map (fun t => TPointer t a) (part T i)
  | SOpaquePointer a => Some (TOpaquePointer a)
  | SFunction va r ps =>
      match part T r, every (part T) ps with Some t, Some ts => Some (TFunction t ts va) | _, _ => None end
  | SStruct name pk fs => option_map (fun ts => TStruct name ts pk) (every (part T) fs)
  | SOpaque name => Some (TStruct (Some name) [] false)
  | SArray n i => option_map (TArray n) (part T i)
  | SVector n i => option_map (TFixedVector n) (part T i)
  | SScalable n i => option_map (TScalableVector n) (part T i)
  end.
Fixpoint stypes_mean (T : list ty) (l : list stype) : option (list ty) :=
  match l with
  | [] => Some T
  | x :: l' => match stype_means T x with Some t => stypes_mean (T ++ [t]) l' | None => None end
  end.

Definition flag (b : bool) : N := if b then 1 else 0.
(** [writeTypeTable]. *)
Definition stype_records (x : stype) : list (N * list N) :=
  match x with
  | SSimple c => [(c, [])]
  | SInteger w => [(7, [w])]
  | SPointer i a => [(8, [i; a])]
  | SOpaquePointer a => [(25, [a])]
  | SFunction va r ps => [(21, flag va :: r :: ps)]
  | SStruct None pk fs => [(18, flag pk :: fs)]
  | SStruct (Some name) pk fs => [(19, utf8_encode name); (20, flag pk :: fs)]
  | SOpaque name => [(19, utf8_encode name); (6, [0])]
  | SArray n i => [(11, [n; i])]
  | SVector n i => [(12, [n; i])]
  | SScalable n i => [(12, [n; i; 1])]
  end.

(** A text of at least two bytes. Texts of one byte are rejected, see C29. *)
Definition long_text (s : str) : Prop := forallb is_scalar_value s = true /\ (2 <= length (utf8_encode s))%nat.
Definition stype_name (x : stype) : option str :=
  match x with SStruct name _ _ => name | SOpaque name => Some name | _ => None end.
Definition is_struct (x : stype) : bool := match x with SStruct _ _ _ | SOpaque _ => true | _ => false end.
(** No named struct directly after a struct. Such tables are misread, see C33. *)
Fixpoint spaced (after : bool) (l : list stype) : Prop :=
  match l with
  | [] => True
  | x :: l' => (stype_name x <> None -> after = false) /\ spaced (is_struct x) l'
  end.

(** *** Attributes *)

(** How LLVM writes an attribute ([writeAttributeGroupTable], Attributes.cpp). *)
Definition llvm_attribute (a : attribute) : wattr :=
  match a with
  | AtEnum x => WEnum (attribute_id_num x)
  | AtInt (IaAlignment o) => WInt 1 (match o with Some x => llvm_alignment_value (a_shift x) | None => 0 end)
  | AtInt (IaStackAlignment o) => WInt 25 (match o with Some x => llvm_alignment_value (a_shift x) | None => 0 end)
  | AtInt (IaDereferenceable v) => WInt 41 v
  | AtInt (IaDereferenceableOrNull v) => WInt 42 v
  | AtInt (IaAllocSize elt num) => WInt 51 (elt * 2 ^ 32 + match num with Some n => n | None => 2 ^ 32 - 1 end)
  | AtInt (IaVScaleRange min max) => WInt 74 (llvm_vscale_value min max)
  | AtInt (IaUwTable x) => WInt 33 (match x with UwNone => 0 | UwSync => 1 | UwAsync => 2 end)
  | AtInt (IaAllocKind v) => WInt 82 v
  | AtInt (IaMemoryKind v) => WInt 86 v
  | AtStr s => WStr s
  | AtStrKeyValue k v => WKeyValue k v
  end.
(** The attributes covered: not alignments and [vscale_range], which are misread (C36). *)
Definition attribute_ok (a : attribute) : Prop :=
  match a with
  | AtEnum x => ~ In (attribute_id_num x) valued_ids
  | AtInt (IaAlignment _) | AtInt (IaStackAlignment _) | AtInt (IaVScaleRange _ _) => False
  | AtInt (IaDereferenceable v) | AtInt (IaDereferenceableOrNull v) | AtInt (IaAllocKind v) | AtInt (IaMemoryKind v) => v < 2 ^ 64
  | AtInt (IaAllocSize elt (Some num)) => elt < 2 ^ 32 /\ num < 2 ^ 32 - 1 /\ (elt <> 0 \/ num <> 0)
  | AtInt (IaAllocSize elt None) => elt < 2 ^ 32
  | AtInt (IaUwTable _) => True
  | AtStr s => text s
  | AtStrKeyValue k v => text k /\ text v
  end.

Definition llvm_place (d : disposition) : N :=
  match d with DiReturn => 0 | DiParameter i => i | DiFunction => 2 ^ 32 - 1 end.
Definition place_ok (d : disposition) : Prop :=
  match d with DiParameter i => 0 < i < 2 ^ 32 - 1 | _ => True end.

(** *** Functions *)

Record sfunction : Set := mkSfunction {
  sf_name : str; sf_offset : N; (* where the name is in the string table *)
  sf_type : N;                  (* index of its type *)
  sf_cc : calling_convention; sf_linkage : linkage;
  sf_attributes : option N;     (* index of its attribute list *)
  sf_alignment : option N;      (* logarithm *)
  sf_section : option N;        (* index of its section *)
  sf_visibility : visibility;
  sf_gc : option N;             (* index of its garbage collector *)
  sf_unnamed_addr : unnamed_addr; sf_storage : dll_storage_class;
  sf_prologue : N; sf_more : list N (* comdat, prefix data, personality, dso_local, address space, ... *)
}.

(** CallingConv.h, [getEncodedLinkage], [getEncodedVisibility], [getEncodedUnnamedAddr], [getEncodedDLLStorageClass]. *)
Definition llvm_cc (c : calling_convention) : N :=
  match c with
  | CcC => 0 | CcFast => 8 | CcCold => 9 | CcGHC => 10 | CcHiPE => 11 | CcWebKitJS => 12 | CcAnyReg => 13 | CcPreserveMost => 14
  | CcPreserveAll => 15 | CcSwift => 16 | CcCXXFASTTLS => 17 | CcX86Stdcall => 64 | CcX86Fastcall => 65 | CcARMAPCS => 66
  | CcARMAAPCS => 67 | CcARMAAPCSVFP => 68 | CcMSP430INTR => 69 | CcX86ThisCall => 70 | CcPTXKernel => 71 | CcPTXDevice => 72
  | CcSPIRFUNC => 75 | CcSPIRKERNEL => 76 | CcIntelOCLBI => 77 | CcX8664SysV => 78 | CcWin64 => 79 | CcX86VectorCall => 80
  | CcHHVM => 81 | CcHHVMC => 82 | CcX86INTR => 83 | CcAVRINTR => 84 | CcAVRSIGNAL => 85 | CcAVRBUILTIN => 86 | CcAMDGPUVS => 87
  | CcAMDGPUGS => 88 | CcAMDGPUPS => 89 | CcAMDGPUCS => 90 | CcAMDGPUKERNEL => 91 | CcX86RegCall => 92 | CcAMDGPUHS => 93
  | CcMSP430BUILTIN => 94 | CcAMDGPULS => 95 | CcAMDGPUES => 96
  end.
Definition llvm_linkage (l : linkage) : N :=
  match l with
  | LkExternal => 0 | LkWeakAny => 16 | LkAppending => 2 | LkInternal => 3 | LkLinkOnceAny => 18 | LkExternalWeak => 7
  | LkCommon => 8 | LkPrivate => 9 | LkWeakOdr => 17 | LkLinkOnceOdr => 19 | LkAvailableExternally => 12
  end.
Definition llvm_visibility (v : visibility) : N := match v with VisDefault => 0 | VisHidden => 1 | VisProtected => 2 end.
Definition llvm_unnamed_addr (u : unnamed_addr) : N := match u with UaNone => 0 | UaLocal => 2 | UaGlobal => 1 end.
Definition llvm_storage (c : dll_storage_class) : N := match c with DllDefault => 0 | DllImport => 1 | DllExport => 2 end.
(** Zero for none, else one more. *)
Definition plus_one (o : option N) : N := match o with None => 0 | Some i => i + 1 end.

(** [writeModuleInfo], MODULE_CODE_FUNCTION: [strtab offset, strtab size, type, calling convention, is declaration,
    linkage, attributes, alignment, section, visibility, gc, unnamed_addr, prologue, dll storage class, ...]. *)
Definition function_fields (f : sfunction) : list N :=
  [sf_offset f; N.of_nat (length (utf8_encode (sf_name f))); sf_type f; llvm_cc (sf_cc f); 1; llvm_linkage (sf_linkage f);
   plus_one (sf_attributes f); plus_one (sf_alignment f); plus_one (sf_section f); llvm_visibility (sf_visibility f);
   plus_one (sf_gc f); llvm_unnamed_addr (sf_unnamed_addr f); sf_prologue f; llvm_storage (sf_storage f)] ++ sf_more f.

(** An optional reference into a table. *)
Definition lookup {A} (l : list A) (o : option N) : option (option A) :=
  match o with None => Some None | Some i => option_map Some (part l i) end.

(** *** Modules *)

Record source : Set := mkSource {
  so_producer : str; so_epoch : N;
  so_triple : option str; so_layout : option str;
  so_asm : list str;                           (* lines *)
  so_deplibs : list str; so_sections : list str; so_gcs : list str;
  so_types : list stype;
  so_groups : list (N * attr_group);           (* with their ids *)
  so_lists : list (list N);                    (* attribute lists: ids of groups *)
  so_functions : list sfunction;               (* declarations *)
  so_symbols : list node                       (* the contents of VALUE_SYMTAB *)
}.

Definition sgroup (s : source) (id : N) : option attr_group :=
  option_map snd (find (fun p => fst p =? id) (so_groups s)).
(** The function a record stands for. *)
Definition sfunction_means (T : list ty) (L : list (list attr_group)) (s : source) (f : sfunction) : option fn_rec :=
  match part T (sf_type f), lookup L (sf_attributes f), lookup (so_sections s) (sf_section f), lookup (so_gcs s) (sf_gc f) with
  | Some t, Some attrs, Some sec, Some gc =>
      Some (mkFn (sf_name f) t (sf_cc f) true (sf_linkage f) attrs (option_map mkAlign (sf_alignment f)) sec
              (sf_visibility f) gc (sf_unnamed_addr f) (sf_storage f))
  | _, _, _, _ => None
  end.
(** The types, the attribute lists and the functions of a module. *)
Definition source_means (s : source) : option (list ty * list (list attr_group) * list fn_rec) :=
  match stypes_mean [] (so_types s), every (every (sgroup s)) (so_lists s) with
  | Some T, Some L =>
      match every (sfunction_means T L s) (so_functions s) with Some fns => Some (T, L, fns) | None => None end
  | _, _ => None
  end.

Definition rec_of (p : N * list N) : node := NRecord (fst p) (snd p).
Definition text_records (code : N) (l : list str) : list node := map (fun s => NRecord code (utf8_encode s)) l.
Definition opt_list {A} (o : option A) : list A := match o with Some a => [a] | None => [] end.
(** [ModuleBitcodeWriter::write] in its order, without what llvm-mapper does not look at: VERSION 1, TYPE block 17,
    PARAMATTR_GROUP block 10, PARAMATTR block 9, TRIPLE 2, DATALAYOUT 3, ASM 4, SECTIONNAME 5, DEPLIB 6, GCNAME 11,
    FUNCTION 8, VALUE_SYMTAB block 14. *)
Definition module_nodes (s : source) : list node :=
  [NRecord 1 [2]] ++
  [NBlock 17 (NRecord 1 [N.of_nat (length (so_types s))] :: map rec_of (flat_map stype_records (so_types s)))] ++
  match so_groups s with
  | [] => []
  | gs => [NBlock 10 (map (fun g => NRecord 3 (fst g :: llvm_place (ag_disposition (snd g)) ::
            flat_map (fun a => wattr_fields (llvm_attribute a)) (ag_attributes (snd g)))) gs)]
  end ++
  match so_lists s with [] => [] | ls => [NBlock 9 (map (NRecord 2) ls)] end ++
  text_records 2 (opt_list (so_triple s)) ++ text_records 3 (opt_list (so_layout s)) ++
  match so_asm s with [] => [] | ls => [NRecord 4 (utf8_encode (join 10 ls))] end ++
  text_records 5 (so_sections s) ++ text_records 6 (so_deplibs s) ++ text_records 11 (so_gcs s) ++
  map (fun f => NRecord 8 (function_fields f)) (so_functions s) ++
  [NBlock 14 (so_symbols s)].

(** What llvm-mapper looks at in a MODULE block. Also COMDAT 12, ALIAS 14 and FUNCTION blocks 12: these are not covered
    (they are misread or rejected, see C55, C38 and C48). *)
Definition looked_at (n : node) : bool :=
  match n with
  | NRecord c _ => existsb (N.eqb c) [1; 2; 3; 4; 5; 6; 8; 11; 12; 14]
  | NBlock b _ => existsb (N.eqb b) [9; 10; 12; 14; 17]
  end.
(** The body of a MODULE block written for [s]: global variables, metadata, constants, use lists and so on may be anywhere. *)
Definition module_body (s : source) (body : list node) : Prop := filter looked_at body = module_nodes s.

(** What is assumed of a module, with the string table [t]. *)
Record source_ok (e : env) (t : list N) (s : source) (settings : list setting) : Prop := mkSourceOk {
  ok_producer : long_text (so_producer s);
  ok_triple : forall x, so_triple s = Some x -> long_text x;
  ok_layout : match so_layout s with
              | Some x => long_text x /\ is_ascii x = true /\ Forall2 means (specs x) settings
              | None => settings = []
              end;
  ok_asm : so_asm s = [] \/ (long_text (join 10 (so_asm s)) /\ Forall (fun l => ~ In 10 l) (so_asm s));
  ok_texts : Forall long_text (so_deplibs s ++ so_sections s ++ so_gcs s);
  ok_names : forall x name, In x (so_types s) -> stype_name x = Some name -> long_text name;
  ok_spaced : spaced false (so_types s);
  ok_types : forall T, stypes_mean [] (so_types s) = Some T -> Forall well_built T;
  ok_count : N.of_nat (length (so_types s)) <= alloc_limit e;
  ok_ids : NoDup (map fst (so_groups s));
  ok_groups : Forall (fun g => fst g < 2 ^ 32 /\ place_ok (ag_disposition (snd g)) /\ ag_attributes (snd g) <> [] /\
                Forall attribute_ok (ag_attributes (snd g))) (so_groups s);
  ok_functions : Forall (fun f => sf_name f <> [] /\
                stored t (sf_offset f) (N.of_nat (length (utf8_encode (sf_name f)))) (sf_name f) /\
                (forall k, sf_alignment f = Some k -> k <= 63)) (so_functions s);
  ok_function_types : forall T L fns, source_means s = Some (T, L, fns) -> Forall (fun f => function_type (fn_ty f)) fns
}.

(** *** Files *)

(** [BitcodeWriter]: modules, then the symbol table (if there is one) and the string table they share. *)
Definition module_file (p : source * list node) : list node :=
  [NBlock 13 [NRecord 1 (utf8_encode (so_producer (fst p))); NRecord 2 [so_epoch (fst p)]]; NBlock 8 (snd p)].
Definition file_nodes (ms : list (source * list node)) (symtab : option (list N)) (strtab : list N) : list node :=
  flat_map module_file ms ++ map (fun y => NBlock 25 [NRecord 1 y]) (opt_list symtab) ++ [NBlock 23 [NRecord 1 strtab]].
(** Bytes, at least two. *)
Definition long_blob (l : list N) : Prop := (2 <= length l)%nat /\ Forall (fun x => x < 256) l.

(** *** What comes back *)

(** The tables llvm-mapper builds while reading the module: they hold what the source says. *)
Record tables_of (t : list N) (s : source) (settings : list setting) (T : list ty) (L : list (list attr_group)) (c : mctx) : Prop := mkTablesOf {
  to_version : cx_version c = 2;
  to_layout : holds (cx_layout c) settings;
  to_sections : cx_sections c = so_sections s;
  to_gcs : cx_gcs c = so_gcs s;
  to_strtab : cx_strtab c = t;
  to_groups : forall id, groups_get (cx_groups c) id = sgroup s id;
  to_attributes : cx_attributes c = L;
  to_types : cx_types c = T;
  to_comdats : cx_comdats c = []
}.

(** A tree of a stream without encoding details. *)
Fixpoint erase (t : tree) : node :=
  match t with
  | TRec _ c f => NRecord c f
  | TBlk b _ body => NBlock b (map erase body)
  end.

(** *** The plain encoding: no abbreviations, abbreviation ids of three bits *)

(** The bits of a node; [w] is the width of abbreviation ids around it, [pos] its position. *)
Fixpoint node_bits (w : N) (n : node) (pos : N) : list bool :=
  match n with
  | NRecord c f => fixed_bits w 3 ++ vbr_bits 6 c ++ vbr_bits 6 (N.of_nat (length f)) ++ flat_map (vbr_bits 6) f
  | NBlock b body =>
      let x := (fix seq (l : list node) (pos : N) : list bool :=
        match l with [] => [] | n :: l' => node_bits 3 n pos ++ seq l' (pos + blen (node_bits 3 n pos)) end) body 0 in
      let y := x ++ fixed_bits 3 0 ++ pad (blen x + 3) in
      let h := fixed_bits w 1 ++ vbr_bits 8 b ++ vbr_bits 4 3 in
      h ++ pad (pos + blen h) ++ fixed_bits 32 (blen y / 32) ++ y
  end.
Fixpoint nodes_bits (w : N) (l : list node) (pos : N) : list bool :=
  match l with [] => [] | n :: l' => node_bits w n pos ++ nodes_bits w l' (pos + blen (node_bits w n pos)) end.
(** The contents of a block, with its end. *)
Definition body_bits (body : list node) : list bool :=
  nodes_bits 3 body 0 ++ fixed_bits 3 0 ++ pad (blen (nodes_bits 3 body 0) + 3).
Fixpoint plain (n : node) : item :=
  match n with
  | NRecord c f => IUnabbrev c f
  | NBlock b body => IBlock b 3 (blen (body_bits body) / 32) (map plain body)
  end.

(** The numbers are numbers of 64 bits, block ids are not that of BLOCKINFO, and no record is larger than [k]. *)
Fixpoint node_fits (k : N) (n : node) : Prop :=
  match n with
  | NRecord c f => c < 2 ^ 64 /\ Forall (fun x => x < 2 ^ 64) f /\ N.of_nat (length f) < k
  | NBlock b body => 0 < b < 2 ^ 64 /\ (fix all (l : list node) : Prop := match l with [] => True | n :: l' => node_fits k n /\ all l' end) body
  end.
(** More than the bits they take. *)
Fixpoint weight (n : node) : N :=
  match n with
  | NRecord _ f => 1000 + 400 * N.of_nat (length f)
  | NBlock _ body => 1000 + (fix sum (l : list node) : N := match l with [] => 0 | n :: l' => weight n + sum l' end) body
  end.
Definition weights (l : list node) : N := fold_right (fun n s => weight n + s) 0 l.
