(** Proofs about the chains of messages of the errors. *)
From Verif Require Import Base CursorModel StreamModel Strings EnumModel SupportModel LayoutModel UnrollModel
  AttributeModel TablesModel TypeTableModel RecordModel ModuleModel ExtraModel MessageModel MessageSpec MessageProofs DebugModel DebugSpec DebugProofs DebugMain DebugTypes ChainModel.
From Coq Require Import Lia ZifyBool ZifyNat ZifyN.
Local Open Scope N_scope.

Lemma parts {A} (x y : A) l l' : x :: l = y :: l' -> x = y /\ l = l'.
Proof. now injection 1. Qed.
Ltac inner H := apply parts in H as [_ H].
Ltac outer H := apply parts in H as [H _].

(** ** Names *)

Lemma find_inj {A} (name : A -> str) (all : list A) (look : forall x, find (fun y => if list_eq_dec N.eq_dec (name y) (name x) then true else false) all = Some x) x y :
  name x = name y -> x = y.
Proof. intros E. pose proof (look x) as H. rewrite E, (look y) in H. now injection H. Qed.

Ltac by_find l := refine (find_inj _ l _ _ _); intros []; vm_compute; reflexivity.
Lemma attribute_id_name x y : attribute_id_debug x = attribute_id_debug y -> x = y.
Proof. by_find [AiAlignment; AiAlwaysInline; AiByVal; AiInlineHint; AiInReg; AiMinSize; AiNaked; AiNest; AiNoAlias; AiNoBuiltin; AiNoCapture; AiNoDuplicate; AiNoImplicitFloat; AiNoInline; AiNonLazyBind; AiNoRedZone; AiNoReturn; AiNoUnwind; AiOptimizeForSize; AiReadNone; AiReadOnly; AiReturned; AiReturnsTwice; AiSExt; AiStackAlignment; AiStackProtect; AiStackProtectReq; AiStackProtectStrong; AiStructRet; AiSanitizeAddress; AiSanitizeThread; AiSanitizeMemory; AiUwTable; AiZExt; AiBuiltin; AiCold; AiOptimizeNone; AiInAlloca; AiNonNull; AiJumpTable; AiDereferenceable; AiDereferenceableOrNull; AiConvergent; AiSafeStack; AiArgMemOnly; AiSwiftSelf; AiSwiftError; AiNoRecurse; AiInaccessiblememOnly; AiInaccessiblememOrArgmemonly; AiAllocSize; AiWriteOnly; AiSpeculatable; AiStrictFp; AiSanitizeHwAddress; AiNoCfCheck; AiOptForFuzzing; AiShadowcallstack; AiSpeculativeLoadHardening; AiImmArg; AiWillReturn; AiNoFree; AiNoSync; AiSanitizeMemtag; AiPreallocated; AiNoMerge; AiNullPointerIsValid; AiNoUndef; AiByRef; AiMustProgress; AiNoCallback; AiHot; AiNoProfile; AiVScaleRange; AiSwiftAsync; AiNoSanitizeCoverage; AiElementType; AiDisableSanitizerInstrumentation; AiNoSanitizeBounds; AiAllocAlign; AiAllocatedPointer; AiAllocKind; AiPresplitCoroutine; AiFnretthunkExtern; AiSkipProfile; AiMemory]. Qed.
Lemma function_code_name x y : function_code_debug x = function_code_debug y -> x = y.
Proof. by_find [FcDeclareBlocks; FcInstBinop; FcInstCast; FcInstGepOld; FcInstSelect; FcInstExtractelt; FcInstInsertelt; FcInstShufflevec; FcInstCmp; FcInstRet; FcInstBr; FcInstSwitch; FcInstInvoke; FcInstUnreachable; FcInstPhi; FcInstAlloca; FcInstLoad; FcInstVaarg; FcInstStoreOld; FcInstExtractval; FcInstInsertval; FcInstCmp2; FcInstVselect; FcInstInboundsGepOld; FcInstIndirectbr; FcDebugLocAgain; FcInstCall; FcDebugLoc; FcInstFence; FcInstCmpxchgOld; FcInstAtomicrmwOld; FcInstResume; FcInstLandingpadOld; FcInstLoadatomic; FcInstStoreatomicOld; FcInstGep; FcInstStore; FcInstStoreatomic; FcInstCmpxchg; FcInstLandingpad; FcInstCleanupret; FcInstCatchret; FcInstCatchpad; FcInstCleanuppad; FcInstCatchswitch; FcOperandBundle; FcInstUnop; FcInstcallbr; FcInstFreeze; FcInstAtomicrmw]. Qed.
Lemma reserved_block_id_name x y : reserved_block_id_debug x = reserved_block_id_debug y -> x = y.
Proof. by_find [RbBlockInfo; RbReserved1; RbReserved2; RbReserved3; RbReserved4; RbReserved5; RbReserved6; RbReserved7]. Qed.
Lemma ir_block_id_name x y : ir_block_id_debug x = ir_block_id_debug y -> x = y.
Proof. by_find [IbModule; IbParamAttr; IbParamAttrGroup; IbConstants; IbFunction; IbIdentification; IbValueSymtab; IbMetadata; IbMetadataAttachment; IbType; IbUselist; IbModuleStrtab; IbGlobalValSummary; IbOperandBundleTags; IbMetadataKind; IbStrtab; IbFullLtoGlobalValSummary; IbSymtab; IbSyncScopeNames]. Qed.
Definition before (c : N) (d : N) : bool := negb (d =? c).
Lemma split_at c (x y r r' : str) : forallb (before c) x = true -> forallb (before c) y = true -> x ++ c :: r = y ++ c :: r' -> x = y /\ r = r'.
Proof.
  intros X Y H. apply (span_inj (before c)) in H as [-> H]; try assumption; try (cbn [opens]; unfold before; now rewrite N.eqb_refl).
  split; [reflexivity|]. exact (cons_same _ _ _ H).
Qed.
Lemma same_start (p x y : str) : p ++ x = p ++ y -> x = y.
Proof. apply app_inv_head. Qed.
Lemma decimal_same x y : decimal x = decimal y -> x = y.
Proof. intros H. apply (f_equal (fun s => s ++ [])) in H. apply decimal_inj in H as [H _]; [exact H|reflexivity..]. Qed.
Lemma block_id_name x y r r' : block_id_debug x ++ r = block_id_debug y ++ r' -> x = y /\ r = r'.
Proof.
  intros H. destruct x as [a|a|a], y as [b|b|b]; try discriminate H; cbn [block_id_debug] in H; rewrite <- !app_assoc in H; apply same_start in H.
  - apply (split_at (ch ")")) in H as [H ->]; [|now destruct a|now destruct b]. now apply reserved_block_id_name in H as ->.
  - apply (split_at (ch ")")) in H as [H ->]; [|now destruct a|now destruct b]. now apply ir_block_id_name in H as ->.
  - apply decimal_inj in H as [-> H]; [|reflexivity..]. apply same_start in H. now subst.
Qed.

(** ** Messages *)

Ltac num H := (apply decimal_inj in H as [? H]; [|reflexivity..]).
Lemma primitive_unique n v v' : primitive_text n v = primitive_text n v' -> v = v'.
Proof. intros H. unfold primitive_text in H. apply same_start, same_start, same_start in H. now num H. Qed.
Lemma int_unique x y : int_text x = int_text y -> x = y.
Proof. destruct x, y; intros H; try discriminate H; reflexivity. Qed.
Lemma utf8_unique x y : utf8_text x = utf8_text y -> x = y.
Proof.
  unfold utf8_text. destruct x as [a [n|]], y as [b [m|]]; cbn [error_len valid_up_to]; intros H; try discriminate H; apply same_start in H.
  - num H. apply same_start, decimal_same in H. now subst.
  - apply decimal_same in H. now subst.
Qed.
Lemma align_err_unique x y : align_err_text x = align_err_text y -> x = y.
Proof.
  destruct x as [a|a|a], y as [b|b|b]; cbn [align_err_text]; intros H; try discriminate H; apply same_start in H.
  - num H. now subst.
  - apply decimal_same in H. now subst.
  - apply decimal_same in H. now subst.
Qed.
Lemma width_unique x y : width_text x = width_text y -> x = y.
Proof. destruct x, y. cbn [width_text]. intros H. apply same_start in H. num H. now subst. Qed.
Lemma space_unique x y : space_text x = space_text y -> x = y.
Proof. destruct x, y. cbn [space_text]. intros H. apply same_start in H. num H. now subst. Qed.
Lemma space_debug_unique x y : space_debug x = space_debug y -> x = y.
Proof. destruct x, y. cbn [space_debug]. intros H. apply same_start in H. num H. now subst. Qed.
Lemma align_unique a b r r' : opens digit r = false -> opens digit r' = false -> align_text a ++ r = align_text b ++ r' -> a = b /\ r = r'.
Proof.
  intros R R' H. apply decimal_inj in H as [H ->]; try assumption. split; [|reflexivity]. destruct a as [i], b as [j]. change (2 ^ i = 2 ^ j) in H.
  apply N.pow_inj_r in H; [now subst|lia].
Qed.
Lemma spec_fault_unique x y : spec_fault_text x = spec_fault_text y -> x = y.
Proof.
  destruct x as [|c| |x|i n|c| |n], y as [|c'| |x'|i' n'|c'| |n']; cbn [spec_fault_text]; intros H; try discriminate H; try reflexivity;
    try (destruct x; discriminate H); try (destruct x'; discriminate H); try (apply same_start in H).
  - injection H as ->. reflexivity.
  - apply int_unique in H as ->. reflexivity.
  - injection H as -> H. apply decimal_same in H as ->. reflexivity.
  - injection H as ->. reflexivity.
  - num H. now subst.
Qed.
Lemma layout_fault_unique x y : layout_fault_text x = layout_fault_text y -> x = y.
Proof.
  destruct x, y; cbn [layout_fault_text]; intros H; try discriminate H; try reflexivity; apply same_start in H; injection H as ->; reflexivity.
Qed.
Lemma cons_unique x y : cons_text x = cons_text y -> x = y.
Proof.
  destruct x as [i|i|c|c], y as [i'|i'|c'|c']; cbn [cons_text]; intros H; try discriminate H; apply same_start in H.
  1-2: apply block_id_name in H as [-> _]; reflexivity.
  all: num H; now subst.
Qed.
Lemma attr_fault_unique x y r r' : attr_fault_text x ++ r = attr_fault_text y ++ r' -> x = y /\ r = r'.
Proof. destruct x, y; intros H; try discriminate H; apply same_start in H; now split. Qed.
Lemma attribute_code_name x y r r' : attribute_code_debug x ++ 32 :: r = attribute_code_debug y ++ 32 :: r' -> x = y /\ r = r'.
Proof. intros H. apply (split_at 32) in H as [H ->]; [|now destruct x|now destruct y]. split; [|reflexivity]. destruct x, y; try discriminate H; reflexivity. Qed.
Lemma attr_chain_unique x y : attr_chain x = attr_chain y -> x = y.
Proof.
  destruct x as [v|v|c| | |v|f i|i|g|c n|n m], y as [v'|v'|c'| | |v'|f' i'|i'|g'|c' n'|n' m']; unfold attr_chain; intros H; try discriminate H; try reflexivity.
  1,2,4: inner H; outer H; apply primitive_unique in H as ->; reflexivity.
  all: outer H; cbn [attr_text] in H; apply same_start in H.
  - f_equal. destruct c, c'; try discriminate H; reflexivity.
  - apply attr_fault_unique in H as [-> H]. apply same_start, attribute_id_name in H as ->. reflexivity.
  - apply attribute_id_name in H as ->. reflexivity.
  - apply decimal_same in H as ->. reflexivity.
  - apply attribute_code_name in H as [-> H]. apply (same_start (lit "too short (")) in H. num H. now subst.
  - num H. apply same_start in H. num H. now subst.
Qed.

(** ** Chains *)

Lemma stream_chain_unique x y : stream_chain x = stream_chain y -> x = y.
Proof.
  destruct x as [|x|x|v|v|x|x|i|x], y as [|y|y|v'|v'|y|y|i'|y]; intros H; try discriminate H; try reflexivity; unfold stream_chain in H.
  - inner H. outer H. f_equal. destruct x, y; try discriminate H; reflexivity.
  - outer H. f_equal. destruct x as [|x], y as [|y]; try discriminate H; try reflexivity. destruct x, y; try discriminate H; reflexivity.
  - inner H. outer H. apply primitive_unique in H as ->. reflexivity.
  - inner H. outer H. apply primitive_unique in H as ->. reflexivity.
  - outer H. f_equal. destruct x as [x| |], y as [y| |]; try discriminate H; try reflexivity. destruct x, y; try discriminate H; reflexivity.
  - outer H. f_equal. destruct x as [| |x|], y as [| |y|]; try discriminate H; try reflexivity. destruct x, y; try discriminate H; reflexivity.
  - outer H. cbn [stream_text] in H. apply same_start, decimal_same in H as ->. reflexivity.
  - outer H. f_equal. destruct x, y; try discriminate H; try reflexivity. cbn [stream_text] in H. apply same_start, same_start, decimal_same in H as ->. reflexivity.
Qed.
Lemma spec_chain_unique x y : spec_chain x = spec_chain y -> x = y.
Proof.
  destruct x as [x|p a|a|x|x|x|x], y as [y|p' a'|a'|y|y|y|y]; intros H; try discriminate H; unfold spec_chain in H.
  - inner H. outer H. apply width_unique in H as ->. reflexivity.
  - outer H. cbn [spec_text] in H. apply same_start, align_unique in H as [-> H]; [|reflexivity..]. apply same_start in H.
    apply (f_equal (fun s => s ++ [])), align_unique in H as [-> _]; reflexivity.
  - outer H. cbn [spec_text] in H. apply same_start, align_unique in H as [-> H]; reflexivity.
  - outer H. cbn [spec_text] in H. apply same_start, spec_fault_unique in H as ->. reflexivity.
  - inner H. outer H. apply align_err_unique in H as ->. reflexivity.
  - inner H. outer H. apply int_unique in H as ->. reflexivity.
  - inner H. outer H. apply space_unique in H as ->. reflexivity.
Qed.
Lemma layout_chain_unique x y : layout_chain x = layout_chain y -> x = y.
Proof.
  destruct x, y; intros H; try discriminate H; try reflexivity; unfold layout_chain in H.
  - inner H. outer H. apply align_err_unique in H as ->. reflexivity.
  - inner H. outer H. apply space_unique in H as ->. reflexivity.
  - outer H. cbn [layout_text] in H. apply same_start, parts in H as [-> _]. reflexivity.
  - inner H. outer H. apply int_unique in H as ->. reflexivity.
  - outer H. cbn [layout_text] in H. apply same_start, layout_fault_unique in H as ->. reflexivity.
  - inner H. apply spec_chain_unique in H as ->. reflexivity.
Qed.
Definition same_string (x y : string_err) : Prop := x = y \/ exists raw raw' u, x = StBadEncoding raw u /\ y = StBadEncoding raw' u.
Lemma string_chain_unique x y : string_chain x = string_chain y -> same_string x y.
Proof.
  unfold same_string. destruct x as [i n| |raw u], y as [i' n'| |raw' u']; intros H; try discriminate H; unfold string_chain in H.
  - left. outer H. cbn [string_text] in H. apply same_start in H. num H. apply same_start in H. num H. now subst.
  - now left.
  - right. inner H. outer H. apply utf8_unique in H as ->. eauto.
Qed.
Lemma blob_chain_unique x y : blob_chain x = blob_chain y -> x = y.
Proof.
  destruct x as [i n|], y as [i' n'|]; intros H; try discriminate H; try reflexivity. outer H. cbn [blob_text] in H. apply same_start in H. num H. apply same_start in H. num H. now subst.
Qed.
Lemma strtab_chain_unique x y : strtab_chain x = strtab_chain y -> x = y.
Proof.
  destruct x as [|x| |x], y as [|y| |y]; intros H; try discriminate H; try reflexivity; unfold strtab_chain in H; inner H.
  - apply blob_chain_unique in H as ->. reflexivity.
  - outer H. apply utf8_unique in H as ->. reflexivity.
Qed.
Lemma symtab_chain_unique x y : symtab_chain x = symtab_chain y -> x = y.
Proof. destruct x as [|x], y as [|y]; intros H; try discriminate H; try reflexivity; unfold symtab_chain in H; inner H. apply blob_chain_unique in H as ->. reflexivity. Qed.
Lemma inconsistent_chain_unique x y : inconsistent_chain x = inconsistent_chain y -> x = y.
Proof. intros H. inner H. outer H. now apply cons_unique. Qed.
Lemma tt_chain_unique shown x y : tt_chain shown x = tt_chain shown y -> x = y \/ exists s t, x = TtString s /\ y = TtString t /\ same_string s t.
Proof.
  destruct x as [a b|i|v| |x|x| |x], y as [a' b'|i'|v'| |y|y| |y]; intros H; try discriminate H; try (now left); unfold tt_chain in H.
  all: try (destruct x; discriminate H). all: try (destruct y; discriminate H).
  - left. outer H. cbn [tt_text] in H. apply same_start in H. num H. apply same_start in H. num H. now subst.
  - left. outer H. cbn [tt_text] in H. apply same_start, decimal_same in H as ->. reflexivity.
  - left. inner H. outer H. apply primitive_unique in H as ->. reflexivity.
  - left. inner H. outer H. apply type_message_unique in H as ->. reflexivity.
  - left. inner H. cbn [tt_map_text] in H. outer H. apply same_start in H. f_equal. destruct x as [| |x| |x], y as [| |y| |y]; try discriminate H; try reflexivity;
      apply same_start, space_debug_unique in H as ->; reflexivity.
  - right. inner H. inner H. apply string_chain_unique in H. eauto.
Qed.
Lemma comdat_chain_unique x y : comdat_chain x = comdat_chain y -> x = y.
Proof.
  destruct x as [|n|x|v], y as [|n'|y|v']; intros H; try discriminate H; try reflexivity; unfold comdat_chain in H.
  - outer H. cbn [comdat_text] in H. apply same_start in H. num H. now subst.
  - inner H. apply strtab_chain_unique in H as ->. reflexivity.
  - inner H. outer H. apply primitive_unique in H as ->. reflexivity.
Qed.
Ltac inner_number H := inner H; outer H; apply primitive_unique in H as ->; reflexivity.
Ltac outer_number H := outer H; apply same_start, decimal_same in H as ->; reflexivity.
Lemma fn_chain_unique x y : fn_chain x = fn_chain y -> x = y.
Proof.
  destruct x as [n| |x|v|v| |v|x|i|v|i|v], y as [n'| |x'|v'|v'| |v'|x'|i'|v'|i'|v']; intros H; try discriminate H; try reflexivity; unfold fn_chain in H; cbn [fn_text] in H.
  - outer H. apply same_start in H. num H. now subst.
  - inner H. apply strtab_chain_unique in H as ->. reflexivity.
  - inner_number H.
  - outer_number H.
  - outer_number H.
  - inner H. outer H. apply align_err_unique in H as ->. reflexivity.
  - outer_number H.
  - inner_number H.
  - outer_number H.
  - inner_number H.
Qed.
Lemma alias_chain_unique x y : alias_chain x = alias_chain y -> x = y.
Proof.
  destruct x as [n| |x|v|v|v], y as [n'| |x'|v'|v'|v']; intros H; try discriminate H; try reflexivity; unfold alias_chain in H; cbn [alias_text] in H.
  - outer H. apply same_start in H. num H. now subst.
  - inner H. apply strtab_chain_unique in H as ->. reflexivity.
  - outer_number H.
  - inner_number H.
  - inner_number H.
Qed.
Lemma binary_op_chain_unique shown x y : binary_op_chain shown x = binary_op_chain shown y -> x = y.
Proof.
  intros H. destruct (parts _ _ _ _ H) as [T R]. apply op_message_unique in T as [T|(v & v' & -> & ->)]; [exact T|]. cbn [binary_op_chain] in R. outer R. apply primitive_unique in R as ->. reflexivity.
Qed.
Lemma fb_chain_unique shown x y : fb_chain shown x = fb_chain shown y -> x = y.
Proof.
  destruct x as [|v|x|v|x|x], y as [|v'|x'|v'|x'|x']; intros H; try discriminate H; try reflexivity; try (destruct x; discriminate H); try (destruct x'; discriminate H); unfold fb_chain in H.
  - inner_number H.
  - outer H. f_equal. destruct x as [c n k|c i], x' as [c' n' k'|c' i']; cbn [fb_text] in H; apply same_start, (split_at (ch ":")) in H as [C H]; try (now destruct c); try (now destruct c');
      apply function_code_name in C as ->; try discriminate H.
    + apply (same_start (lit " expected ")) in H. num H. apply same_start, decimal_same in H. apply Nat2N.inj in H, H0. now subst.
    + apply (same_start (lit " invalid type table reference: ")), decimal_same in H. now subst.
  - inner H. inner H. outer H. apply primitive_unique in H as ->. reflexivity.
  - inner H. apply binary_op_chain_unique in H as ->. reflexivity.
  - inner H. apply inconsistent_chain_unique in H as ->. reflexivity.
Qed.

(** The three places of a string in a module. *)
Definition string_places : list (string_err -> module_err) := [MdLayoutString; MdString; fun s => MdTypes (TtString s)].
Definition same_module (x y : module_err) : Prop := x = y \/ exists raw raw' u k, In k string_places /\ x = k (StBadEncoding raw u) /\ y = k (StBadEncoding raw' u).
Lemma same_in k x y : In k string_places -> same_string x y -> same_module (k x) (k y).
Proof. intros I [->|(raw & raw' & u & -> & ->)]; [now left|]. right. exists raw, raw', u, k. easy. Qed.
Lemma module_chain_unique shown x y : module_chain shown x = module_chain shown y -> same_module x y.
Proof.
  destruct x as [|x|x|x|x|x|x|x|x|x|x], y as [|y|y|y|y|y|y|y|y|y|y]; intros H; try discriminate H; try (now left); unfold module_chain in H; inner H.
  all: try (destruct x; discriminate H). all: try (destruct y; discriminate H).
  - inner H. apply string_chain_unique in H. apply (same_in MdLayoutString); [now left|exact H].
  - left. apply layout_chain_unique in H as ->. reflexivity.
  - apply tt_chain_unique in H as [->|(s & t & -> & -> & H)]; [now left|]. apply (same_in (fun s => MdTypes (TtString s))); [now do 2 right; left|exact H].
  - left. apply attr_chain_unique in H as ->. reflexivity.
  - left. apply comdat_chain_unique in H as ->. reflexivity.
  - left. apply fn_chain_unique in H as ->. reflexivity.
  - left. apply fb_chain_unique in H as ->. reflexivity.
  - left. apply alias_chain_unique in H as ->. reflexivity.
  - left. apply inconsistent_chain_unique in H as ->. reflexivity.
  - inner H. apply string_chain_unique in H. apply (same_in MdString); [now right; left|exact H].
Qed.
Lemma bitcode_chain_unique shown x y : bitcode_chain shown x = bitcode_chain shown y ->
  x = y \/ exists a b, x = BcModule a /\ y = BcModule b /\ same_module a b.
Proof.
  destruct x as [x| | |x|x|x|x], y as [y| | |y|y|y|y]; intros H; try discriminate H; try (now left); try (destruct x; discriminate H); try (destruct y; discriminate H).
  - left. f_equal. destruct x as [x| | | | |i], y as [y| | | | |j]; try discriminate H; try reflexivity; unfold bitcode_chain in H.
    + inner H. apply stream_chain_unique in H as ->. reflexivity.
    + outer H. cbn [bitcode_text] in H. apply same_start, same_start, (f_equal (fun s => s ++ [])), block_id_name in H as [-> _]. reflexivity.
  - left. inner H. inner H. apply strtab_chain_unique in H as ->. reflexivity.
  - left. inner H. inner H. outer H. f_equal. destruct x, y; try discriminate H; reflexivity.
  - right. inner H. inner H. apply module_chain_unique in H. eauto.
  - left. inner H. inner H. apply symtab_chain_unique in H as ->. reflexivity.
Qed.

(** ** The statements of P_Chain.v *)

Lemma chains_exactly shown x y : bitcode_chain shown x = bitcode_chain shown y <->
  x = y \/ exists raw raw' u k, In k string_places /\ x = BcModule (k (StBadEncoding raw u)) /\ y = BcModule (k (StBadEncoding raw' u)).
Proof.
  split.
  - intros H. apply bitcode_chain_unique in H as [->|(a & b & -> & -> & [->|(raw & raw' & u & k & I0 & -> & ->)])]; [now left..|]. right. exists raw, raw', u, k. easy.
  - intros [->|(raw & raw' & u & k & I0 & -> & ->)]; [reflexivity|]. now destruct I0 as [<-|[<-|[<-|[]]]].
Qed.

Lemma stream_chain_length x : (1 <= length (stream_chain x) <= 2)%nat.
Proof. destruct x; cbn; lia. Qed.
Lemma string_chain_length x : (length (string_chain x) <= 2)%nat.
Proof. destruct x; cbn; lia. Qed.
Lemma strtab_chain_length x : (length (strtab_chain x) <= 3)%nat.
Proof. destruct x as [|[]| |]; cbn; lia. Qed.
Lemma module_chain_length shown x : (length (module_chain shown x) <= 5)%nat.
Proof.
  unfold module_chain. cbn [length]. apply le_n_S. destruct x as [|x|x|x|x|x|x|x|x|x|x]; cbn [length]; try lia.
  - pose proof (string_chain_length x). lia.
  - destruct x as [| | | | | | |[]]; cbn; lia.
  - destruct x as [| | | | | | |x]; cbn [tt_chain length tt_map_text]; try lia. unfold record_string_chain. cbn [length]. pose proof (string_chain_length x). lia.
  - destruct x; cbn [attr_chain length]; lia.
  - destruct x as [| |x|]; cbn [comdat_chain length]; try lia. pose proof (strtab_chain_length x). lia.
  - destruct x as [| |x| | | | | | | | |]; cbn [fn_chain length]; try lia. pose proof (strtab_chain_length x). lia.
  - destruct x as [| | | |[]|]; cbn [fb_chain length]; cbn; lia.
  - destruct x as [| |x| | |]; cbn [alias_chain length]; try lia. pose proof (strtab_chain_length x). lia.
  - cbn. lia.
  - unfold record_string_chain. cbn [length]. pose proof (string_chain_length x). lia.
Qed.
Lemma chain_length shown x : (1 <= length (bitcode_chain shown x) <= 7)%nat.
Proof.
  unfold bitcode_chain. cbn [length]. destruct x as [[]| | |x|x|x|x]; cbn [length]; try lia.
  - pose proof (stream_chain_length x). lia.
  - pose proof (strtab_chain_length x). lia.
  - pose proof (module_chain_length shown x). lia.
  - destruct x as [|[]]; cbn; lia.
Qed.

(** What the examples report. *)
Lemma unroll_failure_is shown e host buf c : unroll_failure shown e host buf = Some c ->
  exists x, bitcode_of e host buf = Err x /\ ((c = bitcode_chain shown x /\ forall y, from e buf <> Err y) \/ exists y, from e buf = Err y /\ x = BcUnroll (UParse y) /\ c = stream_chain y).
Proof.
  unfold unroll_failure, bitcode_of. destruct (from e buf) as [[w b]|y|p|] eqn:F; cbn [omap_err obind]; try discriminate.
  - destruct (bitcode_of_stream e host (bs_parser b)) as [m|x|p|] eqn:B; try discriminate. intros [= <-]. exists x. split; [reflexivity|]. left. easy.
  - intros [= <-]. exists (BcUnroll (UParse y)). split; [reflexivity|]. right. eauto.
Qed.
Lemma unroll_failure_total shown e host buf x : bitcode_of e host buf = Err x -> exists c, unroll_failure shown e host buf = Some c.
Proof.
  unfold unroll_failure, bitcode_of. destruct (from e buf) as [[w b]|y|p|]; cbn [omap_err obind]; try discriminate; [|eauto]. intros ->. eauto.
Qed.
Lemma stream_not_bitcode shown x y : stream_chain x <> bitcode_chain shown y.
Proof.
  intros H. outer H. destruct x, y as [[]| | | | | |]; discriminate H.
Qed.
Lemma unroll_failures_unique shown e e' host host' buf buf' c : unroll_failure shown e host buf = Some c -> unroll_failure shown e' host' buf' = Some c ->
  exists x y, bitcode_of e host buf = Err x /\ bitcode_of e' host' buf' = Err y /\
    (x = y \/ exists raw raw' u k, In k string_places /\ x = BcModule (k (StBadEncoding raw u)) /\ y = BcModule (k (StBadEncoding raw' u))) /\
    (forall z, from e buf = Err z <-> from e' buf' = Err z).
Proof.
  intros H H'. apply unroll_failure_is in H as (x & X & H). apply unroll_failure_is in H' as (y & Y & H'). exists x, y. split; [exact X|]. split; [exact Y|].
  destruct H as [[-> F]|(a & F & -> & ->)], H' as [[E F']|(b & F' & -> & E)].
  - apply chains_exactly in E. split; [exact E|]. intros z. split; intros Z; [now apply F in Z|now apply F' in Z].
  - symmetry in E. now apply stream_not_bitcode in E.
  - now apply stream_not_bitcode in E.
  - apply stream_chain_unique in E as ->. split; [now left|]. now rewrite F, F'.
Qed.
Lemma unroll_fails shown e host buf : (exists c, unroll_failure shown e host buf = Some c) <-> exists x, bitcode_of e host buf = Err x.
Proof.
  split; [|intros [x H]; now apply unroll_failure_total with x]. intros [c H]. apply unroll_failure_is in H as (x & H & _). eauto.
Qed.
Lemma dump_failures_unique e e' buf buf' c : dump_failure e buf = Some c -> dump_failure e' buf' = Some c -> exists x, snd (dump e buf) = Err x /\ snd (dump e' buf') = Err x.
Proof.
  unfold dump_failure. destruct (snd (dump e buf)) as [|x| |]; try discriminate. destruct (snd (dump e' buf')) as [|y| |]; try discriminate. intros H H'. rewrite <- H' in H.
  apply (f_equal (fun o => match o with Some c => c | None => [] end)), stream_chain_unique in H as ->. eauto.
Qed.
