(** Property theorems C69: what LLVM writes comes back ([Bitcode::try_from], [Module::try_map]).

    [source], [source_means] (what a module says), [source_ok] (what is left out), [module_body] and [file_nodes] (the
    records and blocks LLVM's writer makes), [tables_of], [node_fits] and [weights] are in SourceSpec.v; [write_stream] and
    [meaning] in StreamSpec.v and StreamHist.v. *)
From Verif Require Import Base Strings EnumModel SupportModel SupportSpec LayoutModel LayoutSpec CursorModel CursorSpec StreamModel StreamSpec StreamHist
  UnrollModel UnrollSpec AttributeModel AttributeSpec TablesModel TablesSpec TypeTableModel TypeTableSpec RecordModel RecordSpec ModuleModel
  SourceSpec SourceProofs SourceWriter.
From Coq Require Import Lia.
Local Open Scope N_scope.

(** *** C69: whole files *)

(** However the file is encoded (abbreviations, widths, BLOCKINFO), and whatever else stands in the modules. *)
Theorem C69_files_come_back : forall e host magic l bits ms y t,
  write_stream magic l = Some bits -> forallb (item_small (alloc_limit e)) l = true -> magic <> 0x0b17c0de -> N.of_nat (length bits) < 2 ^ 64 ->
  meaning l = file_nodes ms y t -> long_blob t -> (forall x, y = Some x -> long_blob x) ->
  Forall (fun p => module_body (fst p) (snd p) /\ source_means (fst p) <> None /\ exists settings, source_ok e t (fst p) settings) ms ->
  bitcode_of e host (bytes_of_bits bits) = Ok (map (fun p =>
    mkBitcodeModule (mkIdentification (so_producer (fst p)) (so_epoch (fst p)))
      (mkModule (match so_triple (fst p) with Some x => x | None => host end) (so_asm (fst p)) (so_deplibs (fst p))) t y) ms).
Proof. exact file_round_trip. Qed.
Print Assumptions C69_files_come_back.

(** And every file can be written, if its numbers have 64 bits and it is not too large. *)
Theorem C69_files_can_be_written : forall e host ms y t, long_blob t -> (forall x, y = Some x -> long_blob x) ->
  Forall (fun p => module_body (fst p) (snd p) /\ source_means (fst p) <> None /\ exists settings, source_ok e t (fst p) settings) ms ->
  Forall (node_fits (N.min (alloc_limit e) (2 ^ 64))) (file_nodes ms y t) -> weights (file_nodes ms y t) < 2 ^ 36 ->
  exists l bits, write_stream 0xdec04342 l = Some bits /\ meaning l = file_nodes ms y t /\
    bitcode_of e host (bytes_of_bits bits) = Ok (map (fun p =>
      mkBitcodeModule (mkIdentification (so_producer (fst p)) (so_epoch (fst p)))
        (mkModule (match so_triple (fst p) with Some x => x | None => host end) (so_asm (fst p)) (so_deplibs (fst p))) t y) ms).
Proof. exact file_exists. Qed.
Print Assumptions C69_files_can_be_written.

(** *** C69: the tables and the functions of a module *)

(** What [Module::try_map] finds, whichever way the block was encoded. *)
Theorem C69_modules_come_back : forall e host t s settings T L fns tree b body,
  source_ok e t s settings -> source_means s = Some (T, L, fns) -> module_body s body ->
  unrolled tree b -> erase tree = NBlock 8 body -> Forall fields64 (b_records b) -> N.of_nat (length t) < 2 ^ 64 ->
  exists c, module_map e host t b =
    Ok (mkModule (match so_triple s with Some x => x | None => host end) (so_asm s) (so_deplibs s), c, fns, []) /\ tables_of t s settings T L c.
Proof. exact module_round_trip. Qed.
Print Assumptions C69_modules_come_back.

(** *** A file of two modules *)

Definition ex_text : list N := lit "foobarmain".
(** Void, i32, i8*, struct names, vectors, arrays, vararg functions; attributes with values and of strings; three functions. *)
Definition ex_source : source := {|
  so_producer := lit "LLVM15"; so_epoch := 1; so_triple := Some (lit "x86-pc"); so_layout := Some (lit "e-S128-m:e");
  so_asm := [lit ".globl x"; []; lit "nop"]; so_deplibs := [lit "libm"; [0x6c; 0xe9]]; so_sections := [lit ".text.a"; lit ".init"]; so_gcs := [lit "shadow-stack"];
  so_types := [SSimple 2; SInteger 32; SInteger 8; SourceSpec.SPointer 2 0; SFunction false 0 [1; 3]; SStruct (Some (lit "struct.a")) true [1; 3; 1];
               SArray 7 5; SOpaque (lit "op"); SVector 4 1; SScalable 2 1; SFunction true 5 []; SStruct None false [6; 8]; SOpaquePointer 3];
  so_groups := [(4, mkGroup DiFunction [AtEnum AiNoUnwind; AtStr (lit "thunk"); AtStrKeyValue (lit "cpu") [0xe9]; AtInt (IaAllocSize 0 (Some 1))]);
                (2, mkGroup DiReturn [AtEnum AiNoAlias; AtInt (IaDereferenceable 64)]);
                (9, mkGroup (DiParameter 1) [AtEnum AiZExt; AtInt (IaAllocSize 3 None); AtInt (IaUwTable UwAsync)])];
  so_lists := [[4; 2]; [9; 4]];
  so_functions :=
    [mkSfunction (lit "main") 6 10 CcC LkExternal None None None VisDefault None UaNone DllDefault 0 [0; 0; 0; 1];
     mkSfunction (lit "foo") 0 4 CcFast LkWeakOdr (Some 1) (Some 4) (Some 1) VisHidden (Some 0) UaGlobal DllExport 0 [];
     mkSfunction (lit "bar") 3 4 CcX8664SysV LkInternal (Some 0) None None VisProtected None UaLocal DllImport 7 [1]];
  so_symbols := [NRecord 1 [0; 1; 2]] |}.
(** Nothing but a function type. *)
Definition ex_source2 : source :=
  mkSource (lit "me") 0 None None [] [] [] [] [SInteger 1; SFunction false 0 []] [] []
    [mkSfunction (lit "foobar") 0 1 CcCold LkExternal None None None VisDefault None UaNone DllDefault 0 []] [].
Definition ex_settings : list setting := [SEndian Little; SStack (mkAlign 4); SMangling MElf].
(** With a source file name (16), a global variable (7), metadata (15) and constants (11). *)
Definition ex_body : list node :=
  NRecord 16 [97; 46; 99] :: firstn 4 (module_nodes ex_source) ++ [NBlock 15 [NRecord 1 []; NBlock 99 []]; NRecord 7 [0; 3; 1; 3; 0; 0]] ++
  skipn 4 (module_nodes ex_source) ++ [NBlock 11 [NRecord 1 [1]; NRecord 4 [84]]].
Definition ex_file : list (source * list node) := [(ex_source, ex_body); (ex_source2, module_nodes ex_source2)].
(** Identification and string table with abbreviations (char6, VBR, blob), BLOCKINFO in between, ids of several widths. *)
Definition ex_encoded : list item :=
  [IBlock 13 5 4 [IDefine [OpLiteral 1; OpArray OpChar6]; IAbbrev 4 1 (lit "LLVM15"); IDefine [OpLiteral 2; OpVbr 6]; IAbbrev 5 2 [1]];
   IBlock 0 2 1 []; plain (NBlock 8 ex_body)] ++
  map plain (module_file (ex_source2, module_nodes ex_source2)) ++
  [IBlock 25 7 2 [IUnabbrev 1 [250; 251]]; IBlock 23 3 5 [IDefine [OpLiteral 1; OpBlob]; IAbbrev 4 1 ex_text]].
Definition written (l : list item) : list bool := match write_stream 0xdec04342 l with Some b => b | None => [] end.

(** What the functions of the first module are. *)
Definition ex_i32 : ty := TInteger 32.
Definition ex_struct : ty := TStruct (Some (lit "struct.a")) [ex_i32; TPointer (TInteger 8) 0; ex_i32] true.
Definition ex_lists : list (list attr_group) :=
  match so_groups ex_source with [a; b; c] => [[snd a; snd b]; [snd c; snd a]] | _ => [] end.
Definition ex_functions : list fn_rec :=
  [mkFn (lit "main") (TFunction ex_struct [] true) CcC true LkExternal None None None VisDefault None UaNone DllDefault;
   mkFn (lit "foo") (TFunction TVoid [ex_i32; TPointer (TInteger 8) 0] false) CcFast true LkWeakOdr (nth_error ex_lists 1) (Some (mkAlign 4))
     (Some (lit ".init")) VisHidden (Some (lit "shadow-stack")) UaGlobal DllExport;
   mkFn (lit "bar") (TFunction TVoid [ex_i32; TPointer (TInteger 8) 0] false) CcX8664SysV true LkInternal (nth_error ex_lists 0) None
     None VisProtected None UaLocal DllImport].
Example C69_source_means :
  source_means ex_source = Some ([TVoid; ex_i32; TInteger 8; TPointer (TInteger 8) 0; TFunction TVoid [ex_i32; TPointer (TInteger 8) 0] false; ex_struct;
    TArray 7 ex_struct; TStruct (Some (lit "op")) [] false; TFixedVector 4 ex_i32; TScalableVector 2 ex_i32; TFunction ex_struct [] true;
    TStruct None [TArray 7 ex_struct; TFixedVector 4 ex_i32] false; TOpaquePointer 3], ex_lists, ex_functions) /\
  source_means ex_source2 <> None.
Proof. split; [vm_compute; reflexivity|discriminate]. Qed.

Ltac built := repeat match goal with
  | |- well_built TVoid => apply (WB_simple 2); cbn; auto
  | |- well_built _ => constructor
  | |- Forall _ _ => constructor
  | |- _ /\ _ => split
  | |- width_rule _ => unfold width_rule; lia
  | |- space_rule _ => reflexivity
  | |- ~ function_type _ => intros (? & ? & ? & K); discriminate K
  | |- ~ scalable_type _ => intros (? & ? & K); discriminate K
  | |- return_rule _ => split
  | |- param_rule _ => split
  | |- field_rule _ => split
  | |- array_rule _ => split
  | |- vector_rule _ => right; left; eexists; reflexivity
  | |- ~ In _ _ => let K := fresh in intros K; cbn in K; intuition discriminate
  | |- pointee_rule _ => unfold pointee_rule
  | |- _ <> _ => discriminate
  end.

Example C69_source_fits : source_ok debug_env ex_text ex_source ex_settings.
Proof.
  constructor.
  - split; [reflexivity|vm_compute; lia].
  - intros x H. injection H as <-. split; [reflexivity|vm_compute; lia].
  - split; [split; [reflexivity|vm_compute; lia]|]. split; [reflexivity|]. change (specs (lit "e-S128-m:e")) with [lit "e"; lit "S128"; lit "m:e"].
    constructor; [apply MeLittle|]. constructor; [|constructor; [apply MeMangling; now left|constructor]].
    apply MeStack. split; [|cbn; lia]. left. split; [discriminate|]. split; [repeat constructor; vm_compute; discriminate|reflexivity].
  - right. split; [split; [reflexivity|vm_compute; lia]|]. repeat constructor; vm_compute; intuition discriminate.
  - repeat constructor; vm_compute; lia.
  - intros x name I. cbn [so_types ex_source In] in I.
    repeat (destruct I as [I|I]; [subst x; cbn [stype_name]; intros H; first [discriminate H|injection H as <-; split; [reflexivity|vm_compute; lia]]|]).
    destruct I.
  - repeat split; intros H; try reflexivity; exfalso; apply H; reflexivity.
  - intros T H. vm_compute in H. injection H as <-. built.
  - vm_compute. discriminate.
  - repeat constructor; vm_compute; intuition discriminate.
  - assert (E : forall x, existsb (N.eqb (attribute_id_num x)) valued_ids = false -> ~ In (attribute_id_num x) valued_ids).
    { intros x H I. apply not_true_iff_false in H. apply H, existsb_exists. eexists. split; [exact I|apply N.eqb_refl]. }
    repeat (constructor; [split; [reflexivity|split; [|split; [discriminate|]]]|]); try constructor;
      try (cbn; lia); repeat match goal with
      | |- Forall attribute_ok _ => constructor
      | |- attribute_ok (AtEnum _) => apply E; reflexivity
      | |- attribute_ok (AtStr _) => split; [discriminate|repeat constructor; discriminate]
      | |- attribute_ok (AtStrKeyValue _ _) => split; (split; [discriminate|repeat constructor; discriminate])
      | |- attribute_ok (AtInt _) => cbn [attribute_ok]; repeat split; lia
      end.
  - repeat constructor; try discriminate; cbn [sf_alignment].
    + exists (lit "foobar"), []. vm_compute. auto.
    + exists [], (lit "barmain"). vm_compute. auto.
    + intros k H. injection H as <-. lia.
    + exists (lit "foo"), (lit "main"). vm_compute. auto.
  - intros T L fns H. vm_compute in H. injection H as <- <- <-. repeat constructor; do 3 eexists; reflexivity.
Qed.

Example C69_source2_fits : source_ok debug_env ex_text ex_source2 [].
Proof.
  constructor.
  - split; [reflexivity|vm_compute; lia].
  - discriminate.
  - reflexivity.
  - now left.
  - constructor.
  - intros x name [I|[I|[]]]; subst x; discriminate.
  - repeat split; intros H; exfalso; apply H; reflexivity.
  - intros T H. vm_compute in H. injection H as <-. built.
  - vm_compute. discriminate.
  - constructor.
  - constructor.
  - repeat constructor; try discriminate. exists [], (lit "main"). vm_compute. auto.
  - intros T L fns H. vm_compute in H. injection H as <- <- <-. repeat constructor; do 3 eexists; reflexivity.
Qed.

Lemma ex_file_fits : Forall (fun p => module_body (fst p) (snd p) /\ source_means (fst p) <> None /\
  exists settings, source_ok debug_env ex_text (fst p) settings) ex_file.
Proof.
  constructor; [|constructor; [|constructor]]; cbn [fst snd].
  - split; [vm_compute; reflexivity|]. split; [discriminate|]. exists ex_settings. exact C69_source_fits.
  - split; [vm_compute; reflexivity|]. split; [discriminate|]. exists []. exact C69_source2_fits.
Qed.

(** The hypotheses of [C69_files_come_back], and what it says here. *)
Example C69_files_example :
  write_stream 0xdec04342 ex_encoded = Some (written ex_encoded) /\ forallb (item_small (alloc_limit debug_env)) ex_encoded = true /\
  N.of_nat (length (written ex_encoded)) < 2 ^ 64 /\ meaning ex_encoded = file_nodes ex_file (Some [250; 251]) ex_text /\
  bitcode_of debug_env (lit "host") (bytes_of_bits (written ex_encoded)) =
    Ok [mkBitcodeModule (mkIdentification (lit "LLVM15") 1)
          (mkModule (lit "x86-pc") [lit ".globl x"; []; lit "nop"] [lit "libm"; [0x6c; 0xe9]]) ex_text (Some [250; 251]);
        mkBitcodeModule (mkIdentification (lit "me") 0) (mkModule (lit "host") [] []) ex_text (Some [250; 251])].
Proof.
  assert (W : write_stream 0xdec04342 ex_encoded = Some (written ex_encoded)) by (vm_compute; reflexivity).
  assert (S0 : forallb (item_small (alloc_limit debug_env)) ex_encoded = true) by (vm_compute; reflexivity).
  assert (B : N.of_nat (length (written ex_encoded)) < 2 ^ 64) by (vm_compute; reflexivity).
  assert (M : meaning ex_encoded = file_nodes ex_file (Some [250; 251]) ex_text) by (vm_compute; reflexivity).
  split; [exact W|]. split; [exact S0|]. split; [exact B|]. split; [exact M|].
  rewrite (C69_files_come_back debug_env (lit "host") 0xdec04342 ex_encoded _ ex_file (Some [250; 251]) ex_text W S0 ltac:(discriminate) B M).
  - reflexivity.
  - split; [cbn; lia|repeat constructor].
  - intros x H. injection H as <-. split; [cbn; lia|repeat constructor].
  - exact ex_file_fits.
Qed.
(** The model agrees by computation. *)
Example C69_files_computed :
  bitcode_of debug_env (lit "host") (bytes_of_bits (written ex_encoded)) =
    Ok [mkBitcodeModule (mkIdentification (lit "LLVM15") 1)
          (mkModule (lit "x86-pc") [lit ".globl x"; []; lit "nop"] [lit "libm"; [0x6c; 0xe9]]) ex_text (Some [250; 251]);
        mkBitcodeModule (mkIdentification (lit "me") 0) (mkModule (lit "host") [] []) ex_text (Some [250; 251])].
Proof. vm_compute. reflexivity. Qed.

Example C69_can_be_written_example :
  Forall (node_fits (N.min (alloc_limit debug_env) (2 ^ 64))) (file_nodes ex_file None ex_text) /\ weights (file_nodes ex_file None ex_text) = 159400.
Proof. split; [|vm_compute; reflexivity]. repeat (constructor || (vm_compute; reflexivity) || split). Qed.

(** The first module, unrolled. *)
Definition ex_tree : tree := hd (TRec None 0 []) (trees [plain (NBlock 8 ex_body)]).
Example C69_modules_example : exists b c, unrolled ex_tree b /\ erase ex_tree = NBlock 8 ex_body /\ Forall fields64 (b_records b) /\
  module_map debug_env (lit "host") ex_text b =
    Ok (mkModule (lit "x86-pc") [lit ".globl x"; []; lit "nop"] [lit "libm"; [0x6c; 0xe9]], c, ex_functions, []) /\
  dl_stack (cx_layout c) = Some (mkAlign 4) /\ dl_mangling (cx_layout c) = Some MElf /\ nth_error (cx_types c) 5 = Some ex_struct /\
  groups_get (cx_groups c) 2 = Some (mkGroup DiReturn [AtEnum AiNoAlias; AtInt (IaDereferenceable 64)]) /\ cx_attributes c = ex_lists.
Proof.
  exists (UnrollProofs.build ex_tree). assert (U : unrolled ex_tree (UnrollProofs.build ex_tree)) by (apply UnrollProofs.build_unrolled; reflexivity).
  assert (E : erase ex_tree = NBlock 8 ex_body) by (vm_compute; reflexivity).
  assert (F : Forall fields64 (b_records (UnrollProofs.build ex_tree))).
  { assert (G : forallb (fun r => forallb (fun x => x <? two64) (r_fields r)) (b_records (UnrollProofs.build ex_tree)) = true) by (vm_compute; reflexivity).
    apply Forall_forall. intros r I. apply Forall_forall. intros x J. rewrite forallb_forall in G. specialize (G r I). rewrite forallb_forall in G.
    apply N.ltb_lt. exact (G x J). }
  destruct (C69_modules_come_back debug_env (lit "host") ex_text ex_source ex_settings _ _ _ _ _ ex_body C69_source_fits (proj1 C69_source_means)
    ltac:(vm_compute; reflexivity) U E F ltac:(reflexivity)) as (c & H & K).
  exists c. split; [exact U|]. split; [exact E|]. split; [exact F|]. split; [exact H|]. destruct K as [_ [] _ _ _ G A T _].
  repeat split; [assumption|assumption|rewrite T; reflexivity|rewrite G; reflexivity|exact A].
Qed.
