(** Property theorems C82: a file is split into modules as LLVM's reader splits it.

    [llvm_file], [known_top], [proper_tables] and [same_module] are in FileSpec.v. *)
From Verif Require Import Base Strings EnumModel SupportModel CursorModel CursorSpec StreamModel StreamSpec StreamHist UnrollModel UnrollSpec UnrollApi
  AttributeModel TablesModel TypeTableModel RecordModel ModuleModel PipelineSpec FileSpec FileProofs.
Local Open Scope N_scope.

(** Of the files LLVM finds modules in, those are unrolled that have nothing but the four known blocks at the top level and an
    identification before every module. *)
Theorem C82_unrolled_exactly_partial : forall e s l mods st, parser_reachable e s -> stream_is e s l -> llvm_file l = Some (mods, st) ->
  ((exists parts, unroll e s = Ok parts) <-> Forall known_top l /\ Forall (fun m => f_identification m <> None) mods).
Proof. exact file_unrolled. Qed.
Print Assumptions C82_unrolled_exactly_partial.

(** Then the modules are LLVM's, with the same identification and the same string table. *)
Theorem C82_same_modules_partial : forall l mods st, llvm_file l = Some (mods, st) -> well_grouped l -> proper_tables l ->
  Forall2 same_module mods (modules_of l) /\ st = match find (is_top SYMTAB) l with Some t => table_of t | None => [] end.
Proof. exact file_modules. Qed.
Print Assumptions C82_same_modules_partial.

(** And what is loaded from a file is loaded from LLVM's modules with LLVM's string tables; the symbol table of the file is the one of
    its first module. *)
Theorem C82_loaded_like_llvm_partial : forall e host buf ms w b l mods st,
  N.of_nat (length buf) < 2 ^ 61 -> bitcode_of e host buf = Ok ms ->
  from e buf = Ok (w, b) -> stream_is e (bs_parser b) l -> proper_tables l -> llvm_file l = Some (mods, st) ->
  Forall2 (fun m d => f_strtab m = bm_strtab d /\
             exists i s y, f_identification m = Some i /\ tree_described e host (mkTmodule i (Some (f_module m)) s y) d) mods ms /\
  (forall i l', l = i :: l' -> is_top IDENTIFICATION i = true ->
     exists d ms', ms = d :: ms' /\ st = match bm_symtab d with Some t => t | None => [] end).
Proof. exact loaded_like_llvm. Qed.
Print Assumptions C82_loaded_like_llvm_partial.

(** LLVM itself refuses exactly the files with an identification that is not followed by a module. *)
Theorem C82_llvm_refuses_exactly : forall l, (exists f, llvm_file l = Some f) <->
  forall l1 i l2, l = l1 ++ i :: l2 -> is_top IDENTIFICATION i = true -> exists m l3, l2 = m :: l3 /\ is_top MODULE m = true.
Proof. exact file_accepts. Qed.
Print Assumptions C82_llvm_refuses_exactly.

Definition ex_ident (c : N) : item := IBlock 13 5 4 [IUnabbrev 1 [76; 76; 86; 77; 49; c]; IUnabbrev 2 [0]].
Definition ex_module : item :=
  IBlock 8 3 10 [IUnabbrev 1 [2]; IBlock 17 4 3 [IUnabbrev 1 [2]; IUnabbrev 7 [32]; IUnabbrev 21 [0; 0; 0]]; IBlock 14 4 1 []].
Definition ex_strtab (c : N) : item := IBlock 23 3 4 [IDefine [OpLiteral 1; OpBlob]; IAbbrev 4 1 [109; 97; 105; 110; 103; 114; c]].
Definition ex_symtab : item := IBlock 25 3 4 [IDefine [OpLiteral 1; OpBlob]; IAbbrev 4 1 [1; 2; 3; 4; 5]].
(** A block that no version of LLVM up to 14 knows (27). *)
Definition ex_unknown : item := IBlock 27 3 1 [IUnabbrev 1 [1]].
Definition ex_bytes (l : list item) : list byte :=
  match write_stream 0xdec04342 l with Some b => bytes_of_bits b | None => [] end.
Definition ex_loaded (c d : N) (y : option (list N)) : bitcode_module :=
  mkBitcodeModule (mkIdentification [76; 76; 86; 77; 49; c] 0) (mkModule [104] [] []) [109; 97; 105; 110; 103; 114; d] y.
(** Two modules share a string table and the symbol table, the third has a string table of its own. *)
Definition ex_three : list item :=
  [ex_ident 50; ex_module; ex_ident 51; ex_module; ex_symtab; ex_strtab 112; ex_ident 52; ex_module; ex_strtab 113].
Definition ex_parser (l : list item) : sparser cursor :=
  match from_raw (ex_bytes l) with Ok b => bs_parser b | _ => mkParser (cur_new []) [] [] end.
(** The trees of these blocks. *)
Definition ex_module_tree : tree :=
  TBlk 8 40 [TRec None 1 [2]; TBlk 17 12 [TRec None 1 [2]; TRec None 7 [32]; TRec None 21 [0; 0; 0]]; TBlk 14 4 []].
Definition ex_ident_tree (c : N) : tree := TBlk 13 16 [TRec None 1 [76; 76; 86; 77; 49; c]; TRec None 2 [0]].

Example C82_example :
  write_stream 0xdec04342 ex_three <> None /\ proper_tables (trees ex_three) /\ well_grouped (trees ex_three) /\
  llvm_file (trees ex_three) =
    Some ([mkFound (Some (ex_ident_tree 50)) ex_module_tree [109; 97; 105; 110; 103; 114; 112];
           mkFound (Some (ex_ident_tree 51)) ex_module_tree [109; 97; 105; 110; 103; 114; 112];
           mkFound (Some (ex_ident_tree 52)) ex_module_tree [109; 97; 105; 110; 103; 114; 113]], [1; 2; 3; 4; 5]) /\
  bitcode_of debug_env [104] (ex_bytes ex_three) =
    Ok [ex_loaded 50 112 (Some [1; 2; 3; 4; 5]); ex_loaded 51 112 (Some [1; 2; 3; 4; 5]); ex_loaded 52 113 None].
Proof.
  split; [vm_compute; discriminate|].
  assert (T : exists t, trees ex_three = t /\ t = ltac:(let t := eval vm_compute in (trees ex_three) in exact t)) by (eexists; split; vm_compute; reflexivity).
  destruct T as (t & -> & T). split; [|split; [|split; [subst t; vm_compute; reflexivity|vm_compute; reflexivity]]].
  - subst t. unfold proper_tables.
    repeat (apply Forall_cons; [cbn [is_top]; intros [X|X]; try (vm_compute in X; discriminate X); cbn [one_blob];
      do 2 eexists; exists [], []; (split; [|split; [cbn [records_in flat_map app]; reflexivity|apply Forall_nil]]; discriminate)|]).
    apply Forall_nil.
  - eapply (file_grouped t); [subst t; vm_compute; reflexivity|]. subst t. split.
    + repeat (apply Forall_cons; [eexists; split; [apply N.eqb_refl|cbn [In]; tauto]|]). apply Forall_nil.
    + repeat (apply Forall_cons; [discriminate|]). apply Forall_nil.
Qed.
Lemma ex_stream l : (exists b, from_raw (ex_bytes l) = Ok b) ->
  run debug_env cursor_ops (S (length (flat_map flat (trees l)))) (ex_parser l) = map (fun x => Some (Ok x)) (flat_map flat (trees l)) ++ [None] ->
  parser_reachable debug_env (ex_parser l) /\ stream_is debug_env (ex_parser l) (trees l).
Proof.
  unfold ex_parser. intros [b E] R. rewrite E in *. split; [exact (from_raw_reachable _ _ _ E)|]. eexists. exact R.
Qed.
Example C82_stream_example : parser_reachable debug_env (ex_parser ex_three) /\ stream_is debug_env (ex_parser ex_three) (trees ex_three).
Proof. apply ex_stream; [eexists; vm_compute; reflexivity|vm_compute; reflexivity]. Qed.

(** A module without an identification, as written before LLVM 3.8 (which wrote no string tables either), and an unknown block next to a
    module: LLVM finds one module in either file, but neither is unrolled. *)
Theorem C82_every_file_of_llvm_is_unrolled_refuted : exists l1 l2 mods1 mods2 st1 st2,
  write_stream 0xdec04342 l1 <> None /\ llvm_file (trees l1) = Some (mods1, st1) /\ length mods1 = 1%nat /\
  bitcode_of debug_env [104] (ex_bytes l1) = Err (BcUnroll UNoIdentification) /\
  write_stream 0xdec04342 l2 <> None /\ llvm_file (trees l2) = Some (mods2, st2) /\ length mods2 = 1%nat /\
  bitcode_of debug_env [104] (ex_bytes l2) = Err (BcUnroll (UUnexpectedBlock (BUnknown 27))).
Proof.
  exists [ex_module; ex_strtab 112], [ex_ident 50; ex_module; ex_strtab 112; ex_unknown]. do 4 eexists.
  split; [vm_compute; discriminate|]. split; [vm_compute; reflexivity|]. split; [reflexivity|]. split; [vm_compute; reflexivity|].
  split; [vm_compute; discriminate|]. split; [vm_compute; reflexivity|]. split; [reflexivity|]. vm_compute; reflexivity.
Qed.
Print Assumptions C82_every_file_of_llvm_is_unrolled_refuted.

(** Conversely a string table between an identification and its module is tolerated, but LLVM calls it a malformed block. *)
Theorem C82_malformed_files_are_refused_refuted : exists l ms,
  write_stream 0xdec04342 l <> None /\ llvm_file (trees l) = None /\ bitcode_of debug_env [104] (ex_bytes l) = Ok ms.
Proof.
  exists [ex_ident 50; ex_strtab 112; ex_module], [ex_loaded 50 112 None].
  split; [vm_compute; discriminate|]. split; vm_compute; reflexivity.
Qed.
Print Assumptions C82_malformed_files_are_refused_refuted.

(** String tables that are not written as LLVM writes them: of an unabbreviated one LLVM takes nothing, of two blobs it takes the last. *)
Theorem C82_same_string_table_refuted : exists l1 l2 d1 d2 m1 m2,
  write_stream 0xdec04342 l1 <> None /\ bitcode_of debug_env [104] (ex_bytes l1) = Ok [d1] /\ llvm_file (trees l1) = Some ([m1], []) /\
  f_strtab m1 = [] /\ bm_strtab d1 = [109; 97; 105; 110] /\
  write_stream 0xdec04342 l2 <> None /\ bitcode_of debug_env [104] (ex_bytes l2) = Ok [d2] /\ llvm_file (trees l2) = Some ([m2], []) /\
  f_strtab m2 = [109; 97] /\ bm_strtab d2 = [109; 97; 105; 110; 103; 114; 112].
Proof.
  exists [ex_ident 50; ex_module; IBlock 23 3 3 [IUnabbrev 1 [109; 97; 105; 110]]],
    [ex_ident 50; ex_module; IBlock 23 3 6 [IDefine [OpLiteral 1; OpBlob]; IAbbrev 4 1 [109; 97; 105; 110; 103; 114; 112]; IAbbrev 4 1 [109; 97]]].
  do 4 eexists. split; [vm_compute; discriminate|]. split; [vm_compute; reflexivity|]. split; [vm_compute; reflexivity|].
  split; [reflexivity|]. split; [reflexivity|]. split; [vm_compute; discriminate|]. split; [vm_compute; reflexivity|]. split; [vm_compute; reflexivity|].
  split; reflexivity.
Qed.
Print Assumptions C82_same_string_table_refuted.
