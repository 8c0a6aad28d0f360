(** Property theorems C80: files of several modules, each with a BLOCKINFO block of its own.

    [llvm_stream], [items_agree], [infos_of], [plain_item] and [no_own] are in InfoSpec.v. *)
From Verif Require Import Base Strings EnumModel SupportModel CursorModel CursorSpec StreamModel StreamSpec StreamMain UnrollModel UnrollSpec
  AttributeModel TablesModel TypeTableModel RecordModel ModuleModel InfoSpec InfoProofs.
Local Open Scope N_scope.

(** Modules as LLVM writes them, with a CONSTANTS block: BLOCKINFO defines the abbreviation of SETTYPE, whose width depends on the
    number of types of the module; the constants of a module define abbreviations of their own for strings. *)
Definition ex_ident : item := IBlock 13 5 4 [IUnabbrev 1 [76; 76; 86; 77; 49; 52]; IUnabbrev 2 [0]].
Definition ex_strtab : item := IBlock 23 3 4 [IUnabbrev 1 [109; 97; 105; 110; 103; 114; 112]].
Definition ex_module (words constant_words width : N) (constants : list item) : item :=
  IBlock 8 3 words
    [IUnabbrev 1 [2]; IBlock 0 2 2 [IUnabbrev 1 [11]; IDefine [OpLiteral 1; OpFixed width]];
     IBlock 17 4 3 [IUnabbrev 1 [2]; IUnabbrev 7 [32]; IUnabbrev 21 [0; 0; 0]];
     IBlock 11 4 constant_words (IAbbrev 4 1 [1] :: constants); IBlock 14 4 1 []].
Definition ex_number (width : N) : item := ex_module 18 2 width [IUnabbrev 4 [246]].
Definition ex_string : item := ex_module 19 3 2 [IDefine [OpLiteral 9; OpArray (OpFixed 8)]; IAbbrev 5 9 [104; 105; 33]].
Definition ex_file (ms : list item) : list item := flat_map (fun m => [ex_ident; m]) ms ++ [ex_strtab].
Definition ex_bytes (ms : list item) : list byte :=
  match llvm_stream 0xdec04342 (ex_file ms) with Some b => bytes_of_bits b | None => [] end.
Definition ex_written (ms : list item) : Prop :=
  llvm_stream 0xdec04342 (ex_file ms) <> None /\ forallb (item_small (alloc_limit debug_env)) (ex_file ms) = true /\
  forallb plain_item (ex_file ms) = true.
Definition ex_loaded : bitcode_module :=
  mkBitcodeModule (mkIdentification [76; 76; 86; 77; 49; 52] 0) (mkModule [104] [] []) [109; 97; 105; 110; 103; 114; 112] None.

(** What LLVM writes is read back if in every block the abbreviations of the last BLOCKINFO block are those of all of them together.
    (By the first part what is said of [write_stream] elsewhere holds, too: C13, C23, C27, C59, C69.) *)
Theorem C80_agreeing_blockinfo_partial : forall e magic l bits,
  llvm_stream magic l = Some bits -> items_agree [] l -> forallb (item_small (alloc_limit e)) l = true ->
  write_stream magic l = Some bits /\
  exists s, from_raw (bytes_of_bits bits) = Ok (mkBitstream magic s) /\
    forall k, run e cursor_ops (length (entries l) + k) s = map (fun x => Some (Ok x)) (entries l) ++ repeat None k.
Proof.
  intros e magic l bits H A S. pose proof (llvm_streams magic l bits H A) as W. split; [exact W|]. now apply written_raw.
Qed.
Print Assumptions C80_agreeing_blockinfo_partial.

(** So with one BLOCKINFO block, as in files of one module. *)
Theorem C80_one_blockinfo_partial : forall e magic l bits,
  llvm_stream magic l = Some bits -> forallb plain_item l = true -> (length (flat_map infos_of l) <= 1)%nat ->
  forallb (item_small (alloc_limit e)) l = true ->
  exists s, from_raw (bytes_of_bits bits) = Ok (mkBitstream magic s) /\
    forall k, run e cursor_ops (length (entries l) + k) s = map (fun x => Some (Ok x)) (entries l) ++ repeat None k.
Proof. intros e magic l bits H P L S. now apply C80_agreeing_blockinfo_partial; [|apply one_blockinfo|]. Qed.
Print Assumptions C80_one_blockinfo_partial.

(** And with any number of BLOCKINFO blocks that say the same, if blocks they define abbreviations for do not define any themselves. *)
Theorem C80_same_blockinfo_partial : forall e magic l bits d,
  llvm_stream magic l = Some bits -> forallb plain_item l = true -> Forall (eq d) (flat_map infos_of l) -> forallb (no_own d) l = true ->
  forallb (item_small (alloc_limit e)) l = true ->
  exists s, from_raw (bytes_of_bits bits) = Ok (mkBitstream magic s) /\
    forall k, run e cursor_ops (length (entries l) + k) s = map (fun x => Some (Ok x)) (entries l) ++ repeat None k.
Proof. intros e magic l bits d H P F O S. apply C80_agreeing_blockinfo_partial; [exact H|now apply (same_blockinfo d)|exact S]. Qed.
Print Assumptions C80_same_blockinfo_partial.

Example C80_example :
  ex_written [ex_string] /\ length (flat_map infos_of (ex_file [ex_string])) = 1%nat /\
  ex_written [ex_number 2; ex_number 2; ex_number 2] /\
  flat_map infos_of (ex_file [ex_number 2; ex_number 2; ex_number 2]) = repeat [(11, [OpLiteral 1; OpFixed 2])] 3 /\
  forallb (no_own [(11, [OpLiteral 1; OpFixed 2])]) (ex_file [ex_number 2; ex_number 2; ex_number 2]) = true /\
  bitcode_of debug_env [104] (ex_bytes [ex_number 2; ex_number 2; ex_number 2]) = Ok [ex_loaded; ex_loaded; ex_loaded].
Proof.
  split; [split; [vm_compute; discriminate|split; vm_compute; reflexivity]|]. split; [reflexivity|].
  split; [split; [vm_compute; discriminate|split; vm_compute; reflexivity]|]. repeat split; vm_compute; reflexivity.
Qed.
(** With a second module the abbreviation of the module's own constants has another number. *)
Example C80_disagree_example :
  ~ items_agree [] (ex_file [ex_string; ex_string]) /\ ~ items_agree [] (ex_file [ex_number 2; ex_number 3]).
Proof.
  split; intros A; cbn in A; decompose [and] A; clear A;
    repeat match goal with H : same_ids _ 11 _ |- _ => destruct H as [H|[[? H] K]]; cbn in H; try discriminate H; try discriminate K; clear H end.
Qed.

(** In general files of several modules are rejected each of whose modules is accepted on its own: modules with the same BLOCKINFO whose
    constants define abbreviations, and modules with different numbers of types. *)
Theorem C80_files_of_several_modules_load_refuted : exists m,
  ex_written [m] /\ ex_written [m; m] /\ bitcode_of debug_env [104] (ex_bytes [m]) = Ok [ex_loaded] /\
  forall e, alloc_limit e = 1000 -> bitcode_of e [104] (ex_bytes [m; m]) = Err (BcUnroll (UParse (SBadScope (SfWidth 0)))).
Proof.
  exists ex_string. split; [split; [vm_compute; discriminate|split; vm_compute; reflexivity]|].
  split; [split; [vm_compute; discriminate|split; vm_compute; reflexivity]|]. split; [vm_compute; reflexivity|].
  intros [oc al] L. cbn in L. subst al. destruct oc; vm_compute; reflexivity.
Qed.
Print Assumptions C80_files_of_several_modules_load_refuted.
Theorem C80_modules_with_other_types_load_refuted : exists m1 m2,
  ex_written [m1] /\ ex_written [m2] /\ ex_written [m1; m2] /\
  bitcode_of debug_env [104] (ex_bytes [m1]) = Ok [ex_loaded] /\ bitcode_of debug_env [104] (ex_bytes [m2]) = Ok [ex_loaded] /\
  bitcode_of debug_env [104] (ex_bytes [m1; m2]) = Err (BcUnroll (UParse (SBadAbbrev 6))).
Proof.
  exists (ex_number 2), (ex_number 3). do 3 (split; [split; [vm_compute; discriminate|split; vm_compute; reflexivity]|]).
  repeat split; vm_compute; reflexivity.
Qed.
Print Assumptions C80_modules_with_other_types_load_refuted.
(** Or a record is silently read as another one. *)
Theorem C80_records_are_read_with_their_blockinfo_refuted : exists l bits b,
  llvm_stream 0xdec04342 l = Some bits /\ forallb plain_item l = true /\ from_raw (bytes_of_bits bits) = Ok b /\
  entries l = [ESubBlock 8 32; ESubBlock 11 4; ERecord (Some 4) 4 [200]; EEndBlock; EEndBlock;
               ESubBlock 8 32; ESubBlock 11 4; ERecord (Some 4) 5 [200]; EEndBlock; EEndBlock] /\
  run debug_env cursor_ops 11 (bs_parser b) = map (fun x => Some (Ok x))
    [ESubBlock 8 32; ESubBlock 11 4; ERecord (Some 4) 4 [200]; EEndBlock; EEndBlock;
     ESubBlock 8 32; ESubBlock 11 4; ERecord (Some 4) 4 [200]; EEndBlock; EEndBlock] ++ [None].
Proof.
  set (m := fun c => IBlock 8 3 8 [IBlock 0 2 2 [IUnabbrev 1 [11]; IDefine [OpLiteral c; OpFixed 8]]; IBlock 11 4 1 [IAbbrev 4 c [200]]]).
  exists [m 4; m 5]. eexists. eexists. split; [vm_compute; reflexivity|]. split; [reflexivity|]. split; [vm_compute; reflexivity|].
  split; vm_compute; reflexivity.
Qed.
Print Assumptions C80_records_are_read_with_their_blockinfo_refuted.
