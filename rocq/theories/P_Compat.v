(** Property theorems C79: parts of a file that the mapper does not know.

    [same_top], [same_module], [same_types], [unknown_part] and [exchangeable] are in CompatSpec.v. *)
From Verif Require Import Base Strings EnumModel SupportModel CursorModel StreamModel StreamSpec StreamHist UnrollModel UnrollSpec UnrollProofs UnrollMain UnrollApi
  AttributeModel TablesModel TypeTableModel RecordModel ModuleModel CompatSpec CompatProofs.
From Coq Require Import Lia.
Local Open Scope N_scope.

(** A file with one module: the TYPE block with [types] behind two types, the attribute groups with [groups] behind one, a
    COMDAT, a function, [extra]; [top] comes before the module. The numbers are the lengths of the blocks. *)
Definition ex_file (n nt ng : N) (top types groups : list item) (comdat : list N) (extra : list item) : list item :=
  [IBlock 13 5 4 [IUnabbrev 1 [76; 76; 86; 77; 49; 52]; IUnabbrev 2 [0]]] ++ top ++
  [IBlock 8 3 n
    ([IUnabbrev 1 [2]; IBlock 17 4 nt ([IUnabbrev 1 [2]; IUnabbrev 7 [32]; IUnabbrev 21 [0; 0; 0]] ++ types);
      IBlock 10 3 ng ([IUnabbrev 3 [7; 0; 0; 20]] ++ groups);
      IUnabbrev 12 comdat;
      IUnabbrev 8 [0; 4; 1; 0; 0; 3; 0; 5; 0; 0; 0; 1; 0; 2; 1]] ++ extra ++
     [IBlock 14 4 1 []]);
   IBlock 23 3 4 [IUnabbrev 1 [109; 97; 105; 110; 103; 114; 112]]].
Definition ex_bytes (l : list item) : list byte :=
  match write_stream 0xdec04342 l with Some b => bytes_of_bits b | None => [] end.
Definition ex_written (l : list item) : Prop := write_stream 0xdec04342 l <> None /\ forallb (item_small (alloc_limit debug_env)) l = true.
Definition ex_plain : list item := ex_file 18 3 2 [] [] [] [4; 3; 2] [].
(** With a global variable, constants and a record of a kind that does not exist. *)
Definition ex_more : list item :=
  ex_file 23 3 2 [] [] [] [4; 3; 2] [IUnabbrev 7 [0; 4; 0]; IBlock 11 4 1 [IUnabbrev 1 [1]]; IUnabbrev 99 [1; 2]].
Definition ex_loaded : list bitcode_module :=
  [mkBitcodeModule (mkIdentification [76; 76; 86; 77; 49; 52] 0) (mkModule [104] [] []) [109; 97; 105; 110; 103; 114; 112] None].

(** What a buffer loads to, or how it fails, depends on nothing but the known parts of its blocks: of a module the records of
    ten kinds, each kind by itself, and the blocks of five kinds; of the tables the first records. *)
Theorem C79_loading_depends_on_known_parts_partial : forall e host buf1 buf2 w1 w2 b1 b2 f1 f2,
  from e buf1 = Ok (w1, b1) -> from e buf2 = Ok (w2, b2) ->
  stream_is e (bs_parser b1) f1 -> stream_is e (bs_parser b2) f2 -> Forall2 same_top f1 f2 ->
  bitcode_of e host buf1 = bitcode_of e host buf2.
Proof. exact buffers_like. Qed.
Print Assumptions C79_loading_depends_on_known_parts_partial.

(** Hence for streams as LLVM writes them. *)
Theorem C79_written_files_partial : forall e host m1 m2 l1 l2 bits1 bits2,
  write_stream m1 l1 = Some bits1 -> write_stream m2 l2 = Some bits2 ->
  forallb (item_small (alloc_limit e)) l1 = true -> forallb (item_small (alloc_limit e)) l2 = true ->
  m1 <> 0x0b17c0de -> m2 <> 0x0b17c0de -> Forall2 same_top (trees l1) (trees l2) ->
  bitcode_of e host (bytes_of_bits bits1) = bitcode_of e host (bytes_of_bits bits2).
Proof. exact written_like. Qed.
Print Assumptions C79_written_files_partial.

(** Parts that are not known may be put anywhere into a module; the order of records of different kinds, of blocks of different
    kinds, and of records and blocks is free; fields may be added to VERSION, FUNCTION and ALIAS records that are complete. *)
Theorem C79_modules_partial : forall a b,
  (forall x, unknown_part x -> same_module (a ++ b) (a ++ x :: b)) /\
  (forall x y, exchangeable x y -> same_module (a ++ x :: y :: b) (a ++ y :: x :: b)) /\
  (forall ab ab' c n f more, In (c, n) [(1, 1%nat); (8, 14%nat); (14, 10%nat)] -> (n <= length f)%nat ->
     same_module (a ++ TRec ab c f :: b) (a ++ TRec ab' c (f ++ more) :: b)).
Proof.
  intros a b. split; [intros x; apply unknown_skipped|]. split; [intros x y; apply exchange_order|].
  intros ab ab' c n f more. apply more_fields.
Qed.
Print Assumptions C79_modules_partial.

(** Fields may be added to all records of a TYPE block but those that are lists, once they are complete; blocks may be put into
    TYPE, PARAMATTR, PARAMATTR_GROUP and FUNCTION blocks. *)
Theorem C79_types_partial : forall v1 v2 l1 l2 a b,
  (forall ab ab' c n f more,
     In (c, n) [(1, 1%nat); (2, 0%nat); (3, 0%nat); (4, 0%nat); (5, 0%nat); (6, 0%nat); (7, 1%nat); (8, 2%nat); (10, 0%nat); (11, 2%nat);
                (12, 3%nat); (13, 0%nat); (14, 0%nat); (15, 0%nat); (16, 0%nat); (17, 0%nat); (22, 0%nat); (23, 0%nat); (24, 0%nat); (25, 1%nat)] ->
     (n <= length f)%nat ->
     same_types (TBlk v1 l1 (a ++ TRec ab c f :: b)) (TBlk v2 l2 (a ++ TRec ab' c (f ++ more) :: b))) /\
  (forall w l body, same_contents (TBlk v1 l1 (a ++ b)) (TBlk v2 l2 (a ++ TBlk w l body :: b)) /\
                    same_types (TBlk v1 l1 (a ++ b)) (TBlk v2 l2 (a ++ TBlk w l body :: b))).
Proof. intros v1 v2 l1 l2 a b. split; [intros ab ab' c n f more; apply more_type_fields|intros w l body; apply sub_blocks_skipped]. Qed.
Print Assumptions C79_types_partial.

Example C79_example :
  ex_written ex_plain /\ ex_written ex_more /\ Forall2 same_top (trees ex_plain) (trees ex_more) /\
  bitcode_of debug_env [104] (ex_bytes ex_plain) = Ok ex_loaded /\ bitcode_of debug_env [104] (ex_bytes ex_more) = Ok ex_loaded.
Proof.
  split; [split; [vm_compute; discriminate|vm_compute; reflexivity]|]. split; [split; [vm_compute; discriminate|vm_compute; reflexivity]|].
  split; [|split; vm_compute; reflexivity].
  unfold trees, ex_plain, ex_more, ex_file. cbn [app flat_map item_trees N.eqb Pos.eqb].
  constructor; [apply same_top_self|]. constructor; [|constructor; [apply same_top_self|constructor]].
  apply StModule. apply same_lists; intros c I; cbn [module_kinds In] in I; decompose [or] I; subst; try reflexivity; contradiction.
Qed.
Example C79_modules_example :
  let f := TRec None 8 [0; 4; 1; 0; 0; 3; 0; 5; 0; 0; 0; 1; 0; 2] in let g := TRec None 12 [4; 3; 2] in
  unknown_part (TRec None 7 [0; 4; 0]) /\ unknown_part (TBlk 15 8 []) /\ exchangeable f g /\ exchangeable f (TBlk 17 12 []) /\
  same_module [f; g] [g; f] /\ same_module [f] [TRec (Some 4) 8 [0; 4; 1; 0; 0; 3; 0; 5; 0; 0; 0; 1; 0; 2; 9; 9]] /\
  same_types (TBlk 17 8 [TRec None 7 [32]]) (TBlk 17 12 [TRec None 7 [32; 1]]) /\
  ~ same_module [g] [] /\ ~ same_module [TRec None 5 [97; 98]; TRec None 5 [99; 100]] [TRec None 5 [99; 100]; TRec None 5 [97; 98]].
Proof.
  intros f g. split; [cbn; lia|]. split; [cbn; lia|]. split; [discriminate|]. split; [exact I|]. split; [|split; [|split; [reflexivity|split]]].
  - apply (exchange_order [] f g []). discriminate.
  - apply (more_fields [] [] None (Some 4) 8 14 [0; 4; 1; 0; 0; 3; 0; 5; 0; 0; 0; 1; 0; 2] [9; 9]); cbn; auto.
  - intros [R _ _ _]. specialize (R 12 ltac:(cbn; tauto)). discriminate R.
  - intros [R _ _ _]. specialize (R 5 ltac:(cbn; tauto)). discriminate R.
Qed.

(** Elsewhere a record of an unknown kind is an error: in TYPE blocks, attribute groups and attribute lists; COMDAT records with
    more fields are, too. *)
Theorem C79_refused_partial : forall e,
  (forall b r t, In r (b_records b) -> 25 < r_code r \/ r_code r = 0 -> type_table_of e b <> Ok t) /\
  (forall b r m, In r (b_records b) -> r_code r <> 3 -> attr_groups_of b <> Ok m) /\
  (forall g b r l, In r (b_records b) -> r_code r <> 2 -> attributes_of g b <> Ok l) /\
  (forall version t r d, length (r_fields r) <> 3%nat -> comdat_of e version t r <> Ok d).
Proof.
  intros e. exact (conj (types_refused e) (conj groups_refused (conj attributes_refused (comdat_exact_length e)))).
Qed.
Print Assumptions C79_refused_partial.

Theorem C79_unknown_types_are_skipped_refuted : exists nt n r,
  ex_written (ex_file n nt 2 [] [r] [] [4; 3; 2] []) /\ bitcode_of debug_env [104] (ex_bytes ex_plain) = Ok ex_loaded /\
  bitcode_of debug_env [104] (ex_bytes (ex_file n nt 2 [] [r] [] [4; 3; 2] [])) = Err (BcModule (MdTypes (TtUnknownCode 26))).
Proof. exists 4, 19, (IUnabbrev 26 [0]). split; [split; [vm_compute; discriminate|vm_compute; reflexivity]|]. split; vm_compute; reflexivity. Qed.
Print Assumptions C79_unknown_types_are_skipped_refuted.
Theorem C79_unknown_attribute_records_are_skipped_refuted : exists n r,
  ex_written (ex_file n 3 2 [] [] [r] [4; 3; 2] []) /\ bitcode_of debug_env [104] (ex_bytes ex_plain) = Ok ex_loaded /\
  bitcode_of debug_env [104] (ex_bytes (ex_file n 3 2 [] [] [r] [4; 3; 2] [])) = Err (BcModule (MdAttributes (AeUnknownCode 4))).
Proof. exists 18, (IUnabbrev 4 [7]). split; [split; [vm_compute; discriminate|vm_compute; reflexivity]|]. split; vm_compute; reflexivity. Qed.
Print Assumptions C79_unknown_attribute_records_are_skipped_refuted.
Theorem C79_additional_comdat_fields_are_skipped_refuted : exists n x,
  ex_written (ex_file n 3 2 [] [] [] [4; 3; 2; x] []) /\ bitcode_of debug_env [104] (ex_bytes ex_plain) = Ok ex_loaded /\
  bitcode_of debug_env [104] (ex_bytes (ex_file n 3 2 [] [] [] [4; 3; 2; x] [])) = Err (BcModule (MdComdat (CdTooShort 4))).
Proof. exists 18, 0. split; [split; [vm_compute; discriminate|vm_compute; reflexivity]|]. split; vm_compute; reflexivity. Qed.
Print Assumptions C79_additional_comdat_fields_are_skipped_refuted.
Theorem C79_unknown_top_level_blocks_are_skipped_refuted : exists b,
  ex_written (ex_file 18 3 2 [b] [] [] [4; 3; 2] []) /\ bitcode_of debug_env [104] (ex_bytes ex_plain) = Ok ex_loaded /\
  bitcode_of debug_env [104] (ex_bytes (ex_file 18 3 2 [b] [] [] [4; 3; 2] [])) = Err (BcUnroll (UUnexpectedBlock (BIr IbFullLtoGlobalValSummary))).
Proof. exists (IBlock 24 3 1 [IUnabbrev 1 [2]]). split; [split; [vm_compute; discriminate|vm_compute; reflexivity]|]. split; vm_compute; reflexivity. Qed.
Print Assumptions C79_unknown_top_level_blocks_are_skipped_refuted.
