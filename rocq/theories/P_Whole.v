(** Property theorems C92: what is loaded from a file is what LLVM loads from it.

    [llvm_file] and [proper_tables] are in FileSpec.v, [llvm_identification], [llvm_module_strings] and [terminated] in ModuleReaderSpec.v,
    [unrolled] and [stream_is] in UnrollSpec.v, [absent] and [all_with] in ModuleSpec.v, [pieces] in LayoutSpec.v. *)
From Verif Require Import Base Strings EnumModel SupportModel LayoutModel LayoutSpec CursorModel CursorSpec StreamModel StreamSpec StreamHist UnrollModel
  UnrollSpec UnrollApi AttributeModel AttributeSpec TablesModel TablesSpec TypeTableModel RecordModel ModuleModel ModuleSpec PipelineSpec FileSpec FileProofs
  ModuleReaderSpec ModuleReaderProofs.
Local Open Scope N_scope.

Lemma unrolled_records t b b' : unrolled t b -> unrolled t b' -> b_records b = b_records b'.
Proof. intros H H'. inversion H; subst. inversion H'; subst. congruence. Qed.

(** What LLVM's producer has to do with an identification, and LLVM's strings with a module. *)
Definition llvm_producer_of (ib : block) (i : identification) : Prop := forall p, llvm_identification ib = Some p ->
  id_epoch i mod 2 ^ 32 = 0 /\ exists r rs, all_with 1 ib (r :: rs) /\ p = utf8_encode (id_producer i) ++ concat (map llvm_bytes rs).
Definition llvm_strings_of (host : str) (mb : block) (m : module) : Prop := forall ls, llvm_module_strings mb = Some ls ->
  ((absent 2 mb /\ md_triple m = host /\ ls_triple ls = []) \/ (~ absent 2 mb /\ ls_triple ls = utf8_encode (md_triple m))) /\
  ((absent 4 mb /\ md_asm m = [] /\ ls_asm ls = []) \/
   (exists s, ls_asm ls = terminated (utf8_encode s) /\ pieces 10 s (md_asm m))).

(** *** C92: what is loaded from a file is what LLVM loads from it *)

(** The modules of a loaded file are LLVM's, in order: each has LLVM's string table; LLVM's producer is that of its identification, followed
    by further STRING records if there are any; triple and assembly are LLVM's where there is a record for them. Missing: the files only one of
    them loads (C81, C82), modules without a triple and identifications with several strings, see below. *)
Theorem C92_same_contents_partial : forall e host buf ms w b l mods st,
  N.of_nat (length buf) < 2 ^ 61 -> bitcode_of e host buf = Ok ms ->
  from e buf = Ok (w, b) -> stream_is e (bs_parser b) l -> proper_tables l -> llvm_file l = Some (mods, st) ->
  Forall2 (fun m d => f_strtab m = bm_strtab d /\
    exists i, f_identification m = Some i /\ (exists ib, unrolled i ib) /\ (exists mb, unrolled (f_module m) mb) /\
      (forall ib, unrolled i ib -> llvm_producer_of ib (bm_identification d)) /\
      (forall mb, unrolled (f_module m) mb -> llvm_strings_of host mb (bm_module d))) mods ms.
Proof.
  intros e host buf ms w b l mods st B H F S P L. destruct (loaded_like_llvm _ _ _ _ _ _ _ _ _ B H F S P L) as [X _].
  clear -X. induction X as [|m d mods ms (E & i & s & y & Ei & p & (C1 & C2 & _) & [D1 _ (mb & c & fns & als & D2 & D3) _]) _ IH]; constructor; [|exact IH].
  split; [exact E|]. exists i. cbn [tm_identification tm_module] in C1, C2. rewrite D2 in C2. cbn in C2.
  split; [exact Ei|]. split; [eauto|]. split; [eauto|]. split.
  - intros ib U q Q. apply (identification_described e); [|exact Q]. unfold identifies. rewrite (unrolled_records _ _ _ U C1). exact D1.
  - intros mb' U ls Q. pose proof (unrolled_records _ _ _ U C2) as R. unfold llvm_module_strings in Q. rewrite R in Q.
    destruct (strings_described _ _ _ _ _ _ _ _ D3) as [_ K]. destruct (K ls Q) as (_ & _ & _ & K1 & _ & K2). unfold absent in *. rewrite R. auto.
Qed.
Print Assumptions C92_same_contents_partial.

(** Of the modules that are loaded, LLVM reads version and strings exactly if the version, which the only VERSION record has, is at most 2.
    Its identifications it reads as in C89. *)
Theorem C92_read_by_llvm_partial : forall e host buf ms w b l mods st,
  N.of_nat (length buf) < 2 ^ 61 -> bitcode_of e host buf = Ok ms ->
  from e buf = Ok (w, b) -> stream_is e (bs_parser b) l -> proper_tables l -> llvm_file l = Some (mods, st) ->
  Forall (fun m =>
    forall mb, unrolled (f_module m) mb ->
      exists r v l, sole 1 mb r /\ r_fields r = v :: l /\ ((exists ls, llvm_module_strings mb = Some ls) <-> v <= 2)) mods.
Proof.
  intros e host buf ms w b l mods st B H F S P L. destruct (loaded_like_llvm _ _ _ _ _ _ _ _ _ B H F S P L) as [X _].
  clear -X. induction X as [|m d mods ms (E & i & s & y & Ei & p & (C1 & C2 & _) & [D1 _ (mb & c & fns & als & D2 & D3) _]) _ IH]; constructor; [|exact IH].
  cbn [tm_identification tm_module] in C1, C2. rewrite D2 in C2. cbn in C2.
  intros mb' U. pose proof (unrolled_records _ _ _ U C2) as R. destruct (strings_described _ _ _ _ _ _ _ _ D3) as [K _].
  destruct D3 as [[(r & vl & V1 & V2) _ _ _ _ _ _ _ _ _] _ _ _ _ _ _]. exists r, (cx_version c), vl.
  unfold sole, llvm_module_strings in *. rewrite R. auto.
Qed.
Print Assumptions C92_read_by_llvm_partial.

(** One module with a triple and two lines of assembly, one without. *)
Definition wh_ident (c : N) : item := IBlock 13 5 4 [IUnabbrev 1 [76; 76; 86; 77; 49; c]; IUnabbrev 2 [0]].
Definition wh_module (words : N) (l : list item) : item :=
  IBlock 8 3 words (IUnabbrev 1 [2] :: l ++ [IBlock 17 4 3 [IUnabbrev 1 [2]; IUnabbrev 7 [32]; IUnabbrev 21 [0; 0; 0]]; IBlock 14 4 1 []]).
Definition wh_strtab : item := IBlock 23 3 4 [IDefine [OpLiteral 1; OpBlob]; IAbbrev 4 1 [109; 97; 105; 110; 103; 114; 112]].
Definition wh_file : list item :=
  [wh_ident 50; wh_module 15 [IUnabbrev 2 (lit "arm-none"); IUnabbrev 4 [97; 98; 10; 99]]; wh_ident 51; wh_module 10 []; wh_strtab].
Definition wh_bytes (l : list item) : list byte :=
  match write_stream 0xdec04342 l with Some b => bytes_of_bits b | None => [] end.
Definition wh_table : list N := [109; 97; 105; 110; 103; 114; 112].
Definition wh_loaded : list bitcode_module :=
  [mkBitcodeModule (mkIdentification (lit "LLVM12") 0) (mkModule (lit "arm-none") [lit "ab"; lit "c"] []) wh_table None;
   mkBitcodeModule (mkIdentification (lit "LLVM13") 0) (mkModule (lit "host") [] []) wh_table None].
Example C92_example :
  write_stream 0xdec04342 wh_file <> None /\ bitcode_of debug_env (lit "host") (wh_bytes wh_file) = Ok wh_loaded /\
  (exists w b, from debug_env (wh_bytes wh_file) = Ok (w, b) /\ stream_is debug_env (bs_parser b) (trees wh_file)) /\
  proper_tables (trees wh_file) /\
  (exists m1 m2, llvm_file (trees wh_file) = Some ([m1; m2], []) /\ f_strtab m1 = wh_table /\ f_strtab m2 = wh_table /\
     (forall mb, unrolled (f_module m1) mb -> exists ls, llvm_module_strings mb = Some ls /\ ls_triple ls = lit "arm-none" /\ ls_asm ls = [97; 98; 10; 99; 10])).
Proof.
  split; [vm_compute; discriminate|]. split; [vm_compute; reflexivity|].
  split; [do 2 eexists; split; [vm_compute; reflexivity|]; exists (S (length (flat_map flat (trees wh_file)))); vm_compute; reflexivity|].
  assert (T : exists t, trees wh_file = t /\ t = ltac:(let t := eval vm_compute in (trees wh_file) in exact t)) by (eexists; split; vm_compute; reflexivity).
  destruct T as (t & -> & T). split.
  - subst t. unfold proper_tables.
    repeat (apply Forall_cons; [cbn [is_top]; intros [X|X]; try (vm_compute in X; discriminate X); cbn [one_blob];
      do 2 eexists; exists [], []; (split; [|split; [cbn [records_in flat_map app]; reflexivity|apply Forall_nil]]; discriminate)|]).
    apply Forall_nil.
  - subst t. do 2 eexists. split; [vm_compute; reflexivity|]. split; [reflexivity|]. split; [reflexivity|].
    intros mb U. cbn [f_module] in U. inversion U as [? ? ? ? ? R]; subst. unfold llvm_module_strings. rewrite R. eexists. split; [vm_compute; reflexivity|]. split; reflexivity.
Qed.

(** Without a TRIPLE record LLVM has the empty triple; what is loaded has another one. *)
Theorem C92_same_contents_refuted : exists l d1 d2 m1 m2,
  write_stream 0xdec04342 l <> None /\ bitcode_of debug_env (lit "host") (wh_bytes l) = Ok [d1; d2] /\ llvm_file (trees l) = Some ([m1; m2], []) /\
  exists mb ls, unrolled (f_module m2) mb /\ llvm_module_strings mb = Some ls /\ ls_triple ls <> utf8_encode (md_triple (bm_module d2)).
Proof.
  destruct C92_example as (X1 & X2 & (w & b & X3 & X4) & X5 & m1 & m2 & X6 & _).
  exists wh_file. do 2 eexists. exists m1, m2. split; [exact X1|]. split; [exact X2|]. split; [exact X6|].
  assert (Hs : N.of_nat (length (wh_bytes wh_file)) < 2 ^ 61) by (vm_compute; reflexivity).
  pose proof (C92_same_contents_partial _ _ _ _ _ _ _ _ _ Hs X2 X3 X4 X5 X6) as F.
  inversion F as [|? ? ? ? _ F2]; subst. inversion F2 as [|? ? ? ? (_ & i & _ & _ & (mb & U) & _) _]; subst.
  assert (E : f_module m2 = TBlk 8 40 [TRec None 1 [2]; TBlk 17 12 [TRec None 1 [2]; TRec None 7 [32]; TRec None 21 [0; 0; 0]]; TBlk 14 4 []]).
  { vm_compute in X6. injection X6 as <- <-. reflexivity. }
  rewrite E in *. exists mb. inversion U as [? ? ? ? ? R]; subst. unfold llvm_module_strings. rewrite R. eexists.
  split; [exact U|]. split; [vm_compute; reflexivity|]. discriminate.
Qed.
Print Assumptions C92_same_contents_refuted.
