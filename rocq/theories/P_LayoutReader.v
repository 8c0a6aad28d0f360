(** C90: data layout strings compared with LLVM's parser. *)
From Verif Require Import Base Strings SupportModel SupportSpec LayoutModel LayoutSpec LayoutMain LayoutReaderSpec
  LayoutReaderProofs.
Local Open Scope N_scope.

(** C90, the full statement: "the code accepts the data layout strings LLVM accepts, and what it
    reads is what LLVM reads". It is false in several ways (the [_refuted] theorems below). What
    holds: a string both accept says the same, specification by specification. *)
Theorem C90_same_settings_partial : forall v d ys,
  layout_from_str v = Ok d -> llvm_layout v ys ->
  exists xs, holds d xs /\ Forall2 means (specs v) xs /\ Forall2 same_setting xs ys.
Proof. exact layout_same. Qed.
Print Assumptions C90_same_settings_partial.

(** The components of the layout are then LLVM's: the byte order if the string settles it, the
    native integers and the non-integral address spaces if they are given at most once. *)
Theorem C90_same_layout_partial : forall v d ys,
  layout_from_str v = Ok d -> llvm_layout v ys ->
  ((exists e, In (LsEndian e) ys) -> dl_endianness d = llvm_endianness ys) /\
  option_map bytes_of (dl_stack d) = llvm_stack ys /\
  dl_program_space d = llvm_program_space ys /\
  dl_global_space d = llvm_globals_space ys /\
  dl_alloca_space d = llvm_alloca_space ys /\
  option_map letter_of (dl_mangling d) = llvm_mangling ys /\
  option_map fn_align (dl_fn_ptr d) = llvm_fn_align ys /\
  ((natives ys <= 1)%nat -> dl_native d = llvm_native ys) /\
  ((non_integrals ys <= 1)%nat -> dl_non_integral d = llvm_non_integral ys).
Proof. exact components. Qed.
Print Assumptions C90_same_layout_partial.

(** The types the string gives an alignment to have the alignments LLVM gives them. *)
Theorem C90_same_type_alignments_partial : forall v d ys k width abi pref,
  layout_from_str v = Ok d -> llvm_layout v ys -> llvm_type_align k width ys = Some (abi, pref) ->
  exists t, spec_for (llvm_key k width) (dl_types d) = Some t /\ bytes_of (ts_abi t) = abi /\ bytes_of (ts_pref t) = pref.
Proof. exact layout_types. Qed.
Print Assumptions C90_same_type_alignments_partial.

(** For every address space the last entry of the layout is LLVM's; there is none if LLVM has none. Earlier entries
    of the same address space, which LLVM replaces, stay in front of it. *)
Theorem C90_same_pointers_partial : forall v d ys sp,
  layout_from_str v = Ok d -> llvm_layout v ys ->
  match llvm_pointer sp ys with
  | Some q => exists earlier p, specs_of sp (dl_pointers d) = earlier ++ [p] /\ same_pointer p q
  | None => specs_of sp (dl_pointers d) = []
  end.
Proof. exact layout_pointers. Qed.
Print Assumptions C90_same_pointers_partial.

(** Of the strings LLVM accepts, the code accepts exactly the nonempty ones in ASCII whose specifications it has room for. *)
Theorem C90_accepted_partial : forall v ys, llvm_layout v ys ->
  (exists d, layout_from_str v = Ok d) <-> is_ascii v = true /\ v <> [] /\ Forall2 has_room (specs v) ys.
Proof. exact layout_room_iff. Qed.
Print Assumptions C90_accepted_partial.

(** Of the strings the code accepts, LLVM accepts exactly the ones whose specifications it can read and has room for. *)
Theorem C90_accepted_by_llvm_partial : forall v d,
  layout_from_str v = Ok d ->
  exists xs, holds d xs /\ Forall2 means (specs v) xs /\
    ((exists ys, llvm_layout v ys) <-> Forall2 (fun s x => readable s x /\ llvm_room s x) (specs v) xs).
Proof.
  intros v d H. apply layout_main in H as (_ & xs & HM & HH). exists xs. split; [exact HH|]. split; [exact HM|].
  apply layout_room_back; [|exact HM].
  intros ->. cbn in HM. inversion HM as [|? ? ? ? X]; subst. inversion X.
Qed.
Print Assumptions C90_accepted_by_llvm_partial.

Definition c90_text : str := lit "e-m:e-p270:32:32-p:64:64:64:32-i64:64:128-a:64-S128-Fn32-A5-n8:16-ni:7:8".
Definition c90_settings : list llvm_setting :=
  [LsEndian Little; LsMangling (ch "e"); LsPointer 270 4 4 4 4; LsPointer 0 8 8 8 4; LsType LkInteger 64 8 16;
   LsType LkAggregate 0 8 8; LsStack 16; LsFnMultiple 4; LsAlloca 5; LsNative [8; 16]; LsNonIntegral [7; 8]].
Lemma c90_reads : llvm_layout c90_text c90_settings.
Proof.
  right. change (specs c90_text) with (map lit ["e"; "m:e"; "p270:32:32"; "p:64:64:64:32"; "i64:64:128"; "a:64"; "S128"; "Fn32"; "A5"; "n8:16"; "ni:7:8"]%string).
  cbn [map]. repeat (apply Forall2_cons); [..|apply Forall2_nil]; in_pieces.
  - apply LpLittle.
  - apply LpMangling. vm_compute. auto.
  - apply (LpPointer (lit "270")); try an_int; try discriminate; [right; split; [an_int|reflexivity]|exists 2; reflexivity|apply LprNone].
  - apply (LpPointer []); try an_int; try discriminate; [left; auto|exists 3; reflexivity|].
    apply LprIndex; try an_int; try discriminate. exists 3. reflexivity.
  - apply (LpType LkInteger (lit "64")); try an_int; try discriminate; try reflexivity;
      [right; an_int|right; exists 3; reflexivity| |right; exists 4; reflexivity].
    apply LtrPref; [an_int|discriminate].
  - apply (LpType LkAggregate []); try an_int; try discriminate; try reflexivity;
      [left; auto|right; exists 3; reflexivity|apply LtrNone|right; exists 3; reflexivity].
  - apply LpStack; [an_int|right; exists 4; reflexivity].
  - apply LpFnMultiple; [an_int|right; exists 2; reflexivity].
  - apply LpAlloca. split; [an_int|reflexivity].
  - apply (LpNative (lit "8")). repeat (constructor; [split; [an_int|discriminate]|]). constructor.
  - apply LpNonIntegral. repeat (constructor; [split; [an_int|discriminate]|]). constructor.
Qed.
(** A string both accept. *)
Example C90_example :
  llvm_layout c90_text c90_settings /\
  exists d, layout_from_str c90_text = Ok d /\ dl_endianness d = Little /\ dl_native d = [8; 16] /\
    dl_stack d = Some (mkAlign 4) /\ dl_fn_ptr d = Some (FpMultiple (mkAlign 2)) /\ dl_alloca_space d = 5 /\
    llvm_type_align LkInteger 64 c90_settings = Some (8, 16) /\ llvm_pointer 0 c90_settings = Some (8, 8, 8, 4) /\
    specs_of 0 (dl_pointers d) = [ptr_spec_default; mkPtrSpec 0 (mkAlign 3) (mkAlign 3) 64 32] /\
    spec_for (AtInteger 64) (dl_types d) = Some (mkTypeSpec (AtInteger 64) (mkAlign 3) (mkAlign 4)).
Proof. split; [exact c90_reads|]. eexists. split; [vm_compute; reflexivity|]. repeat split. Qed.

(** What neither side looks at. *)
Example C90_ignored_text_example :
  llvm_layout (lit "e+x-i64:64:64:+7") [LsEndian Little; LsType LkInteger 64 8 8] /\
  exists d, layout_from_str (lit "e+x-i64:64:64:+7") = Ok d.
Proof.
  split; [|eexists; vm_compute; reflexivity].
  right. repeat (apply Forall2_cons); [..|apply Forall2_nil]; in_pieces; [apply LpLittle|].
  apply (LpType LkInteger (lit "64")); try an_int; try discriminate; try reflexivity;
    [right; an_int|right; exists 3; reflexivity| |right; exists 3; reflexivity].
  apply LtrPref; [an_int|discriminate].
Qed.

(** Native integers: LLVM collects them, the code keeps the last specification. *)
Theorem C90_native_integers_refuted : exists v d ys,
  layout_from_str v = Ok d /\ llvm_layout v ys /\ dl_native d = [16] /\ llvm_native ys = [8; 16].
Proof.
  exists (lit "n8-n16"). eexists. exists [LsNative [8]; LsNative [16]].
  split; [vm_compute; reflexivity|]. split; [|split; reflexivity].
  right. repeat (apply Forall2_cons); [..|apply Forall2_nil]; in_pieces.
  - apply (LpNative (lit "8")). repeat (constructor; [split; [an_int|discriminate]|]). constructor.
  - apply (LpNative (lit "16")). repeat (constructor; [split; [an_int|discriminate]|]). constructor.
Qed.
Print Assumptions C90_native_integers_refuted.

(** Non-integral address spaces: likewise. *)
Theorem C90_non_integral_refuted : exists v d ys,
  layout_from_str v = Ok d /\ llvm_layout v ys /\ dl_non_integral d = [2] /\ llvm_non_integral ys = [1; 2].
Proof.
  exists (lit "ni:1-ni:2"). eexists. exists [LsNonIntegral [1]; LsNonIntegral [2]].
  split; [vm_compute; reflexivity|]. split; [|split; reflexivity].
  right. change (specs (lit "ni:1-ni:2")) with (map lit ["ni:1"; "ni:2"]%string). cbn [map].
  repeat (apply Forall2_cons); [..|apply Forall2_nil]; in_pieces.
  - apply LpNonIntegral. repeat (constructor; [split; [an_int|discriminate]|]). constructor.
  - apply LpNonIntegral. repeat (constructor; [split; [an_int|discriminate]|]). constructor.
Qed.
Print Assumptions C90_non_integral_refuted.

(** A string that does not settle the byte order. *)
Theorem C90_byte_order_refuted : exists v d ys,
  layout_from_str v = Ok d /\ llvm_layout v ys /\ dl_endianness d = Big /\ llvm_endianness ys = Little.
Proof.
  exists (lit "S128"). eexists. exists [LsStack 16].
  split; [vm_compute; reflexivity|]. split; [|split; reflexivity].
  right. repeat (apply Forall2_cons); [..|apply Forall2_nil]; in_pieces.
  apply LpStack; [an_int|right; exists 4; reflexivity].
Qed.
Print Assumptions C90_byte_order_refuted.

(** 64-bit integers the string does not mention: LLVM aligns them to 4 bytes by default, preferably 8 (the entry
    [i64:32:64] of its table of defaults); the code to 8. *)
Theorem C90_default_alignment_refuted : exists v d ys,
  layout_from_str v = Ok d /\ llvm_layout v ys /\ llvm_type_align LkInteger 64 ys = None /\
  exists t, spec_for (AtInteger 64) (dl_types d) = Some t /\ (bytes_of (ts_abi t), bytes_of (ts_pref t)) <> (4, 8).
Proof.
  exists (lit "e"). eexists. exists [LsEndian Little].
  split; [vm_compute; reflexivity|]. split; [|split; [reflexivity|]].
  - right. repeat (apply Forall2_cons); [..|apply Forall2_nil]; in_pieces. apply LpLittle.
  - eexists. split; [vm_compute; reflexivity|]. vm_compute. discriminate.
Qed.
Print Assumptions C90_default_alignment_refuted.

(** LLVM accepts [a:0], the alignment its own targets give to aggregates; the code does not. It also
    refuses the empty string. *)
Theorem C90_accepted_refuted : exists v w ys,
  llvm_layout v ys /\ w = [] /\ llvm_layout w [] /\
  (forall d, layout_from_str v <> Ok d) /\ (forall d, layout_from_str w <> Ok d).
Proof.
  exists (lit "e-a:0:32"), [], [LsEndian Little; LsType LkAggregate 0 0 4].
  split; [|split; [reflexivity|split; [left; auto|split; intros d; vm_compute; discriminate]]].
  right. repeat (apply Forall2_cons); [..|apply Forall2_nil]; in_pieces.
  - apply LpLittle.
  - apply (LpType LkAggregate []); try an_int; try discriminate; try reflexivity;
      [left; auto| |left; reflexivity| |right; exists 2; reflexivity].
    + intros X. exfalso. apply X. reflexivity.
    + apply LtrPref; [an_int|discriminate].
Qed.
Print Assumptions C90_accepted_refuted.

(** The code accepts pointers of no size, and numbers with a plus sign; LLVM does not. *)
Theorem C90_accepted_by_llvm_refuted : exists v w,
  (exists d, layout_from_str v = Ok d) /\ (exists d, layout_from_str w = Ok d) /\ Forall2 readable (specs v) [SPointer (mkPtrSpec 0 (mkAlign 3) (mkAlign 3) 0 0)] /\
  (forall ys, ~ llvm_layout v ys) /\ (forall ys, ~ llvm_layout w ys).
Proof.
  exists (lit "p:0:64"), (lit "S+8"). split; [eexists; vm_compute; reflexivity|]. split; [eexists; vm_compute; reflexivity|].
  assert (M : means (lit "p:0:64") (SPointer (mkPtrSpec 0 (mkAlign 3) (mkAlign 3) 0 0))).
  { apply MePointer. apply (PtText _ _ [] (lit "0") (lit "64") [] 0 0 (mkAlign 3) (mkAlign 3) 0);
      try reflexivity; [apply split_pieces; reflexivity|left; auto|left; a_numeral|]. split; [left; a_numeral|discriminate]. }
  split; [|split].
  - constructor; [|constructor]. intros l H. apply split_pieces in H. subst l. vm_compute. split; [discriminate|].
    intros _ p Hp X. repeat (destruct Hp as [<-|Hp]; [repeat (destruct X as [X|X]; [discriminate|]); exact X|]). exact Hp.
  - intros ys [[X _]|X]; [discriminate|]. inversion X as [|? y ? ? H _]; subst.
    pose proof (accepted_room _ _ _ M H) as (_ & (R & _) & _). discriminate R.
  - intros ys [[X _]|X]; [discriminate|]. inversion X as [|? y ? ? H _]; subst.
    assert (N : means (lit "S+8") (SStack (mkAlign 0))).
    { apply MeStack. split; [|discriminate]. right. exists (lit "8"). split; [reflexivity|]. a_numeral. }
    pose proof (accepted_readable _ _ _ N H [lit "S+8"]) as R.
    destruct R as [_ R]; [apply split_pieces; reflexivity|].
    apply (R ltac:(discriminate) (lit "S+8")); vm_compute; auto.
Qed.
Print Assumptions C90_accepted_by_llvm_refuted.
