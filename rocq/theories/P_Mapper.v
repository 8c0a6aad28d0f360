(** The properties C31, C33 to C38, C47, C48 of llvm-mapper and those that follow. *)
From Verif Require Import Base Strings EnumModel SupportModel UnrollModel UnrollSpec
  AttributeModel AttributeSpec AttributeMain TablesModel TablesSpec TablesProofs StringsProofs Utf8Proofs
  TypeTableModel TypeTableSpec RecursionSpec TypeTableProofs TypeTableMain TypeTableExact.
From Coq Require Import Lia.
Local Open Scope N_scope.

(** *** C31: string tables *)

(** Complete for references whose end is a 64-bit number. *)
Theorem C31_lookup_partial : forall e t offset size, offset + size < 2 ^ 64 ->
  (forall s, strtab_try_get e t offset size = Ok s <-> size <> 0 /\ stored t offset size s) /\
  (strtab_try_get e t offset size = Err SbBadRange <-> size = 0 \/ N.of_nat (length t) < offset + size) /\
  ((forall x, strtab_try_get e t offset size = Err (SbBadString x) <->
      size <> 0 /\ exists before raw after, t = before ++ raw ++ after /\ N.of_nat (length before) = offset /\
        N.of_nat (length raw) = size /\ utf8_fault raw x) /\
   ((exists x, strtab_try_get e t offset size = Err (SbBadString x)) <->
      size <> 0 /\ offset + size <= N.of_nat (length t) /\ forall s, ~ stored t offset size s)) /\
  (forall p, strtab_try_get e t offset size <> Panic p) /\ strtab_try_get e t offset size <> OutOfFuel.
Proof. exact strtab_lookup. Qed.
Print Assumptions C31_lookup_partial.

Theorem C31_get_partial : forall e t offset size, offset + size < 2 ^ 64 ->
  (forall s, strtab_get e t offset size = Ok (Some s) <-> size <> 0 /\ stored t offset size s) /\
  (strtab_get e t offset size = Ok None <-> forall s, ~ (size <> 0 /\ stored t offset size s)) /\
  (exists o, strtab_get e t offset size = Ok o).
Proof. exact strtab_get_is_try_get. Qed.
Print Assumptions C31_get_partial.

(** Outside that range the lookup panics if the range begins inside the table. *)
Theorem C31_panics_exactly : forall e t offset size, offset < 2 ^ 64 -> size < 2 ^ 64 ->
  ((exists p, strtab_try_get e t offset size = Panic p) <-> offset < N.of_nat (length t) /\ 2 ^ 64 <= offset + size).
Proof. exact strtab_panic. Qed.
Print Assumptions C31_panics_exactly.

Theorem C31_never_panics_refuted : forall e, exists t offset size p,
  offset < 2 ^ 64 /\ size < 2 ^ 64 /\ strtab_try_get e t offset size = Panic p.
Proof. exact strtab_can_panic. Qed.
Print Assumptions C31_never_panics_refuted.

(** A string table is the first blob of its block. *)
Theorem C31_table_is_the_blob : forall e b r, first_record 1 (b_records b) r -> (2 <= length (r_fields r))%nat ->
  (forall t, strtab_of e b = Ok t <-> t = r_fields r /\ Forall (fun f => f < 256) t) /\
  (forall p, strtab_of e b <> Panic p) /\ strtab_of e b <> OutOfFuel.
Proof. exact strtab_block. Qed.
Print Assumptions C31_table_is_the_blob.

(** "xmain" followed by the two bytes of U+00E9; the third byte of the table is not at a border. *)
Definition ex_strtab : list N := [120; 109; 97; 105; 110; 195; 169; 0].
Example C31_example :
  stored ex_strtab 1 4 [109; 97; 105; 110] /\ strtab_try_get debug_env ex_strtab 1 4 = Ok [109; 97; 105; 110] /\
  strtab_try_get debug_env ex_strtab 5 2 = Ok [233] /\ strtab_try_get debug_env ex_strtab 6 1 = Err (SbBadString (mkUtf8Err 0 (Some 1))) /\
  strtab_try_get debug_env ex_strtab 5 4 = Err SbBadRange /\ strtab_get debug_env ex_strtab 0 0 = Ok None /\
  strtab_try_get debug_env ex_strtab 1 (2 ^ 64 - 1) = Panic PAddOverflow /\
  strtab_try_get release_env ex_strtab 1 (2 ^ 64 - 1) = Panic PSliceRange.
Proof.
  split; [exists [120], [195; 169; 0]|]; vm_compute; repeat split; reflexivity.
Qed.
(** Where the text stops being one: inside a character at the end; after two bytes, after three bytes of a
    character; at a byte that begins none; at a surrogate. *)
Example C31_fault_example :
  strtab_try_get debug_env [97; 195] 0 2 = Err (SbBadString (mkUtf8Err 1 None)) /\
  strtab_try_get debug_env [226; 130; 40] 0 3 = Err (SbBadString (mkUtf8Err 0 (Some 2))) /\
  strtab_try_get debug_env [195; 169; 240; 159; 146; 40; 195] 0 7 = Err (SbBadString (mkUtf8Err 2 (Some 3))) /\
  strtab_try_get debug_env [97; 128; 97] 0 3 = Err (SbBadString (mkUtf8Err 1 (Some 1))) /\
  strtab_try_get debug_env [237; 160; 128] 0 3 = Err (SbBadString (mkUtf8Err 0 (Some 1))) /\
  utf8_fault [97; 195] (mkUtf8Err 1 None) /\ ~ utf8_fault [97; 195] (mkUtf8Err 1 (Some 1)).
Proof.
  do 5 (split; [vm_compute; reflexivity|]).
  assert (B : begins_char [195]) by (exists 233, [169]; split; reflexivity). split.
  - exists [97], [195], [97]. repeat split; try reflexivity; [discriminate| |exact B].
    intros c t S E. assert (X : exists s, utf8_decode (195 :: []) = Some s) by (destruct t; [exists [c]|];
      [apply utf8_exact; split; [cbn; now rewrite S|cbn; now rewrite app_nil_r, E, app_nil_r]|]; exfalso;
      apply (f_equal (@length N)) in E; rewrite app_length in E; pose proof (utf8_char_nonempty c) as K; destruct (utf8_char c); [congruence|cbn in E; lia]).
    destruct X as [s X]. discriminate X.
  - intros F. apply utf8_error_iff in F as [_ F]. discriminate F.
Qed.
Definition ex_strtab_block : block :=
  mkBlock (BIr IbStrtab) [mkRecord None 9 []; mkRecord (Some 4) 1 ex_strtab; mkRecord None 1 [1; 2]] [].
Example C31_block_example :
  first_record 1 (b_records ex_strtab_block) (mkRecord (Some 4) 1 ex_strtab) /\
  strtab_of debug_env ex_strtab_block = Ok ex_strtab.
Proof.
  split; [|reflexivity]. exists [mkRecord None 9 []], [mkRecord None 1 [1; 2]].
  split; [reflexivity|]. split; [reflexivity|]. repeat constructor. discriminate.
Qed.

(** *** C33: type tables *)

(** Complete for blocks in which no named or opaque struct directly follows a struct, and whose
    names are not empty. *)
Theorem C33_table_partial : forall e b T, Forall named_fields (b_records b) -> apart false (b_records b) ->
  (type_table_of e b = Ok T <-> announced e b (N.of_nat (length T)) /\ lists T [] (b_records b) T).
Proof. exact type_table_lists. Qed.
Print Assumptions C33_table_partial.

(** Without the first condition: the exact behaviour, including the merging of structs. *)
Theorem C33_table_with_merging : forall e b T, Forall named_fields (b_records b) ->
  (type_table_of e b = Ok T <-> announced e b (N.of_nat (length T)) /\ type_turns T [] [] (b_records b) T).
Proof. exact type_table_exact. Qed.
Print Assumptions C33_table_with_merging.

(** An anonymous struct and a named one become one entry. *)
Theorem C33_every_record_is_an_entry_refuted : exists e b T, Forall named_fields (b_records b) /\
  type_table_of e b = Ok T /\ length (entry_records (b_records b)) <> length T /\ ~ lists T [] (b_records b) T.
Proof. exact merging_happens. Qed.
Print Assumptions C33_every_record_is_an_entry_refuted.

(** i32; a pointer to it; "ab"; { i32, i32* } with this name; [3 x %ab]; void (i32, ...);
    <4 x i32>; <vscale x 2 x i32*>; an opaque struct; a pointer in address space 1. *)
Definition ex_types_block : block := mkBlock (BIr IbType)
  [mkRecord None 1 [10]; mkRecord None 7 [32]; mkRecord None 8 [0; 0]; mkRecord None 19 [97; 98];
   mkRecord None 20 [0; 0; 1]; mkRecord None 11 [3; 2]; mkRecord None 2 []; mkRecord None 21 [1; 4; 0];
   mkRecord None 12 [4; 0]; mkRecord None 12 [2; 1; 1]; mkRecord None 19 [111; 112]; mkRecord None 6 [0];
   mkRecord None 25 [1]] [].
Definition ex_types : list ty :=
  [TInteger 32; TPointer (TInteger 32) 0; TStruct (Some [97; 98]) [TInteger 32; TPointer (TInteger 32) 0] false;
   TArray 3 (TStruct (Some [97; 98]) [TInteger 32; TPointer (TInteger 32) 0] false); TVoid;
   TFunction TVoid [TInteger 32] true; TFixedVector 4 (TInteger 32); TScalableVector 2 (TPointer (TInteger 32) 0);
   TStruct (Some [111; 112]) [] false; TOpaquePointer 1].
Example C33_example :
  Forall named_fields (b_records ex_types_block) /\ apart false (b_records ex_types_block) /\
  announced debug_env ex_types_block (N.of_nat (length ex_types)) /\ lists ex_types [] (b_records ex_types_block) ex_types /\
  type_table_of debug_env ex_types_block = Ok ex_types.
Proof.
  assert (N : Forall named_fields (b_records ex_types_block)) by (repeat constructor; discriminate).
  assert (A : apart false (b_records ex_types_block)) by (cbn; auto).
  assert (T : type_table_of debug_env ex_types_block = Ok ex_types) by reflexivity.
  split; [exact N|]. split; [exact A|]. pose proof (proj1 (type_table_lists _ _ _ N A) T) as [T1 T2]. auto.
Qed.

(** *** C34: termination of type resolution *)

(** Complete for blocks without a cycle of references. *)
Theorem C34_acyclic_tables_terminate_partial : forall e b,
  apart false (b_records b) -> acyclic (b_records b) -> type_table_of e b <> OutOfFuel.
Proof. exact acyclic_terminates. Qed.
Print Assumptions C34_acyclic_tables_terminate_partial.

(** Running out of fuel means an infinite recursion: no amount of fuel changes the result. *)
Theorem C34_fuel_is_irrelevant : forall n P,
  (forall f, reify_with f n P <> OutOfFuel -> reify n P = reify_with f n P) /\
  (reify n P <> OutOfFuel -> forall f, (length P < f)%nat -> reify_with f n P = reify n P).
Proof. exact reify_more_fuel. Qed.
Print Assumptions C34_fuel_is_irrelevant.

(** A linked list: %ab = { i32, %ab* }. *)
Definition ex_recursive_block : block := mkBlock (BIr IbType)
  [mkRecord None 1 [3]; mkRecord None 7 [32]; mkRecord None 19 [97; 98]; mkRecord None 20 [0; 0; 2]; mkRecord None 8 [1; 0]] [].
(** Exactly when: the block announces the right number of entries, its records are read without an
    error, and resolving the entries in order gets into a path of references without end on which
    everything referred to earlier has a type. *)
Theorem C34_diverges_exactly : forall e b, type_table_of e b = OutOfFuel <->
  exists P name, announced e b (N.of_nat (length P)) /\ type_loop e (b_records b) ([], []) = Ok (P, name) /\
    exists path, (forall k, (k < path 0)%nat -> resolves P k) /\ descends P path.
Proof. exact type_table_endless. Qed.
Print Assumptions C34_diverges_exactly.
(** ... and then no amount of fuel helps. *)
Theorem C34_no_fuel_helps : forall n P, (forall f, reify_with f n P = OutOfFuel) <->
  n = N.of_nat (length P) /\ exists path, (forall k, (k < path 0)%nat -> resolves P k) /\ descends P path.
Proof. exact reify_endless. Qed.
Print Assumptions C34_no_fuel_helps.
Theorem C34_terminates_refuted : exists b P, Forall fields64 (b_records b) /\
  type_loop debug_env (b_records b) ([], []) = Ok (P, []) /\ type_table_of debug_env b = OutOfFuel /\
  forall n f, n = N.of_nat (length P) -> reify_with f n P = OutOfFuel.
Proof. exact recursion_diverges. Qed.
Print Assumptions C34_terminates_refuted.

Example C34_example :
  apart false (b_records ex_types_block) /\ acyclic (b_records ex_types_block) /\
  type_table_of debug_env ex_recursive_block = OutOfFuel.
Proof.
  split; [cbn; auto|]. split; [|reflexivity]. exists (fun k => k). intros k r i K I L. vm_compute in K, L.
  do 10 (destruct k as [|k]; [injection K as <-; vm_compute in I; repeat destruct I as [<- | I]; vm_compute; try lia; destruct I|]).
  destruct k; discriminate K.
Qed.

(** The path: 1 (the struct), 2 (the pointer), 1, 2, ...; 0 (i32) resolves. *)
Definition ex_recursive_entries : list ptype := [PtInteger 32; PtStruct (Some [97; 98]) [0; 2] false; PtPointer 1 0].
Example C34_diverges_example :
  announced debug_env ex_recursive_block 3 /\
  type_loop debug_env (b_records ex_recursive_block) ([], []) = Ok (ex_recursive_entries, []) /\
  let path j := if Nat.even j then 1%nat else 2%nat in
  (forall k, (k < path 0)%nat -> resolves ex_recursive_entries k) /\ descends ex_recursive_entries path.
Proof.
  assert (R : resolves ex_recursive_entries 0) by (exists (PtInteger 32), 1%nat, (TInteger 32); split; reflexivity).
  split; [exists (mkRecord None 1 [3]), []; split; [exists [], (tl (b_records ex_recursive_block)); repeat split; constructor|split; [reflexivity|vm_compute; discriminate]]|].
  split; [reflexivity|]. split.
  - intros [|k] L; [exact R|cbn in L; lia].
  - intros j. cbv zeta. rewrite Nat.even_succ, <- Nat.negb_even. destruct (Nat.even j); cbn [negb].
    + exists (PtStruct (Some [97; 98]) [0; 2] false), [0], 2, []. repeat split. constructor; [exact R|constructor].
    + exists (PtPointer 1 0), [], 1, []. repeat split. constructor.
Qed.

(** *** C35: mapped types obey the construction rules *)

(** The rules of [well_built]; "vectors are not empty" and "parameters are no opaque structs" are not among them. *)
Theorem C35_types_are_well_built_partial : forall e b T, type_table_of e b = Ok T -> Forall well_built T.
Proof. exact accepted_built. Qed.
Print Assumptions C35_types_are_well_built_partial.

Theorem C35_vectors_are_not_empty_refuted : exists e b T t,
  type_table_of e b = Ok T /\ In (TFixedVector 0 t) T /\ In (TScalableVector 0 t) T.
Proof.
  exists debug_env, (mkBlock (BIr IbType) [mkRecord None 1 [3]; mkRecord None 3 []; mkRecord None 12 [0; 0]; mkRecord None 12 [0; 0; 1]] []),
    [TFloat; TFixedVector 0 TFloat; TScalableVector 0 TFloat], TFloat.
  split; [reflexivity|]. cbn. auto.
Qed.
Print Assumptions C35_vectors_are_not_empty_refuted.

(** Entry 0 of the table is an opaque struct (code 6), the function (code 21) has it as its only parameter. LLVM:
    [FunctionType::isValidArgumentType] is [isFirstClassType], which an opaque struct is not (llvm/lib/IR/Type.cpp,
    llvm/include/llvm/IR/Type.h). *)
Theorem C35_parameters_are_not_opaque_refuted : exists e pre op mid fn post va ret T,
  Forall adds_nothing pre /\ r_code op = 6 /\ r_code fn = 21 /\ r_fields fn = [va; ret; 0] /\
  type_table_of e (mkBlock (BIr IbType) (pre ++ op :: mid ++ fn :: post) []) = Ok T.
Proof.
  exists debug_env, [mkRecord None 1 [3]; mkRecord None 19 [97; 98]], (mkRecord None 6 [0]), [mkRecord None 2 []], (mkRecord None 21 [0; 1; 0]), [], 0, 1,
    [TStruct (Some [97; 98]) [] false; TVoid; TFunction TVoid [TStruct (Some [97; 98]) [] false] false].
  split; [apply Forall_cons; [left; reflexivity|apply Forall_cons; [right; left; reflexivity|constructor]]|].
  repeat (split; [reflexivity|]). vm_compute. reflexivity.
Qed.
Print Assumptions C35_parameters_are_not_opaque_refuted.

Example C35_example : type_table_of debug_env ex_types_block = Ok ex_types /\ Forall well_built ex_types.
Proof. split; [reflexivity|]. exact (accepted_built debug_env ex_types_block _ eq_refl). Qed.
(** A struct with a function as a field, an array of labels and i0 are rejected. *)
Example C35_rejections :
  type_table_of debug_env (mkBlock (BIr IbType) [mkRecord None 1 [3]; mkRecord None 2 []; mkRecord None 21 [0; 0]; mkRecord None 18 [0; 1]] []) =
    Err (TtType (TeStructElement (TFunction TVoid [] false))) /\
  type_table_of debug_env (mkBlock (BIr IbType) [mkRecord None 1 [2]; mkRecord None 5 []; mkRecord None 11 [2; 0]] []) =
    Err (TtType (TeArrayElement TLabel)) /\
  type_table_of debug_env (mkBlock (BIr IbType) [mkRecord None 1 [1]; mkRecord None 7 [0]] []) = Err (TtType TeIntWidth).
Proof. vm_compute. auto. Qed.

(** *** C53: type tables that LLVM writes are accepted *)

(** Refuted: two named structs in a row are never accepted ... *)
Theorem C53_consecutive_named_structs_are_rejected : forall e b l1 r1 mid r2 l2, Forall named_fields (b_records b) ->
  b_records b = l1 ++ r1 :: mid ++ r2 :: l2 -> takes_name r1 -> takes_name r2 -> Forall adds_nothing mid ->
  forall T, type_table_of e b <> Ok T.
Proof. exact adjacent_rejected. Qed.
Print Assumptions C53_consecutive_named_structs_are_rejected.
(** ... nor are vectors of opaque pointers. *)
Theorem C53_vectors_of_pointers_are_rejected : forall e b n a T, type_table_of e b = Ok T ->
  ~ In (TFixedVector n (TOpaquePointer a)) T /\ ~ In (TScalableVector n (TOpaquePointer a)) T.
Proof. exact no_pointer_vectors. Qed.
Print Assumptions C53_vectors_of_pointers_are_rejected.

(** %ab = { i32 }, %cd = { float }; <2 x ptr>. *)
Theorem C53_consecutive_named_structs_refuted : exists b T, Forall named_fields (b_records b) /\
  announced debug_env b (N.of_nat (length T)) /\ lists T [] (b_records b) T /\ type_table_of debug_env b = Err (TtInvalid TfFull).
Proof. exact two_structs_rejected. Qed.
Print Assumptions C53_consecutive_named_structs_refuted.
Example C53_example :
  type_table_of debug_env two_structs = Err (TtInvalid TfFull) /\
  type_table_of debug_env (mkBlock (BIr IbType) [mkRecord None 1 [2]; mkRecord None 25 [0]; mkRecord None 12 [2; 0]] []) =
    Err (TtType (TeVectorElement (TOpaquePointer 0))).
Proof. vm_compute. auto. Qed.

(** *** C54: mapping a TYPE block does not panic *)

(** Every panic is one of these two. *)
Theorem C54_panics_partial : forall e b x, type_table_of e b = Panic x ->
  (x = PAlloc /\ exists r n l, first_record 1 (b_records b) r /\ r_fields r = n :: l /\ alloc_limit e < n) \/
  (x = PSubOverflow /\ overflow_checks e = true /\ exists r, In r (b_records b) /\ r_code r = 19 /\ r_fields r = []).
Proof. exact type_table_panics. Qed.
Print Assumptions C54_panics_partial.

(** An announced number of entries beyond the memory is fatal, whatever the block holds. *)
Theorem C54_huge_entry_counts_are_fatal : forall e b r n l,
  first_record 1 (b_records b) r -> r_fields r = n :: l -> alloc_limit e < n -> type_table_of e b = Panic PAlloc.
Proof. exact type_table_alloc. Qed.
Print Assumptions C54_huge_entry_counts_are_fatal.
Theorem C54_never_panics_refuted : forall e, alloc_limit e < 2 ^ 64 - 1 ->
  exists b, Forall fields64 (b_records b) /\ type_table_of e b = Panic PAlloc.
Proof.
  intros e H. exists (mkBlock (BIr IbType) [mkRecord None 1 [2 ^ 64 - 1]] []). split; [repeat constructor|].
  exact (type_table_alloc e (mkBlock (BIr IbType) [mkRecord None 1 [2 ^ 64 - 1]] []) (mkRecord None 1 [2 ^ 64 - 1]) (2 ^ 64 - 1) []
    (ex_intro _ [] (ex_intro _ [] (conj eq_refl (conj eq_refl (Forall_nil _))))) eq_refl H).
Qed.
Print Assumptions C54_never_panics_refuted.

Example C54_example :
  type_table_of debug_env (mkBlock (BIr IbType) [mkRecord None 1 [2 ^ 63]] []) = Panic PAlloc /\
  type_table_of debug_env (mkBlock (BIr IbType) [mkRecord None 1 [0]; mkRecord None 19 []] []) = Panic PSubOverflow /\
  type_table_of release_env (mkBlock (BIr IbType) [mkRecord None 1 [0]; mkRecord None 19 []] []) = Ok [].
Proof. vm_compute. auto. Qed.

(** *** C36: attributes *)

(** One record. [denotes] fixes how integer values are read: as llvm-mapper does, which differs
    from LLVM for alignments, see below. *)
Theorem C36_group_partial : forall r id g, fields64 r ->
  (group_of_record r = Ok (id, g) <-> group_record r id g).
Proof. exact group_exact. Qed.
Print Assumptions C36_group_partial.

(** All records of a block; the last group with an id is the one that counts. *)
Theorem C36_groups_partial : forall b, Forall fields64 (b_records b) ->
  (forall gs, Forall2 (fun r g => group_record r (fst g) (snd g)) (b_records b) gs ->
     exists m, attr_groups_of b = Ok m /\ forall id, groups_get m id = last_entry id gs) /\
  (forall m, attr_groups_of b = Ok m -> exists gs, Forall2 (fun r g => group_record r (fst g) (snd g)) (b_records b) gs).
Proof. exact groups_exact. Qed.
Print Assumptions C36_groups_partial.

(** Attribute lists name their groups. *)
Theorem C36_lists_name_groups : forall m b es, attributes_of m b = Ok es <->
  Forall2 (fun r gs => r_code r = 2 /\ Forall2 (fun f g => groups_get m (f mod 2 ^ 32) = Some g) (r_fields r) gs)
    (b_records b) es.
Proof. exact attributes_exact. Qed.
Print Assumptions C36_lists_name_groups.

(** What happens to the alignment 2^shift as LLVM writes it: it becomes 2^(2^shift-1), or the
    record is rejected. *)
Theorem C36_alignments_are_misread : forall id, id = 1 \/ id = 25 -> forall shift, shift <= 63 ->
  forall g p, g < 2 ^ 32 ->
  (exists a, group_of_record (mkRecord None 3 (g :: p :: wattr_fields (WInt id (llvm_alignment_value shift)))) =
     Ok (g, mkGroup (disposition_of (p mod 2 ^ 32))
              [AtInt (if id =? 1 then IaAlignment (Some (mkAlign a)) else IaStackAlignment (Some (mkAlign a)))]) /\
     a = 2 ^ shift - 1 /\ shift <= 6) \/
  (7 <= shift /\
   exists x, group_of_record (mkRecord None 3 (g :: p :: wattr_fields (WInt id (llvm_alignment_value shift)))) = Err x).
Proof. exact group_of_alignment. Qed.
Print Assumptions C36_alignments_are_misread.
Theorem C36_alignments_refuted : exists id shift a, (id = 1 \/ id = 25) /\
  group_of_record (mkRecord None 3 (7 :: 1 :: wattr_fields (WInt id (llvm_alignment_value shift)))) =
    Ok (7, mkGroup (DiParameter 1) [AtInt (IaAlignment (Some (mkAlign a)))]) /\ a <> shift.
Proof. exists 1, 4, 15. split; [now left|]. split; [reflexivity|discriminate]. Qed.
Print Assumptions C36_alignments_refuted.

(** The two bounds of [vscale_range] end up in the opposite order of the documentation. *)
Theorem C36_vscale_range_refuted : exists min max g, min <> max /\
  group_of_record (mkRecord None 3 (1 :: 2 :: wattr_fields (WInt 74 (llvm_vscale_value min max)))) = Ok (1, g) /\
  ag_attributes g = [AtInt (IaVScaleRange max min)] /\ ag_attributes g <> [AtInt (IaVScaleRange min max)].
Proof.
  exists 1, 16, (mkGroup (DiParameter 2) [AtInt (IaVScaleRange 16 1)]).
  split; [discriminate|]. split; [reflexivity|]. split; [reflexivity|discriminate].
Qed.
Print Assumptions C36_vscale_range_refuted.

(** Group 7 on parameter 1: nonnull, dereferenceable(24), "a"="bc", "x". *)
Definition ex_wattrs : list wattr := [WEnum 39; WInt 41 24; WKeyValue [97] [98; 99]; WStr [120]].
Definition ex_attrs : list attribute :=
  [AtEnum AiNonNull; AtInt (IaDereferenceable 24); AtStrKeyValue [97] [98; 99]; AtStr [120]].
Definition ex_group_record (id : N) : record := mkRecord None 3 (id :: 1 :: flat_map wattr_fields ex_wattrs).
Definition ex_group : attr_group := mkGroup (DiParameter 1) ex_attrs.
Example C36_example :
  fields64 (ex_group_record 7) /\ group_record (ex_group_record 7) 7 ex_group /\
  r_fields (ex_group_record 7) = [7; 1; 0; 39; 1; 41; 24; 4; 97; 0; 98; 99; 0; 3; 120; 0] /\
  group_of_record (ex_group_record 7) = Ok (7, ex_group).
Proof.
  split; [repeat constructor; reflexivity|]. split; [|split; reflexivity].
  exists 7, 1, ex_wattrs. split; [reflexivity|]. split; [reflexivity|]. split; [discriminate|]. split; [reflexivity|].
  split; [right; right; split; [discriminate|]; split; [discriminate|reflexivity]|].
  repeat constructor; cbn; try discriminate; intuition discriminate.
Qed.
Definition ex_return_record (id : N) : record := mkRecord None 3 [id; 0; 0; 9].
Definition ex_groups_block : block :=
  mkBlock (BIr IbParamAttrGroup) [ex_return_record 7; ex_group_record 7; ex_return_record 8] [].
Definition ex_return_group : attr_group := mkGroup DiReturn [AtEnum AiNoAlias].
Example C36_groups_example :
  exists m, attr_groups_of ex_groups_block = Ok m /\ groups_get m 7 = Some ex_group /\
    groups_get m 8 = Some ex_return_group /\ groups_get m 9 = None /\
    attributes_of m (mkBlock (BIr IbParamAttr) [mkRecord None 2 [8; 7]; mkRecord None 2 []; mkRecord None 2 [7]] []) =
      Ok [[ex_return_group; ex_group]; []; [ex_group]].
Proof. eexists. split; [reflexivity|]. vm_compute. repeat split; reflexivity. Qed.
(** align 16 is read as 2^15 bytes, align 128 is rejected. *)
Example C36_alignment_example :
  llvm_alignment_value 4 = 16 /\
  group_of_record (mkRecord None 3 [7; 1; 1; 1; 16]) = Ok (7, mkGroup (DiParameter 1) [AtInt (IaAlignment (Some (mkAlign 15)))]) /\
  group_of_record (mkRecord None 3 [7; 1; 1; 1; 128]) = Err (AeMalformed MfAlignment AiAlignment).
Proof. vm_compute. auto. Qed.

(** *** C37: panics and termination of attribute mapping *)

Theorem C37_groups_panic_exactly_partial : forall b p, Forall fields64 (b_records b) ->
  (attr_groups_of b = Panic p <-> p = PSliceRange /\ exists l1 r l2, b_records b = l1 ++ r :: l2 /\ cut_key r /\
     Forall (fun r => exists id g, group_record r id g) l1).
Proof. exact groups_panic. Qed.
Print Assumptions C37_groups_panic_exactly_partial.

Theorem C37_lists_panic_exactly_partial : forall m b p, attributes_of m b = Panic p <-> p = PUnimplemented /\
  exists l1 r l2, b_records b = l1 ++ r :: l2 /\ r_code r = 1 /\
    Forall (fun r => r_code r = 2 /\ Forall (fun f => groups_get m (f mod 2 ^ 32) <> None) (r_fields r)) l1.
Proof. exact attributes_panic. Qed.
Print Assumptions C37_lists_panic_exactly_partial.

Theorem C37_terminates : forall m b, Forall fields64 (b_records b) ->
  attr_groups_of b <> OutOfFuel /\ attributes_of m b <> OutOfFuel.
Proof. intros m b H. exact (conj (groups_fuel b H) (attributes_fuel m b)). Qed.
Print Assumptions C37_terminates.

Theorem C37_never_panics_refuted :
  (exists b, Forall fields64 (b_records b) /\ attr_groups_of b = Panic PSliceRange) /\
  (exists b, Forall fields64 (b_records b) /\ attributes_of [] b = Panic PUnimplemented).
Proof.
  split; [exists (mkBlock (BIr IbParamAttrGroup) [mkRecord None 3 [7; 1; 4; 97]] [])|exists (mkBlock (BIr IbParamAttr) [mkRecord None 1 []] [])];
    (split; [repeat constructor|reflexivity]).
Qed.
Print Assumptions C37_never_panics_refuted.

(** The key/value attribute is cut after its key, behind a good attribute and a good record. *)
Definition ex_cut_record : record := mkRecord None 3 [7; 1; 0; 39; 4; 97; 98].
Example C37_example :
  cut_key ex_cut_record /\
  attr_groups_of (mkBlock (BIr IbParamAttrGroup) [ex_group_record 6; ex_cut_record; mkRecord None 99 []] []) = Panic PSliceRange /\
  attr_groups_of (mkBlock (BIr IbParamAttrGroup) [mkRecord None 3 [7; 1; 4; 97; 98; 0]] []) = Err AeBadString.
Proof.
  split; [|split; reflexivity]. exists 7, 1, [WEnum 39], [AtEnum AiNonNull], [97; 98].
  repeat constructor; cbn; try discriminate; intuition discriminate.
Qed.
