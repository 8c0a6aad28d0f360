(** Property theorem C85: type tables in llvm-mapper (llvm-mapper/src/block/type_table.rs) and in LLVM's reader.
    [llvm_types], [same_types], [strict_table] and [llvm_rules] are in TypeReaderSpec.v. *)
From Verif Require Import Base Strings EnumModel SupportModel SupportSpec UnrollModel AttributeModel TablesSpec TypeTableModel TypeTableSpec
  ReaderSpec TypeReaderSpec TypeReaderProofs.
From Coq Require Import Lia.
Local Open Scope N_scope.

(** *** C85: type tables mean what LLVM's reader takes them for *)

(** POINTER records have at most two fields. LLVM takes a third one as a sign that there is no address space. *)
Definition short_pointers (l : list record) : Prop := forall r, In r l -> r_code r = 8 -> (length (r_fields r) <= 2)%nat.

(** A table read by both has the same entries. Missing: longer POINTER records, several NUMENTRY records, and the tables that one
    of them refuses; see below. *)
Theorem C85_same_types_partial : forall e bits b ns T, bits < 2 ^ 32 -> Forall named_fields (b_records b) -> one_count (b_records b) ->
  short_pointers (b_records b) -> llvm_types bits (b_records b) = Some ns -> type_table_of e b = Ok T -> same_types ns T.
Proof. exact same_table. Qed.
Print Assumptions C85_same_types_partial.

(** Of the tables LLVM reads, llvm-mapper reads the [strict_table]s. *)
Theorem C85_accepted_partial : forall e bits b ns, bits < 2 ^ 24 -> Forall named_fields (b_records b) -> one_count (b_records b) ->
  short_pointers (b_records b) -> llvm_types bits (b_records b) = Some ns ->
  ((exists T, type_table_of e b = Ok T) <-> strict_table e (b_records b) ns).
Proof.
  intros e bits b ns B NF OC SP L. split; [|exact (strict_accepted e bits b ns B NF OC SP L)].
  intros (T & H). refine (accepted_strict e bits b ns T _ NF OC SP L H). apply N.lt_trans with (2 ^ 24); [exact B|reflexivity].
Qed.
Print Assumptions C85_accepted_partial.

(** Of the tables llvm-mapper reads, LLVM reads those that follow [llvm_rules]. *)
Theorem C85_accepted_by_llvm_partial : forall e bits b T, bits < 2 ^ 32 -> Forall named_fields (b_records b) -> one_count (b_records b) ->
  short_pointers (b_records b) -> type_table_of e b = Ok T ->
  ((exists ns, llvm_types bits (b_records b) = Some ns) <-> llvm_rules bits (b_records b)).
Proof.
  intros e bits b T B NF OC SP H. split; [|exact (rules_accepted e bits b T B NF OC SP H)].
  intros (ns & L). exact (accepted_rules e bits b T ns NF OC H L).
Qed.
Print Assumptions C85_accepted_by_llvm_partial.

(** i32; a pointer to %ab, which comes next; %ab = { i32, i32 }; void; void (i32, %ab*, ...); [4 x %ab]; <vscale x 2 x %ab*>; %cd,
    opaque; an opaque pointer in address space 1. *)
Definition ty_block (l : list record) : block := mkBlock (BIr IbType) l [].
Definition rec (c : N) (l : list N) : record := mkRecord None c l.
Definition ex_types : block := ty_block
  [rec 1 [9]; rec 7 [32]; rec 8 [2; 0]; rec 19 [97; 98]; rec 20 [0; 0; 0]; rec 2 []; rec 21 [1; 3; 0; 1]; rec 11 [4; 2]; rec 12 [2; 1; 1];
   rec 19 [99; 100]; rec 6 [0]; rec 25 [1]].
Definition ex_ab : ty := TStruct (Some (lit "ab")) [TInteger 32; TInteger 32] false.
Definition ex_nodes : list lnode :=
  [LnInteger 32; LnPointer 2 0; LnStruct (Some [97; 98]) [0; 0] false; LnSimple TVoid; LnFunction 3 [0; 1] true; LnArray 4 2; LnVector 2 1 true;
   LnOpaque [99; 100]; LnOpaquePointer 1].
Definition ex_table : list ty :=
  [TInteger 32; TPointer ex_ab 0; ex_ab; TVoid; TFunction TVoid [TInteger 32; TPointer ex_ab 0] true; TArray 4 ex_ab;
   TScalableVector 2 (TPointer ex_ab 0); TStruct (Some (lit "cd")) [] false; TOpaquePointer 1].
Lemma ex_fields : Forall named_fields (b_records ex_types).
Proof. repeat (apply Forall_cons; [intros H; first [discriminate H|discriminate]|]). constructor. Qed.
Lemma ex_once : one_count (b_records ex_types).
Proof.
  exists [], (rec 1 [9]), (tl (b_records ex_types)). split; [reflexivity|]. split; [reflexivity|].
  repeat (apply Forall_cons; [discriminate|]). constructor.
Qed.
Lemma ex_short : short_pointers (b_records ex_types).
Proof. intros r H C. cbn in H. repeat (destruct H as [<-|H]; [first [discriminate C|cbn; lia]|]). destruct H. Qed.
Example C85_example :
  Forall named_fields (b_records ex_types) /\ one_count (b_records ex_types) /\ short_pointers (b_records ex_types) /\
  llvm_types (2 ^ 23) (b_records ex_types) = Some ex_nodes /\ type_table_of debug_env ex_types = Ok ex_table /\
  same_types ex_nodes ex_table /\ strict_table debug_env (b_records ex_types) ex_nodes /\ llvm_rules (2 ^ 23) (b_records ex_types).
Proof.
  assert (L : llvm_types (2 ^ 23) (b_records ex_types) = Some ex_nodes) by (vm_compute; reflexivity).
  assert (H : type_table_of debug_env ex_types = Ok ex_table) by (vm_compute; reflexivity).
  split; [exact ex_fields|]. split; [exact ex_once|]. split; [exact ex_short|]. split; [exact L|]. split; [exact H|].
  assert (B : 2 ^ 23 < 2 ^ 24) by reflexivity. assert (B' : 2 ^ 23 < 2 ^ 32) by reflexivity. split; [|split].
  - exact (C85_same_types_partial debug_env _ ex_types _ _ B' ex_fields ex_once ex_short L H).
  - apply (C85_accepted_partial debug_env _ ex_types _ B ex_fields ex_once ex_short L). now exists ex_table.
  - apply (C85_accepted_by_llvm_partial debug_env _ ex_types _ B' ex_fields ex_once ex_short H). now exists ex_nodes.
Qed.

(** Tables LLVM reads and llvm-mapper does not: %ab = { %ab* }, on which it does not return; a name of one letter; two
    structs in a row; a pointer without address space; the old form of a function type; an opaque struct without name; a vector
    of opaque pointers; a struct of labels. *)
Definition refused_table (l : list record) (x : tt_err) : Prop :=
  (exists ns, llvm_types (2 ^ 23) l = Some ns) /\ type_table_of debug_env (ty_block l) = Err x.
Theorem C85_accepted_refuted :
  (exists l ns, llvm_types (2 ^ 23) l = Some ns /\ type_table_of debug_env (ty_block l) = OutOfFuel) /\
  (exists x, refused_table [rec 1 [1]; rec 19 [97]; rec 20 [0]] x) /\
  (exists x, refused_table [rec 1 [2]; rec 19 [97; 98]; rec 20 [0]; rec 19 [99; 100]; rec 20 [0]] x) /\
  (exists x, refused_table [rec 1 [2]; rec 7 [8]; rec 8 [0]] x) /\
  (exists x, refused_table [rec 1 [2]; rec 7 [8]; rec 9 [0; 0; 0; 0]] x) /\
  (exists x, refused_table [rec 1 [1]; rec 6 [0]] x) /\
  (exists x, refused_table [rec 1 [2]; rec 25 [0]; rec 12 [2; 0]] x) /\
  (exists x, refused_table [rec 1 [2]; rec 5 []; rec 18 [0; 0]] x).
Proof.
  split.
  { exists [rec 1 [2]; rec 8 [1; 0]; rec 19 [97; 98]; rec 20 [0; 0]]. eexists. split; vm_compute; reflexivity. }
  unfold refused_table. repeat match goal with |- (exists x, _) /\ _ => split end;
    (eexists; split; [eexists; vm_compute; reflexivity|vm_compute; reflexivity]).
Qed.
Print Assumptions C85_accepted_refuted.

(** A POINTER of three fields is in address space 0 for LLVM. *)
Theorem C85_pointers_refuted : exists b ns T, Forall named_fields (b_records b) /\ one_count (b_records b) /\
  llvm_types (2 ^ 23) (b_records b) = Some ns /\ type_table_of debug_env b = Ok T /\
  nth_error ns 1 = Some (LnPointer 0 0) /\ nth_error T 1 = Some (TPointer (TInteger 8) 1).
Proof.
  exists (ty_block [rec 1 [2]; rec 7 [8]; rec 8 [0; 1; 0]]), [LnInteger 8; LnPointer 0 0], [TInteger 8; TPointer (TInteger 8) 1].
  split; [repeat (apply Forall_cons; [intros H; first [discriminate H|discriminate]|]); constructor|].
  split; [exists [], (rec 1 [2]), [rec 7 [8]; rec 8 [0; 1; 0]]; split; [reflexivity|split; [reflexivity|repeat (apply Forall_cons; [discriminate|]); constructor]]|].
  split; [vm_compute; reflexivity|]. split; [vm_compute; reflexivity|]. split; reflexivity.
Qed.
Print Assumptions C85_pointers_refuted.

(** A second NUMENTRY: two structs for LLVM, one for llvm-mapper. *)
Theorem C85_counts_refuted : exists b ns T, Forall named_fields (b_records b) /\ short_pointers (b_records b) /\
  llvm_types (2 ^ 23) (b_records b) = Some ns /\ type_table_of debug_env b = Ok T /\ length ns = 2%nat /\ length T = 1%nat.
Proof.
  exists (ty_block [rec 1 [1]; rec 18 [0]; rec 1 [2]; rec 19 [97; 98]; rec 20 [0]]),
    [LnStruct None [] false; LnStruct (Some [97; 98]) [] false], [TStruct (Some (lit "ab")) [] false].
  split; [repeat (apply Forall_cons; [intros H; first [discriminate H|discriminate]|]); constructor|].
  split; [intros r H C; cbn in H; repeat (destruct H as [<-|H]; [discriminate C|]); destruct H|].
  split; [vm_compute; reflexivity|]. split; [vm_compute; reflexivity|]. split; reflexivity.
Qed.
Print Assumptions C85_counts_refuted.

(** Tables llvm-mapper reads and LLVM refuses, whatever its largest width: a pointer to an integer that comes later; an empty vector;
    an opaque struct as a parameter; an OPAQUE record of two fields. *)
Definition taken_table (l : list record) : Prop :=
  (exists T, type_table_of debug_env (ty_block l) = Ok T) /\ forall bits, llvm_types bits l = None.
Theorem C85_accepted_by_llvm_refuted :
  taken_table [rec 1 [2]; rec 8 [1; 0]; rec 7 [8]] /\
  taken_table [rec 1 [2]; rec 3 []; rec 12 [0; 0]] /\
  taken_table [rec 1 [3]; rec 19 [97; 98]; rec 6 [0]; rec 2 []; rec 21 [0; 1; 0]] /\
  taken_table [rec 1 [1]; rec 19 [97; 98]; rec 6 [0; 0]].
Proof.
  unfold taken_table. repeat split; try (eexists; vm_compute; reflexivity); intros bits; try reflexivity.
  cbv -[N.leb]. destruct (N.leb 1 8), (N.leb 8 bits); reflexivity.
Qed.
Print Assumptions C85_accepted_by_llvm_refuted.
