(** Property theorem C86: attributes in llvm-mapper (llvm-mapper/src/block/attributes.rs) and in LLVM's reader. The reader and the
    comparison are in AttributeReaderSpec.v. *)
From Verif Require Import Base Strings ReaderSpec EnumModel SupportModel UnrollModel AttributeModel AttributeSpec AttributeReaderSpec
  AttributeReaderProofs.
From Coq Require Import Lia.
Local Open Scope N_scope.

(** *** C86: attributes mean what LLVM's reader takes them for *)

(** A group read by both has the same id and place, and the same attributes in the same order, with the same values but for alignments of
    more than two bytes and for ranges of vscale whose bounds differ; those are never the same. *)
Theorem C86_same_group_partial : forall K r id g id' p las, fields64 r -> group_of_record r = Ok (id, g) ->
  llvm_group K r = Some (id', (p, las)) -> id' = id /\ same_group g p las.
Proof. exact groups_agree. Qed.
Print Assumptions C86_same_group_partial.

(** Of the groups LLVM reads, llvm-mapper reads those whose attributes are all [strict_attribute]s. *)
Theorem C86_accepted_partial : forall K r id p las, fields64 r -> r_code r = 3 -> llvm_group K r = Some (id, (p, las)) ->
  ((exists x, group_of_record r = Ok x) <-> Forall strict_attribute las).
Proof. exact strict_group. Qed.
Print Assumptions C86_accepted_partial.

(** Of the groups llvm-mapper reads, a version of LLVM reads those whose keys it knows. *)
Theorem C86_accepted_by_llvm_partial : forall K r id g, fields64 r -> group_of_record r = Ok (id, g) ->
  ((exists x, llvm_group K r = Some x) <-> Forall (known_attribute K) (ag_attributes g)).
Proof. exact llvm_reads. Qed.
Print Assumptions C86_accepted_by_llvm_partial.

(** Blocks of groups: both find the same group for an id, or none. *)
Theorem C86_same_groups_partial : forall K b m gs, Forall fields64 (b_records b) -> attr_groups_of b = Ok m ->
  llvm_groups K (b_records b) = Some gs -> forall id,
  match groups_get m id, last_entry id gs with
  | Some g, Some (p, las) => same_group g p las
  | None, None => True
  | _, _ => False
  end.
Proof. intros K b m gs F H L id. exact (block_groups K b m gs id F H L). Qed.
Print Assumptions C86_same_groups_partial.

Theorem C86_groups_accepted_partial : forall K b gs, Forall fields64 (b_records b) -> llvm_groups K (b_records b) = Some gs ->
  ((exists m, attr_groups_of b = Ok m) <->
   Forall (fun r => r_code r = 3) (b_records b) /\ Forall (fun g => Forall strict_attribute (snd (snd g))) gs).
Proof. exact block_strict. Qed.
Print Assumptions C86_groups_accepted_partial.

Theorem C86_groups_accepted_by_llvm_partial : forall K b m, Forall fields64 (b_records b) -> attr_groups_of b = Ok m ->
  ((exists gs, llvm_groups K (b_records b) = Some gs) <->
   forall r id g, In r (b_records b) -> group_of_record r = Ok (id, g) -> Forall (known_attribute K) (ag_attributes g)).
Proof. exact block_reads. Qed.
Print Assumptions C86_groups_accepted_by_llvm_partial.

(** Blocks of lists: the groups are LLVM's, in the same order. Accepted are the blocks of nothing but lists in the new format that name
    no unknown group; for LLVM an unknown group is one without attributes. *)
Theorem C86_same_lists_partial : forall K b m gs c es, Forall fields64 (b_records b) -> attr_groups_of b = Ok m ->
  llvm_groups K (b_records b) = Some gs -> attributes_of m c = Ok es ->
  Forall2 (fun r l => Forall2 (fun g x => exists p las, x = Some (p, las) /\ same_group g p las) l (llvm_list gs r)) (b_records c) es.
Proof. exact block_lists. Qed.
Print Assumptions C86_same_lists_partial.

Theorem C86_lists_accepted_partial : forall K b m gs c, Forall fields64 (b_records b) -> attr_groups_of b = Ok m ->
  llvm_groups K (b_records b) = Some gs ->
  ((exists es, attributes_of m c = Ok es) <->
   Forall (fun r => r_code r = 2 /\ Forall (fun x => x <> None) (llvm_list gs r)) (b_records c)).
Proof. exact lists_accepted. Qed.
Print Assumptions C86_lists_accepted_partial.

(** The keys of LLVM 14: 1 to 78; with integers align, alignstack, the two dereferenceables, allocsize and vscale_range; with types
    byval, sret, inalloca, preallocated, byref and elementtype. *)
Definition llvm14 : llvm_keys :=
  mkKeys (fun k => (1 <=? k) && (k <=? 78))%bool (fun k => existsb (N.eqb k) [1; 25; 41; 42; 51; 74])
    (fun k => existsb (N.eqb k) [3; 29; 38; 65; 69; 77]).

(** Group 1 of the function: nounwind, "a"="bc", "d", allocsize(1); group 2 of parameter 1: nonnull, dereferenceable(8). *)
Definition rec (c : N) (l : list N) : record := mkRecord None c l.
Definition ex_r1 : record := rec 3 [1; 4294967295; 0; 18; 4; 97; 0; 98; 99; 0; 3; 100; 0; 1; 51; 8589934591].
Definition ex_r2 : record := rec 3 [2; 1; 0; 39; 1; 41; 8].
Definition ex_block : block := mkBlock (BIr IbParamAttrGroup) [ex_r1; ex_r2] [].
Definition ex_lists : block := mkBlock (BIr IbParamAttr) [rec 2 [1; 2]; rec 2 []; rec 2 [2]] [].
Definition ex_g1 : attr_group :=
  mkGroup DiFunction [AtEnum AiNoUnwind; AtStrKeyValue (lit "a") (lit "bc"); AtStr (lit "d"); AtInt (IaAllocSize 1 None)].
Definition ex_g2 : attr_group := mkGroup (DiParameter 1) [AtEnum AiNonNull; AtInt (IaDereferenceable 8)].
Definition ex_l1 : N * list lattr := (4294967295, [LaEnum 18; LaString [97] (Some [98; 99]); LaString [100] None; LaInt 51 8589934591]).
Definition ex_l2 : N * list lattr := (1, [LaEnum 39; LaInt 41 8]).
Example C86_example :
  Forall fields64 (b_records ex_block) /\
  attr_groups_of ex_block = Ok [(2, ex_g2); (1, ex_g1)] /\ llvm_groups llvm14 (b_records ex_block) = Some [(1, ex_l1); (2, ex_l2)] /\
  attributes_of [(2, ex_g2); (1, ex_g1)] ex_lists = Ok [[ex_g1; ex_g2]; []; [ex_g2]] /\
  map (llvm_list [(1, ex_l1); (2, ex_l2)]) (b_records ex_lists) = [[Some ex_l1; Some ex_l2]; []; [Some ex_l2]] /\
  same_group ex_g1 (fst ex_l1) (snd ex_l1) /\ Forall2 same_attribute (ag_attributes ex_g1) (snd ex_l1) /\
  Forall strict_attribute (snd ex_l1) /\ Forall (known_attribute llvm14) (ag_attributes ex_g1).
Proof.
  assert (F : Forall fields64 (b_records ex_block)) by (repeat constructor).
  assert (F1 : fields64 ex_r1) by (inversion F; assumption).
  assert (G : group_of_record ex_r1 = Ok (1, ex_g1)) by (vm_compute; reflexivity).
  assert (L : llvm_group llvm14 ex_r1 = Some (1, ex_l1)) by (vm_compute; reflexivity).
  split; [exact F|]. split; [vm_compute; reflexivity|]. split; [vm_compute; reflexivity|]. split; [vm_compute; reflexivity|].
  split; [vm_compute; reflexivity|]. destruct (C86_same_group_partial llvm14 ex_r1 1 ex_g1 1 _ _ F1 G L) as [_ S]. split; [exact S|].
  split; [|split].
  - repeat constructor.
  - apply (C86_accepted_partial llvm14 ex_r1 1 _ _ F1 eq_refl L). now exists (1, ex_g1).
  - apply (C86_accepted_by_llvm_partial llvm14 ex_r1 1 ex_g1 F1 G). now exists (1, ex_l1).
Qed.

(** Groups LLVM 14 reads and llvm-mapper does not: byval(T), as for every struct passed by value; "a"="" in two forms; align 128;
    a string that is not UTF-8. A record of another code is no obstacle for LLVM, nor a list that names an unknown group. *)
Theorem C86_accepted_refuted :
  (forall l, In l [[1; 1; 6; 3; 0]; [1; 1; 4; 97; 0; 0]; [1; 1; 3; 0]; [1; 1; 1; 1; 128]; [1; 1; 3; 255; 0]] ->
     (exists x, llvm_group llvm14 (rec 3 l) = Some x) /\ exists x, group_of_record (rec 3 l) = Err x) /\
  (exists gs x, llvm_groups llvm14 [ex_r1; rec 9 [0]] = Some gs /\ attr_groups_of (mkBlock (BIr IbParamAttrGroup) [ex_r1; rec 9 [0]] []) = Err x) /\
  (exists x, llvm_list [(1, ex_l1)] (rec 2 [1; 7]) = [Some ex_l1; None] /\
     attributes_of [(1, ex_g1)] (mkBlock (BIr IbParamAttr) [rec 2 [1; 7]] []) = Err x).
Proof.
  split; [|split].
  - intros l I. cbn in I. repeat (destruct I as [<-|I]; [split; eexists; vm_compute; reflexivity|]). destruct I.
  - do 2 eexists. split; vm_compute; reflexivity.
  - eexists. split; vm_compute; reflexivity.
Qed.
Print Assumptions C86_accepted_refuted.

(** Values that differ: align 4 is 8 bytes; vscale_range(2, 0), which has no maximum, is a range from 2 to 2. *)
Theorem C86_values_refuted : exists r g las,
  fields64 r /\ group_of_record r = Ok (1, g) /\ llvm_group llvm14 r = Some (1, (1, las)) /\
  las = [LaInt 1 4; LaInt 74 (2 * 2 ^ 32)] /\ ag_attributes g = [AtInt (IaAlignment (Some (mkAlign 3))); AtInt (IaVScaleRange 2 2)] /\
  Forall2 (fun a l => ~ same_attribute a l) (ag_attributes g) las.
Proof.
  exists (rec 3 [1; 1; 1; 1; 4; 1; 74; 8589934592]), (mkGroup (DiParameter 1) [AtInt (IaAlignment (Some (mkAlign 3))); AtInt (IaVScaleRange 2 2)]).
  eexists. split; [repeat constructor|]. split; [vm_compute; reflexivity|]. split; [vm_compute; reflexivity|]. split; [reflexivity|]. split; [reflexivity|].
  repeat constructor; intros [_ E]; discriminate E.
Qed.
Print Assumptions C86_values_refuted.

(** Conversely llvm-mapper reads attributes LLVM 14 does not know, as the memory of LLVM 16. *)
Theorem C86_accepted_by_llvm_refuted : exists r x, fields64 r /\ group_of_record r = Ok x /\ llvm_group llvm14 r = None.
Proof. exists (rec 3 [1; 4294967295; 1; 86; 1]). eexists. split; [repeat constructor|]. split; vm_compute; reflexivity. Qed.
Print Assumptions C86_accepted_by_llvm_refuted.
