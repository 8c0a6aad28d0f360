(** Property theorems C70: what the build (overflow checks) and the machine (memory) can change. *)
From Verif Require Import Base Strings EnumModel SupportModel CursorModel CursorSpec StreamModel StreamSpec UnrollModel UnrollSpec
  TablesModel TypeTableModel RecordModel ModuleModel ExtraModel PipelinePanics ProfileProofs P_Pipeline.
From Coq Require Import Lia.
Local Open Scope N_scope.

(** Two results of the same call: equal, or one of the two is a panic. *)
Definition same_unless_panic {E A} (a b : outcome E A) : Prop :=
  a = b \/ (exists p, a = Panic p) \/ (exists p, b = Panic p).

(** Whole inputs: two builds that both come to a result come to the same result. *)
Theorem C70_builds_agree : forall e1 e2 host buf,
  same_unless_panic (bitcode_of e1 host buf) (bitcode_of e2 host buf).
Proof. intros e1 e2 host buf. apply (any_two _ _ (fun e => bitcode_of e host buf)). intros; now apply ag_bitcode_of. Qed.
Print Assumptions C70_builds_agree.

(** Opening a buffer does not depend on the build at all. *)
Theorem C70_opening_is_the_same : forall e1 e2 buf, from e1 buf = from e2 buf.
Proof.
  intros e1 e2 buf.
  destruct (any_two _ _ (fun e => from e buf) (fun e1 e2 H => ag_from e1 e2 H buf) e1 e2) as [E|[[p E]|[p E]]]; [exact E| |].
  - destruct (from_settled e1 buf) as [[x F]|[x F]]; congruence.
  - destruct (from_settled e2 buf) as [[x F]|[x F]]; congruence.
Qed.
Print Assumptions C70_opening_is_the_same.

(** The entries of a stream, from any state of the parser, and the state after each. *)
Theorem C70_entries_agree : forall e1 e2 (s : sparser cursor),
  next e1 cursor_ops s = next e2 cursor_ops s \/
  (exists p, fst (next e1 cursor_ops s) = Some (Panic p)) \/ (exists p, fst (next e2 cursor_ops s) = Some (Panic p)).
Proof. intros; apply next_any_two. Qed.
Print Assumptions C70_entries_agree.

(** The calls of the cursor that depend on the build, and the cursor after each. *)
Theorem C70_reads_agree : forall e1 e2 (c : cursor),
  (forall w, read_vbr e1 cursor_ops w c = read_vbr e2 cursor_ops w c \/
     (exists p, fst (read_vbr e1 cursor_ops w c) = Panic p) \/ (exists p, fst (read_vbr e2 cursor_ops w c) = Panic p)) /\
  (forall w, read_svbr e1 cursor_ops w c = read_svbr e2 cursor_ops w c \/
     (exists p, fst (read_svbr e1 cursor_ops w c) = Panic p) \/ (exists p, fst (read_svbr e2 cursor_ops w c) = Panic p)) /\
  (forall sf, seek e1 sf c = seek e2 sf c \/
     (exists p, fst (seek e1 sf c) = Panic p) \/ (exists p, fst (seek e2 sf c) = Panic p)).
Proof.
  intros e1 e2 c. repeat split; intros a.
  - apply (any_two_m _ _ _ (fun e => read_vbr e cursor_ops a)). intros; now apply mag_vbr.
  - apply (any_two_m _ _ _ (fun e => read_svbr e cursor_ops a)). intros; now apply mag_svbr.
  - apply (any_two_m _ _ _ (fun e => seek e a)). intros; now apply mag_seek.
Qed.
Print Assumptions C70_reads_agree.

(** The conversions of blocks and records. *)
Theorem C70_conversions_agree : forall e1 e2,
  (forall s, same_unless_panic (unroll e1 s) (unroll e2 s)) /\
  (forall r i, same_unless_panic (try_string e1 r i) (try_string e2 r i)) /\
  (forall r i, same_unless_panic (try_blob e1 r i) (try_blob e2 r i)) /\
  (forall b, same_unless_panic (identification_of e1 b) (identification_of e2 b)) /\
  (forall b, same_unless_panic (strtab_of e1 b) (strtab_of e2 b)) /\
  (forall b, same_unless_panic (symtab_of e1 b) (symtab_of e2 b)) /\
  (forall t off size, same_unless_panic (strtab_try_get e1 t off size) (strtab_try_get e2 t off size)) /\
  (forall t off size, same_unless_panic (strtab_get e1 t off size) (strtab_get e2 t off size)) /\
  (forall b, same_unless_panic (type_table_of e1 b) (type_table_of e2 b)) /\
  (forall v t r, same_unless_panic (comdat_of e1 v t r) (comdat_of e2 v t r)) /\
  (forall c r, same_unless_panic (fn_of e1 c r) (fn_of e2 c r)) /\
  (forall c r, same_unless_panic (alias_of e1 c r) (alias_of e2 c r)) /\
  (forall t b, same_unless_panic (fn_block_of e1 t b) (fn_block_of e2 t b)) /\
  (forall host t b, same_unless_panic (module_of e1 host t b) (module_of e2 host t b)) /\
  (forall a, same_unless_panic (E := align_err) (byte_align e1 a) (byte_align e2 a)) /\
  (forall a, same_unless_panic (E := align_err) (bit_align e1 a) (bit_align e2 a)).
Proof.
  intros e1 e2. repeat apply conj; intros.
  - apply (any_two _ _ (fun e => unroll e s)). intros; now apply ag_unroll.
  - apply (any_two _ _ (fun e => try_string e r i)). intros; now apply ag_try_string.
  - apply (any_two _ _ (fun e => try_blob e r i)). intros; now apply ag_try_blob.
  - apply (any_two _ _ (fun e => identification_of e b)). intros; now apply ag_identification_of.
  - apply (any_two _ _ (fun e => strtab_of e b)). intros; now apply ag_strtab_of.
  - apply (any_two _ _ (fun e => symtab_of e b)). intros; now apply ag_symtab_of.
  - apply (any_two _ _ (fun e => strtab_try_get e t off size)). intros; now apply ag_strtab_try_get.
  - apply (any_two _ _ (fun e => strtab_get e t off size)). intros; now apply ag_strtab_get.
  - apply (any_two _ _ (fun e => type_table_of e b)). intros; now apply ag_type_table_of.
  - apply (any_two _ _ (fun e => comdat_of e v t r)). intros; now apply ag_comdat_of.
  - apply (any_two _ _ (fun e => fn_of e c r)). intros; now apply ag_fn_of.
  - apply (any_two _ _ (fun e => alias_of e c r)). intros; now apply ag_alias_of.
  - apply (any_two _ _ (fun e => fn_block_of e t b)). intros; now apply ag_fn_block_of.
  - apply (any_two _ _ (fun e => module_of e host t b)). intros; now apply ag_module_of.
  - apply (any_two _ _ (fun e => byte_align e a)). intros; now apply ag_byte_align.
  - apply (any_two _ _ (fun e => bit_align e a)). intros; now apply ag_bit_align.
Qed.
Print Assumptions C70_conversions_agree.

(** Which of the two panics: dropping the checks or adding memory removes panics of overflow or of
    allocation and changes nothing else. Hence what a debug build accepts or rejects, a release
    build accepts or rejects, with the same modules or the same error. *)
Theorem C70_fewer_checks_fewer_panics : forall e1 e2 host buf,
  (overflow_checks e2 = true -> overflow_checks e1 = true) -> alloc_limit e1 <= alloc_limit e2 ->
  bitcode_of e1 host buf = bitcode_of e2 host buf \/
  (overflow_checks e1 = true /\ overflow_checks e2 = false /\
   exists p, In p [PShiftOverflow; PAddOverflow; PSubOverflow; PAbbrevCount; PMulOverflow] /\ bitcode_of e1 host buf = Panic p) \/
  (alloc_limit e1 < alloc_limit e2 /\ bitcode_of e1 host buf = Panic PAlloc).
Proof.
  intros e1 e2 host buf H1 H2.
  destruct (ag_bitcode_of e1 e2 (conj H1 H2) host buf) as [E|(p & [(C1 & C2 & I)|(L & ->)] & E)]; [now left| |].
  - right; left. eauto 6.
  - right; right. auto.
Qed.
Print Assumptions C70_fewer_checks_fewer_panics.

(** The example program: either all of the output and the way it ends are the same, or the build with
    more checks or less memory panics after lines with which the output of the other begins. *)
Theorem C70_dumps_agree : forall e1 e2 buf,
  (overflow_checks e2 = true -> overflow_checks e1 = true) -> alloc_limit e1 <= alloc_limit e2 ->
  dump e1 buf = dump e2 buf \/
  exists p rest, snd (dump e1 buf) = Panic p /\ fst (dump e2 buf) = fst (dump e1 buf) ++ rest.
Proof.
  intros e1 e2 buf H1 H2.
  destruct (ag_dump e1 e2 (conj H1 H2) buf) as [E|(p & l & _ & E)]; [now left|right; eauto].
Qed.
Print Assumptions C70_dumps_agree.

(** In full, that the build changes nothing, is false: an empty target triple is a panic with overflow
    checks and the empty string without; and with too little memory a record of six fields panics. *)
Definition ex_small : env := {| overflow_checks := false; alloc_limit := 1 |}.
Theorem C70_builds_are_the_same_refuted : exists host buf buf' x x',
  bitcode_of debug_env host buf = Panic PSubOverflow /\ bitcode_of release_env host buf = Ok x /\
  bitcode_of ex_small host buf' = Panic PAlloc /\ bitcode_of release_env host buf' = Ok x'.
Proof.
  exists [104], (bytes_of_bits (written ex_no_triple)), (bytes_of_bits (written ex_good)).
  do 2 eexists. split; [vm_compute; reflexivity|]. split; [vm_compute; reflexivity|].
  split; vm_compute; reflexivity.
Qed.
Print Assumptions C70_builds_are_the_same_refuted.

(** An input on which all agree; one on which they agree on an error. *)
Example C70_example :
  bitcode_of debug_env [104] (bytes_of_bits (written ex_good)) = Ok [ex_bitcode] /\
  bitcode_of release_env [104] (bytes_of_bits (written ex_good)) = Ok [ex_bitcode] /\
  bitcode_of debug_env [104] (bytes_of_bits (written [])) = Ok [] /\
  bitcode_of debug_env [104] (map b8 [66; 67]) = Err (BcUnroll (UParse (SCursor Short))) /\
  bitcode_of ex_small [104] (map b8 [66; 67]) = Err (BcUnroll (UParse (SCursor Short))).
Proof. repeat split; vm_compute; reflexivity. Qed.
Example C70_dump_example :
  snd (dump debug_env (bytes_of_bits (written ex_good))) = Ok tt /\
  dump ex_small (bytes_of_bits (written ex_good)) =
    ([LMagic 0xdec04342; LBlock 0 13], Panic PAlloc) /\
  firstn 2 (fst (dump release_env (bytes_of_bits (written ex_good)))) = [LMagic 0xdec04342; LBlock 0 13].
Proof. repeat split; vm_compute; reflexivity. Qed.
