(** C83: records fit the abbreviations they were written with. *)
From Coq Require Import Lia.
From Verif Require Import Base CursorModel CursorSpec CursorHist StreamModel StreamSpec StreamHist GrammarSpec FitSpec FitProofs.
Local Open Scope N_scope.

(** A record told with an abbreviation id: the id is one of the block it is in, and code and fields are
    one value for each operand, with any number of them for a last array or blob, each in its range. *)
Theorem C83_records_fit : forall e gap s id code fields s', opened e gap s ->
  next e cursor_ops s = (Some (Ok (ERecord (Some id) code fields)), s') ->
  exists w b i l scs a, p_scopes s' = ScBlock w b i l :: scs /\ 4 <= id < 2 ^ w /\ nth_error l (N.to_nat (id - 4)) = Some a /\
    values_fit a (code :: fields).
Proof. exact record_fits. Qed.
Print Assumptions C83_records_fit.

(** Conversely all values that fit a definition of the right shape can be written with it (and then come
    back, C13); no others can. *)
Theorem C83_fitting_records_are_written : forall a pos vals, shaped a = true -> N.of_nat (length vals) < 2 ^ 64 ->
  ((exists bits, rec_bits pos a vals = Some bits) <-> values_fit a vals).
Proof.
  intros a pos vals S L. apply andb_prop in S. rewrite <- (written_exactly a (proj2 S) pos vals L).
  destruct (rec_bits pos a vals) as [bits|]; split.
  - discriminate.
  - intros _. now exists bits.
  - intros (bits & H). discriminate H.
  - intros H. now destruct H.
Qed.
Print Assumptions C83_fitting_records_are_written.

(** In full: the code of a record is the value of the first operand, which is no array and no blob (LLVM gives
    up on others). False: *)
Definition ex_array : list item := [IBlock 8 3 2 [IDefine [OpArray (OpFixed 8)]; IAbbrev 4 65 [66; 67]]].
Definition ex_bits : list bool := match write_stream 0xdec04342 ex_array with Some b => b | None => [] end.

Theorem C83_code_is_a_scalar_refuted : exists e gap s id code fields s' w b i l scs a, opened e gap s /\
  next e cursor_ops s = (Some (Ok (ERecord (Some id) code fields)), s') /\
  p_scopes s' = ScBlock w b i l :: scs /\ nth_error l (N.to_nat (id - 4)) = Some a /\ ~ starts_scalar a.
Proof.
  destruct (from_raw (bytes_of_bits ex_bits)) as [b|x|p|] eqn:E.
  - exists debug_env, word_gap, (snd (next debug_env cursor_ops (bs_parser b))), 4, 65, [66; 67].
    vm_compute in E. injection E as <-.
    eexists _, 3, 8, None, [[OpArray (OpFixed 8)]], [ScInitial], [OpArray (OpFixed 8)].
    split; [|split; [vm_compute; reflexivity|split; [reflexivity|split; [reflexivity|intros []]]]].
    apply OpNext. apply OpRaw with (buf := bytes_of_bits ex_bits). vm_compute. reflexivity.
  - vm_compute in E. discriminate E.
  - vm_compute in E. discriminate E.
  - vm_compute in E. discriminate E.
Qed.
Print Assumptions C83_code_is_a_scalar_refuted.

(** True where the first operand is neither; otherwise the code is the first element or byte, in the same range as
    the fields, and there is at least one. *)
Theorem C83_code_partial : forall e gap s id code fields s', opened e gap s ->
  next e cursor_ops s = (Some (Ok (ERecord (Some id) code fields)), s') ->
  exists w b i l scs a, p_scopes s' = ScBlock w b i l :: scs /\ nth_error l (N.to_nat (id - 4)) = Some a /\
    ((exists op a', a = op :: a' /\ starts_scalar a /\ value_fits op code /\ values_fit a' fields) \/
     (exists elem, a = [OpArray elem] /\ Forall (value_fits elem) (code :: fields)) \/
     (a = [OpBlob] /\ Forall (fun v => v < 256) (code :: fields))).
Proof.
  intros e gap s id code fields s' O E. destruct (record_fits e gap s id code fields s' O E) as (w & b & i & l & scs & a & SC & _ & A & F).
  exists w, b, i, l, scs, a. split; [exact SC|]. split; [exact A|]. inversion F; subst.
  - left. do 2 eexists. split; [reflexivity|]. split; [|split; eassumption].
    match goal with H : value_fits ?op _ |- _ => destruct op; try exact I; contradiction end.
  - right. left. eexists. split; [reflexivity|assumption].
  - right. right. split; [reflexivity|assumption].
Qed.
Print Assumptions C83_code_partial.

(** A record with one operand of every kind. *)
Definition ex_abbrev : abbrev := [OpLiteral 7; OpFixed 3; OpVbr 6; OpChar6; OpArray OpChar6].
Definition ex_all : list item := [IBlock 8 3 3 [IDefine ex_abbrev; IAbbrev 4 7 [5; 1000; 95; 97; 122]]].
Definition ex_all_bits : list bool := match write_stream 0xdec04342 ex_all with Some b => b | None => [] end.
Definition ex_all_parser : sparser cursor :=
  match from_raw (bytes_of_bits ex_all_bits) with Ok b => snd (next debug_env cursor_ops (bs_parser b)) | _ => parser_new (cur_new []) end.

Example C83_example :
  fst (next debug_env cursor_ops ex_all_parser) = Some (Ok (ERecord (Some 4) 7 [5; 1000; 95; 97; 122])) /\
  shaped ex_abbrev = true /\ values_fit ex_abbrev [7; 5; 1000; 95; 97; 122] /\ values_fit ex_abbrev [7; 0; 0; 48] /\
  ~ values_fit ex_abbrev [7; 8; 1000; 95] /\ ~ values_fit ex_abbrev [6; 5; 1000; 95] /\ ~ values_fit ex_abbrev [7; 5; 1000].
Proof.
  split; [vm_compute; reflexivity|]. split; [reflexivity|].
  assert (F : forall a vals, shaped a = true -> N.of_nat (length vals) < 2 ^ 64 -> rec_bits 0 a vals <> None -> values_fit a vals).
  { intros a vals S L H. apply (C83_fitting_records_are_written a 0 vals S L). destruct (rec_bits 0 a vals) as [bits|]; [now exists bits|now destruct H]. }
  assert (G : forall a vals, shaped a = true -> N.of_nat (length vals) < 2 ^ 64 -> rec_bits 0 a vals = None -> ~ values_fit a vals).
  { intros a vals S L H K. apply (C83_fitting_records_are_written a 0 vals S L) in K. destruct K as (bits & K). congruence. }
  split; [apply F; [reflexivity|reflexivity|vm_compute; discriminate]|].
  split; [apply F; [reflexivity|reflexivity|vm_compute; discriminate]|].
  split; [apply G; vm_compute; reflexivity|]. split; apply G; vm_compute; reflexivity.
Qed.
Example C83_example_opened : opened debug_env word_gap ex_all_parser.
Proof.
  unfold ex_all_parser. destruct (from_raw (bytes_of_bits ex_all_bits)) as [b|x|p|] eqn:E.
  - apply OpNext. exact (OpRaw debug_env _ b E).
  - vm_compute in E. discriminate E.
  - vm_compute in E. discriminate E.
  - vm_compute in E. discriminate E.
Qed.
