(** Facts about string tables, symbol tables and the identification block. *)
From Verif Require Import Base Strings StringsProofs Utf8Proofs EnumModel UnrollModel UnrollSpec UnrollApi TablesModel TablesSpec LayoutMain AttributeProofs AttributeMain.
From Coq Require Import Lia ZifyBool ZifyNat ZifyN.
Ltac Zify.zify_post_hook ::= Z.div_mod_to_equations.
Local Open Scope N_scope.
#[local] Arguments N.add : simpl never.
#[local] Arguments N.sub : simpl never.

Lemma stored_slice t offset size s : stored t offset size s <->
  offset + size <= N.of_nat (length t) /\
  utf8_decode (firstn (N.to_nat size) (skipn (N.to_nat offset) t)) = Some s.
Proof.
  rewrite utf8_exact. split.
  - intros (l1 & l2 & -> & L1 & L2 & S). split; [rewrite !app_length; lia|]. split; [exact S|].
    replace (N.to_nat offset) with (length l1) by lia. replace (N.to_nat size) with (length (utf8_encode s)) by lia.
    rewrite skipn_app, skipn_all, Nat.sub_diag. cbn [app skipn]. now rewrite firstn_app, firstn_all, Nat.sub_diag, firstn_O, app_nil_r.
  - intros (L & S & U). exists (firstn (N.to_nat offset) t), (skipn (N.to_nat size) (skipn (N.to_nat offset) t)).
    rewrite U, firstn_skipn, firstn_skipn. split; [reflexivity|]. rewrite !firstn_length, skipn_length. split; [lia|]. split; [lia|exact S].
Qed.

Lemma middle_slice (t b w a : list N) offset size : t = b ++ w ++ a -> N.of_nat (length b) = offset -> N.of_nat (length w) = size ->
  firstn (N.to_nat size) (skipn (N.to_nat offset) t) = w.
Proof.
  intros -> <- <-. rewrite !Nat2N.id. rewrite skipn_app, skipn_all, Nat.sub_diag. cbn [app skipn].
  now rewrite firstn_app, firstn_all, Nat.sub_diag, firstn_O, app_nil_r.
Qed.
Lemma stored_inj t offset size s s' : stored t offset size s -> stored t offset size s' -> s = s'.
Proof. rewrite !stored_slice. intros [_ H] [_ H']. congruence. Qed.

Lemma strtab_lookup e t offset size : offset + size < two64 ->
  (forall s, strtab_try_get e t offset size = Ok s <-> size <> 0 /\ stored t offset size s) /\
  (strtab_try_get e t offset size = Err SbBadRange <-> size = 0 \/ N.of_nat (length t) < offset + size) /\
  ((forall x, strtab_try_get e t offset size = Err (SbBadString x) <->
      size <> 0 /\ exists before raw after, t = before ++ raw ++ after /\ N.of_nat (length before) = offset /\
        N.of_nat (length raw) = size /\ utf8_fault raw x) /\
   ((exists x, strtab_try_get e t offset size = Err (SbBadString x)) <->
      size <> 0 /\ offset + size <= N.of_nat (length t) /\ forall s, ~ stored t offset size s)) /\
  (forall p, strtab_try_get e t offset size <> Panic p) /\ strtab_try_get e t offset size <> OutOfFuel.
Proof.
  intros B. unfold strtab_try_get, usize_add.
  assert (X : size = 0 \/ N.of_nat (length t) < offset + size ->
    (forall s, @Err strtab_err str SbBadRange = Ok s <-> size <> 0 /\ stored t offset size s) /\
    (@Err strtab_err str SbBadRange = Err SbBadRange <-> size = 0 \/ N.of_nat (length t) < offset + size) /\
    ((forall x, @Err strtab_err str SbBadRange = Err (SbBadString x) <->
      size <> 0 /\ exists before raw after, t = before ++ raw ++ after /\ N.of_nat (length before) = offset /\
        N.of_nat (length raw) = size /\ utf8_fault raw x) /\
   ((exists x, @Err strtab_err str SbBadRange = Err (SbBadString x)) <->
      size <> 0 /\ offset + size <= N.of_nat (length t) /\ forall s, ~ stored t offset size s)) /\
    (forall p, @Err strtab_err str SbBadRange <> Panic p) /\ @Err strtab_err str SbBadRange <> OutOfFuel).
  { intros C. split; [|split; [|split; [|split; discriminate]]].
    - intros s. split; [discriminate|]. rewrite stored_slice. lia.
    - tauto.
    - split; [|split; [intros [? [=]]|lia]]. intros x. split; [discriminate|]. intros (Z & b & w & a & -> & L1 & L2 & _).
      rewrite !app_length in C. lia. }
  destruct (size =? 0) eqn:Z; [apply X; lia|].
  destruct (N.of_nat (length t) <=? offset) eqn:L; [apply X; lia|].
  destruct (offset + size <? two64) eqn:B'; [|lia]. cbn [obind].
  destruct (N.of_nat (length t) <? offset + size) eqn:R; [apply X; lia|]. clear X.
  unfold slice. replace ((offset <=? offset + size) && (offset + size <=? N.of_nat (length t)))%bool with true by lia.
  replace (offset + size - offset) with size by lia.
  pose proof (stored_slice t offset size) as S.
  destruct (utf8_decode _) as [s|] eqn:D; cbn [ok_or].
  - split; [|split; [|split; [|split; discriminate]]].
    + intros s'. rewrite S. split; [intros [= <-]; repeat split; lia|]. intros (_ & _ & [= <-]). reflexivity.
    + split; [discriminate|lia].
    + split; [|split; [intros [? [=]]|]].
      * intros x. split; [discriminate|]. intros (_ & b & w & a & T & L1 & L2 & F). apply utf8_fault_no_string in F.
        rewrite (middle_slice t b w a offset size T L1 L2) in D. congruence.
      * intros (_ & _ & H). exfalso. apply (H s). apply S. split; [lia|reflexivity].
  - split; [|split; [|split; [|split; discriminate]]].
    + intros s'. rewrite S. split; [discriminate|]. intros (_ & _ & H). discriminate H.
    + split; [discriminate|lia].
    + split; [|split; [|intros _; eauto]].
      * intros x. split.
        -- intros [= <-]. split; [lia|]. exists (firstn (N.to_nat offset) t), (firstn (N.to_nat size) (skipn (N.to_nat offset) t)),
             (skipn (N.to_nat size) (skipn (N.to_nat offset) t)).
           rewrite !firstn_skipn, !firstn_length, skipn_length. split; [reflexivity|]. split; [lia|]. split; [lia|].
           now apply utf8_error_fault.
        -- intros (_ & b & w & a & T & L1 & L2 & F). rewrite (middle_slice t b w a offset size T L1 L2). apply utf8_error_iff in F as [_ ->]. reflexivity.
      * intros _. split; [lia|]. split; [lia|]. intros s'. rewrite S. intros [_ H]. discriminate H.
Qed.

Lemma strtab_overflow e t offset size : offset < two64 -> size < two64 -> two64 <= offset + size ->
  strtab_try_get e t offset size =
    if N.of_nat (length t) <=? offset then Err SbBadRange
    else Panic (if overflow_checks e then PAddOverflow else PSliceRange).
Proof.
  intros O S B. unfold strtab_try_get, usize_add. replace (size =? 0) with false by lia.
  destruct (N.of_nat (length t) <=? offset) eqn:L; [reflexivity|]. replace (offset + size <? two64) with false by lia.
  destruct (overflow_checks e); [reflexivity|]. cbn [obind]. unfold two64 in *.
  replace ((offset + size) mod 18446744073709551616) with (offset + size - 18446744073709551616) by lia.
  replace (N.of_nat (length t) <? offset + size - 18446744073709551616) with false by lia. unfold slice.
  replace (offset <=? offset + size - 18446744073709551616) with false by lia. reflexivity.
Qed.

(** The exact condition for a panic. *)
Lemma strtab_panic e t offset size : offset < two64 -> size < two64 ->
  ((exists p, strtab_try_get e t offset size = Panic p) <-> offset < N.of_nat (length t) /\ two64 <= offset + size).
Proof.
  intros O S. destruct (N.lt_ge_cases (offset + size) two64) as [B|B].
  - destruct (strtab_lookup e t offset size B) as (_ & _ & _ & H & _). split; [intros [p P]; now apply H in P|lia].
  - rewrite strtab_overflow by assumption. destruct (N.of_nat (length t) <=? offset) eqn:L.
    + split; [intros [p P]; discriminate P|lia].
    + split; [lia|eauto].
Qed.

Lemma strtab_get_is_try_get e t offset size : offset + size < two64 ->
  (forall s, strtab_get e t offset size = Ok (Some s) <-> size <> 0 /\ stored t offset size s) /\
  (strtab_get e t offset size = Ok None <-> forall s, ~ (size <> 0 /\ stored t offset size s)) /\
  (exists o, strtab_get e t offset size = Ok o).
Proof.
  intros B. destruct (strtab_lookup e t offset size B) as (H1 & _ & _ & H4 & H5). unfold strtab_get.
  destruct (strtab_try_get e t offset size) as [s|x|p|] eqn:G; [| |now destruct (H4 p)|now destruct H5].
  - split; [|split; [|eauto]].
    + intros s'. rewrite <- H1. split; congruence.
    + split; [discriminate|]. intros H. exfalso. apply (H s). now apply H1.
  - split; [|split; [|eauto]].
    + intros s'. rewrite <- H1. split; discriminate.
    + split; [|reflexivity]. intros _ s K. apply H1 in K. discriminate K.
Qed.

(** The name of a record: its first two fields are the reference. *)
Lemma read_name_fields e t r :
  (forall o s l, r_fields r = o :: s :: l -> strtab_read_name e t r = strtab_try_get e t o s) /\
  ((length (r_fields r) < 2)%nat -> strtab_read_name e t r = Panic PSliceRange).
Proof.
  unfold strtab_read_name. split.
  - intros o s l ->. reflexivity.
  - destruct (r_fields r) as [|a [|b l]]; cbn; [reflexivity|reflexivity|lia].
Qed.

Lemma one_none code l : one code l = None <-> Forall (fun r => r_code r <> code) l.
Proof.
  unfold one. rewrite <- by_code_none. destruct (by_code code l); cbn; split; congruence.
Qed.

(** Blocks of one blob. *)
Lemma strtab_block e b r : first_record 1 (b_records b) r -> (2 <= length (r_fields r))%nat ->
  (forall t, strtab_of e b = Ok t <-> t = r_fields r /\ Forall (fun f => f < 256) t) /\
  (forall p, strtab_of e b <> Panic p) /\ strtab_of e b <> OutOfFuel.
Proof.
  intros O L. apply one_first in O. unfold strtab_of. cbn [strtab_code_num]. rewrite O. cbn [ok_or obind].
  destruct (try_blob_in e r 0 ltac:(lia)) as (H1 & _ & H3 & H4). cbn [skipn] in H1. change (N.to_nat 0) with 0%nat in H1. cbn [skipn] in H1.
  destruct (try_blob e r 0) as [x|x|p|]; cbn [omap_err]; [| |now destruct (H3 p)|now destruct H4].
  - split; [|split; discriminate]. intros t. destruct (proj1 (H1 x) eq_refl) as [F ->]. split; [intros [= <-]; auto|intros [-> _]; reflexivity].
  - split; [|split; discriminate]. intros t. split; [discriminate|]. intros [-> F].
    assert (X : @Err blob_err (list N) x = Ok (r_fields r)) by (apply H1; auto). discriminate X.
Qed.

Lemma symtab_block e b r : first_record 1 (b_records b) r -> (2 <= length (r_fields r))%nat ->
  (forall t, symtab_of e b = Ok t <-> t = r_fields r /\ Forall (fun f => f < 256) t) /\
  (forall p, symtab_of e b <> Panic p) /\ symtab_of e b <> OutOfFuel.
Proof.
  intros O L. apply one_first in O. unfold symtab_of. cbn [symtab_code_num]. rewrite O. cbn [ok_or obind].
  destruct (try_blob_in e r 0 ltac:(lia)) as (H1 & _ & H3 & H4). change (N.to_nat 0) with 0%nat in H1. cbn [skipn] in H1.
  destruct (try_blob e r 0) as [x|x|p|]; cbn [omap_err]; [| |now destruct (H3 p)|now destruct H4].
  - split; [|split; discriminate]. intros t. destruct (proj1 (H1 x) eq_refl) as [F ->]. split; [intros [= <-]; auto|intros [-> _]; reflexivity].
  - split; [|split; discriminate]. intros t. split; [discriminate|]. intros [-> F].
    assert (X : @Err blob_err (list N) x = Ok (r_fields r)) by (apply H1; auto). discriminate X.
Qed.

Lemma blob_missing e b : Forall (fun r => r_code r <> 1) (b_records b) ->
  strtab_of e b = Err SbMissingBlob /\ symtab_of e b = Err SyMissingBlob.
Proof.
  intros H. apply one_none in H. unfold strtab_of, symtab_of. cbn [strtab_code_num symtab_code_num]. now rewrite H.
Qed.

(** The identification block: a producer and an epoch. *)
Lemma identification_exact e b i : (forall r, first_record 1 (b_records b) r -> r_fields r <> []) ->
  (identification_of e b = Ok i <->
   exists r r' x, first_record 1 (b_records b) r /\ first_record 2 (b_records b) r' /\
     (2 <= length (r_fields r))%nat /\ r_fields r = utf8_encode (id_producer i) /\
     forallb is_scalar_value (id_producer i) = true /\ r_fields r' = id_epoch i :: x).
Proof.
  intros NE. unfold identification_of. cbn [identification_code_num]. split.
  - intros H. apply obind_iff in H as (r & R & H). apply ok_or_ok in R. apply one_first in R.
    apply obind_iff in H as (s & S & H). apply omap_err_iff in S.
    apply obind_iff in H as (r' & R' & H). apply ok_or_ok in R'. apply one_first in R'.
    apply obind_iff in H as (ep & E & H). apply ok_or_ok in E. injection H as <-. cbn [id_producer id_epoch].
    specialize (NE r R). destruct (r_fields r') as [|y x] eqn:F; [discriminate|]. injection E as ->. exists r, r', x.
    assert (L : (2 <= length (r_fields r))%nat).
    { destruct (r_fields r) as [|y [|z l]] eqn:G; [congruence| |cbn; lia].
      destruct (strings_out e r 0) as [K _]; [congruence|rewrite G; cbn; lia|]. congruence. }
    apply (try_string_in e r 0) in S; [|lia]. change (N.to_nat 0) with 0%nat in S. cbn [skipn] in S. destruct S as (_ & S1 & S2).
    split; [exact R|]. split; [exact R'|]. auto.
  - intros (r & r' & x & R & R' & L & F & S & G). apply one_first in R, R'. rewrite R. cbn [ok_or obind].
    assert (T : try_string e r 0 = Ok (id_producer i)).
    { apply (try_string_in e r 0); [lia|]. change (N.to_nat 0) with 0%nat. cbn [skipn]. split; [|split; [exact S|congruence]].
      rewrite F. clear - S. apply encode_bytes. exact S. }
    rewrite T. cbn [omap_err obind]. rewrite R'. cbn [ok_or obind]. rewrite G. cbn. now destruct i.
Qed.

Lemma strtab_can_panic e : exists t offset size p,
  offset < 2 ^ 64 /\ size < 2 ^ 64 /\ strtab_try_get e t offset size = Panic p.
Proof.
  exists [97; 98], 1, (2 ^ 64 - 1), (if overflow_checks e then PAddOverflow else PSliceRange).
  split; [reflexivity|]. split; [reflexivity|]. now apply strtab_overflow.
Qed.
