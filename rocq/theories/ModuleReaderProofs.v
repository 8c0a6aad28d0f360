(** The strings of a module: llvm-mapper and LLVM's reader. *)
From Coq Require Import Bool Lia ZifyBool ZifyNat ZifyN.
From Verif Require Import Base Strings StringsProofs EnumModel SupportModel SupportSpec SupportMain LayoutModel LayoutSpec LayoutMain
  UnrollModel UnrollSpec AttributeModel AttributeSpec AttributeProofs TablesModel TablesSpec RecordModel RecordSpec ModuleModel ModuleSpec ModuleProofs PipelineSpec PipelineProofs ModuleReaderSpec.
Local Open Scope N_scope.

Lemma last_cons {A} (l : list A) a d : last (a :: l) d = last l a.
Proof. revert a d. induction l as [|b l IH]; intros a d; [reflexivity|]. change (last (b :: l) d = last (b :: l) a). now rewrite !IH. Qed.

Definition good_version (r : record) : Prop := exists v l, r_fields r = v :: l /\ v <= 2.

Lemma loop_exact l : forall s s', llvm_module_loop l s = Some s' <->
  Forall good_version (by_code 1 l) /\
  ls_version s' = last (map (fun r => hd 0 (r_fields r)) (by_code 1 l)) (ls_version s) /\
  ls_triple s' = last (map llvm_bytes (by_code 2 l)) (ls_triple s) /\
  ls_layout s' = last (map llvm_bytes (by_code 3 l)) (ls_layout s) /\
  ls_asm s' = last (map (fun r => terminated (llvm_bytes r)) (by_code 4 l)) (ls_asm s) /\
  ls_sections s' = ls_sections s ++ map llvm_bytes (by_code 5 l) /\
  ls_gcs s' = ls_gcs s ++ map llvm_bytes (by_code 11 l).
Proof.
  induction l as [|r l IH]; intros s s'.
  - cbn. rewrite !app_nil_r. split.
    + intros [= <-]. repeat split; constructor.
    + intros (_ & H1 & H2 & H3 & H4 & H5 & H6). destruct s, s'. cbn in *. congruence.
  - cbn [llvm_module_loop].
    assert (X : forall k, by_code k (r :: l) = if r_code r =? k then r :: by_code k l else by_code k l) by reflexivity.
    rewrite !X. clear X. destruct s as [ve tr la as_ se gc]. unfold llvm_module_step.
    destruct (N.eq_dec (r_code r) 1) as [E|E1].
    { rewrite E. cbn [N.eqb Pos.eqb]. destruct (r_fields r) as [|v fs] eqn:R.
      - split; [discriminate|]. intros (F & _). inversion F as [|? ? (v & fs & K & _) _]; subst. congruence.
      - destruct (2 <? v) eqn:V.
        + split; [discriminate|]. intros (F & _). inversion F as [|? ? (v' & fs' & K & B) _]; subst. rewrite R in K. injection K as <- <-. lia.
        + rewrite IH. cbn [map ls_version ls_triple ls_layout ls_asm ls_sections ls_gcs]. rewrite last_cons, R. cbn [hd].
          split; intros (F & K); split; try exact K; [constructor; [exists v, fs; split; [exact R|lia]|exact F]|now inversion F]. }
    destruct (N.eq_dec (r_code r) 2) as [E|E2].
    { rewrite E. cbn [N.eqb Pos.eqb]. rewrite IH. cbn [map ls_version ls_triple ls_layout ls_asm ls_sections ls_gcs]. rewrite last_cons. reflexivity. }
    destruct (N.eq_dec (r_code r) 3) as [E|E3].
    { rewrite E. cbn [N.eqb Pos.eqb]. rewrite IH. cbn [map ls_version ls_triple ls_layout ls_asm ls_sections ls_gcs]. rewrite last_cons. reflexivity. }
    destruct (N.eq_dec (r_code r) 4) as [E|E4].
    { rewrite E. cbn [N.eqb Pos.eqb]. rewrite IH. cbn [map ls_version ls_triple ls_layout ls_asm ls_sections ls_gcs]. rewrite last_cons. reflexivity. }
    destruct (N.eq_dec (r_code r) 5) as [E|E5].
    { rewrite E. cbn [N.eqb Pos.eqb]. rewrite IH. cbn [map ls_version ls_triple ls_layout ls_asm ls_sections ls_gcs]. rewrite <- app_assoc. reflexivity. }
    destruct (N.eq_dec (r_code r) 11) as [E|E11].
    { rewrite E. cbn [N.eqb Pos.eqb]. rewrite IH. cbn [map ls_version ls_triple ls_layout ls_asm ls_sections ls_gcs]. rewrite <- app_assoc. reflexivity. }
    replace (r_code r =? 1) with false by lia. replace (r_code r =? 2) with false by lia. replace (r_code r =? 3) with false by lia.
    replace (r_code r =? 4) with false by lia. replace (r_code r =? 5) with false by lia. replace (r_code r =? 11) with false by lia.
    assert (S : match r_code r with
      | 1 => match r_fields r with
             | v :: _ => if 2 <? v then None else Some (mkLlvmStrings v tr la as_ se gc)
             | [] => None
             end
      | 2 => Some (mkLlvmStrings ve (llvm_bytes r) la as_ se gc)
      | 3 => Some (mkLlvmStrings ve tr (llvm_bytes r) as_ se gc)
      | 4 => Some (mkLlvmStrings ve tr la (terminated (llvm_bytes r)) se gc)
      | 5 => Some (mkLlvmStrings ve tr la as_ (se ++ [llvm_bytes r]) gc)
      | 11 => Some (mkLlvmStrings ve tr la as_ se (gc ++ [llvm_bytes r]))
      | _ => Some (mkLlvmStrings ve tr la as_ se gc)
      end = Some (mkLlvmStrings ve tr la as_ se gc)).
    { destruct (r_code r) as [|p]; [reflexivity|]. do 4 (destruct p as [p|p|]; try reflexivity; try lia). }
    rewrite S. apply IH.
Qed.

Lemma sole_list code b r : sole code b r -> by_code code (b_records b) = [r].
Proof.
  intros (l1 & l2 & -> & E & F1 & F2). unfold by_code. rewrite filter_app. cbn [filter].
  assert (X : forall l, Forall (fun x => ~ r_code x = code) l -> filter (fun r => r_code r =? code) l = []).
  { intros l F. induction F as [|x l N _ IH]; [reflexivity|]. cbn [filter]. replace (r_code x =? code) with false by lia. exact IH. }
  rewrite (X _ F1), (X _ F2). replace (r_code r =? code) with true by lia. reflexivity.
Qed.
Lemma absent_list code b : absent code b -> by_code code (b_records b) = [].
Proof.
  intros F. unfold by_code. unfold absent in F. induction F as [|x l N _ IH]; [reflexivity|]. cbn [filter]. replace (r_code x =? code) with false by lia. exact IH.
Qed.
Lemma bytes_same l : Forall (fun f => f < 256) l -> map (fun f => f mod 256) l = l.
Proof. induction 1 as [|x l X _ IH]; [reflexivity|]. cbn [map]. rewrite IH, N.mod_small by exact X. reflexivity. Qed.
Lemma text_bytes e r s : text_of e r s -> llvm_bytes r = utf8_encode s.
Proof.
  unfold llvm_bytes. intros [(_ & E & S)|(_ & E & ->)]; rewrite E; [|reflexivity]. apply bytes_same. now apply encode_bytes.
Qed.
Lemma texts_bytes e code b l : texts e code b l -> map llvm_bytes (by_code code (b_records b)) = map utf8_encode l.
Proof.
  intros (rs & S & F). apply all_with_iff in S as <-. induction F as [|r s rs l T _ IH]; [reflexivity|]. cbn [map]. now rewrite (text_bytes _ _ _ T), IH.
Qed.

Lemma strings_described e host t b m c fns aliases : module_described e host t b m c fns aliases ->
  ((exists ls, llvm_module_strings b = Some ls) <-> cx_version c <= 2) /\
  forall ls, llvm_module_strings b = Some ls ->
    ls_version ls = cx_version c /\
    ls_sections ls = map utf8_encode (cx_sections c) /\
    ls_gcs ls = map utf8_encode (cx_gcs c) /\
    ((absent 2 b /\ md_triple m = host /\ ls_triple ls = []) \/ (~ absent 2 b /\ ls_triple ls = utf8_encode (md_triple m))) /\
    ((absent 3 b /\ cx_layout c = layout_default /\ ls_layout ls = []) \/
     (exists s, ls_layout ls = utf8_encode s /\ layout_from_str s = Ok (cx_layout c))) /\
    ((absent 4 b /\ md_asm m = [] /\ ls_asm ls = []) \/
     (exists s, ls_asm ls = terminated (utf8_encode s) /\ pieces 10 s (md_asm m))).
Proof.
  intros H.
  destruct H as [[(vr & vl & V1 & V2) LA SE GC _ _ _ _ _ _] TR AS _ _ _ _]. pose proof (sole_list _ _ _ V1) as VL. split.
  - split.
    + intros (ls & H). apply loop_exact in H as (G & _). rewrite VL in G. inversion G as [|? ? (v & l & K & L) _]; subst. rewrite V2 in K.
      injection K as <- <-. exact L.
    + intros L. eexists (mkLlvmStrings _ _ _ _ _ _). apply loop_exact. cbn [ls_version ls_triple ls_layout ls_asm ls_sections ls_gcs].
      split; [rewrite VL; constructor; [exists (cx_version c), vl; auto|constructor]|]. repeat (split; [reflexivity|]). reflexivity.
  - intros ls H. apply loop_exact in H as (_ & H1 & H2 & H3 & H4 & H5 & H6). cbn [ls_version ls_triple ls_layout ls_asm ls_sections ls_gcs app] in *.
    rewrite VL in H1. cbn in H1. rewrite V2 in H1. split; [exact H1|].
    split; [rewrite H5; now apply (texts_bytes e)|]. split; [rewrite H6; now apply (texts_bytes e)|]. split; [|split].
    + destruct TR as [(A & T)|(r & S & T)].
      * left. split; [exact A|]. split; [exact T|]. now rewrite H2, (absent_list _ _ A).
      * right. rewrite H2, (sole_list _ _ _ S). split; [|cbn; now apply (text_bytes e)]. intros A. pose proof (sole_list _ _ _ S) as K. rewrite (absent_list _ _ A) in K. discriminate K.
    + destruct LA as [(A & T)|(r & s & S & T & K)].
      * left. split; [exact A|]. split; [exact T|]. now rewrite H3, (absent_list _ _ A).
      * right. exists s. split; [|exact K]. rewrite H3, (sole_list _ _ _ S). cbn. now apply (text_bytes e).
    + destruct AS as [(A & T)|(r & s & S & T & K)].
      * left. split; [exact A|]. split; [exact T|]. now rewrite H4, (absent_list _ _ A).
      * right. exists s. split; [|exact K]. rewrite H4, (sole_list _ _ _ S). cbn. now rewrite (text_bytes e _ _ T).
Qed.
Lemma strings_both e host t b m c fns aliases : NoDup (map fst (b_blocks b)) -> Forall fields64 (b_records b) -> N.of_nat (length t) < two64 ->
  module_map e host t b = Ok (m, c, fns, aliases) ->
  ((exists ls, llvm_module_strings b = Some ls) <-> cx_version c <= 2) /\
  forall ls, llvm_module_strings b = Some ls ->
    ls_version ls = cx_version c /\
    ls_sections ls = map utf8_encode (cx_sections c) /\
    ls_gcs ls = map utf8_encode (cx_gcs c) /\
    ((absent 2 b /\ md_triple m = host /\ ls_triple ls = []) \/ (~ absent 2 b /\ ls_triple ls = utf8_encode (md_triple m))) /\
    ((absent 3 b /\ cx_layout c = layout_default /\ ls_layout ls = []) \/
     (exists s, ls_layout ls = utf8_encode s /\ layout_from_str s = Ok (cx_layout c))) /\
    ((absent 4 b /\ md_asm m = [] /\ ls_asm ls = []) \/
     (exists s, ls_asm ls = terminated (utf8_encode s) /\ pieces 10 s (md_asm m))).
Proof. intros ND F B H. apply module_exact in H; [|assumption..]. exact (strings_described _ _ _ _ _ _ _ _ H). Qed.

(** Which strings are read. *)
Lemma strings_read e r : (exists s, try_string e r 0 = Ok s) <->
  ((2 <= length (r_fields r))%nat /\ Forall (fun f => f < 256) (r_fields r) /\
   exists s, forallb is_scalar_value s = true /\ llvm_bytes r = utf8_encode s) \/
  (overflow_checks e = false /\ r_fields r = []).
Proof.
  split.
  - intros (s & H). apply text_iff in H. pose proof (text_bytes _ _ _ H) as K. destruct H as [(L & E & S)|(O & E & _)]; [left|right; auto].
    split; [exact L|]. split; [rewrite E; now apply encode_bytes|]. now exists s.
  - intros [(L & B & s & S & E)|(O & E)].
    + exists s. apply text_iff. left. split; [exact L|]. split; [|exact S]. unfold llvm_bytes in E. now rewrite bytes_same in E.
    + exists []. apply text_iff. right. auto.
Qed.

(** *** Identification *)

Definition known_identification (r : record) : Prop :=
  r_code r = 1 \/ (r_code r = 2 /\ exists v l, r_fields r = v :: l /\ v mod 2 ^ 32 = 0).

Lemma identification_loop_exact l : forall s p, llvm_identification_loop l s = Some p <->
  Forall known_identification l /\ p = s ++ concat (map llvm_bytes (by_code 1 l)).
Proof.
  induction l as [|r l IH]; intros s p.
  - cbn. rewrite app_nil_r. split; [intros [= <-]; split; [constructor|reflexivity]|]. intros (_ & ->). reflexivity.
  - cbn [llvm_identification_loop]. change (by_code 1 (r :: l)) with (if r_code r =? 1 then r :: by_code 1 l else by_code 1 l).
    destruct (N.eq_dec (r_code r) 1) as [E|E1].
    { rewrite E. cbn [N.eqb Pos.eqb]. rewrite IH. cbn [map concat]. rewrite <- app_assoc.
      split; intros (F & K); (split; [|exact K]); [constructor; [now left|exact F]|now inversion F]. }
    replace (r_code r =? 1) with false by lia.
    destruct (N.eq_dec (r_code r) 2) as [E|E2].
    { rewrite E. destruct (r_fields r) as [|v fs] eqn:R.
      - split; [discriminate|]. intros (F & _). inversion F as [|? ? [K|(_ & v & fs & K & _)] _]; subst; congruence.
      - destruct (v mod 2 ^ 32 =? 0) eqn:V.
        + rewrite IH. split; intros (F & K); (split; [|exact K]); [constructor; [right; split; [exact E|exists v, fs; split; [exact R|lia]]|exact F]|now inversion F].
        + split; [discriminate|]. intros (F & _). inversion F as [|? ? [K|(_ & v' & fs' & K & B)] _]; subst; [congruence|].
          rewrite R in K. injection K as <- <-. lia. }
    assert (S : forall (A : Type) (x : option A) y, match r_code r, r_fields r with 1, _ => x | 2, v :: _ => y v | _, _ => None end = None).
    { intros A x y. destruct (r_code r) as [|q]; [reflexivity|]. do 2 (destruct q as [q|q|]; try reflexivity; try lia). }
    rewrite (S _ _ (fun v => if v mod 2 ^ 32 =? 0 then llvm_identification_loop l s else None)). split; [discriminate|]. intros (F & _).
    inversion F as [|? ? [K|(K & _)] _]; subst; contradiction.
Qed.

Lemma first_by_code code l r : first_record code l r -> exists rs, by_code code l = r :: rs.
Proof.
  intros (l1 & l2 & -> & E & F). exists (by_code code l2). unfold by_code. rewrite filter_app. cbn [filter].
  replace (r_code r =? code) with true by lia.
  assert (X : filter (fun r => r_code r =? code) l1 = []).
  { induction F as [|x l N _ IH]; [reflexivity|]. cbn [filter]. replace (r_code x =? code) with false by lia. exact IH. }
  now rewrite X.
Qed.

Lemma identification_described e b i p : identifies e b i -> llvm_identification b = Some p ->
  id_epoch i mod 2 ^ 32 = 0 /\
  exists r rs, all_with 1 b (r :: rs) /\ p = utf8_encode (id_producer i) ++ concat (map llvm_bytes rs).
Proof.
  intros (r & r' & l & F1 & T & F2 & E) L.
  unfold llvm_identification in L. destruct (b_blocks b); [|discriminate]. apply identification_loop_exact in L as (K & ->). split.
  - destruct F2 as (l1 & l2 & X & C & _). rewrite X in K. apply Forall_app in K as (_ & K). inversion K as [|? ? [K1|(_ & v & fs & K2 & B)] _]; subst; [congruence|].
    rewrite E in K2. injection K2 as <- <-. exact B.
  - destruct (first_by_code _ _ _ F1) as (rs & X). exists r, rs. split; [now apply all_with_iff|]. rewrite X. cbn [map concat app].
    now rewrite (text_bytes e _ _ T).
Qed.
Lemma identification_both e b i p : identification_of e b = Ok i -> llvm_identification b = Some p ->
  id_epoch i mod 2 ^ 32 = 0 /\
  exists r rs, all_with 1 b (r :: rs) /\ p = utf8_encode (id_producer i) ++ concat (map llvm_bytes rs).
Proof. intros H. apply identification_described with (e := e). now apply identification_iff. Qed.
Lemma identification_read_by_llvm b : (exists p, llvm_identification b = Some p) <->
  b_blocks b = [] /\
  Forall (fun r => r_code r = 1 \/ (r_code r = 2 /\ exists v l, r_fields r = v :: l /\ v mod 2 ^ 32 = 0)) (b_records b).
Proof.
  unfold llvm_identification. destruct (b_blocks b) as [|x l].
  - split.
    + intros (p & L). apply identification_loop_exact in L as (K & _). split; [reflexivity|exact K].
    + intros (_ & K). eexists. apply identification_loop_exact. split; [exact K|reflexivity].
  - split; [intros (p & [=])|intros ([=] & _)].
Qed.
Lemma first_or_absent code b : (exists r, first_record code (b_records b) r) \/ absent code b.
Proof.
  unfold absent. induction (b_records b) as [|x l IH]; [right; constructor|]. destruct (N.eq_dec (r_code x) code) as [E|E].
  - left. exists x, [], l. auto.
  - destruct IH as [(r & l1 & l2 & -> & C & F)|A]; [left; exists r, (x :: l1), l2; split; [reflexivity|]; split; [exact C|now constructor]|right; now constructor].
Qed.
Lemma identification_accepted e b p : llvm_identification b = Some p ->
  ((exists i, identification_of e b = Ok i) <->
   (exists r s, first_record 1 (b_records b) r /\ text_of e r s) /\ ~ absent 2 b).
Proof.
  intros L. split.
  - intros (i & H). apply identification_iff in H as (r & r' & l & F1 & T & (l1 & l2 & X & C & _) & _). split; [now exists r, (id_producer i)|].
    unfold absent. rewrite X. intros A. apply Forall_app in A as (_ & A). inversion A. contradiction.
  - intros ((r & s & F1 & T) & N). destruct (first_or_absent 2 b) as [(r' & F2)|A]; [|contradiction].
    assert (B : exists q, llvm_identification b = Some q) by now exists p. apply identification_read_by_llvm in B as (_ & K).
    destruct F2 as (l1 & l2 & X & C & G). pose proof K as K'. rewrite X in K'. apply Forall_app in K' as (_ & K').
    inversion K' as [|? ? [K1|(_ & v & fs & K2 & _)] _]; subst; [congruence|].
    exists (mkIdentification s v). apply identification_iff. exists r, r', fs. split; [exact F1|]. split; [exact T|]. split; [now exists l1, l2|exact K2].
Qed.
