(** Proofs about attribute mapping: one attribute. *)
From Verif Require Import Base Strings StringsProofs EnumModel SupportModel SupportSpec SupportMain SupportApi
  LayoutMain UnrollModel UnrollApi AttributeModel AttributeSpec.
From Coq Require Import Lia ZifyBool ZifyNat ZifyN.
Ltac Zify.zify_post_hook ::= Z.div_mod_to_equations.
Local Open Scope N_scope.
Arguments N.add : simpl never.
Arguments N.mul : simpl never.
Arguments N.div : simpl never.
Arguments N.modulo : simpl never.
Arguments N.sub : simpl never.
Arguments N.pow : simpl never.

Lemma char_bytes c : is_scalar_value c = true -> Forall (fun b => b < 256) (utf8_char c).
Proof.
  unfold is_scalar_value, utf8_char. intros H.
  destruct (c <? 0x80) eqn:A; [repeat constructor; lia|].
  destruct (c <? 0x800) eqn:B; [repeat constructor; lia|].
  destruct (c <? 0x10000) eqn:C; repeat constructor; lia.
Qed.
Lemma char_nonzero c : Forall (fun b => b <> 0) (utf8_char c) <-> c <> 0.
Proof.
  unfold utf8_char. destruct (c <? 0x80) eqn:A.
  { split; [intros H; now inversion H|now repeat constructor]. }
  split; [lia|intros _]. destruct (c <? 0x800); [repeat constructor; lia|].
  destruct (c <? 0x10000); repeat constructor; lia.
Qed.
Lemma char_length c : utf8_char c <> [].
Proof. unfold utf8_char. now destruct (c <? 0x80), (c <? 0x800), (c <? 0x10000). Qed.
Lemma encode_bytes s : forallb is_scalar_value s = true -> Forall (fun b => b < 256) (utf8_encode s).
Proof.
  unfold utf8_encode. induction s as [|c s IH]; intros H; [constructor|]. cbn in *.
  apply andb_prop in H as [H1 H2]. apply Forall_app. split; [now apply char_bytes|now apply IH].
Qed.
Lemma encode_nonzero s : Forall (fun b => b <> 0) (utf8_encode s) <-> Forall (fun c => c <> 0) s.
Proof.
  unfold utf8_encode. induction s as [|c s IH]; cbn; [split; constructor|].
  rewrite Forall_app, IH, char_nonzero. split; [intros [A B]; now constructor|intros H; now inversion H].
Qed.
Lemma encode_nil s : utf8_encode s = [] <-> s = [].
Proof.
  split; [|now intros ->]. destruct s as [|c s]; [reflexivity|]. cbn. intros H.
  apply app_eq_nil in H as [H _]. now apply char_length in H.
Qed.
Lemma text_encode s : text s <-> forallb is_scalar_value s = true /\ utf8_encode s <> [] /\
  Forall (fun b => b <> 0) (utf8_encode s).
Proof.
  unfold text. rewrite encode_nonzero, encode_nil, forallb_forall, !Forall_forall. split.
  - intros [A B]. split; [intros x X; apply (B x X)|]. split; [exact A|]. intros x X. apply (B x X).
  - intros (A & B & C). split; [exact B|]. intros x X. split; [now apply A|now apply C].
Qed.

Lemma take_nonzero_split l : exists rest, l = take_nonzero l ++ rest /\ (rest = [] \/ exists r, rest = 0 :: r) /\
  Forall (fun b => b <> 0) (take_nonzero l).
Proof.
  induction l as [|a l (rest & A & B & C)]; cbn; [exists []; auto|].
  destruct (a =? 0) eqn:Q.
  - exists (a :: l). assert (a = 0) as -> by lia. split; [reflexivity|]. eauto.
  - exists rest. split; [cbn; congruence|]. split; [exact B|]. constructor; [lia|exact C].
Qed.
Lemma take_nonzero_app l r : Forall (fun b => b <> 0) l -> take_nonzero (l ++ 0 :: r) = l /\ take_nonzero l = l.
Proof.
  induction 1 as [|a l H _ [IH1 IH2]]; cbn; [auto|]. rewrite IH1, IH2. destruct (a =? 0) eqn:Q; [lia|auto].
Qed.

(** What a string field list stands for. *)
Definition string_at (l : list N) (s : str) : Prop :=
  text s /\ ((exists r, l = utf8_encode s ++ 0 :: r) \/ l = utf8_encode s).

Lemma skipn_pre {A} (pre l : list A) n : n = length pre -> skipn n (pre ++ l) = l.
Proof. intros ->. rewrite skipn_app, skipn_all, Nat.sub_diag. reflexivity. Qed.

Lemma attr_string_ok pre l start count s n : start + count = N.of_nat (length pre) ->
  (attr_string (pre ++ l) start count = Ok (s, n) <->
   string_at l s /\ n = count + (N.of_nat (length (utf8_encode s)) + 1)).
Proof.
  intros H. unfold attr_string. rewrite app_length.
  destruct (_ <? _) eqn:Q; [lia|]. rewrite skipn_pre by lia. clear Q.
  destruct (take_nonzero_split l) as (rest & A & B & C).
  split.
  - intros K. apply obind_iff in K as (raw & K1 & K2). apply collect_u8 in K1 as [-> K1].
    destruct (take_nonzero l) as [|x t] eqn:T; [discriminate|]. rewrite <- T in *.
    apply obind_iff in K2 as (s' & K2 & K3). injection K3 as -> <-.
    unfold ok_or in K2. destruct (utf8_decode _) eqn:D; [|discriminate]. injection K2 as ->.
    apply utf8_exact in D as [D1 D2]. split; [|reflexivity]. split.
    + apply text_encode. rewrite D2. split; [exact D1|]. split; [congruence|exact C].
    + rewrite D2. destruct B as [-> | [r ->]]; [right; now rewrite app_nil_r in A|left; eauto].
  - intros [[T K] ->]. apply text_encode in T as (T1 & T2 & T3).
    assert (X : take_nonzero l = utf8_encode s).
    { destruct K as [[r ->] | ->]; now apply (take_nonzero_app _ []) || apply take_nonzero_app. }
    rewrite X. rewrite (proj2 (collect_u8 AeBadString _ (utf8_encode s))) by (split; [reflexivity|now apply encode_bytes]).
    cbn [obind]. destruct (utf8_encode s) as [|x t] eqn:Y; [congruence|]. rewrite <- Y.
    rewrite decode_encode by exact T1. reflexivity.
Qed.
Lemma attr_string_total fields start count :
  (exists r, attr_string fields start count = Ok r) \/ (exists x, attr_string fields start count = Err x) \/
  (attr_string fields start count = Panic PSliceRange /\ N.of_nat (length fields) < start + count).
Proof.
  unfold attr_string. destruct (_ <? _) eqn:Q; [right; right; split; [reflexivity|lia]|].
  set (t := take_nonzero _). destruct (bytes_dec t) as [B|B].
  - rewrite (proj2 (collect_u8 AeBadString t t)) by auto. cbn [obind]. destruct t as [|x t']; [eauto|].
    unfold ok_or. destruct (utf8_decode _); cbn [obind]; eauto.
  - rewrite collect_u8_err by exact B. cbn [obind]. eauto.
Qed.
Lemma attr_string_panic fields start count p :
  attr_string fields start count = Panic p <-> p = PSliceRange /\ N.of_nat (length fields) < start + count.
Proof.
  split.
  - intros H. destruct (attr_string_total fields start count) as [[r K] | [[x K] | [K L]]]; rewrite K in H; try discriminate.
    split; [congruence|exact L].
  - intros [-> H]. unfold attr_string. destruct (_ <? _) eqn:Q; [reflexivity|lia].
Qed.

Lemma attr_next_pre pre l start count : start + count = N.of_nat (length pre) ->
  attr_next (pre ++ l) start count = match l with f :: _ => Ok (f, count + 1) | [] => Err AeTooShort end.
Proof.
  intros H. unfold attr_next. rewrite nth_error_app2 by lia.
  replace (N.to_nat (start + count) - length pre)%nat with 0%nat by lia. now destruct l.
Qed.

Lemma attr_id_exact v x : attribute_id_of v = Some x <-> attribute_id_num x = v.
Proof. destruct attribute_id_realises as (H & K & _). now rewrite H, K. Qed.

Lemma enum_attribute_exact i x : enum_attribute_of i = Ok x <-> x = i /\ ~ In (attribute_id_num i) valued_ids.
Proof.
  unfold enum_attribute_of, valued_ids. split.
  - destruct (is_enum_attribute i) eqn:E; [intros [= <-]|discriminate]. split; [reflexivity|].
    destruct i; try discriminate E; cbn; lia.
  - intros [-> H]. destruct i; try reflexivity; exfalso; apply H; cbn; tauto.
Qed.

Lemma attr_align_exact key v a : attr_align key v = Ok a <->
  (v = 0 /\ a = None) \/ exists s, v = s + 1 /\ s <= 63 /\ a = Some (mkAlign s).
Proof.
  unfold attr_align, maybe_align_of, from_shift, MAX_SHIFT. split.
  - destruct (v <? 256) eqn:L; [|discriminate]. destruct (v =? 0) eqn:Z; cbn [omap_err].
    + intros [= <-]. left. split; [lia|reflexivity].
    + destruct (63 <? v - 1) eqn:M; [discriminate|]. intros [= <-]. right. exists (v - 1). repeat split; lia.
  - intros [[-> ->] | (s & -> & H & ->)]; [reflexivity|].
    destruct (s + 1 <? 256) eqn:L; [|lia]. destruct (s + 1 =? 0) eqn:Z; [lia|].
    replace (s + 1 - 1) with s by lia. destruct (63 <? s) eqn:M; [lia|reflexivity].
Qed.

Lemma shiftr32 v : N.shiftr v 32 = v / 2 ^ 32.
Proof. apply N.shiftr_div_pow2. Qed.

Lemma split64 v : v < two64 -> exists hi lo, hi < 2 ^ 32 /\ lo < 2 ^ 32 /\ v = hi * 2 ^ 32 + lo.
Proof.
  intros H. exists (v / 2 ^ 32), (v mod 2 ^ 32). change (2 ^ 32) with 4294967296. unfold two64 in H. lia.
Qed.
Lemma hi32 hi lo : hi < 2 ^ 32 -> lo < 2 ^ 32 -> as_u32 (N.shiftr (hi * 2 ^ 32 + lo) 32) = hi.
Proof.
  intros A B. rewrite shiftr32. unfold as_u32. change two32 with (2 ^ 32). change (2 ^ 32) with 4294967296 in *. lia.
Qed.
Lemma lo32 hi lo : lo < 2 ^ 32 -> as_u32 (hi * 2 ^ 32 + lo) = lo.
Proof. intros B. unfold as_u32. change two32 with 4294967296. change (2 ^ 32) with 4294967296 in *. lia. Qed.

Lemma uwtable_exact v x : uwtable_of v = Some x <-> In (v, x) [(0, UwNone); (1, UwSync); (2, UwAsync)].
Proof.
  unfold uwtable_of. cbn [In]. split.
  - destruct v as [|[[]|[]|]]; try discriminate; intros [= <-]; auto.
  - intros [H | [H | [H | []]]]; injection H as <- <-; reflexivity.
Qed.

Ltac inj H := injection H as <- || injection H as ->.
Lemma int_attribute_exact i v x : v < two64 ->
  (int_attribute_of i v = Ok x <-> int_reads (attribute_id_num i) v x).
Proof.
  intros V. split.
  - unfold int_attribute_of. intros H.
    destruct i; try discriminate H; cbn [is_enum_attribute andb negb attribute_id_num] in *.
    + apply obind_iff in H as (a & H & K). injection K as <-. apply attr_align_exact in H as [[-> ->] | (s & -> & S & ->)]; now constructor.
    + apply obind_iff in H as (a & H & K). injection K as <-. apply attr_align_exact in H as [[-> ->] | (s & -> & S & ->)]; now constructor.
    + apply obind_iff in H as (a & H & K). injection K as <-. constructor.
      unfold ok_or in H. destruct (uwtable_of v) eqn:U; [|discriminate]. injection H as ->. now apply uwtable_exact.
    + injection H as <-. constructor.
    + injection H as <-. constructor.
    + destruct (v =? 0) eqn:Z; [discriminate|]. destruct (split64 v V) as (hi & lo & A & B & ->).
      rewrite hi32, lo32 in H by assumption. destruct (lo =? u32_max) eqn:U; injection H as <-.
      * assert (lo = 2 ^ 32 - 1) as -> by (unfold u32_max in U; change (2 ^ 32) with 4294967296; lia). now constructor.
      * constructor; [exact A| |]; unfold u32_max in U; change (2 ^ 32) with 4294967296 in *; lia.
    + destruct (split64 v V) as (hi & lo & A & B & ->).
      rewrite hi32, lo32 in H by assumption. destruct (lo =? 0) eqn:U; injection H as <-.
      * assert (lo = 0) as -> by lia. rewrite N.add_0_r. now constructor.
      * constructor; [exact A|lia].
    + injection H as <-. constructor.
    + injection H as <-. constructor.
  - remember (attribute_id_num i) as k eqn:K. intros H.
    destruct H; symmetry in K; apply attr_id_exact in K; vm_compute in K; injection K as <-; unfold int_attribute_of;
      cbn [is_enum_attribute andb negb]; try reflexivity.
    + rewrite (proj2 (attr_align_exact _ _ _)) by (right; eauto). reflexivity.
    + rewrite (proj2 (attr_align_exact _ _ _)) by (right; eauto). reflexivity.
    + assert (num < 2 ^ 32) by (change (2 ^ 32) with 4294967296 in *; lia).
      rewrite hi32, lo32 by assumption. destruct (_ =? 0) eqn:Z; [change (2 ^ 32) with 4294967296 in *; lia|].
      destruct (num =? u32_max) eqn:U; [unfold u32_max in U; change (2 ^ 32) with 4294967296 in *; lia|reflexivity].
    + rewrite hi32, lo32 by (try assumption; change (2 ^ 32) with 4294967296; lia).
      destruct (_ =? 0) eqn:Z; [change (2 ^ 32) with 4294967296 in *; lia|reflexivity].
    + rewrite hi32, lo32 by (try assumption; lia). destruct (max =? 0) eqn:Z; [lia|reflexivity].
    + replace (min * 2 ^ 32) with (min * 2 ^ 32 + 0) by lia.
      rewrite hi32, lo32 by (try assumption; change (2 ^ 32) with 4294967296; lia). reflexivity.
    + apply uwtable_exact in H. now rewrite H.
Qed.
