(** Proofs about attribute mapping: groups and lists of groups. *)
From Verif Require Import Base Strings StringsProofs EnumModel SupportModel SupportSpec SupportMain SupportApi
  LayoutMain UnrollModel UnrollApi AttributeModel AttributeSpec AttributeProofs.
From Coq Require Import Lia ZifyBool ZifyNat ZifyN.
Ltac Zify.zify_post_hook ::= Z.div_mod_to_equations.
Local Open Scope N_scope.
Arguments N.add : simpl never.
Arguments N.mul : simpl never.
Arguments N.div : simpl never.
Arguments N.modulo : simpl never.
Arguments N.sub : simpl never.
Arguments N.pow : simpl never.

Lemma obind_panic {E A B} (m : outcome E A) (k : A -> outcome E B) p :
  obind m k = Panic p <-> m = Panic p \/ exists a, m = Ok a /\ k a = Panic p.
Proof.
  split.
  - destruct m as [a|x|q|]; cbn; intros H; try discriminate; [right; eauto|left; congruence].
  - intros [-> | (a & -> & H)]; [reflexivity|exact H].
Qed.
Lemma obind_fuel {E A B} (m : outcome E A) (k : A -> outcome E B) :
  obind m k = OutOfFuel <-> m = OutOfFuel \/ exists a, m = Ok a /\ k a = OutOfFuel.
Proof.
  split.
  - destruct m as [a|x|q|]; cbn; intros H; try discriminate; [right; eauto|now left].
  - intros [-> | (a & -> & H)]; [reflexivity|exact H].
Qed.
Lemma ok_or_ok {E A} (o : option A) (x : E) a : ok_or o x = Ok a <-> o = Some a.
Proof. destruct o; cbn; split; congruence. Qed.
Lemma ok_or_panic {E A} (o : option A) (x : E) p : ok_or o x <> Panic p.
Proof. destruct o; discriminate. Qed.
Lemma ok_or_fuel {E A} (o : option A) (x : E) : ok_or o x <> OutOfFuel.
Proof. destruct o; discriminate. Qed.

Lemma kind_exact v k : attribute_kind_of v = Some k <->
  (v = 0 /\ k = AkEnum) \/ (v = 1 /\ k = AkIntKeyValue) \/ (v = 3 /\ k = AkStrKey) \/ (v = 4 /\ k = AkStrKeyValue).
Proof.
  destruct attribute_kind_realises as (H & _). rewrite H. cbn. intuition congruence.
Qed.
Lemma code_exact v k : attribute_code_of v = Some k <->
  (v = 1 /\ k = AcEntryOld) \/ (v = 2 /\ k = AcEntry) \/ (v = 3 /\ k = AcGroupCodeEntry).
Proof.
  destruct attribute_code_realises as (H & _). rewrite H. cbn. intuition congruence.
Qed.

Lemma pre_one {A} (pre : list A) x l : pre ++ x :: l = (pre ++ [x]) ++ l.
Proof. now rewrite <- app_assoc. Qed.
Ltac len := repeat (progress (rewrite ?app_length; cbn [length app])); lia.

(** One attribute at the end of a prefix. *)
Lemma attr_sound pre l n a : Forall (fun f => f < two64) l ->
  attr_from_record (N.of_nat (length pre)) (pre ++ l) = Ok (n, a) ->
  exists w, denotes w a /\ n = N.of_nat (length (wattr_fields w)) /\
    ((exists r, l = wattr_fields w ++ r) \/ l ++ [0] = wattr_fields w).
Proof.
  intros V. unfold attr_from_record. rewrite attr_next_pre by lia.
  destruct l as [|k l]; [discriminate|]. cbn [obind]. intros H.
  apply obind_iff in H as (kind & HK & H). apply ok_or_ok, kind_exact in HK.
  rewrite pre_one in H. set (pre1 := pre ++ [k]) in *.
  assert (L1 : length pre1 = S (length pre)) by (subst pre1; len).
  destruct HK as [[-> ->] | [[-> ->] | [[-> ->] | [-> ->]]]].
  - rewrite attr_next_pre in H by lia. destruct l as [|i l]; [discriminate|]. cbn [obind] in H.
    apply obind_iff in H as (key & A & H). apply ok_or_ok, attr_id_exact in A.
    apply obind_iff in H as (x & B & H). apply enum_attribute_exact in B as [-> B]. injection H as <- <-.
    exists (WEnum i). split; [split; congruence|]. split; [reflexivity|]. left. exists l. reflexivity.
  - rewrite attr_next_pre in H by lia. destruct l as [|i l]; [discriminate|]. cbn [obind] in H.
    apply obind_iff in H as (key & A & H). apply ok_or_ok, attr_id_exact in A.
    rewrite pre_one in H. rewrite attr_next_pre in H by (len). destruct l as [|v l]; [discriminate|]. cbn [obind] in H.
    apply obind_iff in H as (x & B & H). injection H as <- <-.
    apply int_attribute_exact in B; [|inversion V as [|? ? ? V1]; inversion V1 as [|? ? ? V2]; now inversion V2].
    exists (WInt i v). split; [cbn; congruence|]. split; [reflexivity|]. left. exists l. reflexivity.
  - apply obind_iff in H as ((s & m) & A & H). injection H as <- <-.
    apply attr_string_ok in A as [[T A] ->]; [|lia].
    exists (WStr s). split; [now split|]. split; [cbn [wattr_fields]; len|].
    destruct A as [[r ->] | ->]; [left; exists r; cbn; now rewrite <- app_assoc|right; reflexivity].
  - apply obind_iff in H as ((s & m) & A & H). apply attr_string_ok in A as [[T A] ->]; [|lia].
    apply obind_iff in H as ((t & m) & B & H). injection H as <- <-.
    destruct A as [[r ->] | ->].
    + replace (pre1 ++ utf8_encode s ++ 0 :: r) with ((pre1 ++ utf8_encode s ++ [0]) ++ r) in B
        by now rewrite <- !app_assoc.
      apply attr_string_ok in B as [[T' B] ->]; [|len].
      exists (WKeyValue s t). split; [exact (conj eq_refl (conj eq_refl (conj T T')))|]. split; [cbn [wattr_fields]; len|].
      destruct B as [[r' ->] | ->]; [left; exists r'|right]; cbn; rewrite <- ?app_assoc; cbn; now rewrite <- ?app_assoc.
    + exfalso. assert (X : attr_string (pre1 ++ utf8_encode s) (N.of_nat (length pre))
          (0 + 1 + (N.of_nat (length (utf8_encode s)) + 1)) = Panic PSliceRange).
      { apply attr_string_panic. split; [reflexivity|]. rewrite app_length. lia. }
      congruence.
Qed.

Lemma attr_complete pre w a r : Forall (fun f => f < two64) (wattr_fields w) -> denotes w a ->
  attr_from_record (N.of_nat (length pre)) (pre ++ wattr_fields w ++ r) = Ok (N.of_nat (length (wattr_fields w)), a).
Proof.
  intros V D. unfold attr_from_record.
  destruct w as [i|i v|s|k v], a as [x|x|t|k' v']; try contradiction; cbn [wattr_fields app] in *;
    rewrite attr_next_pre by lia; cbn [obind].
  - destruct D as [D1 D2]. change (ok_or (attribute_kind_of 0) _) with (@Ok attr_err _ AkEnum). cbn [obind].
    rewrite pre_one, attr_next_pre by len. cbn [obind]. unfold attr_id_of.
    rewrite (proj2 (attr_id_exact _ _) D1). cbn [ok_or obind].
    rewrite (proj2 (enum_attribute_exact x x)) by (split; [reflexivity|congruence]). reflexivity.
  - change (ok_or (attribute_kind_of 1) _) with (@Ok attr_err _ AkIntKeyValue). cbn [obind].
    assert (K : exists key, attribute_id_num key = i).
    { cbn in D. destruct D; [exists AiAlignment|exists AiAlignment|exists AiStackAlignment|exists AiStackAlignment|
        exists AiDereferenceable|exists AiDereferenceableOrNull|exists AiAllocSize|exists AiAllocSize|
        exists AiVScaleRange|exists AiVScaleRange|exists AiUwTable|exists AiAllocKind|exists AiMemory]; reflexivity. }
    destruct K as [key K].
    rewrite pre_one, attr_next_pre by len. cbn [obind]. unfold attr_id_of.
    rewrite (proj2 (attr_id_exact _ _) K). cbn [ok_or obind].
    rewrite pre_one, attr_next_pre by len. cbn [obind].
    assert (Vv : v < two64) by (inversion V as [|? ? ? V1]; inversion V1 as [|? ? ? V2]; now inversion V2).
    rewrite (proj2 (int_attribute_exact key v x Vv)); [reflexivity|cbn in D; congruence].
  - destruct D as [<- T]. change (ok_or (attribute_kind_of 3) _) with (@Ok attr_err _ AkStrKey). cbn [obind].
    rewrite pre_one.
    erewrite (proj2 (attr_string_ok (pre ++ [3]) _ (N.of_nat (length pre)) (0 + 1) s _ ltac:(len))).
    2:{ split; [|reflexivity]. split; [exact T|]. left. exists r. now rewrite <- app_assoc. }
    cbn [obind]. f_equal. f_equal. len.
  - destruct D as (<- & <- & T & T'). change (ok_or (attribute_kind_of 4) _) with (@Ok attr_err _ AkStrKeyValue). cbn [obind].
    rewrite pre_one.
    erewrite (proj2 (attr_string_ok (pre ++ [4]) _ (N.of_nat (length pre)) (0 + 1) k _ ltac:(len))).
    2:{ split; [|reflexivity]. split; [exact T|]. left. exists (utf8_encode v ++ 0 :: r). rewrite <- !app_assoc. cbn.
        now rewrite <- app_assoc. }
    cbn [obind].
    replace ((pre ++ [4]) ++ (utf8_encode k ++ 0 :: utf8_encode v ++ [0]) ++ r)
      with ((pre ++ [4] ++ utf8_encode k ++ [0]) ++ utf8_encode v ++ 0 :: r)
      by (repeat (progress (rewrite <- ?app_assoc; cbn [app])); reflexivity).
    erewrite (proj2 (attr_string_ok (pre ++ [4] ++ utf8_encode k ++ [0]) _ (N.of_nat (length pre)) (0 + 1 + (N.of_nat (length (utf8_encode k)) + 1)) v _ ltac:(len))).
    2:{ split; [|reflexivity]. split; [exact T'|]. left. now exists r. }
    cbn [obind]. f_equal. f_equal. len.
Qed.

Lemma attr_panic pre l p : attr_from_record (N.of_nat (length pre)) (pre ++ l) = Panic p <->
  p = PSliceRange /\ exists k, text k /\ l = 4 :: utf8_encode k.
Proof.
  unfold attr_from_record. rewrite attr_next_pre by lia. split.
  - destruct l as [|k l]; [discriminate|]. cbn [obind]. intros H.
    apply obind_panic in H as [H | (kind & HK & H)]; [now apply ok_or_panic in H|].
    apply ok_or_ok, kind_exact in HK. rewrite pre_one in H.
    destruct HK as [[-> ->] | [[-> ->] | [[-> ->] | [-> ->]]]].
    + rewrite attr_next_pre in H by len. destruct l as [|i l]; [discriminate|]. cbn [obind] in H.
      apply obind_panic in H as [H | (key & A & H)]; [now apply ok_or_panic in H|].
      unfold enum_attribute_of in H. now destruct (is_enum_attribute key).
    + rewrite attr_next_pre in H by len. destruct l as [|i l]; [discriminate|]. cbn [obind] in H.
      apply obind_panic in H as [H | (key & A & H)]; [now apply ok_or_panic in H|].
      rewrite pre_one, attr_next_pre in H by len. destruct l as [|v l]; [discriminate|]. cbn [obind] in H.
      apply obind_panic in H as [H | (x & B & H)]; [|discriminate]. exfalso. clear A.
      revert H. unfold int_attribute_of, attr_align, maybe_align_of, from_shift.
      destruct key; cbn [is_enum_attribute andb negb]; try discriminate.
      * destruct (v <? 256), (v =? 0), (MAX_SHIFT <? v - 1); discriminate.
      * destruct (v <? 256), (v =? 0), (MAX_SHIFT <? v - 1); discriminate.
      * now destruct (uwtable_of v).
      * now destruct (v =? 0).
    + apply obind_panic in H as [H | ((s & m) & A & H)]; [|discriminate].
      apply attr_string_panic in H as [_ H]. revert H. len.
    + apply obind_panic in H as [H | ((s & m) & A & H)].
      { apply attr_string_panic in H as [_ H]. revert H. len. }
      apply attr_string_ok in A as [[T A] ->]; [|len].
      apply obind_panic in H as [H | ((t & m) & B & H)]; [|discriminate].
      apply attr_string_panic in H as [-> H]. split; [reflexivity|]. exists s. split; [exact T|].
      destruct A as [[r ->] | ->]; [|reflexivity]. revert H. len.
  - intros [-> (k & T & ->)]. cbn [obind]. change (ok_or (attribute_kind_of 4) _) with (@Ok attr_err _ AkStrKeyValue).
    cbn [obind]. rewrite pre_one.
    erewrite (proj2 (attr_string_ok (pre ++ [4]) _ (N.of_nat (length pre)) (0 + 1) k _ ltac:(len))).
    2:{ split; [|reflexivity]. split; [exact T|]. now right. }
    cbn [obind]. apply obind_panic. left. apply attr_string_panic. split; [reflexivity|]. len.
Qed.

Lemma attr_string_fuel fields start count : attr_string fields start count <> OutOfFuel.
Proof. destruct (attr_string_total fields start count) as [[r ->] | [[x ->] | [-> _]]]; discriminate. Qed.
Lemma attr_next_fuel fields start count : attr_next fields start count <> OutOfFuel.
Proof. unfold attr_next. now destruct (nth_error _ _). Qed.
Lemma attr_fuel start fields : attr_from_record start fields <> OutOfFuel.
Proof.
  unfold attr_from_record. intros H.
  apply obind_fuel in H as [H | ((k & n) & A & H)]; [now apply attr_next_fuel in H|].
  apply obind_fuel in H as [H | (kind & HK & H)]; [now apply ok_or_fuel in H|].
  destruct kind.
  - apply obind_fuel in H as [H | ((v & m) & B & H)]; [now apply attr_next_fuel in H|].
    apply obind_fuel in H as [H | (key & C & H)]; [now apply ok_or_fuel in H|].
    unfold enum_attribute_of in H. now destruct (is_enum_attribute key).
  - apply obind_fuel in H as [H | ((v & m) & B & H)]; [now apply attr_next_fuel in H|].
    apply obind_fuel in H as [H | (key & C & H)]; [now apply ok_or_fuel in H|].
    apply obind_fuel in H as [H | ((w & q) & D & H)]; [now apply attr_next_fuel in H|].
    apply obind_fuel in H as [H | (x & F & H)]; [|discriminate]. clear C.
    revert H. unfold int_attribute_of, attr_align, maybe_align_of, from_shift.
    destruct key; cbn [is_enum_attribute andb negb]; try discriminate.
    + destruct (w <? 256), (w =? 0), (MAX_SHIFT <? w - 1); discriminate.
    + destruct (w <? 256), (w =? 0), (MAX_SHIFT <? w - 1); discriminate.
    + now destruct (uwtable_of w).
    + now destruct (w =? 0).
  - apply obind_fuel in H as [H | ((v & m) & B & H)]; [now apply attr_string_fuel in H|discriminate].
  - apply obind_fuel in H as [H | ((v & m) & B & H)]; [now apply attr_string_fuel in H|].
    apply obind_fuel in H as [H | ((w & q) & C & H)]; [now apply attr_string_fuel in H|discriminate].
Qed.

Lemma wattr_length w : (2 <= length (wattr_fields w))%nat.
Proof. destruct w; cbn [wattr_fields]; len. Qed.

Lemma loop_sound fuel pre l acc attrs idx : Forall (fun f => f < two64) l ->
  group_loop fuel (pre ++ l) (N.of_nat (length pre)) acc = Ok (attrs, idx) ->
  exists ws rs, attrs = acc ++ rs /\ Forall2 denotes ws rs /\
    ((flat_map wattr_fields ws = l /\ idx = N.of_nat (length (pre ++ l))) \/
     (flat_map wattr_fields ws = l ++ [0] /\ idx = N.of_nat (length (pre ++ l)) + 1)).
Proof.
  revert pre l acc. induction fuel as [|fuel IH]; intros pre l acc V; [discriminate|]. cbn [group_loop].
  destruct (_ <? _) eqn:Q.
  - intros H. apply obind_iff in H as ((n & a) & A & H). apply attr_sound in A as (w & D & -> & A); [|exact V].
    destruct A as [[r ->] | A].
    + apply Forall_app in V as [V1 V2]. rewrite app_assoc in H.
      replace (N.of_nat (length pre) + N.of_nat (length (wattr_fields w))) with (N.of_nat (length (pre ++ wattr_fields w))) in H by len.
      apply IH in H as (ws & rs & -> & F & K); [|exact V2].
      exists (w :: ws), (a :: rs). split; [now rewrite <- app_assoc|]. split; [now constructor|].
      cbn [flat_map]. rewrite <- app_assoc in K.
      destruct K as [[K1 ->] | [K1 ->]]; [left|right]; rewrite K1, ?app_assoc; auto.
    + assert (L : length (wattr_fields w) = S (length l)) by (rewrite <- A; len).
      destruct fuel as [|fuel]; [discriminate|]. cbn [group_loop] in H.
      destruct (_ <? _) eqn:Q2 in H; [rewrite app_length in Q2; lia|]. injection H as <- <-.
      exists [w], [a]. split; [reflexivity|]. split; [repeat constructor; exact D|]. right. split; [cbn; now rewrite app_nil_r|len].
  - intros [= <- <-]. rewrite app_length in Q. assert (l = []) as -> by (destruct l; [reflexivity|cbn in Q; lia]).
    exists [], []. rewrite !app_nil_r. split; [reflexivity|]. split; [constructor|]. now left.
Qed.
Lemma loop_complete ws rs fuel pre acc : Forall (fun f => f < two64) (flat_map wattr_fields ws) -> Forall2 denotes ws rs ->
  (length (flat_map wattr_fields ws) < fuel)%nat ->
  group_loop fuel (pre ++ flat_map wattr_fields ws) (N.of_nat (length pre)) acc
    = Ok (acc ++ rs, N.of_nat (length (pre ++ flat_map wattr_fields ws))).
Proof.
  intros V H. revert fuel pre acc. induction H as [|w a ws rs D H IH]; intros fuel pre acc L; destruct fuel as [|fuel]; try lia.
  - cbn [group_loop flat_map]. rewrite !app_nil_r. destruct (_ <? _) eqn:Q; [lia|reflexivity].
  - cbn [group_loop flat_map] in *. apply Forall_app in V as [V1 V2]. pose proof (wattr_length w).
    destruct (_ <? _) eqn:Q; [|rewrite !app_length in Q; lia].
    rewrite (attr_complete pre w a) by assumption. cbn [obind]. rewrite app_assoc.
    replace (N.of_nat (length pre) + N.of_nat (length (wattr_fields w))) with (N.of_nat (length (pre ++ wattr_fields w))) by len.
    rewrite IH; [now rewrite <- app_assoc|exact V2|]. rewrite app_length in L. lia.
Qed.
Lemma loop_panic fuel pre l acc p : Forall (fun f => f < two64) l -> (length l < fuel)%nat ->
  (group_loop fuel (pre ++ l) (N.of_nat (length pre)) acc = Panic p <->
   p = PSliceRange /\ exists ws rs k, Forall2 denotes ws rs /\ text k /\ l = flat_map wattr_fields ws ++ 4 :: utf8_encode k).
Proof.
  intros V L. split.
  - revert pre l acc V L. induction fuel as [|fuel IH]; intros pre l acc V L; [lia|]. cbn [group_loop].
    destruct (_ <? _) eqn:Q; [|discriminate]. intros H. apply obind_panic in H as [H | ((n & a) & A & H)].
    + apply attr_panic in H as [-> (k & T & ->)]. split; [reflexivity|]. exists [], [], k. repeat split; try constructor; apply T.
    + apply attr_sound in A as (w & D & -> & A); [|exact V]. pose proof (wattr_length w). destruct A as [[r ->] | A].
      * apply Forall_app in V as [V1 V2]. rewrite app_assoc in H.
        replace (N.of_nat (length pre) + N.of_nat (length (wattr_fields w))) with (N.of_nat (length (pre ++ wattr_fields w))) in H by len.
        apply IH in H as [-> (ws & rs & k & F & T & ->)]; [|exact V2|rewrite app_length in L; lia].
        split; [reflexivity|]. exists (w :: ws), (a :: rs), k. split; [now constructor|]. split; [exact T|]. cbn. now rewrite app_assoc.
      * assert (N : length (wattr_fields w) = S (length l)) by (rewrite <- A; len).
        destruct fuel as [|fuel]; [lia|]. cbn [group_loop] in H.
        destruct (_ <? _) eqn:Q2 in H; [rewrite app_length in Q2; lia|discriminate].
  - intros [-> (ws & rs & k & F & T & ->)]. revert fuel pre acc L.
    induction F as [|w a ws rs D F IH]; intros fuel pre acc L; (destruct fuel as [|fuel]; [lia|]); cbn [group_loop].
    + cbn [flat_map app]. destruct (_ <? _) eqn:Q; [|revert Q; len].
      apply obind_panic. left. apply attr_panic. eauto.
    + cbn [flat_map] in *. rewrite <- app_assoc in V |- *. apply Forall_app in V as [V1 V2]. pose proof (wattr_length w).
      destruct (_ <? _) eqn:Q; [|rewrite !app_length in Q; lia].
      rewrite (attr_complete pre w a) by assumption. cbn [obind]. rewrite app_assoc.
      replace (N.of_nat (length pre) + N.of_nat (length (wattr_fields w))) with (N.of_nat (length (pre ++ wattr_fields w))) by len.
      apply IH; [exact V2|]. rewrite !app_length in *. lia.
Qed.
Lemma loop_fuel fuel pre l acc : (length l < fuel)%nat -> Forall (fun f => f < two64) l ->
  group_loop fuel (pre ++ l) (N.of_nat (length pre)) acc <> OutOfFuel.
Proof.
  revert pre l acc. induction fuel as [|fuel IH]; intros pre l acc L V; [lia|]. cbn [group_loop].
  destruct (_ <? _) eqn:Q; [|discriminate]. intros H. apply obind_fuel in H as [H | ((n & a) & A & H)]; [now apply attr_fuel in H|].
  apply attr_sound in A as (w & D & -> & A); [|exact V]. pose proof (wattr_length w). destruct A as [[r ->] | A].
  - apply Forall_app in V as [V1 V2]. rewrite app_assoc in H.
    replace (N.of_nat (length pre) + N.of_nat (length (wattr_fields w))) with (N.of_nat (length (pre ++ wattr_fields w))) in H by len.
    apply IH in H; [exact H| |exact V2]. rewrite app_length in L. lia.
  - assert (N : length (wattr_fields w) = S (length l)) by (rewrite <- A; len).
    destruct fuel as [|fuel]; [lia|]. cbn [group_loop] in H.
    destruct (_ <? _) eqn:Q2 in H; [rewrite app_length in Q2; lia|discriminate].
Qed.

Lemma place_exact p d : place p d <-> disposition_of p = d.
Proof.
  unfold place, disposition_of, u32_max. change (2 ^ 32 - 1) with 4294967295.
  destruct (p =? 4294967295) eqn:A; [|destruct (p =? 0) eqn:B].
  - intuition (try lia; congruence).
  - intuition (try lia; congruence).
  - split; [intros [[H K] | [[H K] | (H & K & X)]]; try lia; congruence|]. intros <-. right. right. repeat split; lia.
Qed.

Lemma flat_nil ws : flat_map wattr_fields ws = [] -> ws = [].
Proof. destruct ws as [|w ws]; [reflexivity|]. cbn. intros H. apply app_eq_nil in H as [H _]. pose proof (wattr_length w). rewrite H in *. cbn in *. lia. Qed.

Lemma group_exact r id g : fields64 r -> (group_of_record r = Ok (id, g) <-> group_record r id g).
Proof.
  intros V. unfold group_of_record. split.
  - intros H. apply obind_iff in H as (c & C & H). apply ok_or_ok, code_exact in C.
    destruct C as [[_ ->] | [[_ ->] | [C ->]]]; try discriminate.
    destruct (r_fields r) as [|gid [|p [|x l]]] eqn:F; try discriminate.
    apply obind_iff in H as ((attrs & idx) & H & K).
    assert (V2 : Forall (fun f => f < two64) (x :: l)) by (unfold fields64 in V; rewrite F in V; inversion V as [|? ? ? V1]; now inversion V1).
    change (gid :: p :: x :: l) with ([gid; p] ++ x :: l) in H. apply (loop_sound _ [gid; p]) in H; [|exact V2].
    destruct H as (ws & rs & -> & D & H). cbn [app length] in *.
    destruct (idx =? _) eqn:Q in K; [|discriminate]. injection K as <- <-.
    destruct H as [[H ->] | [_ ->]]; [|lia].
    exists gid, p, ws. rewrite H. repeat split; try assumption; try reflexivity.
    + intros ->. discriminate.
    + now apply place_exact.
  - intros (gid & p & ws & C & F & NE & -> & P & D). rewrite C. cbn [attribute_code_of ok_or obind]. rewrite F.
    destruct (flat_map wattr_fields ws) as [|x l] eqn:W; [now apply flat_nil in W|]. rewrite <- W in *.
    replace (gid :: p :: x :: l) with ([gid; p] ++ flat_map wattr_fields ws) by (rewrite W; reflexivity).
    rewrite (loop_complete ws (ag_attributes g) _ [gid; p]).
    + cbn [obind]. rewrite N.eqb_refl. f_equal. f_equal. apply place_exact in P. destruct g. cbn in *. unfold as_u32. change two32 with (2 ^ 32). now rewrite P.
    + unfold fields64 in V. rewrite F in V. inversion V as [|? ? ? V1]. now inversion V1.
    + exact D.
    + cbn [length app]; lia.
Qed.
Lemma group_panic r p : fields64 r -> (group_of_record r = Panic p <-> p = PSliceRange /\ cut_key r).
Proof.
  intros V. unfold group_of_record, cut_key. split.
  - intros H. apply obind_panic in H as [H | (c & C & H)]; [now apply ok_or_panic in H|]. apply ok_or_ok, code_exact in C.
    destruct C as [[_ ->] | [[_ ->] | [C ->]]]; try discriminate.
    destruct (r_fields r) as [|gid [|q [|x l]]] eqn:F; try discriminate.
    apply obind_panic in H as [H | ((attrs & idx) & H & K)]; [|now destruct (_ =? _) in K].
    assert (V2 : Forall (fun f => f < two64) (x :: l)) by (unfold fields64 in V; rewrite F in V; inversion V as [|? ? ? V1]; now inversion V1).
    change (gid :: q :: x :: l) with ([gid; q] ++ x :: l) in H. apply (loop_panic _ [gid; q]) in H; [|exact V2|cbn; lia].
    destruct H as [-> (ws & rs & k & D & T & H)]. split; [reflexivity|].
    exists gid, q, ws, rs, k. repeat split; try assumption; try apply T. now rewrite H.
  - intros [-> (gid & q & ws & rs & k & C & D & T & F)]. rewrite C. cbn [attribute_code_of ok_or obind]. rewrite F.
    destruct (flat_map wattr_fields ws ++ 4 :: utf8_encode k) as [|x l] eqn:W; [now apply app_eq_nil in W|]. rewrite <- W in *.
    replace (gid :: q :: x :: l) with ([gid; q] ++ flat_map wattr_fields ws ++ 4 :: utf8_encode k) by (rewrite W; reflexivity).
    apply obind_panic. left. apply (loop_panic _ [gid; q]).
    + unfold fields64 in V. rewrite F in V. inversion V as [|? ? ? V1]. now inversion V1.
    + cbn [length app]; lia.
    + split; [reflexivity|]. eauto 6.
Qed.
Lemma group_fuel r : fields64 r -> group_of_record r <> OutOfFuel.
Proof.
  intros V. unfold group_of_record. intros H. apply obind_fuel in H as [H | (c & C & H)]; [now apply ok_or_fuel in H|].
  destruct c; try discriminate. destruct (r_fields r) as [|gid [|q [|x l]]] eqn:F; try discriminate.
  apply obind_fuel in H as [H | ((attrs & idx) & H & K)]; [|now destruct (_ =? _) in K].
  assert (V2 : Forall (fun f => f < two64) (x :: l)) by (unfold fields64 in V; rewrite F in V; inversion V as [|? ? ? V1]; now inversion V1).
  revert H. change (gid :: q :: x :: l) with ([gid; q] ++ x :: l). apply (loop_fuel _ [gid; q]); [cbn; lia|exact V2].
Qed.

Lemma groups_loop_ok l m m' : groups_loop l m = Ok m' <->
  exists gs, Forall2 (fun r g => group_of_record r = Ok g) l gs /\ m' = rev gs ++ m.
Proof.
  revert m. induction l as [|r l IH]; intros m; cbn [groups_loop].
  - split; [intros [= <-]; exists []; split; [constructor|reflexivity]|]. intros (gs & H & ->). now inversion H.
  - rewrite obind_iff. split.
    + intros (g & G & H). apply IH in H as (gs & H & ->). exists (g :: gs). split; [now constructor|]. cbn. now rewrite <- app_assoc.
    + intros (gs & H & ->). inversion H as [|? g ? gs' G H']; subst. exists g. split; [exact G|]. apply IH. exists gs'.
      split; [exact H'|]. cbn. now rewrite <- app_assoc.
Qed.
Lemma groups_loop_panic l m p : groups_loop l m = Panic p <->
  exists l1 r l2, l = l1 ++ r :: l2 /\ Forall (fun r => exists g, group_of_record r = Ok g) l1 /\ group_of_record r = Panic p.
Proof.
  revert m. induction l as [|r l IH]; intros m; cbn [groups_loop].
  - split; [discriminate|]. intros (l1 & r & l2 & H & _). now destruct l1.
  - rewrite obind_panic. split.
    + intros [H | (g & G & H)]; [exists [], r, l; auto|]. apply IH in H as (l1 & r' & l2 & -> & F & P).
      exists (r :: l1), r', l2. split; [reflexivity|]. split; [constructor; eauto|exact P].
    + intros ([|r1 l1] & r' & l2 & H & F & P); injection H as <- ->; [now left|]. right.
      inversion F as [|? ? [g G] F']; subst. exists g. split; [exact G|]. apply IH. eauto 6.
Qed.
Lemma groups_loop_fuel l m : Forall fields64 l -> groups_loop l m <> OutOfFuel.
Proof.
  intros V. revert m. induction V as [|r l Vr V IH]; intros m; cbn [groups_loop]; [discriminate|]. intros H.
  apply obind_fuel in H as [H | (g & G & H)]; [now apply group_fuel in H|now apply IH in H].
Qed.
Lemma groups_get_find m id : groups_get m id = option_map snd (find (fun x => fst x =? id) m).
Proof. induction m as [|(k & g) m IH]; cbn; [reflexivity|]. now destruct (k =? id). Qed.

(** Blocks of groups. *)
Lemma groups_exact b : Forall fields64 (b_records b) ->
  (forall gs, Forall2 (fun r g => group_record r (fst g) (snd g)) (b_records b) gs ->
     exists m, attr_groups_of b = Ok m /\ forall id, groups_get m id = last_entry id gs) /\
  (forall m, attr_groups_of b = Ok m -> exists gs, Forall2 (fun r g => group_record r (fst g) (snd g)) (b_records b) gs).
Proof.
  intros V. split.
  - intros gs H. exists (rev gs). split; [|intros id; apply groups_get_find].
    unfold attr_groups_of. apply groups_loop_ok. exists gs. split; [|now rewrite app_nil_r].
    revert V. induction H as [|r g l gs G H IH]; intros V; inversion V; subst; constructor; auto.
    destruct g. now apply group_exact.
  - intros m H. apply groups_loop_ok in H as (gs & H & _). exists gs.
    revert V. induction H as [|r g l gs G H IH]; intros V; inversion V; subst; constructor; auto.
    destruct g. now apply group_exact.
Qed.
Lemma groups_panic b p : Forall fields64 (b_records b) ->
  (attr_groups_of b = Panic p <-> p = PSliceRange /\ exists l1 r l2, b_records b = l1 ++ r :: l2 /\ cut_key r /\
     Forall (fun r => exists id g, group_record r id g) l1).
Proof.
  intros V. unfold attr_groups_of. rewrite groups_loop_panic. split.
  - intros (l1 & r & l2 & E & F & P). rewrite E in *. apply Forall_app in V as [V1 V2]. inversion V2; subst. apply group_panic in P as [-> P]; [|assumption].
    split; [reflexivity|]. exists l1, r, l2. repeat split; [exact P|]. clear - F V1.
    induction F as [|x l [[id g] X] F IH]; inversion V1; subst; constructor; auto. exists id, g. now apply group_exact.
  - intros [-> (l1 & r & l2 & E & P & F)]. rewrite E in *. apply Forall_app in V as [V1 V2]. inversion V2; subst.
    exists l1, r, l2. split; [reflexivity|]. split; [|apply group_panic; auto]. clear - F V1.
    induction F as [|x l (id & g & X) F IH]; inversion V1; subst; constructor; auto. exists (id, g). now apply group_exact.
Qed.
Lemma groups_fuel b : Forall fields64 (b_records b) -> attr_groups_of b <> OutOfFuel.
Proof. apply groups_loop_fuel. Qed.

(** Lists of groups. *)
Lemma collect_panic {E A B} (f : A -> outcome E B) l p : collect f l = Panic p <->
  exists l1 x l2, l = l1 ++ x :: l2 /\ Forall (fun a => exists b, f a = Ok b) l1 /\ f x = Panic p.
Proof.
  induction l as [|a l IH]; cbn [collect].
  - split; [discriminate|]. intros ([|y l1] & x & l2 & H & _); discriminate H.
  - rewrite obind_panic. split.
    + intros [H | (b & G & H)]; [exists [], a, l; auto|]. apply obind_panic in H as [H | (bs & _ & H)]; [|discriminate].
      apply IH in H as (l1 & r' & l2 & -> & F & P). exists (a :: l1), r', l2. split; [reflexivity|]. split; [constructor; eauto|exact P].
    + intros ([|r1 l1] & r' & l2 & H & F & P); injection H as <- ->; [now left|]. right.
      inversion F as [|? ? [g G] F']; subst. exists g. split; [exact G|]. apply obind_panic. left. apply IH. eauto 6.
Qed.
Lemma collect_fuel {E A B} (f : A -> outcome E B) l : (forall a, In a l -> f a <> OutOfFuel) -> collect f l <> OutOfFuel.
Proof.
  induction l as [|a l IH]; cbn [collect]; [discriminate|]. intros K H.
  apply obind_fuel in H as [H | (b & G & H)]; [now apply (K a (or_introl eq_refl))|].
  apply obind_fuel in H as [H | (bs & _ & H)]; [|discriminate]. revert H. apply IH. intros x X. apply K. now right.
Qed.

Lemma entry_exact m r gs : entry_of_record m r = Ok gs <->
  r_code r = 2 /\ Forall2 (fun f g => groups_get m (f mod 2 ^ 32) = Some g) (r_fields r) gs.
Proof.
  unfold entry_of_record. split.
  - intros H. apply obind_iff in H as (c & C & H). apply ok_or_ok, code_exact in C.
    destruct C as [[_ ->] | [[C ->] | [_ ->]]]; try discriminate. split; [exact C|].
    apply collect_iff in H. eapply Forall2_weaken; [|exact H]. intros f g K. now apply ok_or_ok in K.
  - intros [C H]. rewrite C. cbn [attribute_code_of ok_or obind]. apply collect_iff.
    eapply Forall2_weaken; [|exact H]. intros f g K. now apply ok_or_ok.
Qed.
Lemma attributes_exact m b es : attributes_of m b = Ok es <->
  Forall2 (fun r gs => r_code r = 2 /\ Forall2 (fun f g => groups_get m (f mod 2 ^ 32) = Some g) (r_fields r) gs)
    (b_records b) es.
Proof.
  unfold attributes_of, attributes in *. rewrite collect_iff. split; intros H; (eapply Forall2_weaken; [|exact H]); intros r gs; apply entry_exact.
Qed.
Lemma entry_panic m r p : entry_of_record m r = Panic p <-> p = PUnimplemented /\ r_code r = 1.
Proof.
  unfold entry_of_record. split.
  - intros H. apply obind_panic in H as [H | (c & C & H)]; [now apply ok_or_panic in H|]. apply ok_or_ok, code_exact in C.
    destruct C as [[C ->] | [[_ ->] | [_ ->]]]; try discriminate; [split; congruence|].
    apply collect_panic in H as (l1 & x & l2 & _ & _ & H). now apply ok_or_panic in H.
  - intros [-> ->]. reflexivity.
Qed.
Lemma attributes_panic m b p : attributes_of m b = Panic p <-> p = PUnimplemented /\
  exists l1 r l2, b_records b = l1 ++ r :: l2 /\ r_code r = 1 /\
    Forall (fun r => r_code r = 2 /\ Forall (fun f => groups_get m (f mod 2 ^ 32) <> None) (r_fields r)) l1.
Proof.
  assert (X : forall r, (exists gs, entry_of_record m r = Ok gs) <->
    r_code r = 2 /\ Forall (fun f => groups_get m (f mod 2 ^ 32) <> None) (r_fields r)).
  { intros r. split.
    - intros (gs & H). apply entry_exact in H as [C H]. split; [exact C|]. clear C. induction H; constructor; congruence.
    - intros [C H]. enough (exists gs, Forall2 (fun f g => groups_get m (f mod 2 ^ 32) = Some g) (r_fields r) gs) as (gs & K)
        by (exists gs; now apply entry_exact). clear C.
      induction H as [|f l F _ (gs & IH)]; [exists []; constructor|].
      destruct (groups_get m (f mod 2 ^ 32)) as [g|] eqn:Q; [|congruence]. exists (g :: gs). now constructor. }
  unfold attributes_of, attributes in *. rewrite collect_panic. split.
  - intros (l1 & r & l2 & H & F & P). apply entry_panic in P as [-> P]. split; [reflexivity|]. exists l1, r, l2. repeat split; auto.
    eapply Forall_impl; [|exact F]. intros x Y. now apply X.
  - intros [-> (l1 & r & l2 & H & P & F)]. exists l1, r, l2. repeat split; auto; [|now apply entry_panic].
    eapply Forall_impl; [|exact F]. intros x Y. now apply X.
Qed.
Lemma attributes_fuel m b : attributes_of m b <> OutOfFuel.
Proof.
  apply collect_fuel. intros r _. unfold entry_of_record. intros H.
  apply obind_fuel in H as [H | (c & C & H)]; [now apply ok_or_fuel in H|]. destruct c; try discriminate.
  revert H. apply collect_fuel. intros f _. apply ok_or_fuel.
Qed.

(** LLVM writes an alignment as the number of bytes; llvm-mapper reads one more than the
    exponent. *)
Lemma group_of_alignment id : id = 1 \/ id = 25 -> forall shift, shift <= 63 -> forall g p, g < 2 ^ 32 -> 
  (exists a, group_of_record (mkRecord None 3 (g :: p :: wattr_fields (WInt id (llvm_alignment_value shift)))) =
     Ok (g, mkGroup (disposition_of (p mod 2 ^ 32)) [AtInt (if id =? 1 then IaAlignment (Some (mkAlign a)) else IaStackAlignment (Some (mkAlign a)))]) /\
     a = 2 ^ shift - 1 /\ shift <= 6) \/
  (7 <= shift /\ exists x, group_of_record (mkRecord None 3 (g :: p :: wattr_fields (WInt id (llvm_alignment_value shift)))) = Err x).
Proof.
  intros I shift S g p G. unfold llvm_alignment_value.
  assert (C : In shift (map N.of_nat (seq 0 64))) by (apply in_map_iff; exists (N.to_nat shift); rewrite in_seq; lia).
  assert (X : as_u32 g = g) by (unfold as_u32; apply N.mod_small; exact G).
  destruct (N.lt_ge_cases 6 shift) as [L|L].
  - right. split; [lia|]. exists (AeMalformed (if shift <? 8 then MfAlignment else MfLargeAlignment) (if id =? 1 then AiAlignment else AiStackAlignment)).
    cbn [wattr_fields]. revert C. cbn. intros C.
    destruct I as [-> | ->]; repeat (destruct C as [<- | C]; [try (exfalso; revert L; vm_compute; discriminate); reflexivity|]); destruct C.
  - left. exists (2 ^ shift - 1). split; [|split; [reflexivity|exact L]].
    revert C. cbn. intros C. rewrite <- X at 2.
    destruct I as [-> | ->]; repeat (destruct C as [<- | C]; [try (exfalso; revert L; vm_compute; congruence); reflexivity|]); destruct C.
Qed.
