(** Attributes: llvm-mapper and LLVM's reader. *)
From Coq Require Import Bool Lia ZifyBool ZifyNat ZifyN.
From Verif Require Import Base Strings ReaderSpec EnumModel SupportModel UnrollModel AttributeModel AttributeSpec AttributeProofs AttributeMain
  AttributeReaderSpec.
Local Open Scope N_scope.

(** *** The fields llvm-mapper accepts, read by LLVM *)

Definition lattr_of (w : wattr) : lattr :=
  match w with
  | WEnum i => LaEnum i
  | WInt i v => LaInt i v
  | WStr s => LaString (utf8_encode s) None
  | WKeyValue k v => LaString (utf8_encode k) (Some (utf8_encode v))
  end.
Definition known_w (K : llvm_keys) (w : wattr) : bool :=
  match w with WEnum i => lk_enum K i | WInt i _ => lk_int K i | _ => true end.

Lemma terminated_app s l : Forall (fun b => b <> 0) s -> terminated (s ++ 0 :: l) = Some (s, l).
Proof.
  induction 1 as [|c s C _ IH]; [reflexivity|]. cbn [app terminated]. replace (c =? 0) with false by lia. now rewrite IH.
Qed.
Lemma terminated_inv l : forall s rest, terminated l = Some (s, rest) -> l = s ++ 0 :: rest.
Proof.
  induction l as [|c l IH]; intros s rest; cbn [terminated]; [discriminate|]. destruct (c =? 0) eqn:C.
  - intros [= <- <-]. apply N.eqb_eq in C. now subst c.
  - destruct (terminated l) as [[s' r']|]; [|discriminate]. intros [= <- <-]. cbn. f_equal. now apply IH.
Qed.
Lemma text_nonzero s : text s -> Forall (fun b => b <> 0) (utf8_encode s).
Proof. intros T. apply text_encode in T. apply T. Qed.

Lemma step_written K w a n l : denotes w a -> llvm_attributes K (S n) (wattr_fields w ++ l) =
  if known_w K w then try! las := llvm_attributes K n l in Some (lattr_of w :: las) else None.
Proof.
  destruct w as [i|i v|s|s t]; destruct a; cbn [denotes]; try contradiction; intros D; cbn [wattr_fields app known_w lattr_of];
    cbn [llvm_attributes N.eqb Pos.eqb]; try reflexivity.
  - destruct D as [_ T]. rewrite <- app_assoc. cbn [app]. rewrite terminated_app by now apply text_nonzero. reflexivity.
  - destruct D as (_ & _ & T & T'). rewrite <- app_assoc. cbn [app]. rewrite terminated_app by now apply text_nonzero.
    rewrite <- app_assoc. cbn [app]. rewrite terminated_app by now apply text_nonzero. reflexivity.
Qed.
Lemma written K ws attrs : Forall2 denotes ws attrs -> forall n, (length ws <= n)%nat ->
  llvm_attributes K n (flat_map wattr_fields ws) = if forallb (known_w K) ws then Some (map lattr_of ws) else None.
Proof.
  induction 1 as [|w a ws attrs D _ IH]; intros n L; [destruct n; reflexivity|]. destruct n as [|n]; [cbn in L; lia|].
  cbn [flat_map]. rewrite (step_written K w a n _ D). rewrite IH by (cbn in L; lia). cbn [forallb map].
  destruct (known_w K w); [|reflexivity]. cbn [andb]. destruct (forallb (known_w K) ws); reflexivity.
Qed.

Lemma fields_length ws : (length ws <= length (flat_map wattr_fields ws))%nat.
Proof. induction ws as [|w ws IH]; [cbn; lia|]. cbn [flat_map length]. rewrite app_length. pose proof (wattr_length w). lia. Qed.

(** Integer values. *)
Lemma int_strict i v : v < two64 -> ((exists x, int_reads i v x) <-> strict_attribute (LaInt i v)).
Proof.
  intros V. cbn [strict_attribute]. split.
  - intros (x & R). destruct R; cbn [In]; try lia; try tauto.
    + right. right. right. split; [reflexivity|]. match goal with H : In _ _ |- _ => cbn in H; decompose [or] H end; try contradiction;
        match goal with H : (_, _) = (_, _) |- _ => injection H as <- _; lia end.
  - intros [[I L]|[I|[[-> L]|[-> L]]]].
    + destruct (N.eq_dec v 0) as [->|NZ].
      * cbn in I. destruct I as [<-|[<-|[]]]; eexists; constructor.
      * replace v with ((v - 1) + 1) by lia. cbn in I. destruct I as [<-|[<-|[]]]; eexists; constructor; lia.
    + destruct (split64 v V) as (hi & lo & H & L & ->). cbn in I. destruct I as [<-|[<-|[<-|[<-|[<-|[]]]]]]; try (eexists; constructor; fail).
      destruct (N.eq_dec lo 0) as [->|NZ]; [rewrite N.add_0_r|]; eexists; constructor; lia.
    + destruct (split64 v V) as (hi & lo & H & L' & ->). destruct (N.eq_dec lo (2 ^ 32 - 1)) as [->|NE]; eexists; constructor; lia.
    + assert (X : v = 0 \/ v = 1 \/ v = 2) by lia. destruct X as [->|[->| ->]]; eexists; constructor; cbn; eauto.
Qed.

(** 2 to a power is one more than the exponent for 0 and 1 only. *)
Lemma power_is s : 2 ^ s = s + 1 <-> s <= 1.
Proof.
  split.
  - intros E. destruct (N.le_gt_cases s 1) as [L|G]; [exact L|]. exfalso. assert (X : forall n : nat, N.of_nat n + 3 < 2 ^ (N.of_nat n + 2)).
    { induction n as [|n IH]; [reflexivity|]. replace (N.of_nat (S n) + 2) with (N.succ (N.of_nat n + 2)) by lia. rewrite N.pow_succ_r by lia. lia. }
    specialize (X (N.to_nat (s - 2))). replace (N.of_nat (N.to_nat (s - 2))) with (s - 2) in X by lia. replace (s - 2 + 2) with s in X by lia. lia.
  - intros L. assert (X : s = 0 \/ s = 1) by lia. destruct X as [->| ->]; reflexivity.
Qed.

Lemma halves hi lo : lo < 2 ^ 32 -> (hi * 2 ^ 32 + lo) / 2 ^ 32 = hi /\ (hi * 2 ^ 32 + lo) mod 2 ^ 32 = lo.
Proof.
  intros L. rewrite N.add_comm, N.div_add, N.mod_add by discriminate. rewrite N.div_small, N.mod_small by exact L. split; reflexivity.
Qed.

Lemma int_agrees i v x : int_reads i v x -> int_key x = i /\ (int_same x i v <-> ~ misread (LaInt i v)).
Proof.
  intros R. cbn [misread]. destruct R as [|s S| |s S|v|v|elt num E NU NZ|elt E|min max MI MA|min MI|v x I|v|v]; cbn [int_key int_same In]; (split; [reflexivity|]).
  - split; [intros _; lia|auto].
  - pose proof (power_is s) as P. split; [intros [_ X]; lia|intros X; split; [reflexivity|symmetry; apply P; lia]].
  - split; [intros _; lia|auto].
  - pose proof (power_is s) as P. split; [intros [_ X]; lia|intros X; split; [reflexivity|symmetry; apply P; lia]].
  - split; [intros _; lia|auto].
  - split; [intros _; lia|auto].
  - split; [intros _; lia|auto].
  - split; [intros _; lia|auto].
  - destruct (halves min max) as [D M]; [lia|]. rewrite D, M. split; [intros [_ X]; lia|]. intros X. split; [reflexivity|]. assert (min = max) by lia. subst. reflexivity.
  - destruct (halves min 0) as [D M]; [lia|]. rewrite N.add_0_r in D, M. rewrite D, M. split; [intros [_ X]; lia|]. intros X. split; [reflexivity|]. assert (min = 0) by lia. subst. reflexivity.
  - split; [intros _; lia|]. intros _. split; [reflexivity|]. cbn in I. destruct I as [I|[I|[I|[]]]]; injection I as <- <-; reflexivity.
  - split; [intros _; lia|auto].
  - split; [intros _; lia|auto].
Qed.

Lemma text_bytes s : text s -> bytes (utf8_encode s) = utf8_encode s.
Proof.
  intros T. apply text_encode in T as (S & _). apply encode_bytes in S. unfold bytes. induction S as [|x l X _ IH]; [reflexivity|].
  cbn. rewrite IH, N.mod_small by exact X. reflexivity.
Qed.
Lemma denotes_agree w a : denotes w a -> same_key a (lattr_of w) /\ (same_attribute a (lattr_of w) <-> ~ misread (lattr_of w)).
Proof.
  destruct w as [i|i v|s|s t]; destruct a as [x|x|u|u u']; cbn [denotes]; try contradiction; intros D; cbn [lattr_of].
  - destruct D as [D _]. cbn. tauto.
  - exact (int_agrees _ _ _ D).
  - destruct D as [<- T]. cbn [same_key same_attribute misread]. rewrite text_bytes by exact T. tauto.
  - destruct D as (<- & <- & T & T'). cbn [same_key same_attribute misread]. rewrite !text_bytes by assumption. tauto.
Qed.
Lemma denotes_known K w a : denotes w a -> (known_w K w = true <-> known_attribute K a).
Proof.
  destruct w as [i|i v|s|s t]; destruct a as [x|x|u|u u']; cbn [denotes]; try contradiction; intros D; cbn [known_w known_attribute]; try tauto.
  - destruct D as [<- _]. reflexivity.
  - destruct (int_agrees _ _ _ D) as [-> _]. reflexivity.
Qed.
Lemma denotes_strict w a : Forall (fun f => f < two64) (wattr_fields w) -> denotes w a -> strict_attribute (lattr_of w).
Proof.
  intros F. destruct w as [i|i v|s|s t]; destruct a as [x|x|u|u u']; cbn [denotes]; try contradiction; intros D; cbn [lattr_of].
  - destruct D as [E N]. cbn. split; [|exact N]. apply attr_id_exact in E. unfold attribute_id_of in E. clear - E.
    destruct (N.le_gt_cases 1 i) as [L|G]; [|assert (i = 0) by lia; subst; discriminate]. destruct (N.le_gt_cases i 86) as [L'|G]; [lia|].
    exfalso. destruct i as [|p]; [lia|]. do 7 (try (destruct p as [p|p|]; try lia; try discriminate)).
  - apply int_strict; [|eauto]. cbn in F. inversion F as [|? ? _ F1]; subst. inversion F1 as [|? ? _ F2]; subst. inversion F2; assumption.
  - destruct D as [<- T]. exists s. auto.
  - destruct D as (<- & <- & T & T'). split; [exists s|exists t]; auto.
Qed.

(** *** Groups *)

Lemma group_parts r id g : fields64 r -> group_of_record r = Ok (id, g) -> exists gid p ws, r_code r = 3 /\ r_fields r = gid :: p :: flat_map wattr_fields ws /\
  ws <> [] /\ id = gid mod 2 ^ 32 /\ place (p mod 2 ^ 32) (ag_disposition g) /\ Forall2 denotes ws (ag_attributes g) /\
  forall K, llvm_group K r = if forallb (known_w K) ws then Some (id, (p mod 2 ^ 32, map lattr_of ws)) else None.
Proof.
  intros F H. apply (group_exact r id g F) in H as (gid & p & ws & C & FI & NE & E & PL & D). exists gid, p, ws.
  repeat (split; [assumption|]). intros K. unfold llvm_group. rewrite FI.
  destruct (flat_map wattr_fields ws) as [|x l] eqn:FM; [apply flat_nil in FM; contradiction|]. rewrite <- FM.
  rewrite (written K ws _ D) by apply fields_length. subst id. destruct (forallb (known_w K) ws); reflexivity.
Qed.

Lemma groups_agree K r id g id' p las : fields64 r -> group_of_record r = Ok (id, g) -> llvm_group K r = Some (id', (p, las)) ->
  id' = id /\ same_group g p las.
Proof.
  intros F H L. apply group_parts in H as (gid & q & ws & _ & _ & _ & _ & PL & D & W); [|exact F]. rewrite W in L.
  destruct (forallb (known_w K) ws); [|discriminate]. injection L as <- <- <-. split; [reflexivity|]. split; [exact PL|].
  clear - D. induction D as [|w a ws attrs X _ IH]; cbn; constructor; [now apply denotes_agree|exact IH].
Qed.

Lemma llvm_reads K r id g : fields64 r -> group_of_record r = Ok (id, g) ->
  ((exists x, llvm_group K r = Some x) <-> Forall (known_attribute K) (ag_attributes g)).
Proof.
  intros F H. apply group_parts in H as (gid & q & ws & _ & _ & _ & _ & PL & D & W); [|exact F]. rewrite W. transitivity (forallb (known_w K) ws = true).
  - destruct (forallb (known_w K) ws); split; eauto; [intros (x & X); discriminate X|discriminate].
  - clear - D. induction D as [|w a ws attrs X _ IH]; cbn; [split; constructor|]. rewrite andb_true_iff, IH, (denotes_known K _ _ X).
    split; [intros []; now constructor|intros Q; inversion Q; auto].
Qed.

Lemma id_exists k : 1 <= k <= 86 -> exists x, attribute_id_num x = k.
Proof.
  intros L. assert (X : exists x, attribute_id_of k = Some x).
  { destruct k as [|p]; [lia|]. unfold attribute_id_of. do 7 (try destruct p as [p|p|]); try lia; eauto. }
  destruct X as (x & X). exists x. now apply attr_id_exact.
Qed.

Lemma strict_written K n : forall l las, llvm_attributes K n l = Some las -> Forall strict_attribute las -> Forall (fun f => f < two64) l ->
  exists ws attrs, l = flat_map wattr_fields ws /\ Forall2 denotes ws attrs.
Proof.
  induction n as [|n IH]; intros [|kind l] las; cbn [llvm_attributes]; try discriminate; try (intros _ _ _; exists [], []; split; [reflexivity|constructor]).
  destruct (kind =? 0) eqn:K0; [|destruct (kind =? 1) eqn:K1; [|destruct (kind =? 3) eqn:K3; [|destruct (kind =? 4) eqn:K4; [|destruct (kind =? 5) eqn:K5; [|destruct (kind =? 6) eqn:K6; [|discriminate]]]]]].
  - apply N.eqb_eq in K0. subst kind. destruct l as [|k l]; [discriminate|]. destruct (lk_enum K k); [|discriminate].
    destruct (llvm_attributes K n l) as [las'|] eqn:L; [|discriminate]. intros [= <-] S F. inversion S as [|? ? SK S']; subst. destruct SK as [S1 S2].
    inversion F as [|? ? _ F1]; subst. inversion F1 as [|? ? _ F2]; subst. destruct (IH _ _ L S' F2) as (ws & attrs & -> & D).
    destruct (id_exists k S1) as (x & X). exists (WEnum k :: ws), (AtEnum x :: attrs). split; [reflexivity|]. constructor; [split; assumption|exact D].
  - apply N.eqb_eq in K1. subst kind. destruct l as [|k [|v l]]; [discriminate|discriminate|]. destruct (lk_int K k); [|discriminate].
    destruct (llvm_attributes K n l) as [las'|] eqn:L; [|discriminate]. intros [= <-] S F. inversion S as [|? ? S1 S']; subst.
    inversion F as [|? ? _ F1]; subst. inversion F1 as [|? ? _ F2]; subst. inversion F2 as [|? ? V F3]; subst. destruct (IH _ _ L S' F3) as (ws & attrs & -> & D).
    apply int_strict in S1 as (x & X); [|exact V]. exists (WInt k v :: ws), (AtInt x :: attrs). split; [reflexivity|]. constructor; [exact X|exact D].
  - apply N.eqb_eq in K3. subst kind. destruct (terminated l) as [[s l1]|] eqn:T; [|discriminate]. apply terminated_inv in T. subst l.
    destruct (llvm_attributes K n l1) as [las'|] eqn:L; [|discriminate]. intros [= <-] S F. inversion S as [|? ? SK S']; subst. destruct SK as (u & U & E). subst s.
    inversion F as [|? ? _ F1]; subst. apply Forall_app in F1 as [_ F1]. inversion F1 as [|? ? _ F2]; subst. destruct (IH _ _ L S' F2) as (ws & attrs & -> & D).
    exists (WStr u :: ws), (AtStr u :: attrs). split; [cbn; now rewrite <- app_assoc|]. constructor; [split; [reflexivity|exact U]|exact D].
  - apply N.eqb_eq in K4. subst kind. destruct (terminated l) as [[s l1]|] eqn:T; [|discriminate]. apply terminated_inv in T. subst l.
    destruct (terminated l1) as [[t l2]|] eqn:T; [|discriminate]. apply terminated_inv in T. subst l1.
    destruct (llvm_attributes K n l2) as [las'|] eqn:L; [|discriminate]. intros [= <-] S F. inversion S as [|? ? SK S']; subst. destruct SK as ((u & U & E) & (u' & U' & E')). subst s t.
    inversion F as [|? ? _ F1]; subst. apply Forall_app in F1 as [_ F1]. inversion F1 as [|? ? _ F2]; subst. apply Forall_app in F2 as [_ F2]. inversion F2 as [|? ? _ F3]; subst.
    destruct (IH _ _ L S' F3) as (ws & attrs & -> & D).
    exists (WKeyValue u u' :: ws), (AtStrKeyValue u u' :: attrs). split; [cbn; rewrite <- app_assoc; cbn; now rewrite <- app_assoc|]. constructor; [cbn; auto|exact D].
  - destruct l as [|k l]; [discriminate|]. destruct (lk_type K k); [|discriminate].
    destruct (llvm_attributes K n l) as [las'|] eqn:L; [|discriminate]. intros [= <-] S. inversion S as [|? ? SK]; destruct SK.
  - destruct l as [|k [|t l]]; [discriminate|discriminate|]. destruct (lk_type K k); [|discriminate].
    destruct (llvm_attributes K n l) as [las'|] eqn:L; [|discriminate]. intros [= <-] S. inversion S as [|? ? SK]; destruct SK.
Qed.

Lemma strict_group K r id p las : fields64 r -> r_code r = 3 -> llvm_group K r = Some (id, (p, las)) ->
  ((exists x, group_of_record r = Ok x) <-> Forall strict_attribute las).
Proof.
  intros F C L. split.
  - intros ((id' & g) & H). pose proof H as H0. apply group_parts in H as (gid & q & ws & _ & FI & _ & _ & PL & D & W); [|exact F]. rewrite W in L.
    destruct (forallb (known_w K) ws); [|discriminate]. injection L as _ _ <-.
    unfold fields64 in F. rewrite FI in F. inversion F as [|? ? _ F1]; subst. inversion F1 as [|? ? _ F2]; subst. clear - D F2.
    induction D as [|w a ws attrs X _ IH]; cbn in *; [constructor|]. apply Forall_app in F2 as [F2 F3]. constructor; [eapply denotes_strict; eassumption|now apply IH].
  - intros S. unfold llvm_group in L. unfold fields64 in F. destruct (r_fields r) as [|gid [|q [|x l]]] eqn:FI; try discriminate.
    destruct (llvm_attributes K (length (x :: l)) (x :: l)) as [las'|] eqn:LA; [|discriminate]. injection L as <- <- ->.
    inversion F as [|? ? _ F1]; subst. inversion F1 as [|? ? _ F2]; subst.
    destruct (strict_written _ _ _ _ LA S F2) as (ws & attrs & E & D).
    exists (gid mod 2 ^ 32, mkGroup (disposition_of (q mod 2 ^ 32)) attrs).
    apply group_exact; [unfold fields64; rewrite FI; exact F|]. exists gid, q, ws. split; [exact C|]. rewrite FI, E. split; [reflexivity|].
    split; [intros ->; discriminate E|]. split; [reflexivity|]. split; [now apply place_exact|exact D].
Qed.

(** *** Blocks *)

Definition both_groups (x : option attr_group) (y : option (N * list lattr)) : Prop :=
  match x, y with
  | Some g, Some (p, las) => same_group g p las
  | None, None => True
  | _, _ => False
  end.

Lemma last_related {A B} (R : A -> B -> Prop) (l : list (N * A)) (m : list (N * B)) id : Forall2 (fun a b => fst b = fst a /\ R (snd a) (snd b)) l m ->
  match last_entry id l, last_entry id m with Some a, Some b => R a b | None, None => True | _, _ => False end.
Proof.
  intros F. unfold last_entry. assert (X : Forall2 (fun a b => fst b = fst a /\ R (snd a) (snd b)) (rev l) (rev m)).
  { induction F as [|a b l m E _ IH]; cbn; [constructor|]. apply Forall2_app; [exact IH|repeat constructor; apply E]. }
  clear F. induction X as [|a b l' m' [E H] _ IH]; cbn; [exact I|]. rewrite E. destruct (fst a =? id); [exact H|exact IH].
Qed.

Lemma block_groups K b m gs id : Forall fields64 (b_records b) -> attr_groups_of b = Ok m -> llvm_groups K (b_records b) = Some gs ->
  both_groups (groups_get m id) (last_entry id gs).
Proof.
  intros F H L. destruct (groups_exact b F) as [G1 G2]. destruct (G2 m H) as (gs0 & D). destruct (G1 gs0 D) as (m' & H' & LE).
  assert (m' = m) by congruence. subst m'. rewrite LE. clear G1 G2 H H' LE.
  assert (X : Forall2 (fun (a : N * attr_group) (x : N * (N * list lattr)) => fst x = fst a /\ same_group (snd a) (fst (snd x)) (snd (snd x))) gs0 gs).
  { revert gs L. induction D as [|r [i g] recs gs0 R _ IH]; intros gs; cbn [llvm_groups]; [intros [= <-]; constructor|].
    inversion F as [|? ? FR F']; subst. cbn in R. assert (C : r_code r = 3) by (destruct R as (? & ? & ? & C & _); exact C). rewrite C. cbn [N.eqb Pos.eqb].
    destruct (llvm_group K r) as [[i' [p las]]|] eqn:LG; [|discriminate]. destruct (llvm_groups K recs) as [gs'|]; [|discriminate]. intros [= <-].
    constructor; [|now apply IH]. cbn. apply (group_exact r i g FR) in R. exact (groups_agree K r i g i' p las FR R LG). }
  pose proof (last_related (fun g (x : N * list lattr) => same_group g (fst x) (snd x)) gs0 gs id X) as Y.
  unfold both_groups. destruct (last_entry id gs0), (last_entry id gs) as [[p las]|]; exact Y.
Qed.

Lemma block_lists K b m gs c es : Forall fields64 (b_records b) -> attr_groups_of b = Ok m -> llvm_groups K (b_records b) = Some gs ->
  attributes_of m c = Ok es ->
  Forall2 (fun r l => Forall2 (fun g x => exists p las, x = Some (p, las) /\ same_group g p las) l (llvm_list gs r)) (b_records c) es.
Proof.
  intros F H L A. apply attributes_exact in A. induction A as [|r l recs es [_ R] _ IH]; constructor; [|exact IH].
  unfold llvm_list. induction R as [|f g fs l E _ IH']; cbn [map]; constructor; [|exact IH'].
  pose proof (block_groups K b m gs (f mod 2 ^ 32) F H L) as B. rewrite E in B. destruct (last_entry (f mod 2 ^ 32) gs) as [[p las]|]; [|destruct B]. eauto.
Qed.

Lemma lists_accepted K b m gs c : Forall fields64 (b_records b) -> attr_groups_of b = Ok m -> llvm_groups K (b_records b) = Some gs ->
  ((exists es, attributes_of m c = Ok es) <-> Forall (fun r => r_code r = 2 /\ Forall (fun x => x <> None) (llvm_list gs r)) (b_records c)).
Proof.
  intros F H L. split.
  - intros (es & A). pose proof (block_lists K b m gs c es F H L A) as B. apply attributes_exact in A.
    induction A as [|r l recs es [C _] _ IH]; inversion B as [|? ? ? ? B1 B2]; subst; constructor; [|now apply IH]. split; [exact C|].
    clear - B1. induction B1 as [|g x l y (p & las & -> & _) _ IH]; constructor; [discriminate|exact IH].
  - intros A. assert (X : exists es, Forall2 (fun r gs => r_code r = 2 /\ Forall2 (fun f g => groups_get m (f mod 2 ^ 32) = Some g) (r_fields r) gs) (b_records c) es).
    { induction A as [|r recs [C A] _ (es & IH)]; [exists []; constructor|]. unfold llvm_list in A. rewrite Forall_map in A.
      assert (Y : exists l, Forall2 (fun f g => groups_get m (f mod 2 ^ 32) = Some g) (r_fields r) l).
      { induction A as [|f fs NE _ (l & IH')]; [exists []; constructor|]. pose proof (block_groups K b m gs (f mod 2 ^ 32) F H L) as B.
        destruct (groups_get m (f mod 2 ^ 32)) as [g|] eqn:E; [exists (g :: l); constructor; assumption|]. cbn in B. destruct (last_entry _ gs); [destruct B|contradiction]. }
      destruct Y as (l & Y). exists (l :: es). constructor; [auto|exact IH]. }
    destruct X as (es & X). exists es. now apply attributes_exact.
Qed.

(** Of the blocks LLVM reads. *)
Lemma block_strict K b gs : Forall fields64 (b_records b) -> llvm_groups K (b_records b) = Some gs ->
  ((exists m, attr_groups_of b = Ok m) <-> Forall (fun r => r_code r = 3) (b_records b) /\ Forall (fun g => Forall strict_attribute (snd (snd g))) gs).
Proof.
  intros F L. destruct (groups_exact b F) as [G1 G2]. split.
  - intros (m & H). destruct (G2 m H) as (gs0 & D). clear G1 G2 H. revert gs L. induction D as [|r [i g] recs gs0 R _ IH]; intros gs; cbn [llvm_groups].
    + intros [= <-]. split; constructor.
    + inversion F as [|? ? FR F']; subst. cbn in R. assert (C : r_code r = 3) by (destruct R as (? & ? & ? & C & _); exact C). rewrite C. cbn [N.eqb Pos.eqb].
      destruct (llvm_group K r) as [[i' [p las]]|] eqn:LG; [|discriminate]. destruct (llvm_groups K recs) as [gs'|]; [|discriminate]. intros [= <-].
      destruct (IH F' gs' eq_refl) as [I1 I2]. split; [now constructor|]. constructor; [|exact I2]. cbn.
      apply (strict_group K r i' p las FR C LG). exists (i, g). now apply group_exact.
  - intros [C S]. assert (X : exists gs0, Forall2 (fun r g => group_record r (fst g) (snd g)) (b_records b) gs0).
    { clear G1 G2. revert gs L S. induction C as [|r recs C _ IH]; intros gs; cbn [llvm_groups]; [intros _ _; exists []; constructor|].
      inversion F as [|? ? FR F']; subst. rewrite C. cbn [N.eqb Pos.eqb]. destruct (llvm_group K r) as [[i' [p las]]|] eqn:LG; [|discriminate].
      destruct (llvm_groups K recs) as [gs'|]; [|discriminate]. intros [= <-] S. inversion S as [|? ? S1 S']; subst.
      destruct (IH F' gs' eq_refl S') as (gs0 & D). apply (strict_group K r i' p las FR C LG) in S1 as ((i & g) & H). exists ((i, g) :: gs0).
      constructor; [|exact D]. now apply group_exact. }
    destruct X as (gs0 & D). destruct (G1 gs0 D) as (m & H & _). exists m. exact H.
Qed.
(** Of the blocks llvm-mapper reads. *)
Lemma block_reads K b m : Forall fields64 (b_records b) -> attr_groups_of b = Ok m ->
  ((exists gs, llvm_groups K (b_records b) = Some gs) <->
   forall r id g, In r (b_records b) -> group_of_record r = Ok (id, g) -> Forall (known_attribute K) (ag_attributes g)).
Proof.
  intros F H. destruct (groups_exact b F) as [_ G2]. destruct (G2 m H) as (gs0 & D). clear G2 H.
  induction D as [|r [i g] recs gs0 R _ IH]; cbn [llvm_groups]; [split; [intros _ ? ? ? []|eauto]|].
  inversion F as [|? ? FR F']; subst. cbn in R. assert (C : r_code r = 3) by (destruct R as (? & ? & ? & C & _); exact C). rewrite C. cbn [N.eqb Pos.eqb].
  apply (group_exact r i g FR) in R. pose proof (llvm_reads K r i g FR R) as LR. specialize (IH F'). split.
  - intros (gs & E). destruct (llvm_group K r) as [x|]; [|discriminate]. destruct (llvm_groups K recs) as [gs'|]; [|discriminate].
    intros r' id' g' [<-|I] O; [|exact (proj1 IH (ex_intro _ gs' eq_refl) r' id' g' I O)].
    rewrite R in O. injection O as <- <-. apply LR. eauto.
  - intros A. destruct (proj2 LR (A r i g (or_introl eq_refl) R)) as (x & ->).
    destruct (proj2 IH (fun r' id' g' I O => A r' id' g' (or_intror I) O)) as (gs & ->). eauto.
Qed.
