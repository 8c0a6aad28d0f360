(** The data layout parser compared with LLVM's. *)
From Verif Require Import Base Strings SupportModel SupportSpec SupportProofs SupportMain LayoutModel LayoutSpec
  LayoutProofs LayoutMain LayoutReaderSpec.
From Coq Require Import Lia ZifyBool ZifyNat ZifyN.
Local Open Scope N_scope.
Arguments N.add : simpl never.
Arguments N.mul : simpl never.
Arguments N.pow : simpl never.
Arguments ch : simpl never.

(** *** Numbers and pieces *)

Lemma number_numeral s n m : number s n -> numeral s m -> n = m.
Proof.
  intros [H|(s' & -> & H)] H1; [destruct H as (_ & _ & <-), H1 as (_ & _ & <-); reflexivity|].
  exfalso. apply (numeral_free _ _ 43 H1); [lia|]. left. reflexivity.
Qed.
Lemma number_free s n : number s n -> ~ In (ch ":") s.
Proof.
  assert (E : ch ":" = 58) by reflexivity. rewrite E.
  intros [H|(s' & -> & H)]; [eapply numeral_free; [exact H|lia]|].
  intros [X|X]; [discriminate X|]. revert X. eapply numeral_free; [exact H|lia].
Qed.
Lemma pieces_whole s l : ~ In (ch ":") s -> pieces (ch ":") s l -> l = [s].
Proof. intros H H1. apply split_pieces in H1. rewrite <- H1. apply split_on_none, H. Qed.
Lemma pieces_one s : ~ In (ch ":") s -> pieces (ch ":") s [s].
Proof. intros H. apply split_pieces, split_on_none, H. Qed.
Lemma pieces_same s l m : pieces (ch ":") s l -> pieces (ch ":") s m -> l = m.
Proof. intros H H1. apply split_pieces in H, H1. congruence. Qed.
Lemma pieces_first c s t rest : pieces (ch ":") s ((c :: t) :: rest) ->
  c <> ch ":" /\ exists s', s = c :: s' /\ pieces (ch ":") s' (t :: rest).
Proof.
  intros (_ & -> & H). inversion H as [|? ? H1 H2]; subst. split.
  { intros ->. apply H1. left. reflexivity. }
  exists (join (ch ":") (t :: rest)). split.
  - destruct rest; reflexivity.
  - split; [discriminate|]. split; [reflexivity|]. constructor; [|assumption]. intros X. apply H1. right. exact X.
Qed.
Lemma pieces_colon s s1 rest : pieces (ch ":") s ([] :: s1 :: rest) ->
  exists s', s = ch ":" :: s' /\ pieces (ch ":") s' (s1 :: rest).
Proof.
  intros (_ & -> & H). inversion H as [|? ? H1 H2]; subst.
  exists (join (ch ":") (s1 :: rest)). split; [reflexivity|]. split; [discriminate|]. auto.
Qed.
Lemma pieces_colon_back s l : pieces (ch ":") s l -> pieces (ch ":") (ch ":" :: s) ([] :: l).
Proof.
  intros (H & -> & H1). split; [discriminate|]. split; [destruct l; [congruence|reflexivity]|].
  constructor; [intros []|assumption].
Qed.

(** *** Alignments *)

Lemma bits_bytes s a k : bits s a -> numeral s (8 * k) -> bytes_of a = k.
Proof. intros [H _] H1. pose proof (number_numeral _ _ _ H H1). unfold bytes_of. lia. Qed.
Lemma bytes_bits s k : numeral s (8 * k) -> 8 * k < two64 -> power_of_two k ->
  exists a, bits s a /\ bytes_of a = k.
Proof.
  intros H Hk [j ->]. exists (mkAlign j). split; [|reflexivity]. split; [left; exact H|]. cbn [a_shift].
  destruct (j <=? 60) eqn:E; [lia|exfalso]. assert (2 ^ 61 <= 2 ^ j) by (apply N.pow_le_mono_r; lia).
  change (2 ^ 61) with 2305843009213693952 in *. unfold two64 in *. lia.
Qed.
Lemma bytes_of_pos a : bytes_of a <> 0.
Proof. unfold bytes_of. apply N.pow_nonzero. lia. Qed.
Lemma bytes_le a b : bytes_of a <= bytes_of b -> a_shift a <= a_shift b.
Proof.
  unfold bytes_of. intros H. destruct (a_shift a <=? a_shift b) eqn:E; [lia|exfalso].
  assert (2 ^ a_shift b < 2 ^ a_shift a) by (apply N.pow_lt_mono_r; lia). lia.
Qed.
Lemma bytes_small a : bytes_of a < 2 ^ 16 -> a_shift a <= 15.
Proof.
  unfold bytes_of. intros H. destruct (a_shift a <=? 15) eqn:E; [lia|exfalso].
  assert (2 ^ 16 <= 2 ^ a_shift a) by (apply N.pow_le_mono_r; lia). lia.
Qed.
Lemma small_large n : n < two32 -> n < two64.
Proof. unfold two32, two64. lia. Qed.
Lemma nonzero_power k : zero_or_power k -> k <> 0 -> power_of_two k.
Proof. intros [->|H] H1; [congruence|assumption]. Qed.

(** *** One specification *)

Ltac clash := match goal with
  | H : ch _ = ch _ |- _ => exfalso; revert H; vm_compute; discriminate
  end.

Ltac not_type := match goal with
  | H : In (ch _) [_; _; _; _] |- _ => exfalso; destruct H as [H|[H|[H|[H|[]]]]]; clash
  end.

Lemma same_numbers l ns ms (Q : str -> N -> Prop) :
  (forall p n, Q p n -> number p n) ->
  Forall2 Q l ns -> Forall2 (fun p n => llvm_int p n /\ n <> 0) l ms -> ns = ms.
Proof.
  intros HQ H. revert ms. induction H as [|p n l ns H1 _ IH]; intros ms H2; inversion H2 as [|? m ? ms' [[H4 _] _] H5]; subst; [reflexivity|].
  f_equal; [|auto]. eapply number_numeral; [apply HQ, H1|exact H4].
Qed.

Lemma stack_agree s t rest a k : pieces (ch ":") s (t :: rest) -> bits s a -> llvm_bytes64 t k ->
  bytes_of a = k /\ ~ In (ch ":") s.
Proof.
  intros HP Ha [Hk _]. pose proof (number_free _ _ (proj1 Ha)) as HF. apply pieces_whole in HP; [|assumption].
  injection HP as -> ->. split; [|assumption]. eapply bits_bytes; eassumption.
Qed.
Lemma space_agree s t rest n m : pieces (ch ":") s (t :: rest) -> space s n -> llvm_space t m ->
  n = m /\ m <= 8388607 /\ ~ In (ch ":") s.
Proof.
  intros HP [Hn Hl] [[Hm _] _]. pose proof (number_free _ _ Hn) as HF. apply pieces_whole in HP; [|assumption].
  injection HP as -> ->. pose proof (number_numeral _ _ _ Hn Hm). subst. auto.
Qed.
Lemma pref_agree abi k rest pref k' : bytes_of abi = k -> pref_text abi rest pref -> llvm_type_rest k rest k' ->
  bytes_of pref = k'.
Proof.
  intros Ha Hp Hk. destruct Hk as [|s rest k' [Hk _] _]; cbn in Hp; [subst; reflexivity|].
  eapply bits_bytes; eassumption.
Qed.
Lemma free_cons c s : c <> ch ":" -> ~ In (ch ":") s -> ~ In (ch ":") (c :: s).
Proof. intros H H1 [X|X]; [congruence|contradiction]. Qed.

Lemma agree s x y : means s x -> llvm_means s y -> same_setting x y /\ has_room s y.
Proof.
  intros HM (tok & rest & HP & HG & HL).
  destruct HL as [t rest|t rest|t rest|t s1 s2 rest sp size abi pref index Ht H1 H1' H2 H2' HR HL
    |k t s1 rest width abi pref Ht Hw Hk Hk' H1 H1' H1'' HR HR' HR'' HL|s1 rest ns HF|t rest ns HF
    |t rest k Hk Hk'|t rest k Hk Hk'|t rest k Hk Hk'|t rest n Hn|t rest n Hn|t rest n Hn|c Hc].
  - apply pieces_first in HP as (_ & s' & -> & HP). inversion HM; subst; try clash; not_type.
  - apply pieces_first in HP as (_ & s' & -> & HP). inversion HM; subst; try clash; try not_type; cbn; auto.
  - apply pieces_first in HP as (_ & s' & -> & HP). inversion HM; subst; try clash; try not_type; cbn; auto.
  - apply pieces_first in HP as (_ & s' & -> & HP). inversion HM as [| | | | | |? p HT|? ? ? HI| | | | |]; subst; try clash;
      [|not_type].
    inversion HT as [? ? p0 p1 p2 l spc sz a pr ix HQ Hs Hz Hz' Ha Hp Hi]; subst.
    pose proof (pieces_same _ _ _ HP HQ) as E. injection E as <- <- <- <-.
    assert (Esp : spc = sp /\ sp <= 8388607).
    { destruct Hs as [[-> ->]|[Hs Hs']], Ht as [[Ht ->]|[[Ht _] _]].
      - split; [reflexivity|lia].
      - destruct Ht as [Ht _]. congruence.
      - subst. destruct Hs as [[Hs _]|(? & ? & _)]; congruence.
      - pose proof (number_numeral _ _ _ Hs Ht). subst. auto. }
    destruct Esp as [-> Esp]. destruct H1 as [H1 _], H2 as [H2 _].
    pose proof (number_numeral _ _ _ Hz H1) as ->. pose proof (bits_bytes _ _ _ Ha H2) as <-.
    split; [|exact Esp]. cbn. destruct HR as [|u pref [HR _] _|u v rest pref index [HR _] _ [HR' _] _ _]; cbn in Hp.
    + subst. auto.
    + subst ix. pose proof (bits_bytes _ _ _ Hp HR). auto.
    + destruct Hi as [Hi _]. pose proof (bits_bytes _ _ _ Hp HR). pose proof (number_numeral _ _ _ Hi HR'). auto.
  - apply pieces_first in HP as (_ & s' & -> & HP).
    assert (HT : exists ts, x = SType ts /\ type_text (kind_letter k :: s') ts).
    { inversion HM; subst; try (destruct k; cbn in *; clash). eauto. }
    destruct HT as (ts & -> & HT). clear HM. destruct H1 as [H1 _].
    inversion HT as [s0 a pr p0 l HQ Ha Hp Hl|c0 ty s0 w n p0 l a pr HQ Hn Hn' Hty Ha Hp Hl]; subst.
    + assert (k = LkAggregate) as -> by (destruct k; cbn in *; try clash; reflexivity).
      apply pieces_colon_back in HQ. pose proof (pieces_same _ _ _ HP HQ) as E. injection E as -> -> ->.
      pose proof (bits_bytes _ _ _ Ha H1) as Ea. pose proof (pref_agree _ _ _ _ _ Ea Hp HR) as Ep.
      cbn. repeat split; auto.
      * rewrite <- Ea. apply bytes_of_pos.
      * rewrite <- Ep. apply bytes_of_pos.
      * eexists. reflexivity.
    + pose proof (pieces_same _ _ _ HP HQ) as E. injection E as -> -> ->.
      assert (width = n) as ->.
      { destruct Ht as [[-> ->]|[Ht _]].
        - destruct Hn as [[Hn _]|(? & ? & _)]; congruence.
        - symmetry. eapply number_numeral; eassumption. }
      pose proof (bits_bytes _ _ _ Ha H1) as Ea. pose proof (pref_agree _ _ _ _ _ Ea Hp HR) as Ep.
      assert (pref <> 0) by (rewrite <- Ep; apply bytes_of_pos).
      destruct k; cbn in *; destruct Hty as [[X ->]|[[X ->]|[X ->]]]; try clash; auto.
  - apply pieces_first in HP as (_ & s' & -> & HP). apply pieces_first in HP as (_ & s'' & -> & HP).
    apply pieces_colon in HP as (s3 & -> & HP).
    inversion HM as [| | | | | | |? ? ? HI| | | |? ? l ns' HQ HN|? l ns' HI]; subst; try clash;
      [not_type| |exfalso; eapply HI; reflexivity].
    pose proof (pieces_same _ _ _ HP HQ) as <-. split.
    + cbn. eapply same_numbers; [|exact HN|exact HF]. intros p n [[H _] _]. exact H.
    + assert (ns' = ns) as ->. { eapply same_numbers; [|exact HN|exact HF]. intros p n [[H _] _]. exact H. }
      cbn. clear -HN. induction HN as [|p n l ns [[_ H] _] _ IH]; constructor; auto.
  - apply pieces_first in HP as (_ & s' & -> & HP). split; [|exact I].
    inversion HM as [| | | | | | |? ? ? HI| | | |? ? l ns' HQ HN|? l ns' HI HE HQ HN]; subst; try clash;
      [not_type| |].
    + exfalso. inversion HF as [|? ? ? ? [[H1 _] _] _]; subst. destruct H1 as (H1 & H2 & _).
      destruct t as [|c t]; [congruence|]. apply pieces_first in HP as (_ & s3 & E & _). injection E as <- _.
      inversion H2 as [|? ? H3 _]. unfold digit in H3. vm_compute in H3. destruct H3 as [_ H3]. apply H3. reflexivity.
    + pose proof (pieces_same _ _ _ HP HQ) as <-. cbn.
      eapply same_numbers; [|exact HN|exact HF]. intros p n [H _]. exact H.
  - apply pieces_first in HP as (HC & s' & -> & HP). inversion HM as [| |? a Ha| | | | |? ? ? HI| | | | |]; subst; try clash;
      [|not_type].
    destruct (stack_agree _ _ _ _ _ HP Ha Hk) as [<- HF]. cbn [same_setting has_room]. repeat split; [apply bytes_of_pos|].
    apply free_cons; assumption.
  - apply pieces_first in HP as (HC & s' & -> & HP). apply pieces_first in HP as (HC' & s'' & -> & HP).
    inversion HM as [| | | | | | |? ? ? HI|? a Ha|? a Ha| | |]; subst; try clash; [not_type|].
    destruct (stack_agree _ _ _ _ _ HP Ha Hk) as [<- HF]. cbn [same_setting has_room]. repeat split; [apply bytes_of_pos|].
    apply free_cons; [assumption|]. apply free_cons; assumption.
  - apply pieces_first in HP as (HC & s' & -> & HP). apply pieces_first in HP as (HC' & s'' & -> & HP).
    inversion HM as [| | | | | | |? ? ? HI|? a Ha|? a Ha| | |]; subst; try clash; [not_type|].
    destruct (stack_agree _ _ _ _ _ HP Ha Hk) as [<- HF]. cbn [same_setting has_room]. repeat split; [apply bytes_of_pos|].
    apply free_cons; [assumption|]. apply free_cons; assumption.
  - apply pieces_first in HP as (HC & s' & -> & HP). inversion HM as [| | |? m Hm| | | |? ? ? HI| | | | |]; subst; try clash;
      [|not_type].
    destruct (space_agree _ _ _ _ _ HP Hm Hn) as (-> & Hl & HF). cbn [same_setting has_room]. repeat split; [assumption|]. apply free_cons; assumption.
  - apply pieces_first in HP as (HC & s' & -> & HP). inversion HM as [| | | |? m Hm| | |? ? ? HI| | | | |]; subst; try clash;
      [|not_type].
    destruct (space_agree _ _ _ _ _ HP Hm Hn) as (-> & Hl & HF). cbn [same_setting has_room]. repeat split; [assumption|]. apply free_cons; assumption.
  - apply pieces_first in HP as (HC & s' & -> & HP). inversion HM as [| | | | |? m Hm| |? ? ? HI| | | | |]; subst; try clash;
      [|not_type].
    destruct (space_agree _ _ _ _ _ HP Hm Hn) as (-> & Hl & HF). cbn [same_setting has_room]. repeat split; [assumption|]. apply free_cons; assumption.
  - destruct HP as (_ & -> & _). cbn [join app] in HM.
    inversion HM as [| | | | | | |? ? ? HI| | |m c' s' HI| |]; subst; try clash; [not_type|].
    cbn. split; [exact HI|]. intros ->. cbn in HI. clear -HI.
    repeat (destruct HI as [HI|HI]; [discriminate (f_equal snd HI)|]). exact HI.
Qed.

Lemma free_tail c s : ~ In (ch ":") (c :: s) -> ~ In (ch ":") s.
Proof. intros H X. apply H. right. exact X. Qed.
Lemma stack_accepts s t rest k : pieces (ch ":") s (t :: rest) -> ~ In (ch ":") s -> llvm_bytes64 t k ->
  zero_or_power k -> k <> 0 -> exists a, bits s a.
Proof.
  intros HP HF [Hk Hk'] Hz Hn. apply pieces_whole in HP; [|assumption]. injection HP as -> ->.
  destruct (bytes_bits _ _ Hk Hk' (nonzero_power _ Hz Hn)) as (a & Ha & _). eauto.
Qed.
Lemma space_accepts s t rest n : pieces (ch ":") s (t :: rest) -> ~ In (ch ":") s -> llvm_space t n ->
  n <= 8388607 -> space s n.
Proof.
  intros HP HF [[Hn _] _] Hl. apply pieces_whole in HP; [|assumption]. injection HP as -> ->.
  split; [left; exact Hn|exact Hl].
Qed.
Lemma bytes32_bits s k : llvm_bytes s k -> power_of_two k -> exists a, bits s a /\ bytes_of a = k.
Proof. intros [H H1]. apply bytes_bits; [exact H|apply small_large, H1]. Qed.
Lemma pref_accepts a k rest k' : bytes_of a = k -> llvm_type_rest k rest k' -> zero_or_power k' -> k' <> 0 ->
  exists p, pref_text a rest p /\ bytes_of p = k'.
Proof.
  intros Ha HR Hz Hn. destruct HR as [|s rest k' HR _].
  - exists a. split; [reflexivity|exact Ha].
  - destruct (bytes32_bits _ _ HR (nonzero_power _ Hz Hn)) as (p & Hp & Hp'). exists p. auto.
Qed.

Lemma spaces_accept l ns : Forall2 (fun p n => llvm_int p n /\ n <> 0) l ns -> Forall (fun n => n <= 8388607) ns ->
  Forall2 (fun p n => space p n /\ n <> 0) l ns.
Proof.
  induction 1 as [|p n l ns [[H _] H1] _ IH]; intros HR; [constructor|].
  inversion HR; subst. constructor; [|auto]. repeat split; [left; exact H|assumption|assumption].
Qed.

Lemma room s y : llvm_means s y -> has_room s y -> exists x, means s x.
Proof.
  intros (tok & rest & HP & HG & HL) HR.
  destruct HL as [t rest|t rest|t rest|t s1 s2 rest sp size abi pref index Ht H1 H1' H2 H2' HQ HL
    |k t s1 rest width abi pref Ht Hw Hk Hk' H1 H1' H1'' HQ HQ' HQ'' HL|s1 rest ns HF|t rest ns HF
    |t rest k Hk Hk'|t rest k Hk Hk'|t rest k Hk Hk'|t rest n Hn|t rest n Hn|t rest n Hn|c Hc];
    cbn [has_room] in HR.
  - destruct HR.
  - apply pieces_first in HP as (_ & s' & -> & HP). eexists. apply MeLittle.
  - apply pieces_first in HP as (_ & s' & -> & HP). eexists. apply MeBig.
  - apply pieces_first in HP as (_ & s' & -> & HP).
    destruct (bytes32_bits _ _ H2 H2') as (a & Ha & Ea).
    assert (HS : t = [] /\ sp = 0 \/ number t sp /\ sp <= 8388607).
    { destruct Ht as [Ht|[[Ht _] _]]; [left; exact Ht|right; split; [left; exact Ht|exact HR]]. }
    destruct H1 as [H1 H1s].
    destruct HQ as [|u pref HQ HQ'|u v rest pref index HQ HQ' HI HI' _].
    + eexists. apply MePointer. eapply (PtText _ _ t s1 s2 [] sp (8 * size) a a (8 * size)); eauto; [left; exact H1|apply small_large, H1s|reflexivity].
    + destruct (bytes32_bits _ _ HQ HQ') as (p & Hp & Ep).
      eexists. apply MePointer. eapply (PtText _ _ t s1 s2 [u] sp (8 * size) a p (8 * size)); eauto; [left; exact H1|apply small_large, H1s].
    + destruct (bytes32_bits _ _ HQ HQ') as (p & Hp & Ep). destruct HI as [HI HIs].
      eexists. apply MePointer. eapply (PtText _ _ t s1 s2 (u :: v :: rest) sp (8 * size) a p (8 * index)); eauto;
        [left; exact H1|apply small_large, H1s|]. split; [left; exact HI|apply small_large, HIs].
  - assert (Hn : abi <> 0 /\ pref <> 0).
    { destruct k; cbn in HR; try (split; [apply Hk'; discriminate|apply HR]). split; apply HR. }
    destruct Hn as [Ha Hp].
    destruct (bytes32_bits _ _ H1 (nonzero_power _ H1'' Ha)) as (a & HA & EA).
    destruct (pref_accepts _ _ _ _ EA HQ HQ'' Hp) as (p & HPr & EP).
    assert (HS : a_shift a <= a_shift p <= 15).
    { split; [apply bytes_le; lia|apply bytes_small; lia]. }
    apply pieces_first in HP as (_ & s' & -> & HP).
    destruct k; cbn [kind_letter] in *.
    4: { destruct HR as (_ & _ & s3 & E). injection E as ->.
         destruct t as [|c t].
         - apply pieces_colon in HP as (s4 & E & HP). injection E as <-.
           eexists. apply MeType; [cbn; auto|]. eapply TtAggregate; eassumption.
         - apply pieces_first in HP as (X & s4 & E & HP). injection E as <- _. exfalso. apply X. reflexivity. }
    all: destruct HR as [HR _]; assert (HN : number t width) by
      (destruct Ht as [[_ ->]|[Ht _]]; [lia|left; exact Ht]).
    all: eexists; apply MeType; [cbn; auto|]; eapply TtScalar; try eassumption; cbv [type_of_letter]; eauto.
  - apply pieces_first in HP as (_ & s' & -> & HP). apply pieces_first in HP as (_ & s'' & -> & HP).
    apply pieces_colon in HP as (s3 & -> & HP). exists (SNonIntegral ns). eapply MeNonIntegral; [exact HP|].
    apply spaces_accept; assumption.
  - apply pieces_first in HP as (_ & s' & -> & HP). exists (SNative ns).
    assert (HD : exists c t', t = c :: t' /\ digit c).
    { inversion HF as [|? ? ? ? [[H1 _] _] _]; subst. destruct H1 as (H1 & H2 & _).
      destruct t as [|c t]; [congruence|]. inversion H2. eauto. }
    destruct HD as (c & t' & -> & HD).
    eapply MeNative; [| |exact HP|].
    + intros u E. subst s'. apply pieces_first in HP as (_ & s3 & E & _). injection E as <- _.
      vm_compute in HD. destruct HD as [_ HD]. apply HD. reflexivity.
    + intros ->. apply pieces_first in HP as (_ & s3 & E & _). discriminate.
    + eapply Forall2_weaken; [|exact HF]. intros p n [[H H1] _]. split; [left; exact H|exact H1].
  - destruct HR as [HR HC]. apply pieces_first in HP as (_ & s' & -> & HP).
    destruct (stack_accepts _ _ _ _ HP (free_tail _ _ HC) Hk Hk' HR) as (a & Ha). eexists. apply MeStack, Ha.
  - destruct HR as [HR HC]. apply pieces_first in HP as (_ & s' & -> & HP). apply pieces_first in HP as (_ & s'' & -> & HP).
    destruct (stack_accepts _ _ _ _ HP (free_tail _ _ (free_tail _ _ HC)) Hk Hk' HR) as (a & Ha).
    eexists. apply MeFnIndependent, Ha.
  - destruct HR as [HR HC]. apply pieces_first in HP as (_ & s' & -> & HP). apply pieces_first in HP as (_ & s'' & -> & HP).
    destruct (stack_accepts _ _ _ _ HP (free_tail _ _ (free_tail _ _ HC)) Hk Hk' HR) as (a & Ha).
    eexists. apply MeFnMultiple, Ha.
  - destruct HR as [HR HC]. apply pieces_first in HP as (_ & s' & -> & HP).
    eexists. apply MeProgram. eapply space_accepts; eauto using free_tail.
  - destruct HR as [HR HC]. apply pieces_first in HP as (_ & s' & -> & HP).
    eexists. apply MeGlobal. eapply space_accepts; eauto using free_tail.
  - destruct HR as [HR HC]. apply pieces_first in HP as (_ & s' & -> & HP).
    eexists. apply MeAlloca. eapply space_accepts; eauto using free_tail.
  - destruct HP as (_ & -> & _). cbn [join app].
    assert (HI : exists m, In (m, c) mangling_letter).
    { unfold mangling_letter. cbn in Hc. destruct Hc as [<-|[<-|[<-|[<-|[<-|[<-|[<-|[]]]]]]]];
        [exists MElf|exfalso; apply HR; reflexivity|exists MMacho|exists MMips|exists MWindowsCoff|exists MWindowsX86Coff|exists MXCoff];
        vm_compute; auto 10. }
    destruct HI as [m HI]. eexists. apply (MeMangling m c [] HI).
Qed.

(** *** Whole strings *)

Lemma spec_same s x y : means s x -> llvm_means s y -> same_setting x y.
Proof. intros H H1. apply (agree _ _ _ H H1). Qed.
Lemma spec_room s y : llvm_means s y -> (exists x, means s x) <-> has_room s y.
Proof. intros H. split; [intros [x Hx]; apply (agree _ _ _ Hx H)|apply room, H]. Qed.

Lemma specs_nonempty v : specs v <> [].
Proof. apply split_on_nonempty. Qed.
Lemma empty_spec x : ~ means [] x.
Proof. intros H. inversion H. Qed.

Lemma layout_same v d ys : layout_from_str v = Ok d -> llvm_layout v ys ->
  exists xs, holds d xs /\ Forall2 means (specs v) xs /\ Forall2 same_setting xs ys.
Proof.
  intros H HL. apply layout_main in H as (_ & xs & HM & HH). exists xs. split; [exact HH|]. split; [exact HM|].
  destruct HL as [[-> _]|HL].
  { cbn in HM. inversion HM as [|? ? ? ? X]; subst. destruct (empty_spec _ X). }
  clear HH. revert ys HL. induction HM as [|s x l xs H _ IH]; intros ys HL; inversion HL; subst; constructor; auto.
  eapply spec_same; eassumption.
Qed.
Lemma layout_room v ys : is_ascii v = true -> llvm_layout v ys ->
  (exists d, layout_from_str v = Ok d) <-> v <> [] /\ Forall2 has_room (specs v) ys.
Proof.
  intros HA HL. split.
  - intros [d H]. apply layout_main in H as (_ & xs & HM & _).
    destruct HL as [[-> _]|HL].
    { cbn in HM. inversion HM as [|? ? ? ? X]; subst. destruct (empty_spec _ X). }
    split.
    { intros ->. cbn in HM. inversion HM as [|? ? ? ? X]; subst. destruct (empty_spec _ X). }
    revert ys HL. induction HM as [|s x l xs H _ IH]; intros ys HL; inversion HL; subst; constructor; auto.
    apply spec_room; eauto.
  - intros [Hv HR]. destruct HL as [[-> _]|HL]; [congruence|].
    assert (HM : exists xs, Forall2 means (specs v) xs).
    { clear Hv HA. revert HR. induction HL as [|s y l ys H _ IH]; intros HR; [exists []; constructor|].
      inversion HR; subst. destruct IH as [xs IH]; [assumption|].
      assert (X : exists x, means s x) by (apply (spec_room _ _ H); assumption). destruct X as [x X].
      exists (x :: xs). constructor; assumption. }
    destruct HM as [xs HM]. destruct (layout_accepts _ _ HA HM) as (d & H & _). eauto.
Qed.

(** *** What the code accepts *)

Lemma bytes_le_28 a : 8 * bytes_of a < two32 -> a_shift a <= 28.
Proof.
  unfold bytes_of. intros H. destruct (a_shift a <=? 28) eqn:E; [lia|exfalso].
  assert (2 ^ 29 <= 2 ^ a_shift a) by (apply N.pow_le_mono_r; lia).
  change (2 ^ 29) with 536870912 in *. unfold two32 in *. lia.
Qed.
Lemma llvm_bounds s y : llvm_means s y ->
  match y with
  | LsPointer _ size abi pref index =>
      size <> 0 /\ 8 * size < two32 /\ index <> 0 /\ 8 * index < two32 /\ abi <= pref /\ 8 * pref < two32
  | LsMangling _ => length s = 3%nat
  | LsNonIntegral _ => nth_error s 2 = Some (ch ":")
  | LsNative l => Forall (fun n => n <> 0) l
  | _ => True
  end.
Proof.
  intros (tok & rest & HP & HG & HL).
  destruct HL as [t rest|t rest|t rest|t s1 s2 rest sp size abi pref index Ht H1 H1' H2 H2' HQ HL
    |k t s1 rest width abi pref Ht Hw Hk Hk' H1 H1' H1'' HQ HQ' HQ'' HL|s1 rest ns HF|t rest ns HF
    |t rest k Hk Hk'|t rest k Hk Hk'|t rest k Hk Hk'|t rest n Hn|t rest n Hn|t rest n Hn|c Hc]; try exact I.
  - destruct H1 as [_ H1], H2 as [_ H2]. destruct HQ as [|u pref [_ HQ] _|u v rest pref index [_ HQ] _ [_ HI] HI' _]; auto 10.
  - apply pieces_first in HP as (_ & s' & -> & HP). apply pieces_first in HP as (_ & s'' & -> & HP).
    apply pieces_colon in HP as (s3 & -> & HP). reflexivity.
  - clear -HF. induction HF as [|p n l ns [_ H] _ IH]; constructor; auto.
  - destruct HP as (_ & -> & _). reflexivity.
Qed.
Lemma accepted_room s x y : means s x -> llvm_means s y -> llvm_room s x.
Proof.
  intros HM HL. pose proof (llvm_bounds _ _ HL) as HB. destruct (agree _ _ _ HM HL) as [HS _].
  destruct x, y; cbn in *; try contradiction; auto; try (subst; assumption).
  destruct HS as (_ & -> & <- & <- & ->), HB as (H1 & H2 & H3 & H4 & H5 & H6).
  rewrite !(N.mul_comm 8), !N.mod_mul by lia. repeat split; try lia; [apply bytes_le, H5|apply bytes_le_28, H6].
Qed.

Lemma numeral_of s n : ~ In (ch "+") s -> number s n -> numeral s n.
Proof. intros H [H1|(s' & -> & _)]; [exact H1|]. exfalso. apply H. left. reflexivity. Qed.
Lemma piece_in s l p c : pieces (ch ":") s l -> In p l -> In c p -> In c s.
Proof.
  intros (_ & -> & _) HP HC. induction l as [|q l IH]; [destruct HP|].
  destruct HP as [->|HP].
  - destruct l; [exact HC|]. cbn. apply in_or_app. left. exact HC.
  - destruct l as [|q' l]; [destruct HP|]. cbn [join]. apply in_or_app. right. right. apply IH, HP.
Qed.
Lemma pieces_cons c s t rest : c <> ch ":" -> pieces (ch ":") s (t :: rest) -> pieces (ch ":") (c :: s) ((c :: t) :: rest).
Proof.
  intros H (_ & -> & H1). split; [discriminate|]. split; [destruct rest; reflexivity|].
  inversion H1; subst. constructor; [apply free_cons; assumption|assumption].
Qed.
Lemma has_pieces s : exists t rest, pieces (ch ":") s (t :: rest).
Proof.
  destruct (split_on (ch ":") s) as [|t rest] eqn:E; [exfalso; eapply split_on_nonempty, E|].
  exists t, rest. apply split_pieces, E.
Qed.
Lemma nonempty_goes_on (rest : list str) : Forall (fun p => p <> []) rest -> goes_on rest.
Proof. intros H ->. inversion H; congruence. Qed.

Lemma bits_llvm s a : ~ In (ch "+") s -> bits s a -> llvm_bytes64 s (bytes_of a) /\ zero_or_power (bytes_of a).
Proof.
  intros H [H1 H2]. split; [split; [apply numeral_of; assumption|apply pow_bits, H2]|right; exists (a_shift a); reflexivity].
Qed.
Lemma bits_llvm32 s a : ~ In (ch "+") s -> bits s a -> a_shift a <= 28 -> llvm_bytes s (bytes_of a).
Proof.
  intros H [H1 _] H2. split; [apply numeral_of; assumption|]. unfold bytes_of.
  assert (2 ^ a_shift a <= 2 ^ 28) by (apply N.pow_le_mono_r; lia).
  change (2 ^ 28) with 268435456 in *. unfold two32. lia.
Qed.
Lemma bytes_mono a b : a_shift a <= a_shift b -> bytes_of a <= bytes_of b.
Proof. intros H. apply N.pow_le_mono_r; lia. Qed.
Lemma bytes_16 a : a_shift a <= 15 -> bytes_of a < 2 ^ 16.
Proof. intros H. apply N.pow_lt_mono_r; lia. Qed.
Lemma space_llvm s n : ~ In (ch "+") s -> space s n -> llvm_space s n.
Proof.
  intros H [H1 H2]. split; [split; [apply numeral_of; assumption|unfold two32; lia]|].
  change (2 ^ 24) with 16777216. lia.
Qed.
Lemma numbers_llvm (Q : str -> N -> Prop) l ns :
  (forall p n, Q p n -> ~ In (ch "+") p -> llvm_int p n) -> (forall p, In p l -> ~ In (ch "+") p) ->
  Forall2 Q l ns -> Forall (fun n => n <> 0) ns -> Forall2 (fun p n => llvm_int p n /\ n <> 0) l ns.
Proof.
  intros HQ HN H. revert HN. induction H as [|p n l ns H1 _ IH]; intros HN HZ; constructor.
  - inversion HZ; subst. split; [|assumption]. apply HQ; [exact H1|apply HN; left; reflexivity].
  - inversion HZ; subst. apply IH; [|assumption]. intros q Hq. apply HN. right. exact Hq.
Qed.
Lemma free_text c s : ~ In (ch ":") s -> c <> ch ":" -> pieces (ch ":") (c :: s) [c :: s].
Proof. intros H H1. apply pieces_one, free_cons; assumption. Qed.

Lemma whole_mod n : n mod 8 = 0 -> n = 8 * (n / 8).
Proof. intros H. rewrite (N.div_mod n 8) at 1 by lia. lia. Qed.

Lemma nonzero_of (Q : str -> N -> Prop) l ns : Forall2 (fun p n => Q p n /\ n <> 0) l ns -> Forall (fun n => n <> 0) ns.
Proof. induction 1 as [|p n l ns [_ H] _ IH]; constructor; auto. Qed.

Lemma free_tail_plus c s : ~ In (ch "+") (c :: s) -> ~ In (ch "+") s.
Proof. intros H X. apply H. right. exact X. Qed.
Lemma number_goes_on p n l : number p n -> goes_on (p :: l).
Proof. intros H E. injection E as -> ->. destruct H as [[H _]|(? & H & _)]; congruence. Qed.
Lemma more_goes_on p a l : bits p a -> goes_on (p :: l).
Proof. intros [H _]. eapply number_goes_on, H. Qed.

Lemma room_accepted s x : means s x -> readable s x -> llvm_room s x -> exists y, llvm_means s y.
Proof.
  intros HM HRD HR.
  assert (NP : (forall v, x <> SEndian v) -> forall l p, pieces (ch ":") s l -> In p (firstn (consumed x l) l) -> ~ In (ch "+") p).
  { intros HE l p HP. apply HRD; assumption. }
  assert (GO : forall l, pieces (ch ":") s l -> goes_on (skipn (consumed x l) l)) by (intros l HP; apply HRD, HP).
  assert (One : (forall v, x <> SEndian v) -> consumed x [s] = 1%nat -> ~ In (ch ":") s -> ~ In (ch "+") s).
  { intros HE HC HF. apply (NP HE [s]); [apply pieces_one, HF|]. replace (consumed x [s]) with 1%nat by (symmetry; exact HC). left. reflexivity. }
  clear HRD.
  destruct HM as [s|s|s a Ha|s n Hn|s n Hn|s n Hn|s p HT|c s t HI HT|s a Ha|s a Ha|m c s HI|x s l ns HP HN|s l ns HI HE HP HN].
  - destruct (has_pieces s) as (t & rest & HP). apply (pieces_cons (ch "e")) in HP; [|discriminate].
    exists (LsEndian Little). exists (ch "e" :: t), rest. repeat split; try apply HP; [apply (GO _ HP)|constructor].
  - destruct (has_pieces s) as (t & rest & HP). apply (pieces_cons (ch "E")) in HP; [|discriminate].
    exists (LsEndian Big). exists (ch "E" :: t), rest. repeat split; try apply HP; [apply (GO _ HP)|constructor].
  - pose proof (number_free _ _ (proj1 Ha)) as HF. 
    assert (HT : ~ In (ch "+") s) by (eapply free_tail_plus; apply One; [discriminate|reflexivity|apply free_cons; [discriminate|exact HF]]).
    destruct (bits_llvm _ _ HT Ha) as [H H1].
    exists (LsStack (bytes_of a)), (ch "S" :: s), []. split; [apply free_text; [assumption|discriminate]|].
    split; [discriminate|]. constructor; assumption.
  - pose proof (number_free _ _ (proj1 Hn)) as HF. 
    assert (HT : ~ In (ch "+") s) by (eapply free_tail_plus; apply One; [discriminate|reflexivity|apply free_cons; [discriminate|exact HF]]).
    pose proof (space_llvm _ _ HT Hn).
    exists (LsProgram n), (ch "P" :: s), []. split; [apply free_text; [assumption|discriminate]|].
    split; [discriminate|]. constructor; assumption.
  - pose proof (number_free _ _ (proj1 Hn)) as HF. 
    assert (HT : ~ In (ch "+") s) by (eapply free_tail_plus; apply One; [discriminate|reflexivity|apply free_cons; [discriminate|exact HF]]).
    pose proof (space_llvm _ _ HT Hn).
    exists (LsGlobal n), (ch "G" :: s), []. split; [apply free_text; [assumption|discriminate]|].
    split; [discriminate|]. constructor; assumption.
  - pose proof (number_free _ _ (proj1 Hn)) as HF. 
    assert (HT : ~ In (ch "+") s) by (eapply free_tail_plus; apply One; [discriminate|reflexivity|apply free_cons; [discriminate|exact HF]]).
    pose proof (space_llvm _ _ HT Hn).
    exists (LsAlloca n), (ch "A" :: s), []. split; [apply free_text; [assumption|discriminate]|].
    split; [discriminate|]. constructor; assumption.
  - inversion HT as [c s' p0 p1 p2 l spc sz a pr ix HQ Hs Hz Hz' Ha Hp Hi]; subst. cbn in HR.
    destruct HR as (R1 & R2 & R3 & R4 & R5 & R6).
    apply (pieces_cons (ch "p")) in HQ; [|discriminate].
    assert (N0 : ~ In (ch "+") p0). { intros X. eapply NP; [discriminate|exact HQ|left; reflexivity|right; exact X]. }
    assert (N1 : ~ In (ch "+") p1) by (eapply NP; [discriminate|exact HQ|cbn; auto]).
    assert (N2 : ~ In (ch "+") p2) by (eapply NP; [discriminate|exact HQ|cbn; auto]).
    pose proof (GO _ HQ) as HGO.
    apply whole_mod in R1, R3.
    exists (LsPointer spc (sz / 8) (bytes_of a) (bytes_of pr) (ix / 8)), (ch "p" :: p0), (p1 :: p2 :: l).
    split; [exact HQ|]. split; [discriminate|]. constructor.
    + destruct Hs as [Hs|Hs]; [left; exact Hs|right; apply space_llvm; assumption].
    + split; [rewrite <- R1; apply numeral_of; assumption|lia].
    + lia.
    + apply bits_llvm32; [assumption|assumption|lia].
    + exists (a_shift a). reflexivity.
    + destruct l as [|u [|v l]]; cbn in Hp.
      * subst. constructor.
      * subst. constructor; [apply bits_llvm32; [eapply NP; [discriminate|exact HQ|cbn; auto]|assumption|lia]|exists (a_shift pr); reflexivity].
      * destruct Hi as [Hi _]. constructor.
        -- apply bits_llvm32; [eapply NP; [discriminate|exact HQ|cbn; auto]|assumption|lia].
        -- exists (a_shift pr). reflexivity.
        -- split; [rewrite <- R3; apply numeral_of; [eapply NP; [discriminate|exact HQ|cbn; auto 10]|assumption]|lia].
        -- lia.
        -- exact HGO.
    + apply bytes_mono. lia.
  - inversion HT as [s0 a pr p0 l HQ Ha Hp Hl|c0 ty s0 w n p0 l a pr HQ Hn Hn' Hty Ha Hp Hl]; subst.
    + apply pieces_colon_back, (pieces_cons (ch "a")) in HQ; [|discriminate].
      exists (LsType LkAggregate 0 (bytes_of a) (bytes_of pr)), [ch "a"], (p0 :: l).
      split; [exact HQ|]. split; [apply (more_goes_on _ _ _ Ha)|]. apply (LpType LkAggregate); auto.
      * reflexivity.
      * apply bits_llvm32; [eapply NP; [discriminate|exact HQ|cbn; auto]|assumption|lia].
      * apply bytes_16. lia.
      * right. exists (a_shift a). reflexivity.
      * destruct l as [|u l]; cbn in Hp; [subst; constructor|]. constructor.
        -- apply bits_llvm32; [eapply NP; [discriminate|exact HQ|cbn; auto]|assumption|lia].
        -- apply (GO _ HQ).
      * apply bytes_16. lia.
      * right. exists (a_shift pr). reflexivity.
      * assert (bytes_of a <= bytes_of pr) by (apply bytes_mono; lia). lia.
    + assert (HK : exists k, k <> LkAggregate /\ kind_letter k = c).
      { destruct Hty as [[-> _]|[[-> _]|[-> _]]]; [exists LkInteger|exists LkVector|exists LkFloat]; split; try discriminate; reflexivity. }
      destruct HK as (k & HK & <-).
      assert (HX : kind_letter k <> ch ":") by (destruct k; discriminate).
      apply (pieces_cons (kind_letter k)) in HQ; [|exact HX].
      exists (LsType k n (bytes_of a) (bytes_of pr)), (kind_letter k :: w), (p0 :: l).
      split; [exact HQ|]. split; [apply (more_goes_on _ _ _ Ha)|]. apply LpType; auto.
      * right. split; [apply numeral_of; [intros X; eapply NP; [discriminate|exact HQ|left; reflexivity|right; exact X]|assumption]|unfold two32; lia].
      * change (2 ^ 24) with 16777216. lia.
      * congruence.
      * intros _. apply bytes_of_pos.
      * apply bits_llvm32; [eapply NP; [discriminate|exact HQ|cbn; auto]|assumption|lia].
      * apply bytes_16. lia.
      * right. exists (a_shift a). reflexivity.
      * destruct l as [|u l]; cbn in Hp; [subst; constructor|]. constructor.
        -- apply bits_llvm32; [eapply NP; [discriminate|exact HQ|cbn; auto]|assumption|lia].
        -- apply (GO _ HQ).
      * apply bytes_16. lia.
      * right. exists (a_shift pr). reflexivity.
      * assert (bytes_of a <= bytes_of pr) by (apply bytes_mono; lia). lia.
  - pose proof (number_free _ _ (proj1 Ha)) as HF.
    assert (HN : ~ In (ch "+") s).
    { eapply free_tail_plus, free_tail_plus. apply One; [discriminate|reflexivity|].
      apply free_cons; [discriminate|]. apply free_cons; [discriminate|exact HF]. }
    destruct (bits_llvm _ _ HN Ha) as [H H1].
    exists (LsFnIndependent (bytes_of a)), (ch "F" :: ch "i" :: s), [].
    split; [apply free_text; [apply free_cons; [discriminate|assumption]|discriminate]|].
    split; [discriminate|]. constructor; assumption.
  - pose proof (number_free _ _ (proj1 Ha)) as HF.
    assert (HN : ~ In (ch "+") s).
    { eapply free_tail_plus, free_tail_plus. apply One; [discriminate|reflexivity|].
      apply free_cons; [discriminate|]. apply free_cons; [discriminate|exact HF]. }
    destruct (bits_llvm _ _ HN Ha) as [H H1].
    exists (LsFnMultiple (bytes_of a)), (ch "F" :: ch "n" :: s), [].
    split; [apply free_text; [apply free_cons; [discriminate|assumption]|discriminate]|].
    split; [discriminate|]. constructor; assumption.
  - cbn in HR. destruct s; [|discriminate]. exists (LsMangling c), [ch "m"], [[c]].
    assert (HL : In c (lit "elomwxa") /\ c <> ch ":").
    { unfold mangling_letter in HI. cbn [In] in HI.
      destruct HI as [X|[X|[X|[X|[X|[X|[]]]]]]]; apply (f_equal snd) in X; cbn [snd] in X; subst c;
        (split; [vm_compute; auto 10|discriminate]). }
    destruct HL as [HL HX]. split.
    + split; [discriminate|]. split; [reflexivity|]. repeat constructor; intros [X|[]]; [discriminate|congruence].
    + split; [discriminate|]. constructor. exact HL.
  - cbn in HR. injection HR as ->. destruct l as [|p l]; [destruct HP; congruence|].
    apply pieces_colon_back in HP. apply (pieces_cons (ch "i")) in HP; [|discriminate].
    apply (pieces_cons (ch "n")) in HP; [|discriminate].
    exists (LsNonIntegral ns), [ch "n"; ch "i"], (p :: l). split; [exact HP|]. split; [inversion HN as [|? ? ? ? [[X _] _] _]; subst; eapply number_goes_on, X|].
    constructor. eapply numbers_llvm; [| |exact HN|].
    + intros q n [[H H1] _] H2. split; [apply numeral_of; assumption|unfold two32; lia].
    + intros q Hq. eapply NP; [discriminate|exact HP|cbn [consumed]; rewrite firstn_all; right; exact Hq].
    + clear -HN. eapply nonzero_of, HN.
  - cbn in HR. destruct l as [|p l]; [destruct HP; congruence|].
    pose proof (pieces_cons (ch "n") _ _ _ ltac:(discriminate) HP) as HQ.
    exists (LsNative ns), (ch "n" :: p), l. split; [exact HQ|].
    split; [inversion HN as [|? ? ? ? _ X]; subst; destruct X as [|? ? ? ? [X _] _]; [discriminate|eapply number_goes_on, X]|].
    constructor. eapply numbers_llvm; [| |exact HN|exact HR].
    + intros q n [H H1] H2. split; [apply numeral_of; assumption|assumption].
    + intros q [<-|Hq]; [|eapply NP; [discriminate|exact HQ|cbn [consumed]; rewrite firstn_all; right; exact Hq]].
      intros X. eapply NP; [discriminate|exact HQ|left; reflexivity|right; exact X].
Qed.
Lemma numeral_no_plus s n : numeral s n -> ~ In (ch "+") s.
Proof. intros H. eapply numeral_free; [exact H|]. vm_compute. auto. Qed.
Lemma ints_no_plus l ns : Forall2 (fun p n => llvm_int p n /\ n <> 0) l ns -> forall p, In p l -> ~ In (ch "+") p.
Proof. induction 1 as [|q n l ns [[H _] _] _ IH]; intros p []; [subst; eapply numeral_no_plus, H|auto]. Qed.
Lemma no_plus_cons c s : c <> ch "+" -> ~ In (ch "+") s -> ~ In (ch "+") (c :: s).
Proof. intros H H1 [X|X]; [congruence|contradiction]. Qed.

Lemma accepted_readable s x y : means s x -> llvm_means s y -> readable s x.
Proof.
  intros HM HL l HP. destruct (agree _ _ _ HM HL) as [HS HRoom]. destruct HL as (tok & rest & HP' & HG & HL).
  pose proof (pieces_same _ _ _ HP HP') as ->. clear HM.
  destruct HL as [t rest|t rest|t rest|t s1 s2 rest sp size abi pref index Ht H1 H1' H2 H2' HQ HL
    |k t s1 rest width abi pref Ht Hw Hk Hk' H1 H1' H1'' HQ HQ' HQ'' HL|s1 rest ns HF|t rest ns HF
    |t rest k Hk Hk'|t rest k Hk Hk'|t rest k Hk Hk'|t rest n Hn|t rest n Hn|t rest n Hn|c Hc];
    destruct x; cbn in HS; try contradiction; try (destruct f; contradiction); cbn [consumed];
    rewrite ?skipn_all, ?firstn_all.
  1,2: split; [exact HG|intros X; exfalso; eapply X; reflexivity].
  - destruct H1 as [H1 _], H2 as [H2 _].
    assert (T : ~ In (ch "+") (ch "p" :: t)).
    { apply no_plus_cons; [discriminate|]. destruct Ht as [[-> _]|[[Ht _] _]]; [intros []|eapply numeral_no_plus, Ht]. }
    destruct HQ as [|u pref [HQ _] _|u v rest pref index [HQ _] _ [HI _] _ HG']; cbn [skipn firstn]; rewrite ?firstn_nil, ?skipn_nil;
      (split; [try discriminate; try assumption|]); intros _ p Hp;
      repeat (destruct Hp as [<-|Hp]; [first [exact T|eapply numeral_no_plus; eassumption]|]); destruct Hp.
  - destruct H1 as [H1 _].
    assert (T : ~ In (ch "+") (kind_letter k :: t)).
    { apply no_plus_cons; [destruct k; discriminate|]. destruct Ht as [[-> _]|[Ht _]]; [intros []|eapply numeral_no_plus, Ht]. }
    destruct HQ as [|u rest pref [HQ _] HG']; cbn [skipn firstn]; rewrite ?firstn_nil, ?skipn_nil;
      (split; [try discriminate; try assumption|]); intros _ p Hp;
      repeat (destruct Hp as [<-|Hp]; [first [exact T|eapply numeral_no_plus; eassumption]|]); destruct Hp.
  - split; [discriminate|]. intros _ p [<-|Hp]; [vm_compute; intuition discriminate|]. eapply ints_no_plus; eassumption.
  - split; [discriminate|]. intros _ p [<-|Hp].
    + apply no_plus_cons; [discriminate|]. eapply ints_no_plus; [exact HF|left; reflexivity].
    + eapply ints_no_plus; [exact HF|right; exact Hp].
  - destruct HRoom as [_ HC]. apply pieces_whole in HP; [|exact HC]. injection HP as _ ->. destruct Hk as [Hk _].
    split; [discriminate|]. intros _ p [<-|[]]. apply no_plus_cons; [discriminate|]. eapply numeral_no_plus, Hk.
  - destruct HRoom as [_ HC]. apply pieces_whole in HP; [|exact HC]. injection HP as _ ->. destruct Hk as [Hk _].
    split; [discriminate|]. intros _ p [<-|[]]. apply no_plus_cons; [discriminate|].
    apply no_plus_cons; [discriminate|]. eapply numeral_no_plus, Hk.
  - destruct HRoom as [_ HC]. apply pieces_whole in HP; [|exact HC]. injection HP as _ ->. destruct Hk as [Hk _].
    split; [discriminate|]. intros _ p [<-|[]]. apply no_plus_cons; [discriminate|].
    apply no_plus_cons; [discriminate|]. eapply numeral_no_plus, Hk.
  - destruct HRoom as [_ HC]. apply pieces_whole in HP; [|exact HC]. injection HP as _ ->. destruct Hn as [[Hn _] _].
    split; [discriminate|]. intros _ p [<-|[]]. apply no_plus_cons; [discriminate|]. eapply numeral_no_plus, Hn.
  - destruct HRoom as [_ HC]. apply pieces_whole in HP; [|exact HC]. injection HP as _ ->. destruct Hn as [[Hn _] _].
    split; [discriminate|]. intros _ p [<-|[]]. apply no_plus_cons; [discriminate|]. eapply numeral_no_plus, Hn.
  - destruct HRoom as [_ HC]. apply pieces_whole in HP; [|exact HC]. injection HP as _ ->. destruct Hn as [[Hn _] _].
    split; [discriminate|]. intros _ p [<-|[]]. apply no_plus_cons; [discriminate|]. eapply numeral_no_plus, Hn.
  - split; [discriminate|]. intros _ p [<-|[<-|[]]]; [intros [X|[]]; discriminate X|].
    intros [X|[]]. subst c. vm_compute in Hc. intuition discriminate.
Qed.
Lemma spec_room_back s x : means s x -> (exists y, llvm_means s y) <-> readable s x /\ llvm_room s x.
Proof.
  intros H. split.
  - intros [y Hy]. split; [eapply accepted_readable; eassumption|eapply accepted_room; eassumption].
  - intros [H1 H2]. apply (room_accepted s x); assumption.
Qed.

(** *** LLVM's layout *)

Lemma last_agree {A B} (R : A -> B -> Prop) f g xs ys :
  (forall x y, same_setting x y ->
     match f x, g y with Some a, Some b => R a b | None, None => True | _, _ => False end) ->
  Forall2 same_setting xs ys -> forall a b, R a b -> R (last_of f xs a) (latest g ys b).
Proof.
  intros HC. induction 1 as [|x y xs ys H _ IH]; intros a b HR; cbn; [exact HR|].
  apply IH. specialize (HC _ _ H). destruct (f x), (g y); try contradiction; assumption.
Qed.
Lemma latest_default {A} (f : llvm_setting -> option A) l a b :
  (exists y v, In y l /\ f y = Some v) -> latest f l a = latest f l b.
Proof.
  revert a b. induction l as [|z l IH]; intros a b (y & v & HI & HF); [destruct HI|].
  cbn. destruct HI as [->|HI]; [rewrite HF; reflexivity|]. destruct (f z); [reflexivity|]. apply IH. eauto.
Qed.
Lemma maybe_some a : maybe_align (bytes_of a) = Some (bytes_of a).
Proof. unfold maybe_align. destruct (bytes_of a =? 0) eqn:E; [|reflexivity]. pose proof (bytes_of_pos a). lia. Qed.
Lemma letter_in m c : In (m, c) mangling_letter -> c = letter_of m.
Proof.
  unfold mangling_letter. cbn [In].
  intros H; repeat (destruct H as [H|H]; [injection H as <- <-; reflexivity|]). destruct H.
Qed.
Lemma latest_none {A} (f : llvm_setting -> option A) l a : (forall y, In y l -> f y = None) -> latest f l a = a.
Proof.
  revert a. induction l as [|y l IH]; intros a H; cbn; [reflexivity|]. rewrite (H y) by (left; reflexivity).
  apply IH. intros z Hz. apply H. right. exact Hz.
Qed.
Lemma once (f : llvm_setting -> option (list N)) l :
  (length (filter (fun y => match f y with Some _ => true | None => false end) l) <= 1)%nat ->
  latest f l [] = flat_map (fun y => match f y with Some ns => ns | None => [] end) l.
Proof.
  induction l as [|y l IH]; cbn; intros H; [reflexivity|]. destruct (f y) as [ns|] eqn:E; [|apply IH, H].
  cbn in H. assert (HN : forall z, In z l -> f z = None).
  { intros z Hz. destruct (f z) as [ms|] eqn:F; [exfalso|reflexivity].
    assert (X : In z (filter (fun y => match f y with Some _ => true | None => false end) l)).
    { apply filter_In. split; [exact Hz|]. rewrite F. reflexivity. }
    destruct (filter _ l); [destruct X|cbn in H; lia]. }
  rewrite latest_none by exact HN.
  assert (Z : flat_map (fun y => match f y with Some ns => ns | None => [] end) l = []).
  { clear -HN. induction l as [|z l IH]; [reflexivity|]. cbn. rewrite (HN z) by (left; reflexivity).
    apply IH. intros u Hu. apply HN. right. exact Hu. }
  rewrite Z, app_nil_r. reflexivity.
Qed.

Ltac kinds := intros [] [] X; cbn in X |- *; try contradiction; try exact I; auto;
  try match type of X with match ?f with _ => _ end => destruct f; contradiction end.

Lemma components v d ys : layout_from_str v = Ok d -> llvm_layout v ys ->
  ((exists e, In (LsEndian e) ys) -> dl_endianness d = llvm_endianness ys) /\
  option_map bytes_of (dl_stack d) = llvm_stack ys /\
  dl_program_space d = llvm_program_space ys /\
  dl_global_space d = llvm_globals_space ys /\
  dl_alloca_space d = llvm_alloca_space ys /\
  option_map letter_of (dl_mangling d) = llvm_mangling ys /\
  option_map fn_align (dl_fn_ptr d) = llvm_fn_align ys /\
  ((natives ys <= 1)%nat -> dl_native d = llvm_native ys) /\
  ((non_integrals ys <= 1)%nat -> dl_non_integral d = llvm_non_integral ys).
Proof.
  intros H HL. destruct (layout_same _ _ _ H HL) as (xs & HH & _ & HS). destruct HH. clear H HL.
  repeat split.
  - intros [e He]. rewrite h_endian. unfold llvm_endianness.
    rewrite (latest_default _ ys Little Big) by (exists (LsEndian e), e; auto).
    apply (last_agree eq); [|exact HS|reflexivity]. kinds.
  - rewrite h_stack. unfold llvm_stack.
    apply (last_agree (fun a b => option_map bytes_of a = b)); [|exact HS|reflexivity].
    kinds. subst. symmetry. apply maybe_some.
  - rewrite h_program. apply (last_agree eq); [|exact HS|reflexivity].
    kinds.
  - rewrite h_global. apply (last_agree eq); [|exact HS|reflexivity].
    kinds.
  - rewrite h_alloca. apply (last_agree eq); [|exact HS|reflexivity].
    kinds.
  - rewrite h_mangling. unfold llvm_mangling.
    apply (last_agree (fun a b => option_map letter_of a = b)); [|exact HS|reflexivity].
    kinds.
    rewrite (letter_in _ _ X). reflexivity.
  - rewrite h_fn. unfold llvm_fn_align.
    apply (last_agree (fun a b => option_map fn_align a = b)); [|exact HS|reflexivity].
    kinds.
    + destruct f; [|contradiction]. subst. rewrite maybe_some. reflexivity.
    + destruct f; [contradiction|]. subst. rewrite maybe_some. reflexivity.
  - intros Hn. rewrite h_native. unfold llvm_native.
    transitivity (latest (fun y => match y with LsNative x => Some x | _ => None end) ys []).
    + apply (last_agree eq); [|exact HS|reflexivity].
      kinds.
    + rewrite once.
      * apply flat_map_ext. intros []; reflexivity.
      * unfold natives in Hn. erewrite filter_ext; [exact Hn|]. intros []; reflexivity.
  - intros Hn. rewrite h_non_integral. unfold llvm_non_integral.
    transitivity (latest (fun y => match y with LsNonIntegral x => Some x | _ => None end) ys []).
    + apply (last_agree eq); [|exact HS|reflexivity].
      kinds.
    + rewrite once.
      * apply flat_map_ext. intros []; reflexivity.
      * unfold non_integrals in Hn. erewrite filter_ext; [exact Hn|]. intros []; reflexivity.
Qed.

Lemma layout_room_iff v ys : llvm_layout v ys ->
  (exists d, layout_from_str v = Ok d) <-> is_ascii v = true /\ v <> [] /\ Forall2 has_room (specs v) ys.
Proof.
  intros HL. split.
  - intros [d H]. pose proof (proj1 (layout_main _ _ H)) as HA. split; [exact HA|]. apply (layout_room v ys HA HL). eauto.
  - intros [HA H]. apply (layout_room v ys HA HL), H.
Qed.
Lemma layout_room_back v xs : v <> [] -> Forall2 means (specs v) xs ->
  (exists ys, llvm_layout v ys) <-> Forall2 (fun s x => readable s x /\ llvm_room s x) (specs v) xs.
Proof.
  intros Hv HM. split.
  - intros [ys [[X _]|HL]]; [contradiction|]. revert ys HL. induction HM as [|s x l xs H _ IH]; intros ys HL;
      inversion HL; subst; constructor; eauto. eapply spec_room_back; eauto.
  - intros HR. enough (X : exists ys, Forall2 llvm_means (specs v) ys) by (destruct X as [ys X]; exists ys; right; exact X).
    revert HR. induction HM as [|s x l xs H _ IH]; intros HR; [exists []; constructor|].
    inversion HR; subst. destruct IH as [ys IH]; [assumption|].
    assert (X : exists y, llvm_means s y) by (apply (spec_room_back s x); assumption). destruct X as [y X].
    exists (y :: ys). constructor; assumption.
Qed.

Lemma key_letter k w k' w' : (kind_letter k =? kind_letter k') && (w =? w') = true -> llvm_key k w = llvm_key k' w'.
Proof.
  intros H. apply Bool.andb_true_iff in H as [H H1]. apply N.eqb_eq in H, H1. subst w'.
  destruct k, k'; try discriminate H; reflexivity.
Qed.
Lemma key_same k w k' w' : llvm_key k w = llvm_key k' w' -> k = k' /\ (k <> LkAggregate -> w = w').
Proof. destruct k, k'; cbn; intros H; try discriminate H; (split; [reflexivity|intros X; congruence]). Qed.

Lemma types_agree k w xs ys : (k = LkAggregate -> w = 0) ->
  (forall w' a p, In (LsType LkAggregate w' a p) ys -> w' = 0) ->
  Forall2 same_setting xs ys -> forall D b,
  (forall a p, b = Some (a, p) -> exists t, spec_for (llvm_key k w) D = Some t /\ bytes_of (ts_abi t) = a /\ bytes_of (ts_pref t) = p) ->
  forall a p,
  latest (fun y => match y with
                   | LsType k' w' abi pref =>
                       if (kind_letter k =? kind_letter k') && (w =? w') then Some (Some (abi, pref)) else None
                   | _ => None
                   end) ys b = Some (a, p) ->
  exists t, spec_for (llvm_key k w) (rev (flat_map (fun s => match s with SType t => [t] | _ => [] end) xs) ++ D) = Some t /\
    bytes_of (ts_abi t) = a /\ bytes_of (ts_pref t) = p.
Proof.
  intros HK HA. induction 1 as [|x y xs ys H HS IH]; intros D b HD a p HL; cbn in HL |- *; [apply HD, HL|].
  assert (HA' : forall w' a p, In (LsType LkAggregate w' a p) ys -> w' = 0) by (intros; eapply HA; right; eassumption).
  specialize (IH HA').
  destruct x as [| | | | | |ts| | | |]; destruct y as [| | | | | | |k' w' abi pref| | | | |]; cbn in H; try contradiction;
    try (destruct f; contradiction); cbn [app flat_map]; try (eapply IH; [exact HD|exact HL]).
  destruct H as (H & <- & <-). cbn [rev]. rewrite <- app_assoc. cbn [app].
  eapply IH; [|exact HL]. intros a' p' E.
  destruct ((kind_letter k =? kind_letter k') && (w =? w')) eqn:EK.
  - injection E as <- <-. exists ts. split; [|auto]. unfold spec_for. cbn [find].
    apply key_letter in EK. destruct (type_key_dec (ts_type ts) (llvm_key k w)) as [_|N]; [reflexivity|].
    exfalso. apply N. rewrite EK, H. destruct k'; reflexivity.
  - unfold spec_for. cbn [find]. destruct (type_key_dec (ts_type ts) (llvm_key k w)) as [Y|_]; [exfalso|apply HD, E].
    assert (X : llvm_key k w = llvm_key k' w') by (rewrite <- Y, H; destruct k'; reflexivity).
    apply key_same in X as [<- X]. rewrite N.eqb_refl in EK. cbn in EK.
    assert (w = w').
    { destruct k; try (apply X; discriminate). rewrite (HK eq_refl). symmetry. eapply HA. left. reflexivity. }
    subst. rewrite N.eqb_refl in EK. discriminate.
Qed.
Lemma aggregates_zero s k w a p : llvm_means s (LsType k w a p) -> k = LkAggregate -> w = 0.
Proof. intros (tok & rest & _ & _ & H) E. inversion H; subst; auto. Qed.
Lemma layout_types v d ys k w a p : layout_from_str v = Ok d -> llvm_layout v ys ->
  llvm_type_align k w ys = Some (a, p) ->
  exists t, spec_for (llvm_key k w) (dl_types d) = Some t /\ bytes_of (ts_abi t) = a /\ bytes_of (ts_pref t) = p.
Proof.
  intros H HL HT. destruct (layout_same _ _ _ H HL) as (xs & HH & _ & HS). rewrite (h_types _ _ HH).
  assert (HZ : forall k' w' a p, In (LsType k' w' a p) ys -> k' = LkAggregate -> w' = 0).
  { destruct HL as [[_ ->]|HL]; [intros ? ? ? ? []|]. clear -HL. induction HL as [|s y l ys H _ IH]; [intros ? ? ? ? []|].
    intros k' w' a p [->|HI]; [eapply aggregates_zero, H|eapply IH, HI]. }
  assert (HK : k = LkAggregate -> w = 0).
  { intros ->. destruct (N.eq_dec w 0) as [|N]; [assumption|exfalso]. unfold llvm_type_align in HT.
    rewrite latest_none in HT; [discriminate|]. intros [] HI; try reflexivity.
    destruct ((kind_letter LkAggregate =? kind_letter k) && (w =? width)) eqn:E; [exfalso|reflexivity].
    apply Bool.andb_true_iff in E as [E E1]. apply N.eqb_eq in E, E1. subst width. apply N. eapply HZ; [exact HI|].
    destruct k; try discriminate E. reflexivity. }
  eapply types_agree; [exact HK| |exact HS| |exact HT].
  - intros. eapply HZ; [eassumption|reflexivity].
  - intros ? ? X. discriminate X.
Qed.

Lemma collapse_last l p : exists r, collapse (l ++ [p]) = r ++ [p].
Proof.
  induction l as [|x l [r IH]]; [exists []; reflexivity|]. cbn [app].
  destruct (l ++ [p]) as [|y l'] eqn:E; [destruct l; discriminate|]. cbn [collapse].
  destruct (ptr_spec_dec x y); [exists r; exact IH|]. exists (x :: r). cbn [app]. f_equal. exact IH.
Qed.
(** Used in the proofs only: the last entry of an address space. *)
Definition last_entry (k : N) (D : list ptr_spec) (b : option (N * N * N * N)) : Prop :=
  match b with
  | Some q => exists r p, specs_of k D = r ++ [p] /\ same_pointer p q
  | None => specs_of k D = []
  end.
Lemma pointers_agree k xs ys : Forall2 same_setting xs ys -> forall D b, last_entry k D b ->
  last_entry k (D ++ flat_map (fun s => match s with SPointer p => [p] | _ => [] end) xs)
    (latest (fun y => match y with
                   | LsPointer s size abi pref index => if k =? s then Some (Some (size, abi, pref, index)) else None
                   | _ => None
                   end) ys b).
Proof.
  induction 1 as [|x y xs ys H HS IH]; intros D b HD; cbn [flat_map latest]; [rewrite app_nil_r; exact HD|].
  destruct x as [| | | | |ps| | | | |]; destruct y as [| | | | | |sp size abi pref index| | | | | |]; cbn in H; try contradiction;
    try (destruct f; contradiction); cbn [app]; try (apply IH, HD).
  destruct H as (Hs & H). replace (D ++ ps :: _) with ((D ++ [ps]) ++ flat_map (fun s => match s with SPointer p => [p] | _ => [] end) xs)
    by (rewrite <- app_assoc; reflexivity).
  apply IH. subst sp. unfold specs_of in *. destruct (k =? ps_space ps) eqn:E.
  - unfold last_entry, specs_of. rewrite filter_app. cbn [filter]. rewrite (N.eqb_sym (ps_space ps) k), E. exists (filter (fun s => ps_space s =? k) D), ps.
    split; [reflexivity|]. exact H.
  - unfold last_entry, specs_of in *. rewrite filter_app. cbn [filter]. rewrite (N.eqb_sym (ps_space ps) k), E, app_nil_r. exact HD.
Qed.
Lemma layout_pointers v d ys k : layout_from_str v = Ok d -> llvm_layout v ys ->
  match llvm_pointer k ys with
  | Some q => exists earlier p, specs_of k (dl_pointers d) = earlier ++ [p] /\ same_pointer p q
  | None => specs_of k (dl_pointers d) = []
  end.
Proof.
  intros H HL. destruct (layout_same _ _ _ H HL) as (xs & HH & _ & HS). rewrite (h_pointers _ _ HH).
  assert (HD : last_entry k ptr_specs_default (if k =? 0 then Some (8, 8, 8, 8) else None)).
  { destruct (k =? 0) eqn:E0; unfold last_entry, specs_of, ptr_specs_default; cbn [filter]; change (ps_space ptr_spec_default) with 0;
      rewrite (N.eqb_sym 0 k), E0; [|reflexivity]. exists [], ptr_spec_default. split; [reflexivity|]. vm_compute. auto. }
  pose proof (pointers_agree k xs ys HS _ _ HD) as X. unfold llvm_pointer.
  set (b := latest _ _ _) in *. clearbody b. unfold last_entry in X. destruct b as [q|].
  - destruct X as (r & p & -> & Hq). destruct (collapse_last r p) as [r' E]. exists r', p. auto.
  - rewrite X. reflexivity.
Qed.

(** *** Reading a given string *)

Ltac a_numeral := (split; [discriminate|]); (split; [repeat (constructor; [vm_compute; split; discriminate|]); constructor|vm_compute; reflexivity]).
Ltac an_int := split; [a_numeral|reflexivity].
Ltac in_pieces := match goal with |- llvm_means ?s _ =>
  let l := eval vm_compute in (split_on (ch ":") s) in
  match l with ?t :: ?r => exists t, r; split; [apply split_pieces; vm_compute; reflexivity|split; [discriminate|]] end end.
