(** The rules of LayoutStopSpec.v are exactly what the parsing of layout strings does. *)
From Verif Require Import Base Strings SupportModel SupportSpec SupportProofs SupportMain LayoutModel LayoutSpec LayoutProofs LayoutMain RuleSpec Rules LayoutStopSpec.
From Coq Require Import Bool Lia ZifyBool ZifyNat ZifyN.
Ltac Zify.zify_post_hook ::= Z.div_mod_to_equations.
Local Open Scope N_scope.
#[local] Arguments N.add : simpl never.
#[local] Arguments N.sub : simpl never.
#[local] Arguments N.mul : simpl never.
#[local] Arguments N.modulo : simpl never.
#[local] Arguments N.pow : simpl never.

(** *** Numbers *)

Lemma digits_bad max acc ds c rest : acc <= max -> Forall digit ds -> ~ digit c -> dval acc ds <= max ->
  parse_digits max acc (ds ++ c :: rest) = Err IntInvalidDigit.
Proof.
  revert acc. induction ds as [|d ds IH]; intros acc A F C V; cbn [app parse_digits].
  - unfold digit in C. destruct ((48 <=? c) && (c <=? 57)) eqn:D; [lia|reflexivity].
  - inversion F as [|? ? F1 F2]; subst. unfold digit in F1. destruct ((48 <=? d) && (d <=? 57)) eqn:D; [|lia].
    change (dval acc (d :: ds)) with (dval (acc * 10 + (d - 48)) ds) in V. pose proof (dval_ge (acc * 10 + (d - 48)) ds).
    destruct (max <? acc * 10) eqn:X; [lia|]. destruct (max <? acc * 10 + (d - 48)) eqn:Y; [lia|]. apply IH; auto; lia.
Qed.
Lemma digits_large max acc ds rest : acc <= max -> Forall digit ds -> max < dval acc ds ->
  parse_digits max acc (ds ++ rest) = Err IntPosOverflow.
Proof.
  revert acc. induction ds as [|d ds IH]; intros acc A F V; cbn [app parse_digits].
  - change (dval acc []) with acc in V. lia.
  - inversion F as [|? ? F1 F2]; subst. unfold digit in F1. destruct ((48 <=? d) && (d <=? 57)) eqn:D; [|lia].
    change (dval acc (d :: ds)) with (dval (acc * 10 + (d - 48)) ds) in V.
    destruct (max <? acc * 10) eqn:X; [reflexivity|]. destruct (max <? acc * 10 + (d - 48)) eqn:Y; [reflexivity|]. apply IH; auto; lia.
Qed.
Lemma digits_total max s : forall acc, acc <= max ->
  (Forall digit s /\ dval acc s <= max) \/
  (exists ds c rest, s = ds ++ c :: rest /\ Forall digit ds /\ ~ digit c /\ dval acc ds <= max) \/
  (exists ds rest, s = ds ++ rest /\ Forall digit ds /\ max < dval acc ds).
Proof.
  induction s as [|c s IH]; intros acc A; [left; split; [constructor|exact A]|].
  destruct ((48 <=? c) && (c <=? 57)) eqn:D.
  - assert (Dc : digit c) by (unfold digit; lia). destruct (max <? acc * 10 + (c - 48)) eqn:X.
    + right. right. exists [c], s. split; [reflexivity|]. split; [now constructor|]. change (dval acc [c]) with (acc * 10 + (c - 48)). lia.
    + destruct (IH (acc * 10 + (c - 48)) ltac:(lia)) as [[H1 H2]|[(ds & x & rest & -> & H1 & H2 & H3)|(ds & rest & -> & H1 & H2)]].
      * left. split; [now constructor|exact H2].
      * right. left. exists (c :: ds), x, rest. split; [reflexivity|]. split; [now constructor|]. auto.
      * right. right. exists (c :: ds), rest. split; [reflexivity|]. split; [now constructor|]. auto.
  - right. left. exists [], c, s. split; [reflexivity|]. split; [constructor|]. split; [unfold digit; lia|exact A].
Qed.
Lemma uint_digits max s d : digits_of s d -> d <> [] -> parse_uint max s = parse_digits max 0 d.
Proof.
  intros [-> |[-> H]] D; unfold parse_uint.
  - rewrite N.eqb_refl. destruct d; [congruence|reflexivity].
  - destruct d as [|c d]; [congruence|]. destruct (c =? ch "+") eqn:X; [|reflexivity]. apply N.eqb_eq in X. subst c. now elim (H d).
Qed.
Lemma plus_decided (s : str) : s = [] \/ s = [ch "+"] \/ exists d, d <> [] /\ digits_of s d.
Proof.
  destruct s as [|c s]; [auto|]. destruct (N.eq_dec c (ch "+")) as [-> |H].
  - destruct s as [|x s]; [auto|]. right. right. exists (x :: s). split; [discriminate|]. now left.
  - right. right. exists (c :: s). split; [discriminate|]. right. split; [reflexivity|]. intros s' [= X _]. contradiction.
Qed.
Lemma digits_number s d : digits_of s d -> d <> [] -> Forall digit d -> number s (numeral_value d).
Proof. intros [-> |[-> _]] H F; [right; eexists; split; [reflexivity|]|left]; repeat split; auto. Qed.
Lemma number_decided max s : decided (parse_uint max s) (number_rule max s).
Proof.
  apply dec_from.
  - intros v V. destruct V as [n H L|H|H|ds c rest H F C V|ds rest H F V].
    + assert (parse_uint max s = Ok n) as -> by now apply parse_uint_ok. reflexivity.
    + now subst s.
    + now subst s.
    + rewrite (uint_digits max s _ H) by now destruct ds. now rewrite digits_bad by (auto; lia).
    + destruct ds as [|d ds]; [cbn in V; lia|]. rewrite (uint_digits max s _ H) by discriminate. now rewrite digits_large by (auto; lia).
  - destruct (plus_decided s) as [H|[H|(d & D & H)]]; [exists (Fails IntEmpty); now constructor|exists (Fails IntInvalidDigit); now constructor|].
    destruct (digits_total max d 0 ltac:(lia)) as [[F V]|[(ds & c & rest & -> & F & C & V)|(ds & rest & -> & F & V)]].
    + exists Fine. apply NuFine with (numeral_value d); [now apply digits_number|exact V].
    + eexists. eapply NuDigit; eauto.
    + eexists. eapply NuLarge; eauto.
Qed.
Lemma number_same s m n : number s m -> number s n -> m = n.
Proof.
  intros H K. pose proof (proj2 (parse_uint_ok (N.max m n) s m) (conj (N.le_max_l _ _) H)) as A.
  pose proof (proj2 (parse_uint_ok (N.max m n) s n) (conj (N.le_max_r _ _) K)) as B. congruence.
Qed.
Lemma number_with_decided {E A} max (f : int_err -> E) (k : N -> outcome E A) R s :
  (forall n, n <= max -> decided (k n) (R n)) ->
  decided (obind (omap_err f (parse_uint max s)) k) (number_with max f R s).
Proof.
  intros K. apply dec_bind; [apply dec_map_err, number_decided|]. intros n H. apply omap_err_iff, parse_uint_ok in H as [L H].
  apply dec_last. apply (dec_ext _ (R n)); [now apply K|]. intros v. split; [eauto|]. intros (m & X & Y). now rewrite (number_same s n m H X).
Qed.

(** *** Alignments and address spaces *)

Lemma pow2_exists m : 0 < m -> is_pow2 m = true -> m < two64 -> exists k, m = 2 ^ k.
Proof.
  intros P H L. destruct (from_byte_align m) as [a|x|p|] eqn:Q; unfold from_byte_align in Q; rewrite H in Q.
  - assert (Q' : from_byte_align m = Ok a) by (unfold from_byte_align; now rewrite H). apply from_byte_align_ok in Q' as [-> _]; [eauto|exact L].
  - unfold from_shift in Q. destruct (MAX_SHIFT <? align_log2 m) eqn:X; [|discriminate]. unfold align_log2, leading_zeros, MAX_SHIFT in X. lia.
  - unfold from_shift in Q. now destruct (_ <? _).
  - unfold from_shift in Q. now destruct (_ <? _).
Qed.
Lemma align_decided n : n < two64 -> decided (from_bit_align n) (align_rule n).
Proof.
  intros L. apply dec_from.
  - intros v V. destruct V as [k ->|H|m -> H].
    + assert (K : k <= 60). { destruct (N.le_gt_cases k 60) as [?|X]; [assumption|]. exfalso.
        assert (2 ^ 61 <= 2 ^ k) by (apply N.pow_le_mono_r; lia). change (2 ^ 61) with 2305843009213693952 in *. unfold two64 in L. lia. }
      rewrite from_bit_align_pow by exact K. reflexivity.
    + unfold from_bit_align. destruct (n mod 8 =? 0) eqn:X; [|reflexivity]. elim H. exists (n / 8). lia.
    + unfold from_bit_align. replace ((8 * m) mod 8) with 0 by lia. cbn [N.eqb]. replace (8 * m / 8) with m by lia.
      unfold from_byte_align. destruct (is_pow2 m) eqn:P; [|reflexivity]. exfalso.
      assert (0 < m) by (unfold is_pow2 in P; lia). destruct (pow2_exists m) as [k X]; [lia|exact P|unfold two64 in *; lia|]. now apply (H k).
  - destruct (N.eq_dec (n mod 8) 0) as [X|X].
    + destruct (is_pow2 (n / 8)) eqn:P.
      * assert (0 < n / 8) by (unfold is_pow2 in P; lia). destruct (pow2_exists (n / 8)) as [k K]; [lia|exact P|unfold two64 in *; lia|].
        exists Fine. apply AgFine with k. rewrite <- K. lia.
      * exists (Fails (ANotPowerOfTwo (n / 8))). apply AgPower; [lia|]. intros k K. rewrite K in P. unfold is_pow2 in P.
        assert (B : (0 <? 2 ^ k) = true) by (assert (2 ^ k <> 0) by (apply N.pow_nonzero; lia); lia). rewrite B in P. cbn [andb] in P.
        apply N.eqb_neq in P. apply P. replace (2 ^ k - 1) with (N.ones k) by (rewrite N.ones_equiv, N.pred_sub; reflexivity).
        rewrite N.land_ones. apply N.mod_same. apply N.pow_nonzero. lia.
    + eexists. apply AgByte. intros [m ->]. apply X. lia.
Qed.
Lemma bits_decided {E} (f : int_err -> E) g s :
  decided (let? v := omap_err f (parse_u64 s) in omap_err g (from_bit_align v)) (bits_rule f g s).
Proof.
  unfold bits_rule, parse_u64. change u64_max with (2 ^ 64 - 1). apply number_with_decided. intros n L.
  apply dec_map_err, align_decided. change (2 ^ 64 - 1) with 18446744073709551615 in L. unfold two64. lia.
Qed.
Lemma space_demand n : decided (address_space_of n) (demand (n <= 8388607) (SpTooBig n)).
Proof. apply dec_demand. unfold address_space_of, MAX_SPACE. destruct (n <=? 8388607) eqn:X; [right; split; [eauto|lia]|left; split; [reflexivity|lia]]. Qed.
Lemma relabel_demand {E F} (f : E -> F) P x v : relabel f (demand P x) v <-> demand P (f x) v.
Proof.
  split.
  - intros H; inversion H as [X|y X|y X|X]; subst; inversion X; subst; now constructor.
  - intros H; inversion H; subst; [apply RlFine|apply RlFails]; now constructor.
Qed.
Lemma address_decided {E} (f : int_err -> E) g s :
  decided (let? v := omap_err f (parse_u32 s) in omap_err g (address_space_of v)) (address_rule f g s).
Proof.
  unfold address_rule, parse_u32. change u32_max with (2 ^ 32 - 1). apply number_with_decided. intros n _.
  apply (dec_ext _ (relabel g (demand (n <= 8388607) (SpTooBig n)))); [apply dec_map_err, space_demand|]. intros v. apply relabel_demand.
Qed.

(** *** Specifications *)

Lemma pref_decided o abi : decided (parse_pref_opt o abi) (if_there o (bits_rule SeBadInt SeParseAlign)).
Proof. destruct o as [p|]; cbn [if_there parse_pref_opt]; [apply bits_decided|]. intros v. cbn. split; congruence. Qed.
Lemma new_decided t abi pref : decided (type_spec_new t abi pref)
  (in_order [ demand (a_shift abi <= a_shift pref) (SeAlignPref pref abi); demand (a_shift pref <= 15) (SeAbiAlignTooLarge abi) ]).
Proof.
  unfold type_spec_new, align_lt, align_le, MAX_ALIGN. cbn [a_shift]. apply dec_if; [lia|]. intros L. apply dec_last, dec_demand.
  destruct (_ && _) eqn:X; [right; split; [eauto|lia]|left; split; [reflexivity|lia]].
Qed.
Lemma bits_same s a b : bits s a -> bits s b -> a = b.
Proof. intros H K. apply parse_abi_iff in H, K. congruence. Qed.
Lemma last_decided a l abi pref t : bits a abi -> pref_text abi l pref -> decided (type_spec_new t abi pref)
  (fun v => exists abi pref, bits a abi /\ pref_text abi l pref /\
     in_order [ demand (a_shift abi <= a_shift pref) (SeAlignPref pref abi); demand (a_shift pref <= 15) (SeAbiAlignTooLarge abi) ] v).
Proof.
  intros A P. apply (dec_ext _ _ _ (new_decided t abi pref)). intros v. split; [eauto 6|].
  intros (abi' & pref' & A' & P' & H). assert (abi = abi') as -> by now apply (bits_same a).
  apply parse_pref_opt_iff in P, P'. assert (pref = pref') as -> by congruence. exact H.
Qed.
Lemma alignments_decided a l more (k : align -> align -> outcome spec_err type_spec) :
  (forall abi pref, bits a abi -> pref_text abi l pref -> decided (k abi pref) (in_order (more ++
    [ fun v => exists abi pref, bits a abi /\ pref_text abi l pref /\
        in_order [ demand (a_shift abi <= a_shift pref) (SeAlignPref pref abi); demand (a_shift pref <= 15) (SeAbiAlignTooLarge abi) ] v ]))) ->
  decided (let? abi := parse_abi a in let? pref := parse_pref_opt (nth_error l 0) abi in k abi pref) (alignments_rule a l more).
Proof.
  intros K. unfold alignments_rule. cbn [app]. apply dec_bind; [apply bits_decided|]. intros abi A. apply parse_abi_iff in A.
  apply dec_bind; [apply pref_decided|]. intros pref P. apply parse_pref_opt_iff in P. now apply K.
Qed.
Lemma pieces_same c s l l' : pieces c s l -> pieces c s l' -> l = l'.
Proof. intros H K. apply split_pieces in H, K. congruence. Qed.
Lemma pieces_split c s : pieces c s (split_on c s).
Proof. now apply split_pieces. Qed.
Lemma one_piece c s p : pieces c s [p] <-> s = p /\ ~ In c s.
Proof.
  split.
  - intros (_ & -> & F). inversion F; subst. auto.
  - intros [-> H]. split; [discriminate|]. split; [reflexivity|]. now repeat constructor.
Qed.
Lemma type_decided c s : c < 128 -> decided (type_spec_from_str (c :: s)) (type_rule c s).
Proof.
  intros C. unfold type_spec_from_str. rewrite tail_fine by exact C. cbn [obind]. destruct (c =? ch "a") eqn:X.
  - apply N.eqb_eq in X. destruct s as [|x s].
    { apply dec_intro; [now constructor|]. intros v V; inversion V; subst; try contradiction; try discriminate; reflexivity. }
    destruct (x =? ch ":") eqn:Y.
    2:{ apply dec_intro; [apply TyNoColon with s; [exact X|reflexivity|lia]|].
        intros v V; inversion V as [|x' s' ? E|s' a l ? ? E| |]; subst; try contradiction; try discriminate.
        - now injection E as <- <-.
        - injection E as -> _. discriminate Y. }
    apply N.eqb_eq in Y. subst x. pose proof (pieces_split (ch ":") s) as P. destruct (split_on (ch ":") s) as [|a l]; [now destruct P|].
    apply (dec_ext _ (alignments_rule a l [])).
    + apply alignments_decided. intros abi pref A B. apply dec_last. now apply last_decided.
    + intros v. split; [intros H; now apply TyAggregate with s a l|]. intros V; inversion V as [|x' s' ? E Z|s' a' l' ? ? E P' H| |]; subst; try contradiction; try discriminate.
      * injection E as <- <-. now elim Z.
      * injection E as <-. injection (pieces_same _ _ _ _ P P') as <- <-. exact H.
  - apply N.eqb_neq in X. pose proof (pieces_split (ch ":") s) as P. destruct (split_on (ch ":") s) as [|w [|a l]]; [now destruct P|..].
    + apply dec_intro; [apply TyOnePiece; [exact X|]; now apply one_piece in P|].
      intros v V; inversion V as [| | | |w' a l ? ? P']; subst; try contradiction; [reflexivity|]. discriminate (pieces_same _ _ _ _ P P').
    + apply (dec_ext _ (in_order [ number_with (2 ^ 32 - 1) (fun x => SeParse (ApNumber x)) (fun n => demand (1 <= n <= 8388607) (SeBadTypeWidth (WTooBig n))) w;
               alignments_rule a l [ demand (In c [ch "i"; ch "v"; ch "f"]) (SeParse (ApUnknownType c)) ] ])).
      2:{ intros v. split; [intros H; now apply TyScalar with w a l|]. intros V; inversion V as [| | |? H|w' a' l' ? ? P' H]; subst; try contradiction.
          - destruct P as (_ & -> & _). elim H. cbn [join]. apply in_or_app. right. now left.
          - injection (pieces_same _ _ _ _ P P') as <- <- <-. exact H. }
      apply (dec_bind2 (omap_err (fun x => SeParse (ApNumber x)) (parse_u32 w)) (fun w => omap_err SeBadTypeWidth (aligned_width_of w))).
      * unfold parse_u32. change u32_max with (2 ^ 32 - 1). apply number_with_decided. intros n _.
        apply (dec_ext _ (relabel SeBadTypeWidth (demand (1 <= n <= 8388607) (WTooBig n)))); [|intros v; apply relabel_demand].
        apply dec_map_err, dec_demand. unfold aligned_width_of, MAX_WIDTH. destruct (_ && _) eqn:B; [right; split; [eauto|lia]|left; split; [reflexivity|lia]].
      * intros n width _ _. apply dec_last, alignments_decided. intros abi pref A B. cbn [app].
        pose proof (fun t => dec_last _ _ (last_decided a l abi pref t A B)) as K.
        destruct (c =? ch "i") eqn:I1; [apply N.eqb_eq in I1; apply dec_next; [now left|apply K]|].
        destruct (c =? ch "v") eqn:I2; [apply N.eqb_eq in I2; apply dec_next; [right; now left|apply K]|].
        destruct (c =? ch "f") eqn:I3; [apply N.eqb_eq in I3; apply dec_next; [right; right; now left|apply K]|].
        apply dec_stop. cbn [In]. lia.
Qed.
Lemma there_decided l i size : decided (match nth_error l i with Some p => omap_err SeBadInt (parse_u64 p) | None => Ok size end)
  (if_there (nth_error l i) (fun x => relabel SeBadInt (number_rule (2 ^ 64 - 1) x))).
Proof.
  destruct (nth_error l i) as [x|]; cbn [if_there]; [apply dec_map_err, number_decided|]. intros v. cbn. split; congruence.
Qed.
Lemma pointer_decided c s : c < 128 -> decided (ptr_spec_from_str (c :: s)) (pointer_rule s).
Proof.
  intros C. unfold ptr_spec_from_str. rewrite tail_fine by exact C. cbn [obind].
  pose proof (pieces_split (ch ":") s) as P. destruct (split_on (ch ":") s) as [|p0 [|p1 [|p2 l]]]; [now destruct P|..].
  1,2: apply dec_intro; [eapply PoFew; [exact P|cbn; lia]|]; intros v V; inversion V as [l' P'|? ? ? ? ? P']; subst; [now rewrite (pieces_same _ _ _ _ P' P)|]; discriminate (pieces_same _ _ _ _ P P').
  match goal with |- decided ?o _ => assert (D : decided o (in_order
    [ (fun v => p0 = [] /\ v = Fine \/ p0 <> [] /\ address_rule SeBadInt SeBadAddressSpace p0 v);
      relabel SeBadInt (number_rule (2 ^ 64 - 1) p1); bits_rule (fun x => SeParse (ApNumber x)) SeParseAlign p2;
      if_there (nth_error l 0) (bits_rule SeBadInt SeParseAlign);
      if_there (nth_error l 1) (fun x => relabel SeBadInt (number_rule (2 ^ 64 - 1) x)) ])) end.
  - apply dec_bind.
    { destruct p0 as [|x p0]; [intros v; cbn; split; [intros <-; auto|intros [[_ ->]|[H _]]; [reflexivity|congruence]]|].
      apply (dec_ext _ _ _ (address_decided SeBadInt SeBadAddressSpace (x :: p0))). intros v. split; [intros H; right; split; [discriminate|exact H]|].
      intros [[H _]|[_ H]]; [discriminate|exact H]. }
    intros sp _. apply dec_bind; [apply dec_map_err, number_decided|]. intros size _.
    apply dec_bind; [apply bits_decided|]. intros abi _. apply dec_bind; [apply pref_decided|]. intros pref _.
    apply dec_bind; [apply there_decided|]. intros index _. apply dec_ok.
  - apply (dec_ext _ _ _ D). intros v. split; [intros H; now apply PoSpec with p0 p1 p2 l|].
    intros V; inversion V as [l' P' L|? ? ? ? ? P' H]; subst; pose proof (pieces_same _ _ _ _ P P') as E.
    + subst l'. cbn in L. lia.
    + now injection E as <- <- <- <-.
Qed.
Lemma from_str_decided {A} (f : str -> outcome spec_err A) x R : f [] = Err (SeParse x) -> (forall c s, 128 <= c -> f (c :: s) = Panic PSliceRange) ->
  (forall c s, c < 128 -> decided (f (c :: s)) (R c s)) -> forall s, decided (f s) (from_str_rule x R s).
Proof.
  intros H1 H2 H3 [|c s].
  - rewrite H1. apply dec_intro; [now constructor|]. intros v V; inversion V; [reflexivity|discriminate..].
  - destruct (N.lt_ge_cases c 128) as [L|L].
    + apply (dec_ext _ _ _ (H3 c s L)). intros v. split; [intros H; now apply FsRest with c s|].
      intros V; inversion V as [|? ? E|? ? ? E]; [discriminate|injection E as <- <-; lia|injection E as <- <-; assumption].
    + rewrite (H2 c s L). apply dec_intro; [now apply FsPanics with c s|].
      intros v V; inversion V as [|? ? E|? ? ? E]; [discriminate|reflexivity|injection E as <- <-; lia].
Qed.
Lemma type_string_decided s : decided (type_spec_from_str s) (from_str_rule ApEmptyType type_rule s).
Proof.
  apply from_str_decided; [reflexivity| |exact type_decided]. intros c r L. cbn. destruct (c <? 128) eqn:X; [lia|reflexivity].
Qed.
Lemma pointer_string_decided s : decided (ptr_spec_from_str s) (from_str_rule ApEmptyPointer (fun _ => pointer_rule) s).
Proof.
  apply from_str_decided; [reflexivity| |exact pointer_decided]. intros c r L. cbn. destruct (c <? 128) eqn:X; [lia|reflexivity].
Qed.

(** *** Layout strings *)

(** For a setting whose first letter decides. *)
Lemma setting_case {A} (o : outcome layout_err A) c s R : decided o R -> (forall v, setting_rule (c :: s) v <-> R v) -> decided o (setting_rule (c :: s)).
Proof. intros D H. apply (dec_ext _ _ _ D). intros v. now rewrite H. Qed.
Ltac letters := cbn [In lit] in *; repeat match goal with
  | H : _ \/ _ |- _ => destruct H
  | H : ch _ = ch _ |- _ => discriminate H
  | H : ~ _ |- _ => elim H; solve [auto 20]
  end; try contradiction.
Lemma setting_decided s d : is_ascii s = true -> decided (layout_spec s d) (setting_rule s).
Proof.
  intros H. destruct s as [|c s]; [apply dec_intro; [constructor|]; intros v V; now inversion V|].
  cbn in H. apply andb_true_iff in H as [Hc H]. apply N.ltb_lt in Hc. unfold layout_spec. rewrite tail_fine by exact Hc. cbn [obind].
  destruct (c =? ch "e") eqn:E1; [apply N.eqb_eq in E1; subst c|].
  { apply dec_intro; [constructor; now left|]. intros v V; inversion V; subst; letters; reflexivity. }
  destruct (c =? ch "E") eqn:E2; [apply N.eqb_eq in E2; subst c|].
  { apply dec_intro; [constructor; right; now left|]. intros v V; inversion V; subst; letters; reflexivity. }
  destruct (c =? ch "S") eqn:E3; [apply N.eqb_eq in E3; subst c|].
  { apply dec_pure, (setting_case _ _ _ (bits_rule LeBadInt LeBadAlign s)); [apply bits_decided|]. intros v. split; [|apply SrStack].
    intros V; inversion V; subst; letters; assumption. }
  destruct (c =? ch "P") eqn:E4; [apply N.eqb_eq in E4; subst c|].
  { apply dec_pure, (setting_case _ _ _ (address_rule LeBadInt LeBadAddressSpace s)); [apply address_decided|]. intros v. split; [|apply SrSpace; now left].
    intros V; inversion V; subst; letters; assumption. }
  destruct (c =? ch "G") eqn:E5; [apply N.eqb_eq in E5; subst c|].
  { apply dec_pure, (setting_case _ _ _ (address_rule LeBadInt LeBadAddressSpace s)); [apply address_decided|]. intros v. split; [|apply SrSpace; right; now left].
    intros V; inversion V; subst; letters; assumption. }
  destruct (c =? ch "A") eqn:E6; [apply N.eqb_eq in E6; subst c|].
  { apply dec_pure, (setting_case _ _ _ (address_rule LeBadInt LeBadAddressSpace s)); [apply address_decided|]. intros v. split; [|apply SrSpace; right; right; now left].
    intros V; inversion V; subst; letters; assumption. }
  destruct (c =? ch "p") eqn:E7; [apply N.eqb_eq in E7; subst c|].
  { apply dec_pure, (setting_case _ _ _ (relabel LeBadAlignSpec (pointer_rule s))); [apply dec_map_err, pointer_decided, Hc|].
    intros v. split; [|apply SrPointer]. intros V; inversion V; subst; letters; assumption. }
  destruct ((c =? ch "i") || (c =? ch "v") || (c =? ch "f") || (c =? ch "a")) eqn:E8.
  { assert (I : In c [ch "i"; ch "v"; ch "f"; ch "a"]) by (cbn [In]; lia).
    apply dec_pure, (setting_case _ _ _ (relabel LeBadAlignSpec (type_rule c s))); [apply dec_map_err, type_decided, Hc|].
    intros v. split; [|now apply SrType]. intros V; clear E1 E2 E3 E4 E5 E6 E7 E8; inversion V; subst; try assumption; cbn [In] in I; letters; subst; letters. }
  destruct (c =? ch "F") eqn:E9; [apply N.eqb_eq in E9; subst c|].
  { destruct s as [|x s]; [apply dec_intro; [constructor|]; intros v V; inversion V; subst; letters; reflexivity|].
    cbn in H. apply andb_true_iff in H as [Hx H]. apply N.ltb_lt in Hx. rewrite tail_fine by exact Hx. cbn [obind].
    apply (setting_case _ _ _ (in_order [ bits_rule LeBadInt LeBadAlign s; demand (In x [ch "i"; ch "n"]) (LeBadSpecParse (LfFnLetter x)) ])).
    2: { intros v. split; [|apply SrFn]. intros V; inversion V; subst; letters; assumption. }
    apply dec_bind; [apply bits_decided|]. intros a _. apply dec_last, dec_demand.
    destruct (x =? ch "i") eqn:X1; [apply N.eqb_eq in X1; right; split; [eauto|now left]|].
    destruct (x =? ch "n") eqn:X2; [apply N.eqb_eq in X2; right; split; [eauto|right; now left]|].
    left. split; [reflexivity|]. cbn [In]. lia. }
  destruct (c =? ch "m") eqn:E10; [apply N.eqb_eq in E10; subst c|].
  { destruct s as [|x s]; [apply dec_intro; [apply SrNoMangling|]; intros v V; inversion V; subst; letters; reflexivity|].
    destruct (x =? ch ":") eqn:X; [apply N.eqb_eq in X; subst x|].
    2:{ apply dec_intro; [apply SrSeparator; lia|]. intros v V; inversion V; subst; letters; (reflexivity || discriminate X). }
    destruct s as [|k s]; [apply dec_intro; [apply SrNoKind|]; intros v V; inversion V; subst; letters; (reflexivity || congruence)|].
    apply (setting_case _ _ _ (demand (exists m, In (m, k) mangling_letter) (LeBadSpecParse (LfKind k)))).
    2:{ intros v. split; [|apply SrMangling]. intros V; inversion V; subst; letters; (assumption || congruence). }
    apply dec_demand. destruct (mangling_of k) as [m|] eqn:M.
    - right. split; [eauto|]. apply mangling_iff in M. eauto.
    - left. split; [reflexivity|]. intros (m & I). apply mangling_iff in I. congruence. }
  destruct (c =? ch "n") eqn:E11; [apply N.eqb_eq in E11; subst c|].
  2:{ apply dec_intro.
      { apply SrUnknown. intros I. cbn [In lit] in I. rewrite N.eqb_neq in *. rewrite !orb_false_iff, !N.eqb_neq in E8. destruct E8 as [[[? ?] ?] ?].
        repeat (destruct I as [I|I]; [congruence|]). destruct I. } intros v V. inversion V; subst; letters; subst; try discriminate; reflexivity. }
  destruct s as [|x s]; [apply dec_intro; [apply SrNoNative|]; intros v V; inversion V; subst; letters; reflexivity|].
  cbn in H. apply andb_true_iff in H as [Hx H]. apply N.ltb_lt in Hx. destruct (x =? ch "i") eqn:X; [apply N.eqb_eq in X; subst x|apply N.eqb_neq in X].
  - destruct s as [|y s].
    { apply dec_intro; [apply SrNoNonIntegral|]. intros v V; inversion V; subst; letters; (reflexivity || congruence). }
    cbn in H. apply andb_true_iff in H as [Hy H]. apply N.ltb_lt in Hy. rewrite !tail_fine by exact Hx. cbn [obind]. rewrite tail_fine by exact Hy. cbn [obind].
    pose proof (pieces_split (ch ":") s) as P. apply dec_pure.
    apply (setting_case _ _ _ (in_order (map (number_with (2 ^ 32 - 1) LeBadInt (fun n => in_order [ demand (n <= 8388607) (LeBadAddressSpace (SpTooBig n));
                                                                         demand (n <> 0) (LeBadSpecParse LfSpaceZero) ])) (split_on (ch ":") s)))).
    + apply dec_collect. intros p _. unfold parse_non_integral, parse_space, parse_u32. change u32_max with (2 ^ 32 - 1).
      apply (dec_same (let? v := omap_err LeBadInt (parse_uint (2 ^ 32 - 1) p) in
        let? a := omap_err LeBadAddressSpace (address_space_of v) in if a =? 0 then Err (LeBadSpecParse LfSpaceZero) else Ok a)); [now destruct (parse_uint _ p)|].
      apply number_with_decided. intros n _. apply dec_bind.
      * apply (dec_ext _ (relabel LeBadAddressSpace (demand (n <= 8388607) (SpTooBig n)))); [apply dec_map_err, space_demand|]. intros v. apply relabel_demand.
      * intros a A. apply omap_err_iff, address_space_iff in A as [<- _]. apply dec_if; [lia|]. intros _. apply dec_ok.
    + intros v. split; [|now apply SrNonIntegral]. intros V. inversion V as [| | | | | | | | | | | | | |x0 s0 l v0 P' W|x0 s0 l v0 Y P' W|]; subst; letters; try discriminate.
      now rewrite (pieces_same _ _ _ _ P P').
  - pose proof (pieces_split (ch ":") (x :: s)) as P. apply dec_pure.
    apply (setting_case _ _ _ (in_order (map (fun p => relabel LeBadInt (number_rule (2 ^ 32 - 1) p)) (split_on (ch ":") (x :: s))))).
    + apply dec_collect. intros p _. apply dec_map_err. unfold parse_u32. change u32_max with (2 ^ 32 - 1). apply number_decided.
    + intros v. split; [|now apply SrNative]. intros V. inversion V as [| | | | | | | | | | | | | |x0 s0 l v0 P' W|x0 s0 l v0 Y P' W|]; subst; letters; try discriminate; try congruence.
      now rewrite (pieces_same _ _ _ _ P P').
Qed.
Lemma settings_decided l : (forall s, In s l -> is_ascii s = true) -> forall d, decided (layout_loop l d) (in_order (map setting_rule l)).
Proof.
  induction l as [|s l IH]; intros H d; cbn [layout_loop map]; [apply dec_ok|].
  apply dec_bind; [apply setting_decided, H; now left|]. intros d' _. apply IH. intros x I. apply H. now right.
Qed.
Lemma layout_string_decided s : decided (layout_from_str s) (layout_string_rule s).
Proof.
  unfold layout_from_str, layout_string_rule. destruct (is_ascii s) eqn:A.
  - apply dec_next; [unfold is_ascii in A; rewrite forallb_forall in A; rewrite Forall_forall; intros c I; now apply N.ltb_lt, A|].
    apply dec_last. pose proof (pieces_split (ch "-") s) as P.
    apply (dec_ext _ (in_order (map setting_rule (split_on (ch "-") s)))); [apply settings_decided; intros x I; now apply (specs_ascii s)|].
    intros v. split; [eauto|]. intros (l & P' & H). now rewrite (pieces_same _ _ _ _ P P').
  - apply dec_stop. intros F. rewrite Forall_forall in F. enough (is_ascii s = true) by congruence.
    apply forallb_forall. intros c I. now apply N.ltb_lt, F.
Qed.

Lemma specification_panics s p :
  (type_spec_from_str s = Panic p <-> p = PSliceRange /\ exists c s', s = c :: s' /\ 128 <= c) /\
  (ptr_spec_from_str s = Panic p <-> p = PSliceRange /\ exists c s', s = c :: s' /\ 128 <= c).
Proof.
  assert (F : forall A (o : outcome spec_err A), fine o -> o <> Panic p) by (intros A o [[a ->]|[x ->]]; discriminate).
  destruct s as [|c s]; [split; (split; [discriminate|intros (_ & c & s & [=] & _)])|].
  destruct (N.lt_ge_cases c 128) as [L|L].
  - split; (split; [intros H; exfalso; revert H; apply F|intros (_ & c' & s' & [= <- <-] & X); lia]); [now apply type_from_str_fine|now apply ptr_from_str_fine].
  - cbn. destruct (c <? 128) eqn:X; [lia|]. cbn. split; (split; [intros [= <-]; eauto|intros (-> & _); reflexivity]).
Qed.
