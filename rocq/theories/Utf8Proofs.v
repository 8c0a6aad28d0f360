(** The contents of the error for bytes that are no string. *)
From Verif Require Import Base Strings StringsProofs.
From Coq Require Import Lia ZifyBool ZifyNat ZifyN.
Local Open Scope N_scope.

(** [utf8_fault] behind [off] bytes. *)
Definition fault_at (off : N) (l : list N) (x : utf8_err) : Prop :=
  exists good rest s, l = good ++ rest /\ forallb is_scalar_value s = true /\ utf8_encode s = good /\
    off + N.of_nat (length good) = valid_up_to x /\
    rest <> [] /\ (forall c t, is_scalar_value c = true -> rest <> utf8_char c ++ t) /\
    match error_len x with
    | None => begins_char rest
    | Some n => 1 <= n <= N.of_nat (length rest) /\ (n = 1 \/ begins_char (firstn (N.to_nat n) rest)) /\
                ~ begins_char (firstn (S (N.to_nat n)) rest)
    end.

Lemma fault_step off p r x : char_bytes p -> fault_at (off + N.of_nat (length p)) r x -> fault_at off (p ++ r) x.
Proof.
  intros B (good & rest & s & -> & Hs & E & V & R). apply char_of_bytes in B. destruct B as (c & Hc & <-).
  exists (utf8_char c ++ good), rest, (c :: s). split; [now rewrite app_assoc|].
  split; [cbn; now rewrite Hc, Hs|]. split; [unfold utf8_encode; cbn [flat_map]; f_equal; exact E|].
  split; [rewrite app_length; lia|exact R].
Qed.
Lemma fault_here off l n : l <> [] -> (forall p t, char_bytes p -> l <> p ++ t) ->
  match n with
  | None => begins_char l
  | Some n => 1 <= n <= N.of_nat (length l) /\ (n = 1 \/ begins_char (firstn (N.to_nat n) l)) /\
              ~ begins_char (firstn (S (N.to_nat n)) l)
  end -> fault_at off l (mkUtf8Err off n).
Proof.
  intros L W H. exists [], l, []. repeat split; try assumption; try (cbn; lia). now apply whole_bytes.
Qed.

Ltac whole := intros p t B E; destruct p as [|c0 [|c1 [|c2 [|c3 [|c4 p]]]]]; cbn [char_bytes] in B; try contradiction;
  cbn [app] in E; try discriminate E; injection E; intros; subst; lia.
Ltac starts l := apply begins_bytes; exists l; try change (N.to_nat 2) with 2%nat; try change (N.to_nat 3) with 3%nat;
  cbn [firstn app char_bytes]; lia.
Ltac nostart := intros Q; apply begins_bytes in Q; destruct Q as [q B];
  change (N.to_nat 1) with 1%nat in B; change (N.to_nat 2) with 2%nat in B; change (N.to_nat 3) with 3%nat in B; cbn [firstn app] in B;
  destruct q as [|q0 [|q1 [|q2 [|q3 q]]]]; cbn [app char_bytes] in B; try contradiction; try lia;
  repeat match type of B with context [match ?l with _ => _ end] => destruct l end; cbn [app char_bytes] in B; try contradiction; lia.
Ltac here := apply fault_here; [discriminate|whole|].

Lemma utf8_error_at n : forall l off, (length l <= n)%nat -> utf8_decode l = None -> fault_at off l (utf8_error off l).
Proof.
  induction n as [|n IH]; intros l off L D; [destruct l; [discriminate D|cbn in L; lia]|].
  destruct l as [|b0 l]; [discriminate D|]. cbn [length] in L. cbn [utf8_decode utf8_error] in *. unfold between, cont in *.
  assert (ST : forall p r k, (length r <= n)%nat -> char_bytes p -> k = off + N.of_nat (length p) -> forall c,
    option_map (cons c) (utf8_decode r) = None -> fault_at off (p ++ r) (utf8_error k r)).
  { intros p r k Lr B -> c E. apply fault_step; [exact B|]. apply IH; [exact Lr|]. destruct (utf8_decode r); [discriminate E|reflexivity]. }
  destruct (b0 <? 128) eqn:E1; [eapply (ST [b0] l); [lia|cbn; lia|cbn; lia|exact D]|].
  destruct ((194 <=? b0) && (b0 <=? 223)) eqn:E2.
  { destruct l as [|b1 l].
    { here. starts [128]. }
    destruct ((128 <=? b1) && (b1 <=? 191)) eqn:C1; [eapply (ST [b0; b1] l); [cbn in L; lia|cbn; lia|cbn; lia|exact D]|].
    here. split; [cbn [length]; lia|]. split; [now left|]. nostart. }
  destruct ((224 <=? b0) && (b0 <=? 239)) eqn:E3.
  { assert (P : exists c, 128 <= c <= 191 /\ (b0 = 224 -> 160 <= c) /\ (b0 = 237 -> c <= 159)).
    { exists (if b0 =? 237 then 144 else 160). destruct (b0 =? 237) eqn:X; lia. }
    destruct P as (w & W).
    destruct l as [|b1 l].
    { here. starts [w; 128]. }
    set (g1 := if b0 =? 224 then _ else _) in *.
    assert (G1 : g1 = true <-> 128 <= b1 <= 191 /\ (b0 = 224 -> 160 <= b1) /\ (b0 = 237 -> b1 <= 159)).
    { unfold g1. destruct (b0 =? 224) eqn:X; [lia|]. destruct (b0 =? 237) eqn:Y; lia. }
    clearbody g1. destruct g1; cbn [negb andb] in *.
    2:{ assert (G : ~ (128 <= b1 <= 191 /\ (b0 = 224 -> 160 <= b1) /\ (b0 = 237 -> b1 <= 159))) by (intros X; apply G1 in X; discriminate X).
        clear G1. here. split; [cbn [length]; lia|]. split; [now left|]. nostart. }
    assert (G := proj1 G1 eq_refl). clear G1. destruct l as [|b2 l].
    { here. starts [128]. }
    destruct ((128 <=? b2) && (b2 <=? 191)) eqn:C2; [eapply (ST [b0; b1; b2] l); [cbn in L; lia|cbn; lia|cbn; lia|exact D]|].
    here. split; [cbn [length]; lia|]. split; [right; starts [128]|]. nostart. }
  destruct ((240 <=? b0) && (b0 <=? 244)) eqn:E4.
  2:{ here. split; [cbn [length]; lia|]. split; [now left|]. destruct l; nostart. }
  assert (P : exists c, 128 <= c <= 191 /\ (b0 = 240 -> 144 <= c) /\ (b0 = 244 -> c <= 143)).
  { exists (if b0 =? 244 then 128 else 144). destruct (b0 =? 244) eqn:X; lia. }
  destruct P as (w & W).
  destruct l as [|b1 l].
  { here. starts [w; 128; 128]. }
  set (g1 := if b0 =? 240 then _ else _) in *.
  assert (G1 : g1 = true <-> 128 <= b1 <= 191 /\ (b0 = 240 -> 144 <= b1) /\ (b0 = 244 -> b1 <= 143)).
  { unfold g1. destruct (b0 =? 240) eqn:X; [lia|]. destruct (b0 =? 244) eqn:Y; lia. }
  clearbody g1. destruct g1; cbn [negb andb] in *.
  2:{ assert (G : ~ (128 <= b1 <= 191 /\ (b0 = 240 -> 144 <= b1) /\ (b0 = 244 -> b1 <= 143))) by (intros X; apply G1 in X; discriminate X).
      clear G1. here. split; [cbn [length]; lia|]. split; [now left|]. nostart. }
  assert (G := proj1 G1 eq_refl). clear G1. destruct l as [|b2 l].
  { here. starts [128; 128]. }
  destruct ((128 <=? b2) && (b2 <=? 191)) eqn:C2; cbn [negb andb] in *.
  2:{ here. split; [cbn [length]; lia|]. split; [right; starts [128; 128]|]. nostart. }
  destruct l as [|b3 l].
  { here. starts [128]. }
  destruct ((128 <=? b3) && (b3 <=? 191)) eqn:C3; [eapply (ST [b0; b1; b2; b3] l); [cbn in L; lia|cbn; lia|cbn; lia|exact D]|].
  here. split; [cbn [length]; lia|]. split; [right; starts [128]|]. nostart.
Qed.

Lemma utf8_error_fault l : utf8_decode l = None -> utf8_fault l (utf8_error 0 l).
Proof.
  intros D. destruct (utf8_error_at (length l) l 0 (le_n _) D) as (good & rest & s & H).
  exists good, rest, s. rewrite N.add_0_l in H. exact H.
Qed.

(** The fault is determined. *)
Lemma char_bytes_prefix p q r r' : char_bytes p -> char_bytes q -> p ++ r = q ++ r' -> p = q.
Proof.
  intros B C E.
  destruct p as [|b0 [|b1 [|b2 [|b3 [|b4 p]]]]]; cbn [char_bytes] in B; try contradiction;
  destruct q as [|c0 [|c1 [|c2 [|c3 [|c4 q]]]]]; cbn [char_bytes] in C; try contradiction;
  cbn [app] in E; injection E; intros; subst; try reflexivity; lia.
Qed.
Lemma longest_good s : forall s' rest rest', forallb is_scalar_value s = true -> forallb is_scalar_value s' = true ->
  utf8_encode s ++ rest = utf8_encode s' ++ rest' ->
  (forall c t, is_scalar_value c = true -> rest <> utf8_char c ++ t) ->
  (forall c t, is_scalar_value c = true -> rest' <> utf8_char c ++ t) -> rest = rest' /\ utf8_encode s = utf8_encode s'.
Proof.
  induction s as [|c s IH]; intros [|c' s'] rest rest' S1 S2 E W W'; cbn [utf8_encode flat_map app] in E |- *.
  - auto.
  - cbn [forallb] in S2. apply andb_true_iff in S2. exfalso. apply (W c' (utf8_encode s' ++ rest')); [tauto|].
    now rewrite app_assoc.
  - cbn [forallb] in S1. apply andb_true_iff in S1. exfalso. apply (W' c (utf8_encode s ++ rest)); [tauto|].
    now rewrite app_assoc.
  - cbn [forallb] in S1, S2. apply andb_true_iff in S1. apply andb_true_iff in S2. destruct S1 as [C1 S1], S2 as [C2 S2].
    rewrite <- !app_assoc in E. pose proof (char_bytes_prefix _ _ _ _ (char_bytes_of c C1) (char_bytes_of c' C2) E) as X.
    rewrite X in E. apply app_inv_head in E. destruct (IH s' rest rest' S1 S2 E W W') as [A B].
    split; [exact A|]. change (flat_map utf8_char s) with (utf8_encode s). change (flat_map utf8_char s') with (utf8_encode s'). congruence.
Qed.
Lemma begins_shorter p t : begins_char (p ++ t) -> begins_char p.
Proof. intros (c & u & H & E). exists c, (t ++ u). split; [exact H|]. now rewrite E, app_assoc. Qed.
Lemma begins_firstn (k m : nat) l : (k <= m)%nat -> begins_char (firstn m l) -> begins_char (firstn k l).
Proof.
  intros L H. assert (E : firstn k l = firstn k (firstn m l)) by (rewrite firstn_firstn; f_equal; lia).
  rewrite E. apply (begins_shorter _ (skipn k (firstn m l))). now rewrite firstn_skipn.
Qed.
Lemma utf8_fault_unique raw x y : utf8_fault raw x -> utf8_fault raw y -> x = y.
Proof.
  intros (g & r & s & -> & S1 & E1 & V1 & R1 & W1 & M1) (g' & r' & s' & E & S2 & E2 & V2 & R2 & W2 & M2).
  subst g g'. destruct (longest_good s s' r r' S1 S2 E W1 W2) as [-> G]. rewrite G in V1.
  destruct x as [v l], y as [v' l']. cbn [valid_up_to error_len] in *. f_equal; [congruence|]. clear V1 V2 G E W1 W2.
  destruct l as [n|], l' as [m|].
  - destruct M1 as (A1 & B1 & C1), M2 as (A2 & B2 & C2). f_equal.
    destruct (N.lt_trichotomy n m) as [X|[X|X]]; [exfalso|exact X|exfalso].
    + destruct B2 as [->|B2]; [lia|]. apply C1. eapply begins_firstn; [|exact B2]. lia.
    + destruct B1 as [->|B1]; [lia|]. apply C2. eapply begins_firstn; [|exact B1]. lia.
  - destruct M1 as (A1 & B1 & C1). exfalso. apply C1. apply (begins_shorter _ (skipn (S (N.to_nat n)) r')). now rewrite firstn_skipn.
  - destruct M2 as (A1 & B1 & C1). exfalso. apply C1. apply (begins_shorter _ (skipn (S (N.to_nat m)) r')). now rewrite firstn_skipn.
  - reflexivity.
Qed.
(** A fault is for bytes that are no string. *)
Lemma utf8_fault_no_string raw x : utf8_fault raw x -> utf8_decode raw = None.
Proof.
  intros (g & r & s & -> & S1 & <- & _ & R & W & _). destruct (utf8_decode _) as [u|] eqn:D; [|reflexivity].
  apply utf8_exact in D. destruct D as [U E]. exfalso.
  assert (E' : utf8_encode s ++ r = utf8_encode u ++ []) by now rewrite app_nil_r.
  destruct (longest_good s u r [] S1 U E' W) as [X _]; [|contradiction].
  intros c t _ X. symmetry in X. apply app_eq_nil in X. destruct X as [X _]. exact (utf8_char_nonempty c X).
Qed.
Lemma utf8_error_iff raw x : utf8_fault raw x <-> utf8_decode raw = None /\ x = utf8_error 0 raw.
Proof.
  split.
  - intros F. pose proof (utf8_fault_no_string raw x F) as D. split; [exact D|]. exact (utf8_fault_unique raw _ _ F (utf8_error_fault raw D)).
  - intros [D ->]. now apply utf8_error_fault.
Qed.
