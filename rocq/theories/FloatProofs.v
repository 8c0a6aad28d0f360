(** Reads into floating-point types: vocabulary and lemmas. *)
From Verif Require Import Base CursorModel CursorSpec CursorHist CursorMain FloatModel.
From Coq Require Import Lia ZifyBool ZifyNat ZifyN.
Local Open Scope N_scope.

(** Integers a type with [p] bits of significand has. *)
Definition representable (p x : N) : Prop := exists m k, m < 2 ^ p /\ x = m * 2 ^ k.
Definition distance (a b : N) : N := (a - b) + (b - a).
(** The nearest representable number; if there are two, the one that is an even multiple of their distance. *)
Definition rounds_to (p v x : N) : Prop :=
  representable p x /\
  forall y, representable p y ->
    distance v x <= distance v y /\ (distance v y = distance v x -> y <> x -> exists m, x = m * (2 * distance x y)).

Lemma size_bounds v : v <> 0 -> 2 ^ (N.size v - 1) <= v < 2 ^ N.size v.
Proof.
  intros N0. rewrite N.size_log2 by exact N0. replace (N.succ (N.log2 v) - 1) with (N.log2 v) by lia. apply N.log2_spec. lia.
Qed.
Lemma float_cast_small t v : v < 2 ^ fty_digits t -> float_cast t v = v.
Proof.
  intros H. unfold float_cast. assert (N.size v <= fty_digits t).
  { destruct (N.eq_dec v 0) as [->|N0]; [cbn; lia|]. rewrite N.size_log2 by exact N0.
    assert (N.log2 v < fty_digits t) by (apply N.log2_lt_pow2; [lia|exact H]). lia. }
  replace (N.size v - fty_digits t) with 0 by lia. change (2 ^ 0) with 1. rewrite N.mod_1_r, N.div_1_r.
  change ((1 <? 2 * 0) || ((2 * 0 =? 1) && N.odd v)) with false. cbv iota. apply N.mul_1_r.
Qed.

Lemma pow_pos k : 0 < 2 ^ k.
Proof. assert (2 ^ k <> 0) by (apply N.pow_nonzero; lia). lia. Qed.

(** The rounding of one significand, [K] being the spacing. *)
Definition half_even (v K : N) : N :=
  let q := v / K in let r := v mod K in
  (if (K <? 2 * r) || ((2 * r =? K) && N.odd q) then q + 1 else q) * K.
Lemma half_even_near v K n : 0 < K -> distance v (half_even v K) <= distance v (n * K) /\
  (distance v (n * K) = distance v (half_even v K) -> n * K <> half_even v K ->
   exists m, half_even v K = m * (2 * distance (half_even v K) (n * K))).
Proof.
  intros HK. unfold half_even. pose proof (N.div_mod v K ltac:(lia)) as D. pose proof (N.mod_lt v K ltac:(lia)) as L.
  set (q := v / K) in *. set (r := v mod K) in *. clearbody q r.
  assert (C : n <= q \/ q + 1 <= n) by lia.
  assert (X1 : n <= q -> n * K <= q * K) by (intros; apply N.mul_le_mono_r; lia).
  assert (X2 : n < q -> n * K + K <= q * K) by (intros; replace (n * K + K) with ((n + 1) * K) by lia; apply N.mul_le_mono_r; lia).
  assert (X3 : q + 1 <= n -> q * K + K <= n * K) by (intros; replace (q * K + K) with ((q + 1) * K) by lia; apply N.mul_le_mono_r; lia).
  assert (X4 : q + 1 < n -> q * K + 2 * K <= n * K) by (intros; replace (q * K + 2 * K) with ((q + 2) * K) by lia; apply N.mul_le_mono_r; lia).
  replace (K * q) with (q * K) in D by lia. unfold distance.
  destruct (K <? 2 * r) eqn:U; [|destruct (2 * r =? K) eqn:T; [destruct (N.odd q) eqn:O|]]; cbn [orb andb].
  - rewrite N.mul_add_distr_r, N.mul_1_l. split; [destruct C; lia|]. intros E NE. exfalso.
    assert (n < q \/ n = q \/ n = q + 1 \/ q + 1 < n) as [C'|[C'|[C'|C']]] by lia; try lia; subst n; lia.
  - rewrite N.mul_add_distr_r, N.mul_1_l. split; [destruct C; lia|]. intros E NE.
    assert (n < q \/ n = q \/ n = q + 1 \/ q + 1 < n) as [C'|[C'|[C'|C']]] by lia; try (exfalso; lia); subst n.
    apply N.odd_spec in O as (m & ->). exists (m + 1). match goal with |- _ = _ * (2 * ?d) => replace d with K by lia end. lia.
  - split; [destruct C; lia|]. intros E NE.
    assert (n < q \/ n = q \/ n = q + 1 \/ q + 1 < n) as [C'|[C'|[C'|C']]] by lia; try (exfalso; lia); subst n.
    assert (N.even q = true) as V by (rewrite <- N.negb_odd, O; reflexivity). apply N.even_spec in V as (m & ->). exists m.
    match goal with |- _ = _ * (2 * ?d) => replace d with K by lia end. lia.
  - split; [destruct C; lia|]. intros E NE. exfalso.
    assert (n < q \/ n = q \/ n = q + 1 \/ q + 1 < n) as [C'|[C'|[C'|C']]] by lia; try lia; subst n; lia.
Qed.

Lemma representable_small p v : v < 2 ^ p -> representable p v.
Proof. intros H. exists v, 0. split; [exact H|]. now rewrite N.mul_1_r. Qed.
Lemma rounds_exact p v : representable p v -> rounds_to p v v.
Proof.
  intros H. split; [exact H|]. intros y _. unfold distance. split; [lia|]. intros E NE. exfalso. lia.
Qed.

Lemma float_cast_rounds t v : 1 <= fty_digits t -> rounds_to (fty_digits t) v (float_cast t v).
Proof.
  intros HP. set (p := fty_digits t) in *. destruct (N.lt_ge_cases v (2 ^ p)) as [S0|B].
  { rewrite float_cast_small by exact S0. apply rounds_exact, representable_small, S0. }
  assert (N0 : v <> 0) by (pose proof (pow_pos p); lia). pose proof (size_bounds v N0) as [SL SU].
  assert (Hs : p < N.size v) by (apply (N.pow_lt_mono_r_iff 2); lia).
  change (float_cast t v) with (half_even v (2 ^ (N.size v - p))). set (k := N.size v - p) in *. set (K := 2 ^ k).
  assert (HK : 0 < K) by apply pow_pos.
  assert (SU' : v < 2 ^ p * K). { unfold K. rewrite <- N.pow_add_r. replace (p + k) with (N.size v) by lia. exact SU. }
  assert (SL' : 2 ^ (p - 1) * K <= v). { unfold K. rewrite <- N.pow_add_r. replace (p - 1 + k) with (N.size v - 1) by lia. exact SL. }
  split.
  - assert (Q : v / K < 2 ^ p) by (apply N.div_lt_upper_bound; [lia|rewrite N.mul_comm; exact SU']).
    assert (X : forall n, n <= 2 ^ p -> representable p (n * K)).
    { intros n Hn. destruct (N.eq_dec n (2 ^ p)) as [-> |].
      - exists (2 ^ (p - 1)), (k + 1). split; [apply N.pow_lt_mono_r; lia|]. unfold K. rewrite <- !N.pow_add_r. f_equal. lia.
      - exists n, k. split; [lia|reflexivity]. }
    unfold half_even. apply X. destruct (_ || _); lia.
  - intros y (m & j & Hm & ->). destruct (N.lt_ge_cases j k) as [J|J].
    + (* below the binade *)
      assert (Y : m * 2 ^ j < 2 ^ (p - 1) * K).
      { apply N.lt_le_trans with (2 ^ p * 2 ^ j); [apply N.mul_lt_mono_pos_r; [apply pow_pos|exact Hm]|].
        unfold K. rewrite <- !N.pow_add_r. apply N.pow_le_mono_r; lia. }
      destruct (half_even_near v K (2 ^ (p - 1)) HK) as [D _]. unfold distance in *. split; [lia|]. intros E _. exfalso. lia.
    + replace (m * 2 ^ j) with (m * 2 ^ (j - k) * K); [apply half_even_near, HK|].
      unfold K. rewrite <- N.mul_assoc, <- N.pow_add_r. do 2 f_equal. lia.
Qed.

Lemma rounds_unique p v x y : rounds_to p v x -> rounds_to p v y -> x = y.
Proof.
  intros [RX HX] [RY HY]. destruct (N.eq_dec x y) as [|NE]; [assumption|exfalso].
  destruct (HX y RY) as [D1 E1]. destruct (HY x RX) as [D2 E2].
  assert (D : distance v y = distance v x) by lia. destruct (E1 D ltac:(lia)) as [a A]. destruct (E2 (eq_sym D) NE) as [b B].
  assert (S1 : distance y x = distance x y) by (unfold distance; lia). rewrite S1 in B. set (d := distance x y) in *.
  assert (Hd : x = y + d \/ y = x + d) by (unfold d, distance; lia). assert (0 < d) by (unfold d, distance; lia). clearbody d.
  assert (C : a <= b \/ b < a) by lia. destruct Hd as [Hd|Hd]; destruct C as [C|C].
  - assert (a * (2 * d) <= b * (2 * d)) by (apply N.mul_le_mono_r; lia). lia.
  - assert ((b + 1) * (2 * d) <= a * (2 * d)) by (apply N.mul_le_mono_r; lia). lia.
  - assert (C' : a = b \/ a < b) by lia. destruct C' as [-> |C']; [lia|]. assert ((a + 1) * (2 * d) <= b * (2 * d)) by (apply N.mul_le_mono_r; lia). lia.
  - assert (b * (2 * d) <= a * (2 * d)) by (apply N.mul_le_mono_r; lia). lia.
Qed.

Lemma read_as_float_main e c t n : reachable e c -> 1 <= fty_digits t -> 1 <= n <= 63 -> tell_bit c + n <= bit_len c ->
  let v := N_of_bits (sub_bits (tell_bit c) n (content c)) in
  exists x c', read_as_float cursor_ops t n c = (Ok x, c') /\ rounds_to (fty_digits t) v x /\ (x = v <-> representable (fty_digits t) v) /\
               tell_bit c' = tell_bit c + n /\ content c' = content c.
Proof.
  intros HR HD Hn Hr v. destruct (read_main e c n HR Hn Hr) as (c' & E & T & K & _). pose proof (float_cast_rounds t v HD) as X.
  exists (float_cast t v), c'. split; [unfold read_as_float, bind; cbn [op_read cursor_ops]; rewrite E; reflexivity|].
  split; [exact X|]. split; [|auto]. split.
  - intros Q. rewrite <- Q. exact (proj1 X).
  - intros Q. exact (rounds_unique _ _ _ _ X (rounds_exact _ _ Q)).
Qed.
Lemma read_as_float_fails e c t n x : read_as_float cursor_ops t n c = (Err x, e) <-> read n c = (Err x, e).
Proof. unfold read_as_float, bind. cbn [op_read cursor_ops]. destruct (read n c) as [[?|?|?|] ?]; cbn; split; intros H; try discriminate; congruence. Qed.
