(** The UTF-8 decoder accepts exactly the encodings of strings. *)
From Verif Require Import Base Strings.
From Coq Require Import Lia ZifyBool ZifyNat ZifyN.
Ltac Zify.zify_post_hook ::= Z.div_mod_to_equations.
Local Open Scope N_scope.
Arguments N.add : simpl never.
Arguments N.mul : simpl never.
Arguments N.div : simpl never.
Arguments N.modulo : simpl never.
Arguments N.sub : simpl never.

Ltac cases := repeat match goal with
  | |- context [if ?a =? ?b then _ else _] => let E := fresh "E" in destruct (a =? b) eqn:E; try (exfalso; lia)
  | |- context [if ?b then _ else _] => let E := fresh "E" in destruct b eqn:E; try (exfalso; lia)
  end.

Ltac close := match goal with
  | |- option_map (cons ?x) _ = option_map (cons ?y) _ => replace x with y by lia; reflexivity
  end.

Lemma decode_char c r : is_scalar_value c = true ->
  utf8_decode (utf8_char c ++ r) = option_map (cons c) (utf8_decode r).
Proof.
  intros H. unfold is_scalar_value in H. unfold utf8_char.
  assert (D : exists x y z w, c = x * 262144 + y * 4096 + z * 64 + w /\ y < 64 /\ z < 64 /\ w < 64 /\
    c mod 64 = w /\ (c / 64) mod 64 = z /\ (c / 4096) mod 64 = y /\ c / 262144 = x /\
    c / 64 = x * 4096 + y * 64 + z /\ c / 4096 = x * 64 + y).
  { exists (c / 262144), ((c / 4096) mod 64), ((c / 64) mod 64), (c mod 64). lia. }
  destruct D as (x & y & z & w & Hc & Hy & Hz & Hw & -> & -> & -> & -> & -> & ->).
  destruct (c <? 128) eqn:E1.
  { cbn [app utf8_decode]. rewrite E1. reflexivity. }
  destruct (c <? 2048) eqn:E2.
  { cbn [app utf8_decode]. unfold between, cont. cases; close. }
  destruct (c <? 65536) eqn:E3.
  { cbn [app utf8_decode]. unfold between, cont. cases; close. }
  cbn [app utf8_decode]. unfold between, cont. cases; close.
Qed.

Lemma decode_encode s : forallb is_scalar_value s = true -> utf8_decode (utf8_encode s) = Some s.
Proof.
  induction s as [|c s IH]; intros H; [reflexivity|]. cbn [forallb] in H. apply andb_true_iff in H as [H1 H2].
  unfold utf8_encode. cbn [flat_map]. rewrite decode_char by assumption. fold (utf8_encode s). rewrite IH by assumption. reflexivity.
Qed.

Lemma encode_decode_aux n l s : (length l <= n)%nat -> utf8_decode l = Some s ->
  forallb is_scalar_value s = true /\ utf8_encode s = l.
Proof.
  revert l s. induction n as [|n IH]; intros l s Hn H.
  { destruct l; [|cbn in Hn; lia]. injection H as <-. split; reflexivity. }
  destruct l as [|b0 l]; [injection H as <-; split; reflexivity|]. cbn [length] in Hn. cbn [utf8_decode] in H.
  assert (G : forall c r, (length r <= n)%nat -> option_map (cons c) (utf8_decode r) = Some s ->
    is_scalar_value c = true -> forall p, utf8_char c = p -> forallb is_scalar_value s = true /\ utf8_encode s = p ++ r).
  { intros c r Hr Hd Hc p Hp. destruct (utf8_decode r) as [s'|] eqn:D; [|discriminate]. injection Hd as <-.
    destruct (IH r s' Hr D) as [A B]. split; [cbn [forallb]; rewrite Hc, A; reflexivity|].
    unfold utf8_encode. cbn [flat_map]. rewrite Hp. f_equal. exact B. }
  unfold between, cont in H.
  destruct (b0 <? 128) eqn:E1.
  { apply (G b0 l ltac:(lia) H ltac:(unfold is_scalar_value; lia) [b0]). unfold utf8_char. rewrite E1. reflexivity. }
  destruct (_ && _) eqn:E2 in H.
  { destruct l as [|b1 l]; [discriminate|]. cbn [length] in Hn. destruct (_ && _) eqn:E3 in H; [|discriminate].
    refine (G _ l ltac:(lia) H _ [b0; b1] _); [unfold is_scalar_value; lia|]. unfold utf8_char. cases. repeat f_equal; lia. }
  clear E2. destruct (_ && _) eqn:E2 in H.
  { destruct l as [|b1 [|b2 l]]; try discriminate. cbn [length] in Hn. destruct (_ && _) eqn:E3 in H; [|discriminate].
    assert (E4 : 128 <= b1 <= 191 /\ 128 <= b2 <= 191 /\ (b0 = 224 -> 160 <= b1) /\ (b0 = 237 -> b1 <= 159)).
    { clear G H. destruct (b0 =? 224) eqn:X; [lia|]. destruct (b0 =? 237) eqn:Y; lia. }
    clear E3. refine (G _ l ltac:(lia) H _ [b0; b1; b2] _).
    - unfold is_scalar_value. lia.
    - unfold utf8_char. cases. repeat f_equal; lia. }
  clear E2. destruct (_ && _) eqn:E2 in H; [|discriminate].
  destruct l as [|b1 [|b2 [|b3 l]]]; try discriminate. cbn [length] in Hn. destruct (_ && _) eqn:E3 in H; [|discriminate].
  assert (E4 : 128 <= b1 <= 191 /\ 128 <= b2 <= 191 /\ 128 <= b3 <= 191 /\ (b0 = 240 -> 144 <= b1) /\ (b0 = 244 -> b1 <= 143)).
  { clear G H. destruct (b0 =? 240) eqn:X; [lia|]. destruct (b0 =? 244) eqn:Y; lia. }
  clear E3. refine (G _ l ltac:(lia) H _ [b0; b1; b2; b3] _).
  - unfold is_scalar_value. lia.
  - unfold utf8_char. cases. repeat f_equal; lia.
Qed.

Lemma utf8_exact l s : utf8_decode l = Some s <-> forallb is_scalar_value s = true /\ utf8_encode s = l.
Proof.
  split; [apply (encode_decode_aux (length l)); lia|]. intros [H <-]. apply decode_encode, H.
Qed.

(** *** The contents of the error *)

Lemma utf8_char_nonempty c : utf8_char c <> [].
Proof. unfold utf8_char. repeat match goal with |- context [if ?b then _ else _] => destruct b end; discriminate. Qed.


(** The bytes of a character. *)
Definition char_bytes (l : list N) : Prop :=
  match l with
  | [b0] => b0 < 128
  | [b0; b1] => 194 <= b0 <= 223 /\ 128 <= b1 <= 191
  | [b0; b1; b2] => 224 <= b0 <= 239 /\ 128 <= b1 <= 191 /\ 128 <= b2 <= 191 /\ (b0 = 224 -> 160 <= b1) /\ (b0 = 237 -> b1 <= 159)
  | [b0; b1; b2; b3] => 240 <= b0 <= 244 /\ 128 <= b1 <= 191 /\ 128 <= b2 <= 191 /\ 128 <= b3 <= 191 /\
      (b0 = 240 -> 144 <= b1) /\ (b0 = 244 -> b1 <= 143)
  | _ => False
  end.
Lemma char_bytes_of c : is_scalar_value c = true -> char_bytes (utf8_char c).
Proof.
  intros H. unfold is_scalar_value in H. unfold utf8_char.
  destruct (c <? 128) eqn:E1; [cbn; lia|]. destruct (c <? 2048) eqn:E2; [cbn; lia|].
  destruct (c <? 65536) eqn:E3; cbn; lia.
Qed.
Lemma char_of_bytes l : char_bytes l -> exists c, is_scalar_value c = true /\ utf8_char c = l.
Proof.
  destruct l as [|b0 [|b1 [|b2 [|b3 [|b4 l]]]]]; cbn [char_bytes]; try contradiction; intros H.
  - exists b0. split; [unfold is_scalar_value; lia|]. unfold utf8_char. cases. reflexivity.
  - exists ((b0 - 192) * 64 + (b1 - 128)). split; [unfold is_scalar_value; lia|]. unfold utf8_char. cases. repeat f_equal; lia.
  - exists ((b0 - 224) * 4096 + (b1 - 128) * 64 + (b2 - 128)). split; [unfold is_scalar_value; lia|].
    unfold utf8_char. cases. repeat f_equal; lia.
  - exists ((b0 - 240) * 262144 + (b1 - 128) * 4096 + (b2 - 128) * 64 + (b3 - 128)). split; [unfold is_scalar_value; lia|].
    unfold utf8_char. cases. repeat f_equal; lia.
Qed.
Lemma begins_bytes p : begins_char p <-> exists t, char_bytes (p ++ t).
Proof.
  split.
  - intros (c & t & H & E). exists t. rewrite <- E. now apply char_bytes_of.
  - intros (t & B). apply char_of_bytes in B. destruct B as (c & H & E). exists c, t. auto.
Qed.
Lemma whole_bytes l : (forall p t, char_bytes p -> l <> p ++ t) -> forall c t, is_scalar_value c = true -> l <> utf8_char c ++ t.
Proof. intros H c t S. apply H, char_bytes_of, S. Qed.
