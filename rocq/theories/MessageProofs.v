(** Proofs about the messages of errors. *)
From Verif Require Import Base CursorModel CursorSpec StreamModel StreamSpec Strings StringsProofs EnumModel SupportModel SupportSpec SupportProofs
  LayoutModel LayoutSpec LayoutStopSpec LayoutStops UnrollModel UnrollSpec AttributeModel AttributeSpec TablesModel TypeTableModel TypeTableSpec TypeStopSpec TypeStops
  RecordModel RecordSpec RuleSpec Rules VerdictSpec VerdictAttributes ModuleModel ModuleBodies ExtraModel ExtraProofs MessageModel MessageSpec.
From Coq Require Import Lia ZifyBool ZifyNat ZifyN.
Ltac Zify.zify_post_hook ::= Z.div_mod_to_equations.
Local Open Scope N_scope.

(** ** Words *)

Definition opens_digit (s : str) : bool := match s with c :: _ => digit c | [] => false end.
Definition plain (s : str) : bool := match s with [] => false | _ => forallb (fun c => negb (digit c)) s end.

Lemma runs_app b p : forall q, p <> [] -> Forall (fun c => digit c = b) p ->
  match q with [] => True | c :: _ => digit c = negb b end -> runs (p ++ q) = p :: runs q.
Proof.
  induction p as [|c p IH]; intros q HP HF HQ; [easy|]. inversion HF as [|? ? D HF']; subst. destruct p as [|c' p].
  - cbn [app runs]. destruct q as [|c' q]; [reflexivity|]. cbn [runs]. destruct (runs q) as [|[|c2 r2] l] eqn:E.
    + rewrite HQ. destruct (digit c); reflexivity.
    + rewrite HQ. destruct (digit c); reflexivity.
    + destruct (Bool.eqb (digit c') (digit c2)); rewrite HQ; destruct (digit c); reflexivity.
  - change ((c :: c' :: p) ++ q) with (c :: (c' :: p) ++ q).
    assert (R : runs (c :: (c' :: p) ++ q) = match runs ((c' :: p) ++ q) with
      | (c' :: r) :: l => if Bool.eqb (digit c) (digit c') then (c :: c' :: r) :: l else [c] :: (c' :: r) :: l
      | l => [c] :: l end) by reflexivity.
    rewrite R, (IH q) by (discriminate || assumption). cbn beta iota. inversion HF' as [|? ? D' _]; subst. rewrite D', Bool.eqb_reflx. reflexivity.
Qed.

Lemma words_text p q : plain p = true -> opens_digit q = true -> words (p ++ q) = Text p :: words q.
Proof.
  intros P Q. unfold words. rewrite (runs_app false).
  - cbn [map]. f_equal. destruct p as [|c p]; [discriminate|]. cbn [plain forallb] in P. cbn [word_of]. now destruct (digit c).
  - intros ->. discriminate.
  - destruct p as [|c p]; [discriminate|]. unfold plain in P. rewrite forallb_forall in P. apply Forall_forall. intros x I. specialize (P x I). now destruct (digit x).
  - destruct q; [exact I|exact Q].
Qed.
Lemma words_last p : plain p = true -> words p = [Text p].
Proof.
  intros P. unfold words. rewrite <- (app_nil_r p), (runs_app false).
  - cbn [map runs]. f_equal. rewrite app_nil_r. destruct p as [|c p]; [discriminate|]. cbn [plain forallb] in P. cbn [word_of]. now destruct (digit c).
  - intros ->. discriminate.
  - destruct p as [|c p]; [discriminate|]. unfold plain in P. rewrite forallb_forall in P. apply Forall_forall. intros x I. specialize (P x I). now destruct (digit x).
  - exact I.
Qed.

Lemma decimal_all_digits v : Forall (fun c => digit c = true) (decimal v).
Proof. exact (decimal_loop_digits _ v). Qed.
Lemma decimal_nonempty v : decimal v <> [].
Proof. unfold decimal. destruct (decimal_loop_head (N.to_nat (N.log2 v)) v) as (c & s & -> & _). discriminate. Qed.
Lemma opens_decimal v q : opens_digit (decimal v ++ q) = true.
Proof.
  pose proof (decimal_all_digits v) as D. pose proof (decimal_nonempty v) as E. destruct (decimal v) as [|c s]; [easy|].
  inversion D; subst. assumption.
Qed.
Lemma parse_value s : forall acc max n, Forall (fun c => digit c = true) s -> parse_digits max acc s = Ok n ->
  fold_left (fun n c => 10 * n + (c - 48)) s acc = n.
Proof.
  induction s as [|c s IH]; intros acc max n D H; cbn [parse_digits fold_left] in *; [now injection H|].
  inversion D as [|? ? D1 D2]; subst. unfold digit in D1. rewrite D1 in H.
  destruct (max <? acc * 10); [discriminate|]. destruct (max <? _); [discriminate|].
  replace (10 * acc + (c - 48)) with (acc * 10 + (c - 48)) by lia. now apply (IH _ max).
Qed.
Lemma value_decimal v : value (decimal v) = v.
Proof. apply (parse_value _ 0 v); [apply decimal_all_digits|]. apply decimal_loop_parse; [apply decimal_enough|lia]. Qed.
Lemma words_num v q : v < 2 ^ 64 -> opens_digit q = false -> words (decimal v ++ q) = Num v :: words q.
Proof.
  intros H Q. unfold words. rewrite (runs_app true).
  - cbn [map]. f_equal. pose proof (decimal_all_digits v) as D. pose proof (decimal_nonempty v) as E.
    rewrite <- (value_decimal v) at 2. destruct (decimal v) as [|c s]; [easy|]. inversion D as [|? ? D1 _]; subst.
    unfold word_of. now rewrite D1.
  - apply decimal_nonempty.
  - apply decimal_all_digits.
  - destruct q; [exact I|exact Q].
Qed.
Lemma words_last_num v : v < 2 ^ 64 -> words (decimal v) = [Num v].
Proof. intros H. rewrite <- (app_nil_r (decimal v)), words_num by easy. reflexivity. Qed.

Ltac wd :=
  repeat (rewrite <- ?app_assoc;
    first [rewrite words_text; [|reflexivity|first [apply opens_decimal|reflexivity|rewrite <- (app_nil_r (decimal _)); apply opens_decimal]]
          |rewrite words_num; [|lia|reflexivity]
          |rewrite words_last_num; [|lia]
          |rewrite words_last; [|reflexivity]]).

(** ** Alignments, widths, address spaces *)

Lemma shift_text s x : s < 256 -> from_shift s = Err x ->
  words (align_err_text x) = [Text (lit "supplied shift is too large ("); Num s; Text (lit " > "); Num 63; Text (lit ")")] /\ 63 < s.
Proof.
  intros H E. unfold from_shift in E. change MAX_SHIFT with 63 in E. destruct (63 <? s) eqn:L; [|discriminate]. injection E as <-.
  split; [|lia]. cbn [align_err_text]. change MAX_SHIFT with 63. wd. reflexivity.
Qed.

Lemma log2_small v : is_pow2 v = true -> v < 2 ^ 64 -> align_log2 v <= 63.
Proof.
  intros P H. unfold align_log2, leading_zeros. lia.
Qed.
Lemma byte_align_text v x : v < 2 ^ 64 -> from_byte_align v = Err x ->
  words (align_err_text x) = [Text (lit "supplied value is not a power of two: "); Num v] /\ ~ (exists k, v = 2 ^ k).
Proof.
  intros H E. unfold from_byte_align in E. destruct (is_pow2 v) eqn:P.
  - exfalso. unfold from_shift in E. pose proof (log2_small v P H). change MAX_SHIFT with 63 in E. replace (63 <? _) with false in E by lia. discriminate.
  - injection E as <-. split; [cbn [align_err_text]; wd; reflexivity|]. intros (k & ->). 
    assert (is_pow2 (2 ^ k) = true) as Q by (apply is_pow2_spec; eauto). congruence.
Qed.
Lemma bit_align_text v x : v < 2 ^ 64 -> from_bit_align v = Err x ->
  (v mod 8 <> 0 /\ words (align_err_text x) = [Text (lit "supplied value is not a multiple of "); Num 8; Text (lit ": "); Num v]) \/
  (v mod 8 = 0 /\ ~ (exists k, v = 2 ^ k) /\
   words (align_err_text x) = [Text (lit "supplied value is not a power of two: "); Num (v / 8)]).
Proof.
  intros H E. unfold from_bit_align in E. destruct (v mod 8 =? 0) eqn:M.
  - right. destruct (byte_align_text (v / 8) x) as (W & NP); [lia|exact E|]. repeat split; [lia| |exact W].
    intros (k & ->). apply NP. destruct (N.lt_ge_cases k 3) as [L|L].
    + exfalso. assert (k = 0 \/ k = 1 \/ k = 2) as [->|[-> | ->]] by lia; discriminate M.
    + exists (k - 3). replace k with (k - 3 + 3) at 1 by lia. rewrite N.pow_add_r. now rewrite N.div_mul.
  - left. injection E as <-. split; [lia|]. cbn [align_err_text].
    change (lit "supplied value is not a multiple of 8: ") with (lit "supplied value is not a multiple of " ++ lit "8" ++ lit ": ").
    change (lit "8") with (decimal 8). wd. reflexivity.
Qed.

Lemma width_text_words v x : v < 2 ^ 32 -> aligned_width_of v = Err x ->
  words (width_text x) = [Text (lit "bit width for type is too large ("); Num v; Text (lit " > "); Num 8388607; Text (lit " bits)")] /\
  (true_text (width_text x) <-> v <> 0).
Proof.
  intros H E. unfold aligned_width_of in E. change MAX_WIDTH with 8388607 in E. destruct (_ && _) eqn:L; [discriminate|]. injection E as <-.
  unfold true_text. cbn [width_text]. change MAX_WIDTH with 8388607.
  assert (words (lit "bit width for type is too large (" ++ decimal v ++ lit " > " ++ decimal 8388607 ++ lit " bits)") =
    [Text (lit "bit width for type is too large ("); Num v; Text (lit " > "); Num 8388607; Text (lit " bits)")]) as -> by (wd; reflexivity).
  split; [reflexivity|]. cbn [true_words]. unfold stated. split.
  - intros (_ & (K & _) & _) ->. specialize (K eq_refl). lia.
  - intros N0. repeat split; try discriminate. intros _. lia.
Qed.

Ltac say_true := unfold true_text; cbn [true_words]; unfold stated; repeat split; try discriminate; intros _; try lia.

Lemma space_text_words v x : v < 2 ^ 64 -> address_space_of v = Err x ->
  words (space_text x) = [Text (lit "address space identifier is too large ("); Num v; Text (lit " > "); Num 8388607; Text (lit ")")] /\
  8388607 < v.
Proof.
  intros H E. unfold address_space_of in E. assert (M : MAX_SPACE = 8388607) by reflexivity. rewrite M in E.
  destruct (_ <=? _) eqn:L; [discriminate|]. injection E as <-. unfold space_text. rewrite M. split; [|lia]. wd. reflexivity.
Qed.

Lemma pow_small k : k <= 63 -> 2 ^ k < 2 ^ 64.
Proof. intros H. apply N.pow_lt_mono_r; lia. Qed.

(** The message of [TypeAlignSpec::new]. *)
Lemma type_spec_text t abi pref x : a_shift abi <= 63 -> a_shift pref <= 63 -> type_spec_new t abi pref = Err x ->
  (a_shift pref < a_shift abi /\
   words (spec_text x) = [Text (lit "impossible preferred alignment: "); Num (2 ^ a_shift pref); Text (lit " must be >= ");
                          Num (2 ^ a_shift abi)]) \/
  (a_shift abi <= a_shift pref /\ 15 < a_shift pref /\
   words (spec_text x) = [Text (lit "impossible ABI alignment for type: "); Num (2 ^ a_shift abi); Text (lit " > "); Num 32768]).
Proof.
  intros HA HP E. pose proof (pow_small _ HA) as PA. pose proof (pow_small _ HP) as PP. unfold type_spec_new, align_lt, align_le in E.
  change (a_shift MAX_ALIGN) with 15 in E. destruct (a_shift pref <? a_shift abi) eqn:L.
  - injection E as <-. left. split; [lia|]. cbn [spec_text]. unfold align_text. wd. reflexivity.
  - destruct (_ && _) eqn:M; [discriminate|]. injection E as <-. right. split; [lia|]. split; [lia|].
    cbn [spec_text]. unfold align_text. change (2 ^ a_shift MAX_ALIGN) with 32768. wd. reflexivity.
Qed.
Lemma type_spec_true t abi pref x : a_shift abi <= 63 -> a_shift pref <= 63 -> type_spec_new t abi pref = Err x ->
  (true_text (spec_text x) <-> a_shift pref < a_shift abi \/ 15 < a_shift abi).
Proof.
  intros HA HP E. unfold true_text. destruct (type_spec_text t abi pref x HA HP E) as [(L & ->)|(L & M & ->)].
  - split; [auto|]. intros _. say_true. apply N.pow_lt_mono_r; lia.
  - change 32768 with (2 ^ 15). split.
    + cbn [true_words]. intros (_ & (K & _) & _). specialize (K eq_refl). right. apply (N.pow_lt_mono_r_iff 2); [lia|exact K].
    + intros [K|K]; [lia|]. say_true. apply N.pow_lt_mono_r; lia.
Qed.
Lemma ptr_spec_text space abi pref size index x : a_shift abi <= 63 -> a_shift pref <= 63 ->
  ptr_spec_new space abi pref size index = Err x ->
  a_shift pref < a_shift abi /\
  words (spec_text x) = [Text (lit "impossible preferred alignment: "); Num (2 ^ a_shift pref); Text (lit " must be >= ");
                         Num (2 ^ a_shift abi)].
Proof.
  intros HA HP E. pose proof (pow_small _ HA) as PA. pose proof (pow_small _ HP) as PP. unfold ptr_spec_new, align_lt in E.
  destruct (_ <? _) eqn:L; [|discriminate]. injection E as <-. split; [lia|]. cbn [spec_text]. unfold align_text. wd. reflexivity.
Qed.

(** ** Strings and blobs of records *)

Lemma fields_from_err {E} e (bad : N -> N -> E) r idx x : fields_from e bad r idx = Err x ->
  x = bad idx (N.of_nat (length (r_fields r))) /\
  (N.of_nat (length (r_fields r)) <= idx + 1).
Proof.
  unfold fields_from. destruct (_ =? 0) eqn:Z.
  - destruct (overflow_checks e); [discriminate|]. cbn [obind]. destruct (_ <=? _); [|destruct (_ <? _); discriminate].
    intros H. injection H as <-. split; [reflexivity|lia].
  - cbn [obind]. destruct (_ <=? _) eqn:L; [|destruct (_ <? _); discriminate]. intros H. injection H as <-. split; [reflexivity|lia].
Qed.
Lemma collect_u8_err {E} (bad : E) l x : collect (u8_of bad) l = Err x -> x = bad.
Proof.
  induction l as [|f l IH]; cbn [collect]; [discriminate|]. unfold u8_of at 1. destruct (f <? 256); cbn [obind]; [|congruence].
  destruct (collect (u8_of bad) l); cbn [obind]; try discriminate. intros H. injection H as <-. auto.
Qed.
Lemma index_words (pre : str) idx len : plain pre = true -> idx < 2 ^ 64 -> len < 2 ^ 64 ->
  words (pre ++ decimal idx ++ lit " >= " ++ decimal len ++ lit " (field count)") =
  [Text pre; Num idx; Text (lit " >= "); Num len; Text (lit " (field count)")].
Proof.
  intros HP HI HL. rewrite words_text by (assumption || apply opens_decimal). wd. reflexivity.
Qed.
Lemma string_index_text e r idx i n : idx < 2 ^ 64 -> N.of_nat (length (r_fields r)) < 2 ^ 64 ->
  try_string e r idx = Err (StBadIndex i n) ->
  words (string_text (StBadIndex i n)) = [Text (lit "impossible string index: "); Num idx; Text (lit " >= ");
    Num (N.of_nat (length (r_fields r))); Text (lit " (field count)")] /\
  (true_text (string_text (StBadIndex i n)) <-> N.of_nat (length (r_fields r)) <= idx).
Proof.
  intros HI HL E. unfold try_string in E. destruct (fields_from e StBadIndex r idx) as [fs|x|p|] eqn:F; cbn [obind] in E.
  2: { injection E as ->. apply fields_from_err in F as (X & _). injection X as -> ->. cbn [string_text]. unfold true_text.
       rewrite index_words by easy. split; [reflexivity|]. split.
       - cbn [true_words]. intros (_ & (_ & _ & K & _) & _). exact (K eq_refl).
       - intros K. say_true. }
  2-3: discriminate.
  destruct (collect (u8_of StBadCharacter) fs) as [raw|x|p|] eqn:C; cbn [obind] in E; try discriminate.
  - destruct (utf8_decode raw); discriminate.
  - apply collect_u8_err in C. congruence.
Qed.
Lemma blob_index_text e r idx i n : idx < 2 ^ 64 -> N.of_nat (length (r_fields r)) < 2 ^ 64 ->
  try_blob e r idx = Err (BlBadIndex i n) ->
  words (blob_text (BlBadIndex i n)) = [Text (lit "impossible blob index: "); Num idx; Text (lit " >= ");
    Num (N.of_nat (length (r_fields r))); Text (lit " (field count)")] /\
  (true_text (blob_text (BlBadIndex i n)) <-> N.of_nat (length (r_fields r)) <= idx).
Proof.
  intros HI HL E. unfold try_blob in E. destruct (fields_from e BlBadIndex r idx) as [fs|x|p|] eqn:F; cbn [obind] in E.
  2: { injection E as ->. apply fields_from_err in F as (X & _). injection X as -> ->. cbn [blob_text]. unfold true_text.
       rewrite index_words by easy. split; [reflexivity|]. split.
       - cbn [true_words]. intros (_ & (_ & _ & K & _) & _). exact (K eq_refl).
       - intros K. say_true. }
  2-3: discriminate.
  apply collect_u8_err in E. discriminate.
Qed.

(** ** Lengths of records *)

Lemma comdat_length_text e version t r n : N.of_nat (length (r_fields r)) < 2 ^ 64 -> comdat_of e version t r = Err (CdTooShort n) ->
  words (comdat_text (CdTooShort n)) = [Text (lit "COMDAT record doesn't have enough fields (");
    Num (N.of_nat (length (r_fields r))); Text (lit " < "); Num 3; Text (lit ")")] /\
  (true_text (comdat_text (CdTooShort n)) <-> (length (r_fields r) < 3)%nat) /\ length (r_fields r) <> 3%nat.
Proof.
  intros HL E. unfold comdat_of in E. destruct (negb _); [discriminate|].
  assert (n = N.of_nat (length (r_fields r)) /\ length (r_fields r) <> 3%nat) as (-> & N3).
  { destruct (r_fields r) as [|a [|b [|c [|d l]]]]; try (injection E as <-; split; [reflexivity|cbn [length]; lia]).
    exfalso. destruct (strtab_try_get e t a b); cbn in E; try discriminate. destruct (selection_kind_of c); discriminate. }
  cbn [comdat_text]. unfold true_text.
  assert (words (lit "COMDAT record doesn't have enough fields (" ++ decimal (N.of_nat (length (r_fields r))) ++ lit " < 3)") =
    [Text (lit "COMDAT record doesn't have enough fields ("); Num (N.of_nat (length (r_fields r))); Text (lit " < "); Num 3; Text (lit ")")])
    as -> by (wd; reflexivity).
  split; [reflexivity|]. split; [|exact N3]. split.
  - cbn [true_words]. intros (_ & (_ & K & _) & _). specialize (K eq_refl). lia.
  - intros K. say_true.
Qed.

Ltac no_short := repeat (match goal with
  | H : obind ?m _ = Err _ |- _ => let E := fresh in destruct m eqn:E; cbn [obind] in H
  | H : omap_err _ ?m = Err _ |- _ => destruct m; cbn [omap_err] in H
  | H : ok_or ?o _ = Err _ |- _ => destruct o; cbn [ok_or] in H
  | H : (if ?b then _ else _) = Err _ |- _ => destruct b
  | H : table_entry _ _ _ = Err _ |- _ => unfold table_entry in H
  | H : match ?o with _ => _ end = Err _ |- _ => destruct o
  | H : Err _ = Err _ |- _ => injection H as H
  end; subst; try discriminate).

Lemma fn_length_text e c r n : N.of_nat (length (r_fields r)) < 2 ^ 64 -> fn_of e c r = Err (FeTooShort n) ->
  words (fn_text (FeTooShort n)) = [Text (lit "function record too short: "); Num (N.of_nat (length (r_fields r))); Text (lit " < ");
    Num 10; Text (lit " fields")] /\ (length (r_fields r) < 10)%nat.
Proof.
  intros HL. unfold fn_of. destruct (negb _); [discriminate|]. destruct (Nat.ltb_spec (length (r_fields r)) 10) as [L|L].
  - intros E. injection E as <-. split; [|exact L]. cbn [fn_text]. wd. reflexivity.
  - intros E. exfalso. no_short.
Qed.
Lemma alias_length_text e c r n : N.of_nat (length (r_fields r)) < 2 ^ 64 -> alias_of e c r = Err (AlTooShort n) ->
  words (alias_text (AlTooShort n)) = [Text (lit "alias record too short: "); Num (N.of_nat (length (r_fields r))); Text (lit " < ");
    Num 5; Text (lit " fields")] /\ (length (r_fields r) < 5)%nat.
Proof.
  intros HL. unfold alias_of. destruct (negb _); [discriminate|]. destruct (Nat.ltb_spec (length (r_fields r)) 5) as [L|L].
  - intros E. injection E as <-. split; [|exact L]. cbn [alias_text]. wd. reflexivity.
  - intros E. exfalso. no_short.
Qed.

(** ** Attribute groups, type tables, instructions, parts of specifications *)

Lemma fails_in {E A} (x : E) (m : outcome E A) : m = Err x -> verdict_of m = Fails x.
Proof. now intros ->. Qed.
Lemma attribute_stop_sizes l v : attribute_stop l v -> (forall c n, v <> Fails (AeGroupTooShort c n)) /\ (forall a b, v <> Fails (AeGroupSize a b)).
Proof. now destruct 1. Qed.
Lemma group_short_text r c n : fields64 r -> group_of_record r = Err (AeGroupTooShort c n) -> N.of_nat (length (r_fields r)) < 2 ^ 64 ->
  words (attr_text (AeGroupTooShort c n)) = [Text (lit "attribute group record for GroupCodeEntry too short (");
    Num (N.of_nat (length (r_fields r))); Text (lit " < "); Num 3; Text (lit ")")] /\ (length (r_fields r) < 3)%nat.
Proof.
  intros F E HL. apply fails_in in E. apply (group_decided r F) in E. inversion E as [| | | |C L X| |]; subst.
  - split; [|exact L]. cbn [attr_text].
    change (words (lit "attribute group record for GroupCodeEntry too short (" ++ decimal (N.of_nat (length (r_fields r))) ++ lit " < 3)") = [Text (lit "attribute group record for GroupCodeEntry too short (");
    Num (N.of_nat (length (r_fields r))); Text (lit " < "); Num 3; Text (lit ")")]). wd. reflexivity.
  - exfalso. now apply attribute_stop_sizes in H2 as [K _]; apply (K c n).
Qed.
Lemma group_size_text r a b : fields64 r -> group_of_record r = Err (AeGroupSize a b) -> N.of_nat (length (r_fields r)) < 2 ^ 63 ->
  words (attr_text (AeGroupSize a b)) = [Text (lit "under/overconsumed fields in attribute group record (");
    Num (N.of_nat (length (r_fields r)) + 1); Text (lit " fields, "); Num (N.of_nat (length (r_fields r))); Text (lit " consumed)")].
Proof.
  intros F E HL. apply fails_in in E. apply (group_decided r F) in E. inversion E; subst.
  - exfalso. now apply attribute_stop_sizes in H2 as [_ K]; apply (K a b).
  - cbn [attr_text]. wd. reflexivity.
Qed.

Lemma reads_no_size e P name l out : type_reads e P name l out -> forall a b, out <> Err (TtBadSize a b).
Proof. induction 1; intros a b; try discriminate; auto. intros [= ->]. inversion H. Qed.
Lemma typed_no_size P p out : typed P p out -> forall a b, out <> Err (TtBadSize a b).
Proof. induction 1; intros a b; try discriminate. intros [= ->]. now apply (IHtyped a b). Qed.
Lemma last_front P front n js pk : last_struct P front n js pk -> length P = S (length front).
Proof. unfold last_struct. intros ->. rewrite app_length. cbn. lia. Qed.
Lemma reads_length e P name l out : type_reads e P name l out -> forall Q, out = Ok Q -> (length Q <= length P + length l)%nat.
Proof.
  induction 1 as [P name|P name r P' name' l out H _ IH|P name r l x H|P name r l x H]; intros Q E; try discriminate E.
  { injection E as <-. cbn; lia. }
  specialize (IH Q E). cbn [length].
  assert (length P' <= S (length P))%nat; [|lia].
  inversion H; subst; rewrite ?app_length; cbn [length]; try lia;
    match goal with K : last_struct _ _ _ _ _ |- _ => apply last_front in K; lia end.
Qed.
Lemma table_size_text e b n k : Forall fields64 (b_records b) -> N.of_nat (length (b_records b)) < 2 ^ 64 ->
  type_table_of e b = Err (TtBadSize n k) ->
  exists P, announced e b n /\ type_reads e [] [] (b_records b) (Ok P) /\ n <> N.of_nat (length P) /\
  words (tt_text (TtBadSize n k)) =
  [Text (lit "invalid type table size (expected "); Num n; Text (lit " elements, got "); Num (N.of_nat (length P)); Text (lit ")")].
Proof.
  intros F HL E. apply table_exactly in E. inversion E as [| | |? ? ? R| |? P A R N0| |? ? ? ? ? ? ? ? ? ? T|]; subst.
  - exfalso. eapply reads_no_size; eauto.
  - exists P. split; [assumption|]. split; [assumption|]. split; [assumption|]. cbn [tt_text].
    assert (n < 2 ^ 64). { destruct A as (r & l & (l1 & l2 & D & _) & G & _). rewrite D in F. apply Forall_app in F as [_ F].
      inversion F as [|? ? K _]; subst. unfold fields64 in K. rewrite G in K. now inversion K. }
    assert (N.of_nat (length P) < 2 ^ 64). { pose proof (reads_length _ _ _ _ _ R P eq_refl). cbn [length] in *. lia. }
    wd. reflexivity.
  - exfalso. eapply typed_no_size; eauto.
Qed.

Lemma fb_fields_text t r c n k : N.of_nat (length (r_fields r)) < 2 ^ 64 -> fb_step t r = Err (FbBadInst (InFields c n k)) ->
  r_code r = function_code_num c /\ length (r_fields r) <> n /\
  words (fb_text (FbBadInst (InFields c n k))) =
  [Text (lit "invalid instruction encoding: bad " ++ function_code_debug c ++ lit ": expected "); Num (N.of_nat n); Text (lit " fields, got ");
   Num (N.of_nat (length (r_fields r)))].
Proof.
  intros HL E. unfold fb_step in E. destruct (function_code_of (r_code r)) as [c'|] eqn:C; [|discriminate]. cbn [ok_or obind] in E.
  assert (X : c' = c /\ In (c, n) [(FcInstBinop, 4%nat); (FcInstCast, 4%nat); (FcInstAlloca, 4%nat); (FcInstLoad, 4%nat); (FcInstStore, 4%nat); (FcInstUnop, 3%nat)] /\
    length (r_fields r) <> n /\ k = length (r_fields r)).
  { destruct c'; try discriminate; unfold unpack in E;
    match type of E with context [(?a =? ?b)%nat] => destruct (Nat.eqb_spec a b) end; cbn [obind] in E;
    solve [injection E as <- <- <-; cbn [In]; tauto | discriminate E | exfalso; unfold inst_type in E; no_short]. }
  destruct X as (-> & I & N0 & ->). split; [|split; [exact N0|]].
  - now apply function_code_known in C.
  - cbn [fb_text]. assert (N.of_nat n < 2 ^ 64) by (cbn in I; repeat destruct I as [[= <- <-]|I]; try contradiction; reflexivity).
    rewrite (app_assoc _ (function_code_debug c)), (app_assoc _ (lit ": expected ")), <- (app_assoc _ (function_code_debug c)).
    rewrite words_text; [|cbn in I; repeat destruct I as [[= <- <-]|I]; try contradiction; reflexivity|apply opens_decimal].
    wd. reflexivity.
Qed.

Ltac no_parts H := exfalso; unfold parse_abi, parse_pref_opt, parse_pref, type_spec_new in H; no_short.
Lemma type_parts_text v id n : type_spec_from_str v = Err (SeParse (ApFewParts id n)) ->
  exists s, v = id :: s /\ ~ In (ch ":") s /\ id <> ch "a" /\
  (digit id = false -> words (spec_text (SeParse (ApFewParts id n))) =
    [Text (lit "error while parsing alignment spec: wrong number of alignment parameters for spec '" ++ [id] ++ lit "': expected at least ");
     Num 2; Text (lit ", got "); Num 1]).
Proof.
  intros E. pose proof E as K. apply fails_in in K. apply (type_string_decided v) in K. inversion K as [|? ? _ _|c s w V HC R]; subst.
  exists s. assert (c = id /\ n = 1 /\ c <> ch "a" /\ ~ In (ch ":") s) as (-> & -> & NA & NI).
  { clear K R. unfold type_spec_from_str, tail_from_1 in E. destruct (c <? 128); [|discriminate E]. cbn [obind] in E.
    destruct (c =? ch "a") eqn:A.
    { destruct s as [|x s]; [discriminate|]. destruct (x =? ch ":"); [|discriminate]. destruct (split_on (ch ":") s); [discriminate|]. no_parts E. }
    destruct (split_on (ch ":") s) as [|p0 [|p1 ps]] eqn:P.
    - pose proof (pieces_split (ch ":") s) as Q. rewrite P in Q. now destruct Q as [Q _].
    - injection E as <- <-. pose proof (pieces_split (ch ":") s) as Q. rewrite P in Q. apply one_piece in Q as [-> Q].
      repeat split; [|exact Q]. now apply N.eqb_neq.
    - no_parts E. }
  split; [reflexivity|]. split; [exact NI|]. split; [exact NA|]. intros D.
  change (spec_text (SeParse (ApFewParts id 1))) with
    (lit "error while parsing alignment spec: wrong number of alignment parameters for spec '" ++ [id] ++ lit "': expected at least 2, got 1").
  change (lit "': expected at least 2, got 1") with (lit "': expected at least " ++ lit "2, got 1"). rewrite !(app_assoc _ [id]), app_assoc.
  rewrite words_text; [reflexivity| |reflexivity]. unfold plain. rewrite !forallb_app. cbn [forallb]. rewrite D. reflexivity.
Qed.
Lemma ptr_parts_text v n : ptr_spec_from_str v = Err (SeParse (ApFewPointerParts n)) ->
  exists c s l, v = c :: s /\ pieces (ch ":") s l /\ (length l < 3)%nat /\
  words (spec_text (SeParse (ApFewPointerParts n))) =
    [Text (lit "error while parsing alignment spec: pointer align spec has too few parts (");
     Num (N.of_nat (length l)); Text (lit ", expected at least "); Num 4; Text (lit ")")].
Proof.
  intros E. pose proof E as K. apply fails_in in K. apply (pointer_string_decided v) in K. inversion K as [|? ? _ _|c s w V HC R]; subst.
  exists c, s, (split_on (ch ":") s). split; [reflexivity|]. split; [apply pieces_split|]. clear K R.
  unfold ptr_spec_from_str, tail_from_1 in E. destruct (c <? 128); [|discriminate E]. cbn [obind] in E.
  assert (n = N.of_nat (length (split_on (ch ":") s)) /\ (length (split_on (ch ":") s) < 3)%nat) as (-> & L).
  { destruct (split_on (ch ":") s) as [|p0 [|p1 [|p2 ps]]]; [injection E as <-; cbn; lia..|].
    exfalso. unfold parse_abi, parse_pref_opt, parse_pref in E. no_short. }
  split; [exact L|]. clear E. revert L. generalize (length (split_on (ch ":") s)). intros k L. unfold spec_text, spec_fault_text.
  change (words (lit "error while parsing alignment spec: pointer align spec has too few parts (" ++ decimal (N.of_nat k) ++
    lit ", expected at least 4)") = [Text (lit "error while parsing alignment spec: pointer align spec has too few parts (");
     Num (N.of_nat k); Text (lit ", expected at least "); Num 4; Text (lit ")")]). wd. reflexivity.
Qed.
