(** Every outcome of mapping a TYPE block. *)
From Verif Require Import Base Strings StringsProofs EnumModel SupportModel SupportSpec SupportMain UnrollModel UnrollSpec UnrollApi
  AttributeModel AttributeSpec AttributeProofs AttributeMain LayoutMain TablesSpec TablesProofs TypeTableModel TypeTableSpec
  RecursionSpec TypeTableProofs TypeTableMain TypeTableExact TypeApi ModuleSpec ModuleProofs ModuleBodies TypeStopSpec.
From Coq Require Import Lia ZifyBool ZifyNat ZifyN.
Ltac Zify.zify_post_hook ::= Z.div_mod_to_equations.
Local Open Scope N_scope.
#[local] Arguments N.add : simpl never.
#[local] Arguments N.modulo : simpl never.
#[local] Arguments N.pow : simpl never.

(** Texts. *)
Lemma bytes_dec (l : list N) : Forall (fun x => x < 256) l \/ ~ Forall (fun x => x < 256) l.
Proof.
  induction l as [|a l [IH|IH]]; [left; constructor|destruct (N.ltb_spec a 256)|].
  - left. now constructor.
  - right. intros F. inversion F; subst. lia.
  - right. intros F. now inversion F.
Qed.
Lemma text_total e r : text_outcome e r (try_string e r 0).
Proof.
  destruct (r_fields r) as [|a [|b l]] eqn:R.
  - destruct (strings_empty e r 0 R eq_refl) as [-> _]. cbn [N.eqb]. destruct (overflow_checks e) eqn:O; [now apply TxEmpty|].
    apply TxOk. right. auto.
  - destruct (strings_out e r 0) as [-> _]; [rewrite R; discriminate|rewrite R; cbn; lia|]. rewrite R. now apply TxOne with a.
  - assert (L : 0 + 1 < N.of_nat (length (r_fields r))) by (rewrite R; cbn; lia).
    assert (L' : (2 <= length (r_fields r))%nat) by (rewrite R; cbn; lia).
    destruct (bytes_dec (r_fields r)) as [F|F].
    + destruct (try_string e r 0) as [s|x|p|] eqn:T; [now apply TxOk, text_iff|..].
      all: destruct (try_string_in e r 0 [] L) as (_ & _ & [KX K] & _); rewrite T in KX, K; cbn [N.to_nat skipn] in KX, K.
      all: match type of K with (exists raw x, ?a = _) <-> _ => assert (Y : exists raw x, a = Err (StBadEncoding raw x)) end;
        [apply K; split; [exact F|]; intros (s & S & U); destruct (try_string_in e r 0 s L) as (O & _); rewrite T in O;
         match type of O with ?a = _ <-> _ => enough (Y : a = Ok s) by discriminate Y end; now apply O
        |destruct Y as (raw & y & Y); try discriminate Y].
      injection Y as ->. destruct (proj1 (KX raw y) eq_refl) as (_ & -> & UF). now apply TxEncoding.
    + destruct (try_string_in e r 0 [] L) as (_ & K & _). cbn [N.to_nat skipn] in K. rewrite (proj2 K F). now apply TxCharacter.
Qed.
Lemma text_sound e r out : text_outcome e r out -> try_string e r 0 = out.
Proof.
  intros H. destruct H as [s H|O R|x R|L F|x L F X].
  - now apply text_iff.
  - destruct (strings_empty e r 0 R eq_refl) as [-> _]. now rewrite O.
  - destruct (strings_out e r 0) as [-> _]; [rewrite R; discriminate|rewrite R; cbn; lia|]. now rewrite R.
  - destruct (try_string_in e r 0 []) as (_ & K & _); [lia|]. now apply K.
  - destruct (try_string_in e r 0 []) as (_ & _ & [K _] & _); [lia|]. apply K. auto.
Qed.
Lemma text_exact e r out : try_string e r 0 = out <-> text_outcome e r out.
Proof. split; [intros <-; apply text_total|apply text_sound]. Qed.

(** Records. *)
Lemma last_cases (P : list ptype) : no_last_struct P \/ exists front n js pk, last_struct P front n js pk.
Proof.
  unfold no_last_struct, last_struct. destruct (split_last P) as [[f a]|] eqn:E.
  - apply split_last_some in E as ->. destruct a; try (left; intros f' n js pk K; apply app_inj_tail in K as [_ K]; discriminate K).
    right. eauto.
  - apply split_last_none in E as ->. left. intros f n js pk K. now destruct f.
Qed.
Lemma last_of P front n js pk : last_struct P front n js pk -> split_last P = Some (front, PtStruct n js pk).
Proof. intros ->. now apply split_last_some. Qed.
Lemma last_not P {A} (x : list ptype -> option str -> list N -> bool -> A) (y : A) : no_last_struct P ->
  match split_last P with Some (f, PtStruct n js pk) => x f n js pk | _ => y end = y.
Proof.
  intros H. destruct (split_last P) as [[f a]|] eqn:E; [|reflexivity]. destruct a; try reflexivity.
  apply split_last_some in E. now apply H in E.
Qed.
Lemma flag_exact x : (0 <? x) = negb (x =? 0).
Proof. destruct (N.ltb_spec 0 x), (N.eqb_spec x 0); try reflexivity; lia. Qed.
Lemma space_bad a : ~ space_rule a -> address_space_of a = Err (SpTooBig a).
Proof.
  unfold address_space_of, space_rule, MAX_SPACE. change (2 ^ 23) with 8388608. intros H. destruct (a <=? 8388607) eqn:E; [lia|reflexivity].
Qed.
Lemma space_good a : space_rule a -> address_space_of a = Ok a.
Proof.
  unfold address_space_of, space_rule, MAX_SPACE. change (2 ^ 23) with 8388608. intros H. destruct (a <=? 8388607) eqn:E; [reflexivity|lia].
Qed.
Lemma space_dec a : space_rule a \/ ~ space_rule a.
Proof. unfold space_rule. destruct (N.ltb_spec a (2 ^ 23)); [left; assumption|right; lia]. Qed.

Lemma code_none v : type_code_of v = None <-> ~ (1 <= v <= 25).
Proof.
  split.
  - intros H R. assert (X : In v [1;2;3;4;5;6;7;8;9;10;11;12;13;14;15;16;17;18;19;20;21;22;23;24;25]) by (cbn; lia).
    cbn in X. repeat destruct X as [<-|X]; try discriminate H. exact X.
  - intros H. destruct (type_code_of v) as [c|] eqn:C; [|reflexivity]. exfalso. apply type_code_exact in C. apply H. rewrite <- C.
    destruct c; cbn; lia.
Qed.
Lemma code_is v c : type_code_num c = v -> type_code_of v = Some c.
Proof. apply type_code_exact. Qed.
Lemma vector_flag l : match nth_error l 0 with None => false | Some f => 0 <? f end = negb (hd 0 l =? 0).
Proof. destruct l as [|x l]; [reflexivity|]. cbn. apply flag_exact. Qed.

Ltac read_step :=
  cbn [ok_or obind omap_err type_field nth_error skipn length].
Lemma read_sound e P name r out : type_read e P name r out -> type_step e (P, name) r = out.
Proof.
  intros H. destruct H as [C|p H|s C H|C N L|front js pk C N L|pk js C R L|front pk pk' js C R L|C|C|k I L|i a l C R S|a l C R S|x C H|x C H|C N
    |front n js pk C N L|front n js pk pk' js' C R L I]; cbn [type_step].
  - now rewrite C.
  - destruct H as [t I|w l C R|i a l C R S|a l C R S|n i l C R|n i l C R Z|n i l C R Z|pk js C R|va i js C R].
    + cbn in I. repeat destruct I as [I|I]; try (injection I as <- <-; reflexivity). destruct I.
    + rewrite C. unfold type_field. rewrite R. reflexivity.
    + rewrite C. unfold type_field. rewrite R. read_step. cbn. now rewrite space_good.
    + rewrite C. unfold type_field. rewrite R. read_step. cbn. now rewrite space_good.
    + rewrite C. unfold type_field. rewrite R. reflexivity.
    + rewrite C. unfold type_field. rewrite R. cbn. pose proof (vector_flag l) as V. cbn in V. destruct l as [|f l]; cbn in *; [reflexivity|]. rewrite Z. reflexivity.
    + rewrite C. unfold type_field. rewrite R. cbn. destruct l as [|f l]; cbn in *; [now destruct Z|]. destruct (N.ltb_spec 0 f); [reflexivity|lia].
    + rewrite C. unfold type_field. rewrite R. cbn. now rewrite flag_exact.
    + rewrite C. unfold type_field. rewrite R. cbn. now rewrite flag_exact.
  - rewrite C. cbn. apply text_sound in H. now rewrite H.
  - rewrite C. cbn. destruct name; [now destruct N|]. now apply (last_not P).
  - rewrite C. cbn. destruct name; [now destruct N|]. now rewrite (last_of _ _ _ _ _ L).
  - rewrite C. unfold type_field. rewrite R. cbn. rewrite flag_exact. now apply (last_not P).
  - rewrite C. unfold type_field. rewrite R. cbn. now rewrite (last_of _ _ _ _ _ L).
  - apply code_none in C. now rewrite C.
  - now rewrite C.
  - cbn in I. repeat destruct I as [I|I]; try (injection I as <- <-; unfold type_field; cbn; destruct (r_fields r) as [|f0 [|f1 fs]]; cbn in *; try reflexivity; lia). destruct I.
  - rewrite C. unfold type_field. rewrite R. cbn. now rewrite space_bad.
  - rewrite C. unfold type_field. rewrite R. cbn. now rewrite space_bad.
  - rewrite C. cbn. apply text_sound in H. now rewrite H.
  - rewrite C. cbn. apply text_sound in H. now rewrite H.
  - rewrite C. cbn. now rewrite N.
  - rewrite C. cbn. destruct name; [now destruct N|]. now rewrite (last_of _ _ _ _ _ L).
  - rewrite C. unfold type_field. rewrite R. cbn. rewrite (last_of _ _ _ _ _ L). destruct n; [reflexivity|]. destruct js; [|reflexivity]. now destruct I.
Qed.
Lemma read_total e P name r : exists out, type_read e P name r out.
Proof.
  destruct (type_code_of (r_code r)) as [c|] eqn:C; [apply type_code_exact in C; symmetry in C|apply code_none in C; eexists; now apply TrUnknown].
  destruct c; cbn [type_code_num] in C.
  all: try (eexists; apply TrEntry, EnSimple; rewrite C; cbn; auto 20; fail).
  - eexists. now apply TrCount.
  - destruct name as [|c name]; [eexists; now apply TrNameless|]. destruct (last_cases P) as [L|(front & [n|] & js & pk & L)].
    + eexists. now apply TrOpaque.
    + eexists. now apply (TrTwice _ _ _ _ front n js pk).
    + eexists. now apply (TrRename _ _ _ _ front js pk).
  - destruct (r_fields r) as [|w l] eqn:R; [eexists; apply (TrShort _ _ _ _ 1%nat); [rewrite C; cbn; auto 10|rewrite R; cbn; lia]|].
    eexists. apply TrEntry. now apply (EnInteger r w l).
  - destruct (r_fields r) as [|i [|a l]] eqn:R; try (eexists; apply (TrShort _ _ _ _ 2%nat); [rewrite C; cbn; auto 10|rewrite R; cbn; lia]).
    destruct (space_dec a) as [S|S]; [eexists; apply TrEntry; now apply (EnPointer r i a l)|]. eexists. now apply (TrSpace _ _ _ _ i a l).
  - eexists. now apply TrOld.
  - destruct (r_fields r) as [|i [|a l]] eqn:R; try (eexists; apply (TrShort _ _ _ _ 2%nat); [rewrite C; cbn; auto 10|rewrite R; cbn; lia]).
    eexists. apply TrEntry. now apply (EnArray r i a l).
  - destruct (r_fields r) as [|i [|a l]] eqn:R; try (eexists; apply (TrShort _ _ _ _ 2%nat); [rewrite C; cbn; auto 10|rewrite R; cbn; lia]).
    destruct (N.eqb_spec (hd 0 l) 0) as [Z|Z]; eexists; apply TrEntry; [now apply (EnVector r i a l)|now apply (EnScalable r i a l)].
  - destruct (r_fields r) as [|w l] eqn:R; [eexists; apply (TrShort _ _ _ _ 1%nat); [rewrite C; cbn; auto 10|rewrite R; cbn; lia]|].
    eexists. apply TrEntry. now apply (EnStruct r w l).
  - pose proof (text_total e r) as T. destruct (try_string e r 0) as [s|x|x|].
    + eexists. now apply (TrName _ _ _ _ s).
    + eexists. now apply (TrNoText _ _ _ _ x).
    + eexists. now apply (TrPanic _ _ _ _ x).
    + inversion T.
  - destruct (r_fields r) as [|w l] eqn:R; [eexists; apply (TrShort _ _ _ _ 1%nat); [rewrite C; cbn; auto 10|rewrite R; cbn; lia]|].
    destruct (last_cases P) as [L|(front & n & js & pk & L)].
    + eexists. now apply (TrNamed _ _ _ _ w l).
    + destruct n as [n|]; [eexists; apply (TrFull _ _ _ _ front (Some n) js pk w l); auto; left; discriminate|].
      destruct js as [|j js]; [eexists; now apply (TrFill _ _ _ _ front pk w l)|].
      eexists; apply (TrFull _ _ _ _ front None (j :: js) pk w l); auto. right. discriminate.
  - destruct (r_fields r) as [|i [|a l]] eqn:R; try (eexists; apply (TrShort _ _ _ _ 2%nat); [rewrite C; cbn; auto 10|rewrite R; cbn; lia]).
    eexists. apply TrEntry. now apply (EnFunction r i a l).
  - destruct (r_fields r) as [|a l] eqn:R; [eexists; apply (TrShort _ _ _ _ 1%nat); [rewrite C; cbn; auto 10|rewrite R; cbn; lia]|].
    destruct (space_dec a) as [S|S]; [eexists; apply TrEntry; now apply (EnOpaquePointer r a l)|]. eexists. now apply (TrOpaqueSpace _ _ _ _ a l).
Qed.
Lemma read_exact e P name r out : type_step e (P, name) r = out <-> type_read e P name r out.
Proof.
  split; [|apply read_sound]. intros <-. destruct (read_total e P name r) as (out & H). now rewrite (read_sound _ _ _ _ _ H).
Qed.

Definition entries_only (o : outcome tt_err (list ptype * str)) : outcome tt_err (list ptype) := let? st := o in Ok (fst st).
Lemma reads_exact e l : forall P name out, entries_only (type_loop e l (P, name)) = out <-> type_reads e P name l out.
Proof.
  induction l as [|r l IH]; intros P name out; cbn [type_loop].
  - cbn. split; [intros <-; constructor|intros H; now inversion H].
  - split.
    + intros <-. pose proof (proj1 (read_exact e P name r _) eq_refl) as X.
      destruct (type_step e (P, name) r) as [[P' n']|x|x|]; cbn [obind entries_only].
      * eapply TrsNext; [exact X|]. now apply IH.
      * now apply TrsErr.
      * now apply TrsPanic.
      * inversion X.
    + intros H. inversion H as [|? ? ? P' n' ? ? X Y|? ? ? ? x X|? ? ? ? x X]; subst; apply read_exact in X; rewrite X; cbn [obind entries_only];
        [now apply IH|reflexivity..].
Qed.

(** Types. *)
Definition build (p : ptype) (ts : list ty) : outcome ty_err ty :=
  match p, ts with
  | PtSimple t, _ => Ok t
  | PtInteger w, _ => new_integer w
  | PtFunction _ _ va, t :: ts => new_function t ts va
  | PtPointer _ a, t :: _ => new_pointer t a
  | PtOpaquePointer a, _ => Ok (TOpaquePointer a)
  | PtStruct n _ pk, ts => new_struct n ts pk
  | PtArray n _, t :: _ => new_array n t
  | PtFixedVector n _, t :: _ => new_vector n t
  | PtScalableVector n _, t :: _ => new_scalable_vector n t
  | _, [] => Ok TVoid
  end.
Lemma body_split g p : resolve_body g p = let? ts := collect g (prefs p) in omap_err TtType (build p ts).
Proof.
  destruct p; cbn [resolve_body prefs collect obind build omap_err]; try reflexivity.
  1: destruct (g return_type); cbn [obind]; try reflexivity; destruct (collect g param_types); reflexivity.
  all: match goal with |- obind ?x _ = _ => destruct x; reflexivity end.
Qed.
Lemma build_exact p ts out : length ts = length (prefs p) -> (build p ts = out <-> builds p ts out).
Proof.
  intros L. split.
  - intros <-. destruct p; cbn [prefs length] in L; cbn [build].
    + destruct ts; [constructor|discriminate L].
    + destruct ts; [|discriminate L]. destruct (new_integer bit_width) as [t|x|x|] eqn:K.
      * apply new_integer_ok in K as (K & ->). now constructor.
      * apply new_integer_err in K as (K & ->). now constructor.
      * unfold new_integer in K. now destruct (_ && _)%bool.
      * unfold new_integer in K. now destruct (_ && _)%bool.
    + destruct ts as [|t ts]; [discriminate L|]. destruct (new_function t ts is_vararg) as [x|x|x|] eqn:K.
      * apply new_function_ok in K as (K1 & K2 & ->). now constructor.
      * apply new_function_err in K as [(K & ->)|(K & y & Y & ->)]; now constructor.
      * unfold new_function in K. destruct (negb _); [discriminate|]. now destruct (find _ _).
      * unfold new_function in K. destruct (negb _); [discriminate|]. now destruct (find _ _).
    + destruct ts as [|t [|t' ts]]; try discriminate L. unfold new_pointer. pose proof (pointee_exact t) as X.
      destruct (is_pointee t); constructor; [now apply X|]. intros K. apply X in K. discriminate K.
    + destruct ts; [constructor|discriminate L].
    + destruct (new_struct name ts is_packed) as [x|x|x|] eqn:K.
      * apply new_struct_ok in K as (K1 & ->). now constructor.
      * apply new_struct_err in K as (y & Y & ->). now constructor.
      * unfold new_struct in K. now destruct (find _ _).
      * unfold new_struct in K. now destruct (find _ _).
    + destruct ts as [|t [|t' ts]]; try discriminate L. unfold new_array. pose proof (array_exact t) as X.
      destruct (is_array_element t); constructor; [now apply X|]. intros K. apply X in K. discriminate K.
    + destruct ts as [|t [|t' ts]]; try discriminate L. unfold new_vector. pose proof (vector_exact t) as X.
      destruct (is_vector_element t); constructor; [now apply X|]. intros K. apply X in K. discriminate K.
    + destruct ts as [|t [|t' ts]]; try discriminate L. unfold new_scalable_vector. pose proof (vector_exact t) as X.
      destruct (is_vector_element t); constructor; [now apply X|]. intros K. apply X in K. discriminate K.
  - intros H. destruct H; cbn [build]; try reflexivity.
    + now apply new_integer_ok.
    + now apply new_integer_err.
    + now apply new_pointer_ok.
    + unfold new_pointer. apply (unary_err is_pointee pointee_rule pointee_exact). auto.
    + now apply new_array_ok.
    + unfold new_array. apply (unary_err is_array_element array_rule array_exact). auto.
    + now apply new_vector_ok.
    + unfold new_vector. apply (unary_err is_vector_element vector_rule vector_exact). auto.
    + now apply new_scalable_ok.
    + unfold new_scalable_vector. apply (unary_err is_vector_element vector_rule vector_exact). auto.
    + now apply new_struct_ok.
    + apply new_struct_err. eauto.
    + now apply new_function_ok.
    + apply new_function_err. auto.
    + apply new_function_err. right. eauto.
Qed.
Lemma build_total p ts : (forall x, build p ts <> Panic x) /\ build p ts <> OutOfFuel.
Proof.
  assert (G : match build p ts with Ok _ | Err _ => True | _ => False end); [|destruct (build p ts); split; intros; try discriminate; destruct G].
  destruct p; cbn [build]; try exact I.
  - unfold new_integer. now destruct (_ && _)%bool.
  - destruct ts; [exact I|]. unfold new_function. destruct (negb _); [exact I|]. now destruct (find _ _).
  - destruct ts; [exact I|]. unfold new_pointer. now destruct (is_pointee _).
  - unfold new_struct. now destruct (find _ _).
  - destruct ts; [exact I|]. unfold new_array. now destruct (is_array_element _).
  - destruct ts; [exact I|]. unfold new_vector. now destruct (is_vector_element _).
  - destruct ts; [exact I|]. unfold new_scalable_vector. now destruct (is_vector_element _).
Qed.

Scheme typed_mut := Minimality for typed Sort Prop with typed_all_mut := Minimality for typed_all Sort Prop.
Section Typed.
  Variable P : list ptype.
  Lemma all_length js ts : typed_all P js ts -> length ts = length js.
  Proof. induction 1; cbn; congruence. Qed.
  Let done (p : ptype) (out : outcome tt_err ty) : Prop := exists f, resolve f P p = out.
  Let all_done (js : list N) (ts : list ty) : Prop := exists f, collect (rref_of f P) js = Ok ts.
  Lemma rref_le f f' i x : (f <= f')%nat -> rref_of f P i = x -> x <> OutOfFuel -> rref_of f' P i = x.
  Proof.
    intros L <- N. unfold rref_of in *. destruct (nth_error P (N.to_nat i)) as [q|]; cbn [ok_or obind] in *; [|reflexivity].
    now apply resolve_le.
  Qed.
  Lemma collect_le f f' js ts : (f <= f')%nat -> collect (rref_of f P) js = Ok ts -> collect (rref_of f' P) js = Ok ts.
  Proof.
    intros L. rewrite !collect_iff. intros H. induction H as [|i t js ts H1 H2 IH]; constructor; [|exact IH].
    apply (rref_le f f'); [exact L|exact H1|discriminate].
  Qed.
  Lemma typed_done p out : typed P p out -> out <> OutOfFuel /\ done p out.
  Proof.
    revert p out. apply (typed_mut P (fun p out => out <> OutOfFuel /\ done p out) all_done); unfold done, all_done.
    - intros p ts t A (f & F) B. split; [discriminate|]. exists (S f). rewrite resolve_S, body_split, F. cbn [obind].
      apply build_exact in B; [|now apply all_length]. now rewrite B.
    - intros p ts x A (f & F) B. split; [discriminate|]. exists (S f). rewrite resolve_S, body_split, F. cbn [obind].
      apply build_exact in B; [|now apply all_length]. now rewrite B.
    - intros p pre i post ts E A (f & F) N. split; [discriminate|]. exists (S f). rewrite resolve_S, body_split, E.
      rewrite collect_stops.
      + unfold rref_of. now rewrite N.
      + apply collect_iff in F. clear - F. induction F; constructor; eauto.
      + intros b. unfold rref_of. now rewrite N.
    - intros p pre i post ts q x E A (f & F) N T (_ & f' & F'). split; [discriminate|]. exists (S (Nat.max f f')).
      rewrite resolve_S, body_split, E.
      assert (X : rref_of (Nat.max f f') P i = Err x).
      { apply (rref_le f'); [lia| |discriminate]. unfold rref_of. now rewrite N. }
      apply (collect_le _ (Nat.max f f')) in F; [|lia].
      rewrite collect_stops.
      + now rewrite X.
      + apply collect_iff in F. clear - F. induction F; constructor; eauto.
      + intros b. rewrite X. discriminate.
    - exists O. reflexivity.
    - intros i q t js ts N T (_ & f & F) A (f' & F'). exists (Nat.max f f'). cbn [collect].
      rewrite (rref_le f (Nat.max f f') i (Ok t)); [|lia|unfold rref_of; now rewrite N|discriminate].
      rewrite (collect_le f' (Nat.max f f') js ts); [reflexivity|lia|exact F'].
  Qed.
  Lemma done_typed f : forall p out, resolve f P p = out -> out <> OutOfFuel -> typed P p out.
  Proof.
    induction f as [|f IH]; intros p out H N; [now destruct N|]. rewrite resolve_S, body_split in H.
    assert (R : forall i t, rref_of f P i = Ok t -> exists q, nth_error P (N.to_nat i) = Some q /\ typed P q (Ok t)).
    { intros i t. unfold rref_of. destruct (nth_error P (N.to_nat i)) as [q|]; [|discriminate]. cbn [ok_or obind]. intros X.
      exists q. split; [reflexivity|]. apply IH; [exact X|discriminate]. }
    assert (A : forall js ts, Forall2 (fun i t => rref_of f P i = Ok t) js ts -> typed_all P js ts).
    { induction 1 as [|i t js ts X Y Z]; [constructor|]. apply R in X as (q & Q & X). now apply (TaCons P i q t). }
    destruct (collect (rref_of f P) (prefs p)) as [ts|x|x|] eqn:C; cbn [obind] in H.
    - apply collect_iff in C. pose proof (A _ _ C) as A'. destruct (build p ts) as [t|x|x|] eqn:B; cbn [omap_err] in H.
      + subst out. apply (TyOk P p ts); [exact A'|]. apply build_exact; [now apply all_length|exact B].
      + subst out. apply (TyRule P p ts); [exact A'|]. apply build_exact; [now apply all_length|exact B].
      + now apply build_total in B.
      + now apply build_total in B.
    - subst out. pose proof C as C'. apply collect_stop in C' as (pre & i & post & E & F & X); [|discriminate].
      assert (exists ts, Forall2 (fun i t => rref_of f P i = Ok t) pre ts) as (ts & T).
      { clear - F. induction F as [|a l (b & B) F (ts & IH)]; [exists []; constructor|exists (b :: ts); now constructor]. }
      apply A in T. destruct (rref_of f P i) as [t|y|y|] eqn:Y; [destruct X| |discriminate X|discriminate X]. injection X as ->.
      unfold rref_of in Y. destruct (nth_error P (N.to_nat i)) as [q|] eqn:Q; cbn [ok_or obind] in Y.
      + apply (TyPart P p pre i post ts q y); [exact E|exact T|exact Q|]. apply IH; [exact Y|discriminate].
      + injection Y as <-. now apply (TyIndex P p pre i post ts).
    - exfalso. apply collect_panic in C as (pre & i & post & E & F & X). unfold rref_of in X.
      apply obind_panic in X as [X|(q & _ & X)]; [now apply ok_or_panic in X|now apply resolve_panic in X].
    - now destruct N.
  Qed.
  Lemma typed_exact p out : typed P p out <-> out <> OutOfFuel /\ resolve (S (length P)) P p = out.
  Proof.
    split.
    - intros H. apply typed_done in H as (N & f & F). split; [exact N|]. rewrite <- F in N. now rewrite (resolve_any _ _ _ N).
    - intros (N & H). now apply (done_typed (S (length P))).
  Qed.
End Typed.

(** Blocks. *)
Lemma F2_impl {A B} (R R' : A -> B -> Prop) l m : (forall a b, R a b -> R' a b) -> Forall2 R l m -> Forall2 R' l m.
Proof. intros H F. induction F; constructor; auto. Qed.
Lemma one_none code l : one code l = None <-> Forall (fun r => r_code r <> code) l.
Proof.
  unfold one, by_code. induction l as [|r l IH]; cbn; [split; constructor|]. destruct (N.eqb_spec (r_code r) code).
  - split; [discriminate|]. intros H. inversion H; subst. congruence.
  - rewrite IH. split; [now constructor|]. intros H. now inversion H.
Qed.
Lemma table_sound e b out : table_outcome e b out -> type_table_of e b = out.
Proof.
  unfold type_table_of. cbn [type_code_num].
  assert (A : forall n, announced e b n -> forall k, (let? r := ok_or (one 1 (b_records b)) TtBadTable in
    let? n := ok_or (hd_error (r_fields r)) TtBadTable in if alloc_limit e <? n then Panic PAlloc else k n) = k n :> outcome tt_err type_table).
  { intros n (r & l & H & F & L) k. apply one_first in H. rewrite H. cbn [ok_or obind]. rewrite F. cbn [hd_error ok_or obind].
    destruct (N.ltb_spec (alloc_limit e) n); [lia|reflexivity]. }
  assert (B : forall out' (k : list ptype * str -> outcome tt_err type_table), type_reads e [] [] (b_records b) out' ->
     match out' with
     | Ok P => exists name, type_loop e (b_records b) ([], []) = Ok (P, name)
     | Err x => (let? st := type_loop e (b_records b) ([], []) in k st) = Err x
     | Panic x => (let? st := type_loop e (b_records b) ([], []) in k st) = Panic x
     | OutOfFuel => False
     end).
  { intros out' k H. apply reads_exact in H.
    change (entries_only (type_loop e (b_records b) ([], [])) = out') in H.
    destruct (type_loop e (b_records b) ([], [])) as [[P n]|x|x|] eqn:T; cbn in H; subst out'.
    - now exists n.
    - reflexivity.
    - reflexivity.
    - now destruct (loop_fuel _ _ _ T). }
  intros H. destruct H as [N|r H F|r n l H F L|n x H R|n x H R|n P H R N|P T H R F|P pre p post ts x H R E F Y|P H R Y].
  - apply one_none in N. now rewrite N.
  - apply one_first in H. rewrite H. cbn [ok_or obind]. now rewrite F.
  - apply one_first in H. rewrite H. cbn [ok_or obind]. rewrite F. cbn [hd_error ok_or obind]. destruct (N.ltb_spec (alloc_limit e) n); [reflexivity|lia].
  - rewrite (A _ H). exact (B _ _ R).
  - rewrite (A _ H). exact (B _ _ R).
  - rewrite (A _ H). destruct (B _ (fun _ => OutOfFuel) R) as (name & ->). cbn [obind]. unfold reify, reify_with.
    destruct (N.eqb_spec (N.of_nat (length P)) n); [congruence|reflexivity].
  - rewrite (A _ H). destruct (B _ (fun _ => OutOfFuel) R) as (name & ->). cbn [obind]. unfold reify, reify_with. rewrite N.eqb_refl.
    apply collect_iff. refine (F2_impl _ _ _ _ _ F). intros p t K. now apply typed_exact in K.
  - rewrite (A _ H). destruct (B _ (fun _ => OutOfFuel) R) as (name & ->). cbn [obind]. unfold reify, reify_with. rewrite N.eqb_refl.
    rewrite E at 3. apply typed_exact in Y as (_ & Y). rewrite collect_stops.
    + now rewrite Y.
    + clear - F. induction F as [|q t P' T H F IH]; constructor; [|exact IH]. apply typed_exact in H. exists t. apply H.
    + intros z. rewrite Y. discriminate.
  - rewrite (A _ H). destruct (B _ (fun _ => OutOfFuel) R) as (name & ->). cbn [obind]. unfold reify, reify_with. rewrite N.eqb_refl.
    now apply endless_out.
Qed.
Lemma table_total e b : exists out, table_outcome e b out.
Proof.
  destruct (one 1 (b_records b)) as [r|] eqn:O; [|eexists; apply TbNoCount; now apply one_none].
  apply one_first in O. destruct (r_fields r) as [|n l] eqn:F; [eexists; now apply (TbNoNumber e b r)|].
  destruct (N.ltb_spec (alloc_limit e) n) as [L|L]; [eexists; now apply (TbMemory e b r n l)|].
  assert (A : announced e b n) by (exists r, l; auto).
  pose proof (proj1 (reads_exact e (b_records b) [] [] _) eq_refl) as R.
  change (type_reads e [] [] (b_records b) (entries_only (type_loop e (b_records b) ([], [])))) in R.
  destruct (type_loop e (b_records b) ([], [])) as [[P name]|x|x|] eqn:T; cbn in R.
  - destruct (N.eq_dec n (N.of_nat (length P))) as [->|N]; [|eexists; now apply (TbSize e b n P)].
    destruct (collect (resolve (S (length P)) P) P) as [U|x|x|] eqn:C.
    + eexists. apply (TbOk e b P U); [exact A|exact R|]. apply collect_iff in C.
      refine (F2_impl _ _ _ _ _ C). intros p t K. apply typed_exact. now split.
    + pose proof C as C'. apply collect_stop in C' as (pre & p & post & E & G & X); [|discriminate].
      destruct (resolve (S (length P)) P p) as [t|y|y|] eqn:Y; [destruct X| |discriminate X|discriminate X]. injection X as ->.
      assert (exists ts, Forall2 (fun p t => typed P p (Ok t)) pre ts) as (ts & TS).
      { clear - G. induction G as [|a l (t & B) F (ts & IH)]; [exists []; constructor|exists (t :: ts); constructor; [|exact IH]]. apply typed_exact. now split. }
      eexists. apply (TbType e b P pre p post ts y); [exact A|exact R|exact E|exact TS|]. apply typed_exact. now split.
    + exfalso. apply collect_panic in C as (pre & p & post & E & G & X). now apply resolve_panic in X.
    + eexists. apply (TbEndless e b P); [exact A|exact R|now apply out_endless].
  - eexists. now apply (TbErr e b n x).
  - eexists. now apply (TbPanic e b n x).
  - now destruct (loop_fuel _ _ _ T).
Qed.
Lemma table_exactly e b out : type_table_of e b = out <-> table_outcome e b out.
Proof.
  split; [|apply table_sound]. intros <-. destruct (table_total e b) as (out & H). now rewrite (table_sound _ _ _ H).
Qed.

(** The panic of a STRUCT_NAME record. *)
Lemma reads_panic e l : forall P name x, type_reads e P name l (Panic x) <->
  x = PSubOverflow /\ overflow_checks e = true /\
  exists l1 r l2 P', l = l1 ++ r :: l2 /\ type_reads e P name l1 (Ok P') /\ r_code r = 19 /\ r_fields r = [].
Proof.
  induction l as [|r l IH]; intros P name x; split.
  - intros H; inversion H.
  - intros (_ & _ & l1 & r & l2 & P' & H & _). now destruct l1.
  - intros H; inversion H as [|? ? ? P1 n1 ? ? H1 H2| |? ? ? ? ? H1]; subst.
    + apply IH in H2 as (-> & O & l1 & r' & l2 & P' & -> & R & C). split; [reflexivity|]. split; [exact O|].
      exists (r :: l1), r', l2, P'. split; [reflexivity|]. split; [|exact C]. eapply TrsNext; eauto.
    + inversion H1; subst. match goal with T : text_outcome _ _ _ |- _ => inversion T; subst end.
      split; [reflexivity|]. split; [assumption|]. exists [], r, l, P. split; [reflexivity|]. split; [constructor|]. auto.
  - intros (-> & O & l1 & r' & l2 & P' & E & R & C & F). destruct l1 as [|r1 l1]; cbn in E; injection E as -> ->.
    + apply TrsPanic. apply TrPanic; [exact C|]. now constructor.
    + inversion R as [|? ? ? P1 n1 ? ? H1 H2| |]; subst. eapply TrsNext; [exact H1|]. apply IH. eauto 12.
Qed.
