(** The mapper on targets of another word size: what it makes of a file with 64-bit words, it makes there. *)
From Verif Require Import Base Strings EnumModel SupportModel LayoutModel LayoutMain
  CursorModel CursorSpec CursorHist CursorProofs CursorMain StreamModel StreamSpec StreamHist StreamMain StreamEnd StreamBounds StreamSize
  UnrollModel UnrollSpec UnrollProofs UnrollMain UnrollApi AttributeModel AttributeSpec AttributeMain
  TablesModel TablesSpec TypeTableModel RecordModel ModuleModel PipelineSpec PipelineProofs AmplifySpec AmplifyProofs
  WordModel WordSpec WordCursor WordStream.
From Coq Require Import Lia ZifyBool ZifyNat ZifyN.
Ltac Zify.zify_post_hook ::= Z.div_mod_to_equations.
Local Open Scope N_scope.
#[local] Arguments N.add : simpl never.
#[local] Arguments N.mul : simpl never.
#[local] Arguments N.sub : simpl never.
#[local] Arguments N.modulo : simpl never.
#[local] Arguments N.div : simpl never.
#[local] Arguments N.pow : simpl never.

(** Whenever the first gives a value, the second gives the same. *)
Definition gives {E A} (m m' : outcome E A) : Prop := forall a, m = Ok a -> m' = Ok a.
Lemma gives_refl {E A} (m : outcome E A) : gives m m.
Proof. intros a H. exact H. Qed.
Lemma gives_bind {E A B} (m m' : outcome E A) (k k' : A -> outcome E B) :
  gives m m' -> (forall a, m = Ok a -> gives (k a) (k' a)) -> gives (obind m k) (obind m' k').
Proof. intros H K b X. apply obind_iff in X as (a & A1 & X). apply obind_iff. exists a. split; [exact (H _ A1)|exact (K a A1 b X)]. Qed.
Lemma gives_map {E F A} (f : E -> F) (m m' : outcome E A) : gives m m' -> gives (omap_err f m) (omap_err f m').
Proof. intros H a X. apply omap_err_iff in X. apply omap_err_iff. exact (H a X). Qed.
Lemma gives_or {E A} (m m' : option A) (x : E) : (forall a, m = Some a -> m' = Some a) -> gives (ok_or m x) (ok_or m' x).
Proof. intros H a X. apply ok_or_ok in X. apply ok_or_ok. exact (H a X). Qed.
Lemma gives_collect {E A B} (f f' : A -> outcome E B) l : (forall a, In a l -> gives (f a) (f' a)) -> gives (collect f l) (collect f' l).
Proof.
  intros H m X. apply collect_iff in X. apply collect_iff. induction X as [|a b l m X1 X2 IH]; [constructor|].
  constructor; [exact (H a (or_introl eq_refl) _ X1)|]. apply IH. intros x X. apply H. now right.
Qed.
Lemma collect_length {E A B} (f : A -> outcome E B) l m : collect f l = Ok m -> length m = length l.
Proof. intros H. apply collect_iff in H. symmetry. exact (both_length _ _ _ H). Qed.
Lemma by_code_length c l : (length (by_code c l) <= length l)%nat.
Proof. unfold by_code. induction l as [|r l IH]; [cbn; lia|]. cbn [filter]. destruct (_ =? _); cbn [length]; lia. Qed.

Section Unroll.
  Context (U : N) (e : env) (U64 : 64 < U) (B : nat) (BU : N.of_nat B + 8 <= U).
  Notation o := cursor_ops.
  Lemma enter_keeps f : forall b s b' s', G U B s -> enter (next e o) f b s = Ok (b', s') -> enter (next_w U e) f b s = Ok (b', s') /\ G U B s'.
  Proof.
    induction f as [|f IH]; intros b s b' s' H X; cbn [enter] in *; [discriminate X|].
    destruct (next e o s) as [[r|] s1] eqn:M1; [|discriminate X]. destruct r as [x|y|p|]; try discriminate X. cbn [omap_err obind] in X.
    destruct (next_keeps U e U64 B BU s x s1 H M1) as [-> G1]. cbn [omap_err obind]. destruct x as [| |].
    - injection X as <- <-. auto.
    - apply obind_iff in X as ([child s2] & X1 & X2). destruct (IH _ _ _ _ G1 X1) as [-> G2]. cbn [obind]. exact (IH _ _ _ _ G2 X2).
    - exact (IH _ _ _ _ G1 X).
  Qed.
  Lemma tops_keeps f : forall acc s ps, G U B s -> tops (next e o) f acc s = Ok ps -> tops (next_w U e) f acc s = Ok ps.
  Proof.
    induction f as [|f IH]; intros acc s ps H X; cbn [tops] in *; [discriminate X|].
    destruct (next e o s) as [[r|] s1] eqn:M1.
    - destruct r as [x|y|p|]; try discriminate X. cbn [omap_err obind] in X.
      destruct (next_keeps U e U64 B BU s x s1 H M1) as [-> G1]. cbn [omap_err obind]. destruct x as [| |]; try discriminate X.
      apply obind_iff in X as ([top s2] & X1 & X). apply obind_iff in X as (acc' & X2 & X3).
      destruct (enter_keeps _ _ _ _ _ G1 X1) as [-> G2]. cbn [obind]. rewrite X2. cbn [obind]. exact (IH _ _ _ G2 X3).
    - rewrite (next_ends U e U64 B BU s s1 H M1). exact X.
  Qed.
  Lemma unroll_keeps s : G U B s -> gives (unroll e s) (unroll_w U e s).
  Proof.
    intros H ps X. unfold unroll, unroll_w in *. apply obind_iff in X as (rp & X1 & X2). rewrite (tops_keeps _ _ _ _ H X1). exact X2.
  Qed.
  Lemma run_keeps n : forall s, G U B s -> firstn (length (leading (run e o n s))) (run_w U e n s) = map (fun x => Some (Ok x)) (leading (run e o n s)).
  Proof.
    induction n as [|n IH]; intros s H; [reflexivity|]. cbn [run run_w].
    destruct (next e o s) as [r s1] eqn:M1. destruct r as [[x|y|p|]|]; cbn [leading length firstn map]; try reflexivity.
    destruct (next_keeps U e U64 B BU s x s1 H M1) as [-> G1]. cbn [firstn]. now rewrite IH.
  Qed.
  Lemma run_ends n : forall s xs, G U B s -> run e o n s = map (fun x => Some (Ok x)) xs ++ [None] -> run_w U e n s = run e o n s.
  Proof.
    induction n as [|n IH]; intros s xs H X; [reflexivity|]. cbn [run run_w] in *.
    destruct (next e o s) as [r s1] eqn:M1. destruct xs as [|x xs]; cbn [map app] in X; injection X as -> X.
    - rewrite (next_ends U e U64 B BU s s1 H M1). destruct n; [reflexivity|]. exfalso. cbn [run] in X. destruct (next e o s1). discriminate X.
    - destruct (next_keeps U e U64 B BU s x s1 H M1) as [-> G1]. now rewrite (IH s1 xs G1 X).
  Qed.
End Unroll.

(** *** The mapper, with tables of at most [K] entries *)
Section Mapper.
  Context (U K : N) (e : env) (KU : K + 8 <= U).
  Lemma slice_some {A} (l : list A) a b x : slice l a b = Some x -> a <= b.
  Proof. unfold slice. destruct (_ && _)%bool eqn:E; [intros _; lia|discriminate]. Qed.
  Lemma try_get_keeps t off size : N.of_nat (length t) <= K -> size < two64 -> gives (strtab_try_get e t off size) (strtab_try_get_w U e t off size).
  Proof.
    intros L SZ s X. unfold strtab_try_get in X. destruct (size =? 0) eqn:E0; [discriminate X|]. destruct (_ <=? off) eqn:E1; [discriminate X|].
    apply obind_iff in X as (last & A1 & X). destruct (_ <? last) eqn:E2; [discriminate X|]. rewrite A1 in X. cbn [obind] in X.
    destruct (slice t off last) as [raw|] eqn:SL; [|discriminate X]. pose proof (slice_some _ _ _ _ SL) as SO.
    assert (last = off + size) as ->.
    { unfold usize_add in A1. destruct (_ <? two64) eqn:E3; [now injection A1 as <-|]. destruct (overflow_checks e); [discriminate A1|].
      injection A1 as <-. exfalso. change two64 with 18446744073709551616 in *.
      destruct (N.lt_ge_cases off 18446744073709551616); lia. }
    unfold strtab_try_get_w, w_add. rewrite (us_small U off) by lia. rewrite (us_small U size) by lia. rewrite E0, E1.
    replace (off + size <? U) with true by lia. cbn [obind]. rewrite E2, SL. exact X.
  Qed.
  Lemma read_name_keeps t r : N.of_nat (length t) <= K -> fields64 r -> gives (strtab_read_name e t r) (strtab_read_name_w U e t r).
  Proof.
    intros L F. unfold strtab_read_name, strtab_read_name_w, fields64 in *. destruct (r_fields r) as [|a [|b l]]; try apply gives_refl.
    apply try_get_keeps; [exact L|]. inversion F as [|? ? _ F']; subst. now inversion F'.
  Qed.
  Lemma nth_keeps {A} (l : list A) i a : N.of_nat (length l) <= K -> nth_error l (N.to_nat i) = Some a -> i < K.
  Proof. intros L H. assert (N.to_nat i < length l)%nat by (apply nth_error_Some; congruence). lia. Qed.
  Lemma types_get_keeps t i a : N.of_nat (length t) <= K -> types_get t i = Some a -> types_get_w U t i = Some a.
  Proof. intros L H. unfold types_get_w. rewrite us_small; [exact H|]. pose proof (nth_keeps t i a L H). lia. Qed.
  Lemma table_entry_keeps {E} (bad : N -> E) l i : N.of_nat (length l) <= K -> gives (table_entry bad l i) (table_entry bad l (us U i)).
  Proof.
    intros L a X. assert (i < U).
    { unfold table_entry in X. destruct (i =? 0) eqn:E0; [lia|]. apply obind_iff in X as (s & X & _). apply ok_or_ok in X.
      pose proof (nth_keeps l (i - 1) s L X). lia. }
    now rewrite us_small.
  Qed.

  (** Types. *)
  Lemma us_us v : us U (us U v) = us U v.
  Proof. unfold us. rewrite N.mod_mod; [reflexivity|lia]. Qed.
  Lemma map_us_us l : map (us U) (map (us U) l) = map (us U) l.
  Proof. rewrite map_map. apply map_ext. intros v. apply us_us. Qed.
  Notation c := (cast_refs U).
  Lemma cast_cast p : c (c p) = c p.
  Proof. destruct p; cbn [cast_refs]; rewrite ?us_us, ?map_us_us; reflexivity. Qed.
  Lemma map_cast_cast l : map c (map c l) = map c l.
  Proof. rewrite map_map. apply map_ext. intros p. apply cast_cast. Qed.
  Lemma split_last_map l : split_last (map c l) = match split_last l with Some (front, p) => Some (map c front, c p) | None => None end.
  Proof.
    unfold split_last. rewrite <- map_rev. destruct (rev l) as [|p r]; [reflexivity|]. cbn [map]. now rewrite map_rev.
  Qed.
  Lemma type_step_cast l name r q name' : type_step e (l, name) r = Ok (q, name') ->
    type_step_w U e (map c l, name) r = Ok (map c q, name').
  Proof.
    unfold type_step_w, type_step. intros X. apply obind_iff in X as (code & C1 & X). rewrite C1. cbn [obind].
    rewrite split_last_map.
    destruct code;
      repeat match type of X with
      | obind ?m _ = Ok _ => let a := fresh "a" in let A := fresh "A" in apply obind_iff in X as (a & A & X); rewrite A; cbn [obind]
      end;
      try discriminate X;
      try (injection X as <- <-; cbn [obind]; rewrite ?map_app, ?map_cast_cast; cbn [map]; rewrite ?cast_cast; reflexivity).
    - destruct name as [|h name]; [discriminate X|]. destruct (split_last l) as [[front p]|].
      + destruct p; cbn [cast_refs]; try (injection X as <- <-; cbn [obind]; rewrite ?map_app, ?map_cast_cast; cbn [map cast_refs]; reflexivity).
        match type of X with context [match ?n with Some _ => _ | None => _ end] => destruct n end; [discriminate X|].
        injection X as <- <-. cbn [obind]. rewrite ?map_app, ?map_cast_cast. cbn [map cast_refs]. now rewrite map_us_us.
      + injection X as <- <-. cbn [obind]. rewrite ?map_app, ?map_cast_cast. reflexivity.
    - cbv zeta in *. destruct (match nth_error (r_fields r) 2 with None => false | Some f => 0 <? f end);
        injection X as <- <-; cbn [obind]; rewrite ?map_app, ?map_cast_cast; reflexivity.
    - destruct (split_last l) as [[front p]|].
      + destruct p as [| | | | |n fs packed| | |]; cbn [cast_refs]; try (injection X as <- <-; cbn [obind]; rewrite ?map_app, ?map_cast_cast; cbn [map cast_refs]; reflexivity).
        destruct n; [discriminate X|]. destruct fs; [|discriminate X]. cbn [map].
        injection X as <- <-. cbn [obind]. rewrite ?map_app, ?map_cast_cast. reflexivity.
      + injection X as <- <-. cbn [obind]. rewrite ?map_app, ?map_cast_cast. reflexivity.
  Qed.
  Lemma type_loop_cast l : forall p name q name', type_loop e l (p, name) = Ok (q, name') ->
    type_loop_w U e l (map c p, name) = Ok (map c q, name').
  Proof.
    induction l as [|r l IH]; intros p name q name' X; cbn [type_loop type_loop_w] in *; [now injection X as <- <-|].
    apply obind_iff in X as ([p1 n1] & X1 & X2). rewrite (type_step_cast _ _ _ _ _ X1). cbn [obind]. exact (IH _ _ _ _ X2).
  Qed.
  Lemma split_last_length {A} (l : list A) front p : split_last l = Some (front, p) -> length l = S (length front).
  Proof.
    unfold split_last. destruct (rev l) as [|a r] eqn:E; [discriminate|]. intros [= <- <-]. rewrite <- (rev_length l), E, rev_length. reflexivity.
  Qed.
  Lemma type_step_length l name r q name' : type_step e (l, name) r = Ok (q, name') -> (length q <= S (length l))%nat.
  Proof.
    unfold type_step. intros X. apply obind_iff in X as (code & C1 & X).
    destruct code;
      repeat match type of X with
      | obind ?m _ = Ok _ => let a := fresh "a" in let A := fresh "A" in apply obind_iff in X as (a & A & X)
      end;
      try discriminate X; try (injection X as <- <-; rewrite ?app_length; cbn [length]; lia).
    - destruct name as [|h name]; [discriminate X|]. destruct (split_last l) as [[front p]|] eqn:SL; [apply split_last_length in SL|].
      + destruct p as [| | | | |n fs packed| | |]; try (injection X as <- <-; rewrite ?app_length; cbn [length]; lia).
        destruct n; [discriminate X|]. injection X as <- <-; rewrite ?app_length; cbn [length]; lia.
      + injection X as <- <-; rewrite ?app_length; cbn [length]; lia.
    - cbv zeta in *. destruct (match nth_error (r_fields r) 2 with None => false | Some f => 0 <? f end);
        injection X as <- <-; rewrite ?app_length; cbn [length]; lia.
    - destruct (split_last l) as [[front p]|] eqn:SL; [apply split_last_length in SL|].
      + destruct p as [| | | | |n fs packed| | |]; try (injection X as <- <-; rewrite ?app_length; cbn [length]; lia).
        destruct n; [discriminate X|]. destruct fs; [|discriminate X]. injection X as <- <-; rewrite ?app_length; cbn [length]; lia.
      + injection X as <- <-; rewrite ?app_length; cbn [length]; lia.
  Qed.
  Lemma type_loop_length l : forall p name q name', type_loop e l (p, name) = Ok (q, name') -> (length q <= length p + length l)%nat.
  Proof.
    induction l as [|r l IH]; intros p name q name' X; cbn [type_loop length] in *; [injection X as <- <-; lia|].
    apply obind_iff in X as ([p1 n1] & X1 & X2). apply type_step_length in X1. apply IH in X2. lia.
  Qed.
  Lemma resolve_cast P f p t : N.of_nat (length P) <= K -> resolve f P p = Ok t -> c p = p.
  Proof.
    intros L. destruct f as [|f]; cbn [resolve]; [discriminate|].
    assert (R : forall i t', obind (ok_or (nth_error P (N.to_nat i)) (TtBadIndex i)) (fun p => resolve f P p) = Ok t' -> us U i = i).
    { intros i t' X. apply obind_iff in X as (p' & X & _). apply ok_or_ok in X. apply us_small. pose proof (nth_keeps P i p' L X). lia. }
    assert (RS : forall l ts, collect (fun i => obind (ok_or (nth_error P (N.to_nat i)) (TtBadIndex i)) (fun p => resolve f P p)) l = Ok ts -> map (us U) l = l).
    { intros l ts X. apply collect_iff in X. induction X as [|i t' l ts X1 X2 IH]; [reflexivity|]. cbn [map]. now rewrite (R _ _ X1), IH. }
    destruct p; cbn [cast_refs]; try reflexivity; intros X;
      repeat match type of X with
      | obind _ _ = Ok _ => let a := fresh "a" in let A := fresh "A" in apply obind_iff in X as (a & A & X)
      end;
      repeat match goal with
      | A : obind _ _ = Ok _ |- _ => apply R in A; rewrite A; clear A
      | A : collect _ _ = Ok _ |- _ => apply RS in A; rewrite A; clear A
      end; reflexivity.
  Qed.
  Lemma type_table_keeps b t : N.of_nat (length (b_records b)) <= K -> type_table_of e b = Ok t ->
    type_table_of_w U e b = Ok t /\ N.of_nat (length t) <= K.
  Proof.
    intros L X. unfold type_table_of, type_table_of_w in *. apply obind_iff in X as (r & R1 & X). rewrite R1. cbn [obind].
    apply obind_iff in X as (n & N1 & X). rewrite N1. cbn [obind]. cbv zeta. destruct (alloc_limit e <? n) eqn:AL; [discriminate X|].
    apply obind_iff in X as ([q name] & T1 & X). pose proof (type_loop_length _ _ _ _ _ T1) as LQ. cbn [length] in LQ.
    pose proof (type_loop_cast _ _ _ _ _ T1) as T2. cbn [map] in T2.
    unfold reify, reify_with in *. destruct (N.of_nat (length q) =? n) eqn:E; [|discriminate X].
    rewrite us_small by lia. rewrite AL.
    assert (type_loop_w U e (b_records b) ([], []) = Ok (map c q, name)) as -> by exact T2. cbn [obind].
    assert (map c q = q) as ->.
    { pose proof X as Y. apply collect_iff in Y. assert (LK : N.of_nat (length q) <= K) by lia. revert LK Y.
      generalize (S (length q)) at 1. intros f LK Y.
      assert (Z : Forall (fun p => c p = p) q).
      { apply Forall_forall. intros p I. clear - LK Y I KU. set (P := q) in *. unfold P in I.
        assert (Y' : Forall2 (fun a b => resolve f P a = Ok b) q t) by exact Y. clear Y. clearbody P.
        induction Y' as [|a b l m Y1 Y2 IH]; [destruct I|]. destruct I as [<-|I]; [exact (resolve_cast P f a b LK Y1)|exact (IH I)]. }
      clear - Z. induction Z as [|p l Z1 Z2 IH]; [reflexivity|]. cbn [map]. now rewrite Z1, IH. }
    rewrite E. split; [exact X|]. apply collect_length in X. lia.
  Qed.

  (** Records. *)
  Lemma comdat_keeps v t r : N.of_nat (length t) <= K -> fields64 r -> gives (comdat_of e v t r) (comdat_of_w U e v t r).
  Proof.
    intros L F. unfold comdat_of, comdat_of_w, fields64 in *. destruct (negb _); [apply gives_refl|].
    destruct (r_fields r) as [|a [|b [|d [|g l]]]]; try apply gives_refl.
    apply gives_bind; [|intros; apply gives_refl]. apply gives_map, try_get_keeps; [exact L|].
    inversion F as [|? ? _ F']; subst. now inversion F'.
  Qed.
  Record ctx_small (x : mctx) : Prop := {
    cs_strtab : N.of_nat (length (cx_strtab x)) <= K;
    cs_types : N.of_nat (length (cx_types x)) <= K;
    cs_attributes : N.of_nat (length (cx_attributes x)) <= K;
    cs_sections : N.of_nat (length (cx_sections x)) <= K;
    cs_gcs : N.of_nat (length (cx_gcs x)) <= K
  }.
  Lemma fn_keeps x r : ctx_small x -> fields64 r -> gives (fn_of e x r) (fn_of_w U e x r).
  Proof.
    intros [C1 C2 C3 C4 C5] F. unfold fn_of, fn_of_w. destruct (negb _); [apply gives_refl|]. destruct (_ <? 10)%nat; [apply gives_refl|].
    apply gives_bind; [now apply gives_map, read_name_keeps|intros name _].
    apply gives_bind; [apply gives_or; intros a; now apply types_get_keeps|intros t _].
    apply gives_bind; [apply gives_refl|intros t' _]. apply gives_bind; [apply gives_refl|intros cc _]. cbv zeta.
    apply gives_bind.
    { destruct (fld r 6 =? 0); [apply gives_refl|]. apply gives_bind; [|intros; apply gives_refl]. apply gives_or. intros a H.
      unfold attributes_get_w. rewrite us_small; [exact H|]. pose proof (nth_keeps _ _ _ C3 H). lia. }
    intros attrs _. apply gives_bind; [apply gives_refl|intros al _]. apply gives_bind; [now apply table_entry_keeps|intros sec _].
    apply gives_bind; [apply gives_refl|intros vis _].
    apply gives_bind; [destruct (nth_error (r_fields r) 10); [now apply table_entry_keeps|apply gives_refl]|intros gc _]. apply gives_refl.
  Qed.
  Lemma alias_keeps x r : ctx_small x -> fields64 r -> gives (alias_of e x r) (alias_of_w U e x r).
  Proof.
    intros [C1 C2 C3 C4 C5] F. unfold alias_of, alias_of_w. destruct (negb _); [apply gives_refl|]. destruct (_ <? 5)%nat; [apply gives_refl|].
    apply gives_bind; [now apply gives_map, read_name_keeps|intros name _].
    apply gives_bind; [apply gives_or; intros a; now apply types_get_keeps|intros t _]. apply gives_refl.
  Qed.
  Lemma fn_block_never t b x : fn_block_of e t b <> Ok x.
  Proof.
    unfold fn_block_of. intros H. apply obind_iff in H as (r & _ & H). apply obind_iff in H as (n & _ & H). destruct (_ <? _); [discriminate H|].
    apply obind_iff in H as (l & _ & H). discriminate H.
  Qed.

  (** Modules. *)
  Record block_small (b : block) : Prop := {
    bs_records : N.of_nat (length (b_records b)) <= K;
    bs_fields : Forall fields64 (b_records b);
    bs_children : forall id b', In b' (by_id id b) -> N.of_nat (length (b_records b')) <= K
  }.
  Lemma strings_length code b l : strings_of e code b = Ok l -> (length l <= length (b_records b))%nat.
  Proof.
    unfold strings_of. intros H. apply omap_err_iff in H. apply collect_length in H. rewrite H. apply by_code_length.
  Qed.
  Lemma sub_block_in id b x : sub_block id b = Ok x -> In x (by_id (BIr id) b).
  Proof.
    unfold sub_block, exactly_one_block, exactly_one_of. intros H. apply omap_err_iff in H. destruct (by_id (BIr id) b) as [|y [|z l]]; try discriminate H.
    injection H as <-. now left.
  Qed.
  Lemma maybe_block_in id b x : maybe_block id b = Ok (Some x) -> In x (by_id (BIr id) b).
  Proof.
    unfold maybe_block, one_or_none_block, one_or_none_of. intros H. apply omap_err_iff in H. destruct (by_id (BIr id) b) as [|y [|z l]]; try discriminate H.
    injection H as <-. now left.
  Qed.
  Lemma by_code_fields code l : Forall fields64 l -> Forall fields64 (by_code code l).
  Proof. intros H. apply Forall_forall. intros r R. rewrite Forall_forall in H. apply H. unfold by_code in R. now apply filter_In in R. Qed.
  Lemma ctx_keeps t b x : N.of_nat (length t) <= K -> block_small b -> module_ctx e t b = Ok x -> module_ctx_w U e t b = Ok x /\ ctx_small x.
  Proof.
    intros L [B1 B2 B3] X. unfold module_ctx, module_ctx_w in *. cbv zeta in *.
    apply obind_iff in X as (r1 & A1 & X). rewrite A1. cbn [obind].
    apply obind_iff in X as (ver & A2 & X). rewrite A2. cbn [obind].
    apply obind_iff in X as (r2 & A3 & X). rewrite A3. cbn [obind].
    apply obind_iff in X as (lay & A4 & X). rewrite A4. cbn [obind].
    apply obind_iff in X as (sec & A5 & X). rewrite A5. cbn [obind].
    apply obind_iff in X as (gcs & A6 & X). rewrite A6. cbn [obind].
    apply obind_iff in X as (tb & A7 & X). rewrite A7. cbn [obind].
    apply obind_iff in X as (types & A8 & X). apply omap_err_iff in A8.
    destruct (type_table_keeps tb types) as [A8' LT]; [exact (B3 _ _ (sub_block_in _ _ _ A7))|exact A8|]. rewrite A8'. cbn [omap_err obind].
    apply obind_iff in X as (vb & A9 & X). rewrite A9. cbn [obind].
    apply obind_iff in X as (gb & A10 & X). rewrite A10. cbn [obind].
    apply obind_iff in X as (groups & A11 & X). rewrite A11. cbn [obind].
    apply obind_iff in X as (ab & A12 & X). rewrite A12. cbn [obind].
    apply obind_iff in X as (attrs & A13 & X). rewrite A13. cbn [obind].
    apply obind_iff in X as (comdats & A14 & X).
    assert (A15 : omap_err MdComdat (collect (comdat_of_w U e ver t) (by_code (module_code_num McComdat) (b_records b))) = Ok comdats).
    { revert A14. apply gives_map, gives_collect. intros r R. apply comdat_keeps; [exact L|]. pose proof (by_code_fields (module_code_num McComdat) _ B2) as F. rewrite Forall_forall in F. now apply F. }
    rewrite A15. cbn [obind]. split; [exact X|]. injection X as <-. constructor; cbn [cx_strtab cx_types cx_attributes cx_sections cx_gcs].
    - exact L.
    - exact LT.
    - destruct ab as [ab|]; [|injection A13 as <-; cbn; lia]. apply omap_err_iff in A13. unfold attributes_of in A13. apply collect_length in A13.
      rewrite A13. exact (B3 _ _ (maybe_block_in _ _ _ A12)).
    - apply strings_length in A5. lia.
    - apply strings_length in A6. lia.
  Qed.
  Lemma module_map_keeps host t b : N.of_nat (length t) <= K -> block_small b -> gives (module_map e host t b) (module_map_w U e host t b).
  Proof.
    intros L B x X. unfold module_map, module_map_w in *. apply obind_iff in X as (y & A1 & X).
    destruct (ctx_keeps t b y L B A1) as [A1' CS]. rewrite A1'. cbn [obind]. clear A1 A1'. revert X. destruct B as [B1 B2 B3].
    assert (BF : forall code r, In r (by_code code (b_records b)) -> fields64 r).
    { intros code r. pose proof (by_code_fields code _ B2) as F. rewrite Forall_forall in F. apply F. }
    apply gives_bind; [apply gives_refl|intros r1 _]. apply gives_bind; [apply gives_refl|intros triple _].
    apply gives_bind; [apply gives_refl|intros r2 _]. apply gives_bind; [apply gives_refl|intros asm _].
    apply gives_bind; [apply gives_refl|intros deps _].
    apply gives_bind; [apply gives_map, gives_collect; intros r R; apply fn_keeps; [exact CS|exact (BF _ _ R)]|intros fns _].
    apply gives_bind; [apply gives_map, gives_collect; intros f _ u Y; destruct (fn_block_never _ _ _ Y)|intros us _].
    apply gives_bind; [apply gives_map, gives_collect; intros r R; apply alias_keeps; [exact CS|exact (BF _ _ R)]|intros als _]. apply gives_refl.
  Qed.
  Lemma reify_keeps host p :
    (forall b, pt_module p = Some b -> block_small b) -> (forall b t, pt_strtab p = Some b -> strtab_of e b = Ok t -> N.of_nat (length t) <= K) ->
    gives (reify_module e host p) (reify_module_w U e host p).
  Proof.
    intros M T. unfold reify_module, reify_module_w.
    apply gives_bind; [apply gives_refl|intros sb S1]. apply ok_or_ok in S1. apply gives_bind; [apply gives_refl|intros t T1]. apply omap_err_iff in T1.
    apply gives_bind; [apply gives_refl|intros i _]. apply gives_bind; [apply gives_refl|intros mb M1]. apply ok_or_ok in M1.
    apply gives_bind; [|intros; apply gives_refl]. apply gives_map. unfold module_of, module_of_w.
    apply gives_bind; [|intros; apply gives_refl]. apply module_map_keeps; [exact (T _ _ S1 T1)|exact (M _ M1)].
  Qed.
End Mapper.

(** *** Files *)

(** Blocks have no more records than the entries they are made of. *)
Lemma records_in_length body : (length (records_in body) <= length (flat_map flat body))%nat.
Proof.
  unfold records_in. induction body as [|t body IH]; [cbn; lia|]. cbn [flat_map]. rewrite !app_length. destruct t; cbn [length flat]; lia.
Qed.
Lemma unrolled_length t b : unrolled t b -> (length (b_records b) <= length (flat t))%nat.
Proof.
  intros H. inversion H as [bid len body b' I1 R1 C1 K1 N1 E1 E2]; subst. rewrite R1. cbn [flat length]. rewrite app_length. pose proof (records_in_length body). lia.
Qed.
Lemma child_length t body : In t body -> (length (flat t) <= length (flat_map flat body))%nat.
Proof.
  induction body as [|x body IH]; intros I; [destruct I|]. cbn [flat_map]. rewrite app_length. destruct I as [->|I]; [lia|]. specialize (IH I). lia.
Qed.
Lemma by_id_entry id b : by_id id b <> [] -> exists l, In (id, l) (b_blocks b).
Proof.
  unfold by_id. destruct (map_get id (b_blocks b)) as [l|] eqn:E; [|congruence]. intros _. exists l. revert E.
  induction (b_blocks b) as [|[k v] m IH]; cbn [map_get]; [discriminate|]. destruct (block_id_dec k id) as [->|N]; [intros [= <-]; now left|]. intros E. right. now apply IH.
Qed.
Lemma unrolled_small k t b : Forall (entry_fits k) (flat t) -> N.of_nat (length (flat t)) <= k -> unrolled t b -> block_small k b.
Proof.
  intros F L H. constructor.
  - pose proof (unrolled_length t b H). lia.
  - eapply Forall_impl; [|exact (unrolled_fits k t b F H)]. now intros r [X _].
  - intros id b' I. pose proof (unrolled_nodup t b H) as ND.
    inversion H as [bid len body b0 I1 R1 C1 K1 N1 E1 E2]; subst.
    destruct (by_id_entry id b) as [l E]; [destruct (by_id id b); [destruct I|discriminate]|]. destruct (K1 _ _ E) as [v V].
    rewrite (map_get_under id b ND) in I. specialize (C1 v id V).
    assert (exists t', In t' (children v body) /\ unrolled t' b') as (t' & T1 & T2).
    { clear - C1 I. induction C1 as [|x y l m X1 X2 IH]; [destruct I|]. destruct I as [<-|I]; [exists x; split; [now left|exact X1]|].
      destruct (IH I) as (t' & T1 & T2). exists t'. split; [now right|exact T2]. }
    unfold children in T1. apply filter_In in T1 as [T1 _]. pose proof (child_length _ _ T1). pose proof (unrolled_length _ _ T2).
    cbn [flat length] in L. rewrite app_length in L. lia.
Qed.
Lemma segment_in t l : In t (segment l) -> In t l.
Proof. induction l as [|x l IH]; [auto|]. cbn [segment]. destruct (is_top IDENTIFICATION x); [intros []|]. intros [->|H]; [now left|right; now apply IH]. Qed.
Lemma modules_in l : Forall (fun tm => forall t, tm_module tm = Some t -> In t l) (modules_of l).
Proof.
  induction l as [|x l IH]; [constructor|]. cbn [modules_of].
  assert (IH' : Forall (fun tm => forall t, tm_module tm = Some t -> In t (x :: l)) (modules_of l)).
  { eapply Forall_impl; [|exact IH]. cbn. intros tm H t T. right. now apply H. }
  destruct (is_top IDENTIFICATION x); [|exact IH']. constructor; [|exact IH']. cbn [tm_module]. intros t T. apply find_some in T as [T _]. right. now apply segment_in.
Qed.
Lemma bitcode_stream_keeps U e host s B : 64 < U -> N.of_nat B + 8 <= U -> total s + 8 <= U -> G U B s -> parser_reachable e s ->
  gives (bitcode_of_stream e host s) (bitcode_of_stream_w U e host s).
Proof.
  intros U64 BU TU GS R ms X. unfold bitcode_of_stream, bitcode_of_stream_w in *. apply obind_iff in X as (ps & P & X). apply omap_err_iff in P.
  rewrite (unroll_keeps U e U64 B BU s GS ps P). cbn [omap_err obind]. revert X. apply gives_collect. intros p IP.
  destruct (unroll_ok e s ps R P) as (forest & ST & _ & C).
  pose proof (stream_fits e s forest R ST) as FT. pose proof (modules_fit _ _ FT) as M1. pose proof (modules_in forest) as M2.
  assert (LF : N.of_nat (length (flat_map flat forest)) <= total s).
  { destruct ST as [n ST]. pose proof (run_leading e n _ R) as L. rewrite ST, leading_map in L. cbn [leading] in L. rewrite app_nil_r in L. lia. }
  assert (exists tm, In tm (modules_of forest) /\ carries tm p) as (tm & IT & CT).
  { clear - C IP. induction C as [|x y l m X1 X2 IH]; [destruct IP|]. destruct IP as [<-|I]; [exists x; split; [now left|exact X1]|].
    destruct (IH I) as (t' & T1 & T2). exists t'. split; [now right|exact T2]. }
  rewrite Forall_forall in M1, M2. destruct (M1 tm IT) as [F1 F2]. specialize (M2 tm IT).
  apply (reify_keeps U (total s) e TU).
  - intros b PB. destruct CT as (_ & CM & _). rewrite PB in CM. destruct (tm_module tm) as [t|]; [|contradiction]. cbn in CM, F1.
    apply (unrolled_small (total s) t b F1); [|exact CM]. pose proof (child_length t forest (M2 t eq_refl)). lia.
  - intros b t PB ST'. apply strtab_exact in ST'. destruct CT as (_ & _ & CM & _). rewrite PB in CM. destruct (tm_strtab tm) as [x|]; [|contradiction]. cbn in CM, F2.
    exact (blob_length (total s) e b t (unrolled_fits (total s) x b F2 CM) ST').
Qed.
Lemma entries_keep U e buf w b : 64 < U -> 8 * N.of_nat (length buf) + 8 <= U -> from e buf = Ok (w, b) ->
  from_w U e buf = Ok (w, b) /\
  forall n, let xs := leading (run e cursor_ops n (bs_parser b)) in
    firstn (length xs) (run_w U e n (bs_parser b)) = map (fun x => Some (Ok x)) xs /\
    (run e cursor_ops n (bs_parser b) = map (fun x => Some (Ok x)) xs ++ [None] -> run_w U e n (bs_parser b) = map (fun x => Some (Ok x)) xs ++ [None]).
Proof.
  intros U64 L F. destruct (from_keeps U e buf w b L F) as (FW & c & P & I & BL). split; [exact FW|]. intros n.
  assert (GS : G U (N.to_nat (bit_len c)) (bs_parser b)) by (rewrite P; now apply new_G).
  assert (BU : N.of_nat (N.to_nat (bit_len c)) + 8 <= U) by (unfold bit_len; lia). cbv zeta. split.
  - exact (run_keeps U e U64 _ BU n _ GS).
  - intros X. rewrite (run_ends U e U64 _ BU n _ _ GS X). exact X.
Qed.
Lemma bitcode_keeps U e host buf : 64 < U -> 8 * N.of_nat (length buf) + 8 <= U -> gives (bitcode_of e host buf) (bitcode_of_w U e host buf).
Proof.
  intros U64 L ms X. unfold bitcode_of, bitcode_of_w in *. apply obind_iff in X as ([w b] & F & X). apply omap_err_iff in F.
  pose proof (from_total e buf w b F) as T. pose proof (from_reachable e buf w b F) as R.
  destruct (from_keeps U e buf w b L F) as (-> & c & P & I & BL). cbn [omap_err obind].
  refine (bitcode_stream_keeps U e host (bs_parser b) (N.to_nat (bit_len c)) U64 _ _ _ R ms X).
  - unfold bit_len. lia.
  - lia.
  - rewrite P. now apply new_G.
Qed.
