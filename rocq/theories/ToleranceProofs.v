(** Files LLVM's reader tolerates: fields of width zero, something behind the last block; and the magic. *)
From Verif Require Import Base Strings EnumModel CursorModel CursorSpec CursorHist CursorProofs CursorSim CursorMain
  StreamModel StreamSpec StreamHist StreamEffect StreamProofs StreamPres StreamRound StreamMain StreamEnd StreamBox StreamApi
  GrammarSpec GrammarStopSpec GrammarProofs GrammarStops UnrollModel UnrollSpec UnrollStopSpec UnrollProofs UnrollMain UnrollApi UnrollStops
  AttributeModel TablesModel TypeTableModel RecordModel ModuleModel PipelineSpec PipelineProofs ToleranceSpec.
From Coq Require Import Lia ZifyBool ZifyNat ZifyN.
Local Open Scope N_scope.

(** *** Fields of width zero *)

Lemma zero_stops e gap : forall a vals pos t rest c, values_text e gap pos (map as_llvm a) vals t -> zero_width_error a = Some c ->
  values_stop e gap pos a (t ++ rest) (Stop (SCursor c)).
Proof.
  induction a as [|op a IH]; intros vals pos t rest c V Z; [discriminate Z|].
  unfold zero_width_error in Z. cbn [find] in Z. cbn [map] in V. unfold as_llvm at 1 in V.
  destruct (zero_width op) eqn:ZW.
  - apply VsScalar. destruct op as [v|w|w|el| |]; try discriminate ZW; cbn in ZW; apply N.eqb_eq in ZW; subst w; injection Z as <-.
    + constructor. constructor. lia.
    + constructor. constructor. lia.
  - inversion V; subst.
    + apply VsLiteral. eapply IH; eassumption.
    + rewrite <- app_assoc. eapply VsNext; [eassumption|]. eapply IH; eassumption.
    + destruct a; [discriminate Z|discriminate].
    + destruct a; [discriminate Z|discriminate].
Qed.
Lemma no_zero a : zero_width_error a = None -> map as_llvm a = a.
Proof.
  induction a as [|op a IH]; [reflexivity|]. unfold zero_width_error. cbn [find map]. unfold as_llvm at 1.
  destruct (zero_width op) eqn:Z; [destruct op; discriminate|]. intros H. f_equal. exact (IH H).
Qed.

Lemma zero_widths e gap s w b i l scs id a code fields t tr rest : opened e gap s ->
  p_scopes s = ScBlock w b i l :: scs -> b <> 0 -> fixed_text w id t -> 4 <= id -> nth_error l (N.to_nat (id - 4)) = Some a ->
  values_text e gap (pos s + blen t) (map as_llvm a) (code :: fields) tr -> unread s = t ++ tr ++ rest ->
  fst (next e cursor_ops s) =
    match zero_width_error a with None => Some (Ok (ERecord (Some id) code fields)) | Some c => Some (Err (SCursor c)) end.
Proof.
  intros O SC B T I A V U. destruct (zero_width_error a) as [c|] eqn:Z.
  - apply (proj2 (next_stops_exactly e gap s (Stop (SCursor c)) O)). apply NStops. rewrite U, SC.
    eapply StValues; [exact T|exact I|exact A|]. eapply zero_stops; eassumption.
  - rewrite (no_zero a Z) in V.
    destruct (proj2 (next_exactly e gap s (ERecord (Some id) code fields) rest (ScBlock w b i l :: scs) (registered (p_info s)) O))
      as (s' & E & _).
    + exists (t ++ tr). split; [now rewrite <- app_assoc|]. apply NStep. rewrite SC.
      pose proof (SAbbrev e gap (pos s) (registered (p_info s)) w b i l scs t id a code fields tr _ T I A V (fun k => eq_refl)) as K.
      apply N.eqb_neq in B. rewrite B in K. exact K.
    + now rewrite E.
Qed.

Lemma values_wide e gap pos a vals t : values_text e gap pos a vals t -> zero_width_error a = None.
Proof.
  induction 1 as [|pos v a vals t V IH|pos op a v vals t1 t2 S V IH| |]; try reflexivity; [exact IH|].
  unfold zero_width_error. cbn [find]. replace (zero_width op) with false; [exact IH|]. symmetry.
  destruct S as [w v t F|w v t F|c k t C F]; cbn; [|destruct F as [F _]|reflexivity]; [destruct F as [F _]|]; apply N.eqb_neq; lia.
Qed.
Lemma record_widths e gap s id code fields s' : opened e gap s -> next e cursor_ops s = (Some (Ok (ERecord (Some id) code fields)), s') ->
  exists w b i l scs a, p_scopes s' = ScBlock w b i l :: scs /\ nth_error l (N.to_nat (id - 4)) = Some a /\ zero_width_error a = None.
Proof.
  intros O E.
  destruct (proj1 (next_exactly e gap s _ (unread s') (p_scopes s') (registered (p_info s')) O)
    (ex_intro _ s' (conj E (conj eq_refl (conj eq_refl (fun k => eq_refl)))))) as (t & _ & T).
  remember (ERecord (Some id) code fields) as x eqn:X. remember (p_scopes s') as scs' eqn:SC. clear E SC O.
  induction T as [pos regs scs t x scs' regs' S|pos regs scs t1 scs1 regs1 t2 x scs' regs' S T IH]; [|now apply IH].
  subst x. inversion S; subst; repeat match goal with H : (if ?b then _ else _) = Some _ |- _ => destruct b; try discriminate H end; try discriminate.
  match goal with H : Some _ = Some _ |- _ => injection H as -> -> -> end.
  do 6 eexists. split; [reflexivity|]. split; [eassumption|]. eapply values_wide. eassumption.
Qed.

(** *** What is loaded depends on the entries only *)

Definition same_runs (e : env) (s1 s2 : sparser cursor) : Prop :=
  forall n, upto_stop (run e cursor_ops n s1) = upto_stop (run e cursor_ops n s2).

Lemma run_length {C} e (o : cops C) : forall n s, length (run e o n s) = n.
Proof. induction n as [|n IH]; intros s; [reflexivity|]. cbn [run]. destruct (next e o s). cbn. now rewrite IH. Qed.
Lemma upto_stop_full : forall r1 r2, upto_stop r1 = upto_stop r2 -> length r1 = length r2 -> upto_stop r1 = r1 -> r2 = r1.
Proof.
  induction r1 as [|x r1 IH]; intros [|y r2] E L F; try discriminate L; [reflexivity|]. injection L as L.
  assert (D : forall z : option (outcome serr entry), (exists a, z = Some (Ok a)) \/ forall r, upto_stop (z :: r) = [z]).
  { intros [[a|a|a|]|]; [left; eauto|right; reflexivity..]. }
  destruct (D x) as [[a ->]|DX], (D y) as [[b ->]|DY].
  - cbn [upto_stop] in *. injection E as -> E. injection F as F. f_equal. now apply IH.
  - rewrite DY in E. cbn [upto_stop] in E. injection E as <- E. specialize (DY []). cbn in DY.
    cbn [upto_stop] in F. injection F as F. rewrite E in F. subst r1. destruct r2; [reflexivity|discriminate L].
  - rewrite DX in E, F. injection F as F. subst r1. destruct r2; [|discriminate L]. cbn in E. congruence.
  - rewrite DX in E, F. rewrite DY in E. injection F as F. subst r1. destruct r2; [|discriminate L]. congruence.
Qed.
Lemma upto_stop_oks l r : upto_stop (map (fun x => Some (Ok x)) l ++ [r]) = map (fun x => Some (Ok x)) l ++ [r].
Proof. induction l as [|x l IH]; [now destruct r as [[]|]|]. cbn. now rewrite IH. Qed.
Lemma upto_stop_all l : upto_stop (map (fun x => Some (Ok x)) l) = map (fun x => Some (Ok x)) l.
Proof. induction l as [|x l IH]; [reflexivity|]. cbn. now rewrite IH. Qed.

Lemma same_runs_sym e s1 s2 : same_runs e s1 s2 -> same_runs e s2 s1.
Proof. intros H n. symmetry. apply H. Qed.
Lemma same_says e s1 s2 l r : same_runs e s1 s2 -> says e s1 l r -> says e s2 l r.
Proof.
  intros H [n R]. exists n. rewrite <- R. apply upto_stop_full; [apply H|now rewrite !run_length|].
  rewrite R. apply upto_stop_oks.
Qed.
Lemma same_begins e s1 s2 l : same_runs e s1 s2 -> begins e s1 l -> begins e s2 l.
Proof.
  intros H [n R]. exists n. rewrite <- R. apply upto_stop_full; [apply H|now rewrite !run_length|].
  rewrite R. apply upto_stop_all.
Qed.
Lemma same_stops e s1 s2 o : same_runs e s1 s2 -> unroll_stops e s1 o -> unroll_stops e s2 o.
Proof.
  intros H U. destruct U.
  - eapply UsMisplaced; [eapply same_begins; eassumption|eassumption|eassumption].
  - eapply UsTopLevel; [eapply same_begins; eassumption|eassumption|eassumption].
  - eapply UsError; [eapply same_says; eassumption|eassumption|eassumption].
  - eapply UsPanic; [eapply same_says; eassumption|eassumption|eassumption].
  - eapply UsEnd; [eapply same_says; eassumption|eassumption|eassumption].
Qed.

Lemma stream_parts e s forest : parser_reachable e s -> stream_is e s forest -> well_grouped forest ->
  unroll e s = Ok (rev (rev (map bm (modules_of forest)))).
Proof.
  intros HR [n HS] W. apply run_yields in HS as (s' & Y & N). pose proof (grouped_blk _ W) as B.
  pose proof (reach_bounded e s HR _ _ Y) as L. unfold total in L.
  unfold unroll. rewrite (tops_complete _ _ forest [] s s' Y N B) by lia.
  rewrite (proj2 (groups_spec forest [] (rev (map bm (modules_of forest)) ++ finish forest []) I I B)).
  - unfold finish. cbn [obind map]. now rewrite app_nil_r.
  - split; [now apply well_grouped_okay|reflexivity].
Qed.

Lemma same_unroll e s1 s2 : parser_reachable e s1 -> parser_reachable e s2 -> same_runs e s1 s2 -> unroll e s1 = unroll e s2.
Proof.
  intros R1 R2 H. destruct (unroll e s1) as [parts|x|p|] eqn:E.
  - destruct (unroll_ok e s1 parts R1 E) as (forest & S & W & _).
    assert (S2 : stream_is e s2 forest) by exact (same_says e s1 s2 _ _ H S).
    rewrite (stream_parts e s1 forest R1 S W) in E. now rewrite (stream_parts e s2 forest R2 S2 W).
  - symmetry. apply (unroll_stops_complete e s2 _ R2). apply (same_stops e s1 s2 _ H). apply unroll_stops_sound; [exact R1|exact E|discriminate].
  - symmetry. apply (unroll_stops_complete e s2 _ R2). apply (same_stops e s1 s2 _ H). apply unroll_stops_sound; [exact R1|exact E|discriminate].
  - now apply unroll_terminates in E.
Qed.
Lemma same_loaded e host s1 s2 : parser_reachable e s1 -> parser_reachable e s2 -> same_runs e s1 s2 ->
  bitcode_of_stream e host s1 = bitcode_of_stream e host s2.
Proof. intros R1 R2 H. unfold bitcode_of_stream. now rewrite (same_unroll e s1 s2 R1 R2 H). Qed.

(** *** The magic *)

Lemma bits_skip m rest : length m = 4%nat -> skipn 32 (bits_of_bytes (m ++ rest)) = bits_of_bytes rest.
Proof.
  intros L. rewrite bits_of_bytes_app, skipn_app, skipn_all2; rewrite bits_of_bytes_length, ?L; [|lia]. reflexivity.
Qed.
Lemma raw_tail e m1 m2 rest : length m1 = 4%nat -> length m2 = 4%nat ->
  match from_raw (m1 ++ rest), from_raw (m2 ++ rest) with
  | Ok b1, Ok b2 => same_runs e (bs_parser b1) (bs_parser b2)
  | Err x, Err y => x = y
  | _, _ => False
  end.
Proof.
  intros L1 L2. pose proof (from_raw_spec (m1 ++ rest)) as K1. pose proof (from_raw_spec (m2 ++ rest)) as K2.
  rewrite !bits_skip in K1, K2 by assumption.
  replace (length (m2 ++ rest)) with (length (m1 ++ rest)) in K2 by (rewrite !app_length; lia).
  destruct (_ && _).
  - destruct K1 as (c1 & -> & T1), K2 as (c2 & -> & T2). cbn [bs_parser]. intros n.
    transitivity (upto_stop (run e list_ops n (parser_new (bits_of_bytes rest)))).
    + eapply sim_run; [apply cursor_sim|]. split; [exact T1|]. split; reflexivity.
    + symmetry. eapply sim_run; [apply cursor_sim|]. split; [exact T2|]. split; reflexivity.
  - rewrite K1, K2. reflexivity.
Qed.

Lemma four_bytes {A} (m : list A) : length m = 4%nat -> exists a b c d, m = [a; b; c; d].
Proof. destruct m as [|a [|b [|c [|d [|]]]]]; try discriminate. intros _. now exists a, b, c, d. Qed.
Definition magic_of (m : list byte) : N := match m with [a; b; c; d] => word32 a b c d | _ => 0 end.

Lemma load_raw e host m rest : length m = 4%nat -> magic_of m <> BITCODE_WRAPPER_MAGIC ->
  bitcode_of e host (m ++ rest) =
    match from_raw (m ++ rest) with
    | Ok b => bitcode_of_stream e host (bs_parser b)
    | Err x => Err (BcUnroll (UParse x)) | Panic p => Panic p | OutOfFuel => OutOfFuel
    end.
Proof.
  intros L M. destruct (four_bytes m L) as (a & b & c & d & ->). cbn [magic_of] in M. cbn [app].
  unfold bitcode_of. rewrite from_dispatch. apply N.eqb_neq in M. unfold BITCODE_WRAPPER_MAGIC in M. rewrite M.
  destruct (from_raw _); reflexivity.
Qed.
Lemma load_magic e host m1 m2 rest : length m1 = 4%nat -> length m2 = 4%nat ->
  magic_of m1 <> BITCODE_WRAPPER_MAGIC -> magic_of m2 <> BITCODE_WRAPPER_MAGIC ->
  bitcode_of e host (m1 ++ rest) = bitcode_of e host (m2 ++ rest).
Proof.
  intros L1 L2 M1 M2. rewrite !load_raw by assumption. pose proof (raw_tail e m1 m2 rest L1 L2) as K.
  destruct (from_raw (m1 ++ rest)) as [b1| | |] eqn:F1, (from_raw (m2 ++ rest)) as [b2| | |] eqn:F2; try contradiction; [|now subst].
  apply same_loaded; [now apply (from_raw_reachable e (m1 ++ rest))|now apply (from_raw_reachable e (m2 ++ rest))|exact K].
Qed.

(** *** Wrapped files load like their payload *)

Lemma load_wrapped e host w m rest padding : wrapper_ok w -> wr_magic w = BITCODE_WRAPPER_MAGIC -> wr_offset w = 20 ->
  wr_size w = N.of_nat (length (m ++ rest)) -> length m = 4%nat -> magic_of m <> BITCODE_WRAPPER_MAGIC ->
  bitcode_of e host (wrapper_header w ++ (m ++ rest) ++ padding) = bitcode_of e host (m ++ rest).
Proof.
  intros W M OF SZ L NM. rewrite (load_raw e host m rest L NM).
  destruct (wrapper_main e w (m ++ rest) padding W OF SZ) as [_ S].
  unfold bitcode_of. rewrite (wrapper_dispatch e w ((m ++ rest) ++ padding) W M).
  destruct (from_wrapped e (wrapper_header w ++ (m ++ rest) ++ padding)) as [[w' b1]|x|p|] eqn:F1; cbn [payload_result] in S;
    destruct (from_raw (m ++ rest)) as [b2|y|q|] eqn:F2; try contradiction S.
  - cbn. apply same_loaded; [exact (from_wrapped_reachable e _ w' b1 F1)|exact (from_raw_reachable e _ b2 F2)|exact (proj2 S)].
  - cbn in S |- *. now subst.
Qed.

(** *** Something behind the last block *)

Section Behind.
  Variable e : env.
  Notation o := list_ops.
  Notation pstep := (StreamModel.step e o).
  Definition lost (r : outcome serr (option entry)) : outcome serr entry :=
    match r with Err x => Err x | Panic p => Panic p | _ => OutOfFuel end.

  Lemma loop_stops s s' fuel r s2 : emits e s [] s' -> pinv (fun _ => True) s -> pstep s' = (r, s2) -> (forall x, r <> Ok x) ->
    (pmu (@length bool) s < fuel)%nat -> exists s3, advance_loop e o fuel s = (lost r, s3).
  Proof.
    remember [] as l eqn:El. intros H. revert El fuel.
    induction H as [s|s s1 evs0 s' HS H IH|s s1 y evs0 s' HS H IH]; intros El fuel Hsc Hr Hn Hf; [| |discriminate].
    - destruct fuel as [|f]; [lia|]. cbn [advance_loop]. unfold bind. rewrite Hr. exists s2.
      destruct r as [x|x|p|]; [now destruct (Hn x)|reflexivity..].
    - destruct fuel as [|f]; [lia|]. cbn [advance_loop]. unfold bind.
      pose proof (step_nice e o _ _ list_progressive s Hsc) as N1. rewrite HS in *. destruct N1 as [N1 N2].
      apply IH; try assumption. lia.
  Qed.
  Lemma run_then evs : forall s s' r s2, emits e s evs s' -> pinv (fun _ => True) s -> pstep s' = (r, s2) -> (forall x, r <> Ok x) ->
    r <> Err SExhausted -> run e o (S (length evs)) s = map (fun x => Some (Ok x)) evs ++ [Some (lost r)].
  Proof.
    induction evs as [|x evs IH]; intros s s' r s2 H Hs E N NE.
    - cbn [length run map app]. destruct (loop_stops s s' (op_fuel o (p_cur s)) r s2 H Hs E N) as (s3 & L); [unfold pmu; cbn; lia|].
      unfold next, advance. rewrite L. destruct r as [x|x|p|]; [now destruct (N x)| |reflexivity..].
      cbn [lost]. destruct x; try reflexivity. now destruct NE.
    - destruct (next_emits e s x evs s' H Hs) as (s1 & E1 & H1 & Hs1). change (S (length (x :: evs))) with (S (S (length evs))).
      cbn [run map app]. rewrite E1. f_equal. eapply IH; eassumption.
  Qed.

  Lemma short_pres n k : preserves (fun l : list bool => (length l <= k)%nat) (op_read o n).
  Proof.
    intros l H. pose proof (pg_read _ _ _ list_progressive n l I) as K. destruct (op_read o n l) as [[v|x|p|] l']; cbn [snd]; try contradiction; lia.
  Qed.
  Lemma short_align k l : (length l <= k)%nat -> (length (op_align32 o l) <= k)%nat.
  Proof. intros H. pose proof (proj1 (pg_align _ _ _ list_progressive l I)). lia. Qed.

  (** What follows the id of a block in less than 32 bits is no block. *)
  Lemma short_enter s x s' : (length (p_cur s) < 32)%nat -> enter_block e o s <> (Ok x, s').
  Proof.
    intros L H. unfold enter_block in H.
    apply bind_ok in H as (bid & s1 & E1 & H). apply bind_ok in H as (w & s2 & E2 & H). apply bind_ok in H as (u & s3 & E3 & H).
    assert (K : (length (p_cur s3) <= 31)%nat).
    { assert (P : forall n, preserves (fun l : list bool => (length l <= 31)%nat) (op_read o n)) by (intros; apply short_pres).
      assert (A : forall l, (length l <= 31)%nat -> (length (op_align32 o l) <= 31)%nat) by (intros; now apply short_align).
      pose proof (on_cur_pres _ _ (c_vbr_pres e o _ P 8) s) as K1. rewrite E1 in K1.
      pose proof (on_cur_pres _ _ (c_vbr_pres e o _ P 4) s1) as K2. rewrite E2 in K2.
      pose proof (on_cur_pres _ _ (c_align_pres o _ A) s2) as K3. rewrite E3 in K3.
      cbn [snd] in *. apply K3, K2, K1. change (length (p_cur s) <= 31)%nat. lia. }
    destruct (w <? 1); [discriminate H|]. apply bind_ok in H as (n & s4 & E4 & _).
    unfold on_cur, c_read, lift_err in E4. cbn [op_read list_ops] in E4. unfold list_read in E4.
    change ((32 =? 0) || (64 <=? 32)) with false in E4. cbv iota in E4.
    replace (32 <=? N.of_nat (length (p_cur s3))) with false in E4 by lia. destruct (p_cur s3); discriminate E4.
  Qed.

  Lemma word_stops l info : length l = 32%nat -> exists r s2, pstep (mkParser l [ScInitial] info) = (r, s2) /\
    (forall x, r <> Ok x) /\ r <> Err SExhausted /\ r <> OutOfFuel /\ (l = repeat false 32 -> r = Err (SBadScope SfNoBlock)).
  Proof.
    intros L. set (s := mkParser l [ScInitial] info). destruct (pstep s) as [r s2] eqn:E. exists r, s2. split; [reflexivity|].
    assert (X : op_exhausted o l = false) by (destruct l; [discriminate L|reflexivity]).
    split; [|split; [|split]].
    - intros x ->. unfold StreamModel.step in E. change (p_cur s) with l in E. rewrite X in E.
      apply bind_ok in E as (sc & s3 & G & E). unfold get_scope in G. cbn in G. injection G as <- <-.
      apply bind_ok in E as (v & s4 & R & E). change (sc_width ScInitial) with 2 in R.
      unfold on_cur, c_read, lift_err in R. cbn [op_read list_ops p_cur s] in R. unfold list_read in R.
      change ((2 =? 0) || (64 <=? 2)) with false in R. cbv iota in R. replace (2 <=? N.of_nat (length l)) with true in R by lia.
      injection R as RV <-. destruct (abbrev_id_of v).
      + unfold exit_block in E. apply bind_ok in E as (u & s5 & E5 & E). unfold on_cur in E5. cbn in E5. injection E5 as <- <-. discriminate E.
      + revert E. apply short_enter. clear - L. destruct l as [|a [|b l]]; try discriminate L. cbn in L |- *. lia.
      + apply bind_ok in E as (u & s5 & E5 & _). unfold define_abbrev in E5. apply bind_ok in E5 as (a & s6 & E6 & E5).
        unfold on_cur in E6. destruct (abbrev_new _ _ _) as [ra c6]. injection E6 as _ <-.
        apply bind_ok in E5 as (sc & s7 & G & E5). cbn in G. injection G as <- <-. discriminate E5.
      + discriminate E.
      + unfold parse_with_abbrev in E. discriminate E.
    - intros ->. apply step_exhausted in E as [_ E]. change (p_cur s) with l in E. congruence.
    - intros ->. pose proof (step_nice e o _ _ list_progressive s) as K. rewrite E in K. apply K. split; [exact I|discriminate].
    - intros Z. unfold s in E. rewrite Z in E. vm_compute in E. congruence.
  Qed.
End Behind.

Lemma skipn_exact {A} (a b : list A) n : length a = n -> skipn n (a ++ b) = b.
Proof. intros <-. rewrite skipn_app, skipn_all, Nat.sub_diag. reflexivity. Qed.

Lemma written_then e magic l bits suf : write_stream magic l = Some bits -> forallb (item_small (alloc_limit e)) l = true -> length suf = 4%nat ->
  exists s r, from_raw (bytes_of_bits bits ++ suf) = Ok (mkBitstream magic s) /\
    run e cursor_ops (S (length (entries l))) s = map (fun x => Some (Ok x)) (entries l) ++ [Some r] /\
    (forall x, r <> Ok x) /\ r <> OutOfFuel /\ r <> Err SExhausted /\ (suf = repeat Byte.x00 4 -> r = Err (SBadScope SfNoBlock)).
Proof.
  intros H HS LS. destruct (write_stream_inv _ _ _ H) as (x & st' & HW & Hm & -> & Ha).
  set (bits := fixed_bits 32 magic ++ x) in *.
  assert (HB : (length bits mod 32 = 0)%nat).
  { subst bits. rewrite app_length, fixed_bits_length. unfold blen in Ha. lia. }
  assert (HL : (32 <= length bits)%nat) by (subst bits; rewrite app_length, fixed_bits_length; lia).
  destruct (bytes_of_bits_spec bits ltac:(lia)) as [B1 B2].
  pose proof (from_raw_spec (bytes_of_bits bits ++ suf)) as K. rewrite bits_of_bytes_app, B1 in K.
  replace ((N.of_nat (length (bytes_of_bits bits ++ suf)) mod 4 =? 0) && (4 <=? N.of_nat (length (bytes_of_bits bits ++ suf)))) with true in K.
  2:{ rewrite app_length, LS. lia. }
  destruct K as (c' & K & T).
  assert (F1 : firstn 32 (bits ++ bits_of_bytes suf) = fixed_bits 32 magic).
  { subst bits. rewrite <- app_assoc, firstn_app, fixed_bits_length, firstn_all2 by (rewrite fixed_bits_length; lia).
    change (32 - N.to_nat 32)%nat with 0%nat. now rewrite firstn_O, app_nil_r. }
  assert (F2 : skipn 32 (bits ++ bits_of_bytes suf) = x ++ bits_of_bytes suf).
  { subst bits. rewrite <- app_assoc. apply skipn_exact. apply fixed_bits_length. }
  rewrite F1, N_of_fixed in K by exact Hm. rewrite F2 in T.
  assert (LJ : length (bits_of_bytes suf) = 32%nat) by (rewrite bits_of_bytes_length; lia).
  assert (HF : Forall (fun it => item_small (alloc_limit e) it = true -> forall p pos st bits st', place_ok p ->
              write_item it p pos st = Some (bits, st') ->
              reads_back e p pos st bits st' (item_entries (place_info p) it)) l).
  { clear. induction l; constructor; auto. apply item_reads. }
  destruct (items_read e l AtTop HF HS I _ _ _ _ HW (bits_of_bytes suf) [] []) as (info' & HI & Em).
  { intros b. reflexivity. }
  { unfold blen in *. rewrite LJ. lia. }
  cbn [st_scope] in Em. destruct (word_stops e (bits_of_bytes suf) info' LJ) as (r & s2 & E & N1 & N2 & N3 & N4).
  exists (parser_new c'), (lost r). split; [exact K|].
  assert (NL : forall x0, lost r <> Ok x0) by (intros; destruct r; discriminate).
  split; [|split; [exact NL|split; [|split]]].
  - pose proof (run_then e (entries l) (parser_new (x ++ bits_of_bytes suf)) _ r s2 Em) as R. specialize (R ltac:(split; [exact I|discriminate]) E N1 N2).
    rewrite <- R. apply upto_stop_full; [|now rewrite !run_length|].
    + symmetry. eapply sim_run; [apply cursor_sim|]. split; [exact T|]. split; reflexivity.
    + rewrite R. apply upto_stop_oks.
  - destruct r as [y|y|p|]; [now destruct (N1 y)|discriminate|discriminate|now destruct N3].
  - destruct r as [y|y|p|]; cbn; congruence.
  - intros Z. rewrite N4; [reflexivity|]. now rewrite Z.
Qed.

Lemma says_end e s l l' r : says e s l None -> says e s l' (Some r) -> (forall x, r <> Ok x) -> False.
Proof.
  intros [n1 H1] [n2 H2] N.
  destruct (run_stop_unique e s n1 n2 l l' None (Some r) H1 H2) as [_ K]; [discriminate|intros x [= ->]; now apply (N x)|discriminate].
Qed.

Lemma written_start magic l bits : write_stream magic l = Some bits ->
  exists m rest, bytes_of_bits bits = m ++ rest /\ length m = 4%nat /\ magic_of m = magic.
Proof.
  intros H. destruct (write_stream_inv _ _ _ H) as (x & st' & _ & Hm & E & Ha).
  assert (HB : (length bits mod 32 = 0)%nat /\ (32 <= length bits)%nat).
  { subst bits. rewrite app_length, fixed_bits_length. unfold blen in Ha. lia. }
  destruct (bytes_of_bits_spec bits ltac:(lia)) as [B1 B2].
  destruct (bytes_of_bits bits) as [|a [|b [|c [|d rest]]]] eqn:EB; try (cbn [length] in B2; lia).
  exists [a; b; c; d], rest. split; [reflexivity|]. split; [reflexivity|]. cbn [magic_of].
  assert (N.of_nat (length (a :: b :: c :: d :: rest)) mod 4 = 0) as M4 by lia.
  destruct (proj2 (proj2 (from_raw_cases (a :: b :: c :: d :: rest))) a b c d rest eq_refl M4) as (s & F & _).
  pose proof (from_raw_spec (a :: b :: c :: d :: rest)) as K. rewrite B1 in K.
  replace ((N.of_nat (length (a :: b :: c :: d :: rest)) mod 4 =? 0) && (4 <=? N.of_nat (length (a :: b :: c :: d :: rest)))) with true in K
    by (cbn [length] in *; lia).
  destruct K as (c' & K & _). rewrite K in F. injection F as F _.
  transitivity (N_of_bits (firstn 32 bits)); [symmetry; exact F|]. rewrite E, firstn_app, fixed_bits_length, firstn_all2 by (rewrite fixed_bits_length; lia).
  change (32 - N.to_nat 32)%nat with 0%nat. now rewrite firstn_O, app_nil_r, N_of_fixed.
Qed.

Lemma written_then_fails e host magic l bits suf ms : write_stream magic l = Some bits -> forallb (item_small (alloc_limit e)) l = true ->
  magic <> BITCODE_WRAPPER_MAGIC -> (1 <= length suf <= 7)%nat -> bitcode_of e host (bytes_of_bits bits ++ suf) <> Ok ms.
Proof.
  intros H HS M L B. destruct (written_start magic l bits H) as (m & rest & E & L4 & MM).
  rewrite E, <- app_assoc, load_raw in B by congruence. rewrite app_assoc, <- E in B.
  destruct (Nat.eq_dec (length suf) 4) as [L4'|NL].
  - destruct (written_then e magic l bits suf H HS L4') as (s & r & F & R & NO & _). rewrite F in B. cbn [bs_parser] in B.
    unfold bitcode_of_stream in B. destruct (unroll e s) as [parts|x|p|] eqn:U; try discriminate B.
    destruct (unroll_ok e s parts (from_raw_reachable e _ _ F) U) as (forest & S & _).
    eapply says_end; [exact S|eexists; exact R|exact NO].
  - pose proof (proj1 (from_raw_cases (bytes_of_bits bits ++ suf))) as K.
    assert (LB : (length (bytes_of_bits bits) mod 4 = 0)%nat).
    { destruct (write_stream_inv _ _ _ H) as (x & st' & _ & Hm & EE & Ha).
      assert (HB : (length bits mod 32 = 0)%nat) by (subst bits; rewrite app_length, fixed_bits_length; unfold blen in Ha; lia).
      destruct (bytes_of_bits_spec bits ltac:(lia)) as [_ B2]. lia. }
    rewrite (proj2 K) in B; [discriminate B|]. rewrite app_length. lia.
Qed.
