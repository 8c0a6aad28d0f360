(** Abbreviations: faithful decoding, accepted shapes, char6; meaning of streams. *)
From Verif Require Import Base CursorModel CursorSpec CursorHist CursorProofs CursorSim CursorVbr CursorMain
  StreamModel StreamSpec StreamHist StreamProofs StreamPres StreamEffect StreamRound StreamMain StreamEnd.
From Coq Require Import Lia ZifyBool ZifyNat ZifyN.
Ltac Zify.zify_post_hook ::= Z.div_mod_to_equations.
Local Open Scope N_scope.
Arguments N.add : simpl never.
Arguments N.mul : simpl never.
Arguments N.div : simpl never.
Arguments N.modulo : simpl never.
Arguments N.sub : simpl never.
Arguments N.pow : simpl never.

(** Operations without alignment: enough for [abbrev_new], and simulated at every
    position. *)
Definition cursor_na : cops cursor := mkCops cursor read (fun c => c) exhausted (op_fuel cursor_ops).
Definition list_na : cops (list bool) := mkCops (list bool) list_read (fun l => l) list_exhausted (op_fuel list_ops).
Lemma na_sim buf len : ops_sim (tracks buf len) cursor_na list_na.
Proof.
  split; [split| |].
  - exact (rs_read _ _ _ (cursor_read_sim buf len)).
  - exact (rs_fuel _ _ _ (cursor_read_sim buf len)).
  - auto.
  - intros c l (I & HB & HL & HR). cbn [op_exhausted cursor_na list_na]. pose proof (rem_len_N c I) as L. rewrite HR in L.
    destruct I as [I1 I2]. pose proof (inv_pos c I1). pose proof (inv_idx c I1). unfold exhausted, bit_len, tell_bit in *.
    destruct l; cbn [length list_exhausted] in *; lia.
Qed.

Lemma abbrev_new_na e c : abbrev_new e cursor_ops c = abbrev_new e cursor_na c.
Proof. reflexivity. Qed.
Lemma abbrev_new_list_na e l : abbrev_new e list_ops l = abbrev_new e list_na l.
Proof. reflexivity. Qed.

(** C25: decoding an encoded definition. *)
Lemma define_main e c a bits rest : reachable e c -> def_bits a = Some bits ->
  skipn (N.to_nat (tell_bit c)) (content c) = bits ++ rest ->
  exists c', abbrev_new e cursor_ops c = (Ok a, c') /\
    tell_bit c' = tell_bit c + N.of_nat (length bits) /\ content c' = content c.
Proof.
  intros HR H HB. pose proof (reachable_inv _ _ HR) as I.
  pose proof (abbrev_new_sim _ _ _ (na_sim (inner c) (byte_len c)) e c _ (tracks_self c I)) as K.
  rewrite rem_content, HB in K. rewrite <- abbrev_new_list_na, (rd_define e a bits rest H), <- abbrev_new_na in K.
  apply sim_ok in K. destruct K as (c' & K & T). exists c'. split; [exact K|].
  eapply tracks_end; [exact HR| |exact T]. rewrite rem_content. exact HB.
Qed.

(** C25: accepted shapes. *)
Definition plain_op (op : abbrev_op) : bool := match op with OpLiteral _ => true | _ => is_scalar op end.
Lemma shaped_snoc a op : forallb plain_op a = true ->
  match op with OpArray el => is_scalar el = true | _ => True end -> shaped (a ++ [op]) = true.
Proof.
  intros H K. unfold shaped. rewrite app_length. cbn [length].
  replace (negb (length a + 1 =? 0)%nat) with true by lia. cbn [andb].
  induction a as [|x a IH]; cbn [app forallb] in *.
  - destruct op; cbn; auto.
  - apply andb_true_iff in H. destruct H as [Hx H]. specialize (IH H).
    destruct x; try discriminate; cbn [ops_shaped is_scalar andb]; exact IH.
Qed.
Lemma shaped_plain a : a <> [] -> forallb plain_op a = true -> shaped a = true.
Proof.
  intros H K. destruct (@exists_last _ a H) as (a' & x & ->). rewrite forallb_app in K. apply andb_true_iff in K.
  destruct K as [K1 K2]. apply shaped_snoc; [exact K1|]. destruct x; auto. discriminate.
Qed.

Section Shape.
  Context {C : Type} (e : env) (o : cops C).

  (** Postcondition on values. *)
  Definition yields {St A} (m : M St serr A) (Q : A -> Prop) : Prop :=
    forall s a s', m s = (Ok a, s') -> Q a.
  Lemma yields_bind {St A B} (m : M St serr A) (k : A -> M St serr B) P Q :
    yields m P -> (forall a, P a -> yields (k a) Q) -> yields (bind m k) Q.
  Proof.
    intros H1 H2 s b s' H. unfold bind in H. destruct (m s) as [[a|x|p|] s1] eqn:E; try discriminate.
    exact (H2 a (H1 _ _ _ E) _ _ _ H).
  Qed.
  Lemma yields_any {St A} (m : M St serr A) : yields m (fun _ => True).
  Proof. intros s a s' _. exact I. Qed.
  Lemma yields_ret {St A} (a : A) (Q : A -> Prop) : Q a -> yields (St := St) (ret a) Q.
  Proof. intros H s b s' [= <- <-]. exact H. Qed.
  Lemma yields_fail {St A} x (Q : A -> Prop) : yields (St := St) (fail x) Q.
  Proof. intros s b s' H. discriminate. Qed.
  Lemma yields_crash {St A} x (Q : A -> Prop) : yields (St := St) (crash x) Q.
  Proof. intros s b s' H. discriminate. Qed.
  Hint Resolve yields_any yields_fail yields_crash : yields.
  Ltac bnd := eapply yields_bind; [apply yields_any|intros ? _].

  Lemma array_elem_scalar : yields (array_elem e o) (fun x => is_scalar x = true).
  Proof.
    unfold array_elem. bnd. bnd. destruct a0; try apply yields_fail; try bnd; apply yields_ret; reflexivity.
  Qed.

  Lemma abbrev_loop_shaped f num idx acc : 1 <= num ->
    N.of_nat (length acc) = idx ->
    forallb plain_op acc = true \/ (num <= idx /\ shaped acc = true) ->
    yields (abbrev_loop e o f num idx acc) (fun a => shaped a = true).
  Proof.
    intros Hn. revert idx acc. induction f as [|f IH]; intros idx acc HL HP; cbn [abbrev_loop]; [intros ? ? ? H; discriminate|].
    destruct (num <=? idx) eqn:E.
    { apply yields_ret. destruct HP as [HP|[_ HP]]; [|exact HP]. apply shaped_plain; [|exact HP].
      intros ->. cbn in HL. lia. }
    destruct HP as [HP|[HP _]]; [|lia].
    assert (S1 : forall op, N.of_nat (length (acc ++ [op])) = idx + 1) by (intros; rewrite app_length; cbn [length]; lia).
    assert (S2 : forall op, plain_op op = true -> forallb plain_op (acc ++ [op]) = true).
    { intros op H. rewrite forallb_app, HP. cbn. now rewrite H. }
    bnd. destruct (_ =? 1); [bnd; apply IH; [apply S1|left; now apply S2]|].
    bnd. destruct a0.
    - bnd. apply IH; [apply S1|left; now apply S2].
    - bnd. apply IH; [apply S1|left; now apply S2].
    - destruct (_ && _); [apply yields_crash|]. destruct (negb _); [apply yields_fail|].
      eapply yields_bind; [apply array_elem_scalar|]. intros el Hel. apply yields_ret. now apply shaped_snoc.
    - apply IH; [apply S1|left; now apply S2].
    - destruct (negb _) eqn:EB; [apply yields_fail|]. apply IH; [apply S1|]. right. split; [lia|]. now apply shaped_snoc.
  Qed.
  Lemma abbrev_new_shaped : yields (abbrev_new e o) (fun a => shaped a = true).
  Proof.
    unfold abbrev_new. bnd. destruct (_ <? _) eqn:E; [apply yields_fail|].
    intros c b c' H. eapply abbrev_loop_shaped; [| | |exact H]; [lia|reflexivity|left; reflexivity].
  Qed.

  (** Every abbreviation held by a parser is shaped. *)
  Definition scope_shaped (sc : scope) : Prop :=
    match sc with ScInitial => True | ScBlock _ _ _ l => Forall (fun a => shaped a = true) l end.
  Definition stored_ok (s : sparser C) : Prop :=
    Forall scope_shaped (p_scopes s) /\ Forall (fun kv => Forall (fun a => shaped a = true) (snd kv)) (p_info s).

  Lemma stored_on_cur {A} (m : M C serr A) : preserves stored_ok (on_cur m).
  Proof. intros s H. unfold on_cur. destruct (m (p_cur s)). exact H. Qed.
  Lemma stored_get_scope : preserves (E := serr) stored_ok get_scope.
  Proof. intros s H. unfold get_scope. destruct (p_scopes s); exact H. Qed.
  Hint Resolve stored_on_cur stored_get_scope preserves_ret preserves_fail preserves_crash : st.
  Ltac pbnd := apply preserves_bind; [auto with st|intros ?].
  Lemma stored_extend l : Forall (fun a => shaped a = true) l -> preserves stored_ok (extend_scope (C := C) l).
  Proof.
    intros Hl s H. unfold extend_scope, bind, get_scope. destruct (p_scopes s) as [|sc rest] eqn:E; [exact H|].
    destruct sc as [|w b i a]; [exact H|]. cbn [sc_extend]. unfold set_scope. rewrite E. cbn [snd].
    destruct H as [H1 H2]. rewrite E in H1. inversion H1; subst. split; [|exact H2].
    cbn [p_scopes]. constructor; [|assumption]. cbn. apply Forall_app. auto.
  Qed.
  Lemma info_get_shaped info k l : Forall (fun kv => Forall (fun a => shaped a = true) (snd kv)) info ->
    info_get info k = Some l -> Forall (fun a => shaped a = true) l.
  Proof.
    intros H. induction H as [|[k' v] m Hv H IH]; cbn [info_get]; [discriminate|].
    destruct (_ =? _); [intros [= <-]; exact Hv|exact IH].
  Qed.
  Lemma info_push_shaped info k a : Forall (fun kv => Forall (fun a => shaped a = true) (snd kv)) info ->
    shaped a = true -> Forall (fun kv => Forall (fun a => shaped a = true) (snd kv)) (info_push info k a).
  Proof.
    intros H Ha. induction H as [|[k' v] m Hv H IH]; cbn [info_push].
    - repeat constructor. exact Ha.
    - destruct (_ =? _); constructor; auto. cbn [snd] in *. apply Forall_app. auto.
  Qed.
  Lemma stored_set sc : scope_shaped sc -> preserves stored_ok (set_scope (C := C) sc).
  Proof.
    intros Hs s H. unfold set_scope. destruct (p_scopes s) as [|x rest] eqn:E; [exact H|]. cbn [snd].
    destruct H as [H1 H2]. rewrite E in H1. inversion H1; subst. split; [|exact H2]. constructor; assumption.
  Qed.

  Lemma stored_body v : preserves stored_ok (body e o v).
  Proof.
    unfold body. destruct (abbrev_id_of v).
    - unfold exit_block. pbnd. intros s [H1 H2]. destruct (p_scopes s) as [|sc [|sc2 rest]] eqn:E; cbn [snd];
        [split; [rewrite E; constructor|exact H2]|split; [rewrite E; assumption|exact H2]|].
      inversion H1; subst. split; assumption.
    - unfold enter_block. pbnd. pbnd. pbnd. destruct (_ <? _); [auto with st|]. pbnd.
      apply preserves_bind. { intros s [H1 H2]. split; [|exact H2]. cbn. constructor; [constructor|exact H1]. }
      intros ?. apply preserves_bind; [|intros ?; pbnd; destruct (sc_is_blockinfo _); auto with st].
      intros s H. destruct (info_get (p_info s) a) eqn:E; [|exact H].
      apply stored_extend; [|exact H]. eapply info_get_shaped; [apply H|exact E].
    - intros s H. assert (K : preserves stored_ok (define_abbrev e o)).
      2:{ specialize (K s H). unfold bind. destruct (define_abbrev e o s) as [[] s']; exact K. }
      clear s H. intros s H. unfold define_abbrev. unfold bind at 1.
      pose proof (stored_on_cur (abbrev_new e o) s H) as K1.
      destruct (on_cur (abbrev_new e o) s) as [[a|x|p|] s1] eqn:E1; try exact K1. cbn [snd] in K1.
      assert (Ha : shaped a = true).
      { unfold on_cur in E1. destruct (abbrev_new e o (p_cur s)) as [r c1] eqn:E2. injection E1 as -> <-.
        exact (abbrev_new_shaped _ _ _ E2). }
      unfold bind, get_scope. destruct (p_scopes s1) as [|sc rest] eqn:E3; [exact K1|].
      destruct (sc_is_blockinfo sc).
      + destruct (sc_blockinfo_bid sc); [|exact K1]. destruct K1 as [K1 K2]. split; [exact K1|]. cbn. now apply info_push_shaped.
      + apply stored_extend; [|exact K1]. constructor; auto.
    - unfold parse_unabbrev. pbnd. destruct a; [auto with st|]. pbnd. pbnd.
      apply preserves_bind; [intros s H; unfold with_capacity; destruct (_ <=? _); exact H|]. intros ?. pbnd.
      intros s H. unfold bind at 1, get_scope. destruct (p_scopes s) as [|sc rest] eqn:E; [exact H|].
      destruct (sc_is_blockinfo sc); [|exact H]. destruct (blockinfo_code_of _) as [[]|]; try exact H.
      match goal with |- context [match ?l with [] => _ | _ :: _ => _ end] => destruct l end; [exact H|].
      destruct sc as [|w b i l]; [exact H|]. cbn [sc_set_bid]. unfold bind.
      assert (HS : stored_ok (snd (set_scope (ScBlock w b (Some n) l) s))).
      { apply stored_set; [|exact H]. destruct H as [H _]. rewrite E in H. inversion H; subst. assumption. }
      destruct (set_scope _ s) as [[] s']; exact HS.
    - unfold parse_with_abbrev. pbnd. apply preserves_bind.
      { unfold get_abbrev. destruct a; [auto with st|]. destruct (_ <? _); [auto with st|]. destruct (nth_error _ _); auto with st. }
      intros ?. pbnd. match goal with |- context [match ?l with [] => _ | _ :: _ => _ end] => destruct l end; [auto with st|].
      pbnd. destruct (sc_is_blockinfo _); auto with st.
  Qed.
  Lemma stored_step : preserves stored_ok (step e o).
  Proof.
    intros s H. unfold step. destruct (op_exhausted _ _); [exact H|].
    enough (preserves stored_ok (bind get_scope (fun sc => bind (on_cur (c_read o (sc_width sc))) (body e o)))) as X by exact (X s H).
    pbnd. pbnd. apply stored_body.
  Qed.
  Lemma stored_advance_loop f : preserves stored_ok (advance_loop e o f).
  Proof.
    induction f as [|f IH]; cbn [advance_loop]; [intros s H; exact H|].
    apply preserves_bind; [apply stored_step|]. intros [x|]; auto with st.
  Qed.
  Lemma stored_next s : stored_ok s -> stored_ok (snd (next e o s)).
  Proof.
    intros H. pose proof (stored_advance_loop (op_fuel o (p_cur s)) s H) as K. unfold next, advance.
    destruct (advance_loop _ _ _ s) as [[?|[]|?|] s']; exact K.
  Qed.
End Shape.

Lemma reachable_shaped e s : parser_reachable e s ->
  forall w b i l a, In (ScBlock w b i l) (p_scopes s) -> In a l -> shaped a = true.
Proof.
  intros H. assert (K : stored_ok s).
  { induction H; [split; repeat constructor|now apply stored_next]. }
  intros w b i l a H1 H2. destruct K as [K _]. rewrite Forall_forall in K. specialize (K _ H1). cbn in K.
  rewrite Forall_forall in K. auto.
Qed.

(** C26 *)
Lemma char6_main e c rest i : reachable e c -> i < 64 ->
  skipn (N.to_nat (tell_bit c)) (content c) = fixed_bits 6 i ++ rest ->
  exists x c', op_parse e cursor_ops OpChar6 c = (Ok [x], c') /\ tell_bit c' = tell_bit c + 6 /\ char6_code x = Some i.
Proof.
  intros HR Hi HB. pose proof (reachable_inv _ _ HR) as I.
  assert (X : exists x, char6_code x = Some i).
  { assert (K : forallb (fun n => match nth_error char6_alphabet n with Some x => match char6_code x with Some j => j =? N.of_nat n | None => false end | None => false end) (seq 0 64) = true) by (vm_compute; reflexivity).
    rewrite forallb_forall in K. specialize (K (N.to_nat i)). rewrite in_seq in K. specialize (K ltac:(lia)).
    destruct (nth_error _ _) as [x|]; [|discriminate]. exists x. destruct (char6_code x) as [j|]; [|discriminate]. f_equal. lia. }
  destruct X as [x X]. exists x.
  pose proof (op_parse_sim _ _ _ (na_sim (inner c) (byte_len c)) e OpChar6 c _ (tracks_self c I)) as K.
  rewrite rem_content, HB in K. change (op_parse e list_na OpChar6) with (op_parse e list_ops OpChar6) in K.
  rewrite (rd_scalar e OpChar6 x (fixed_bits 6 i) rest) in K by (cbn [scalar_bits]; now rewrite X).
  apply sim_ok in K. destruct K as (c' & K & T). exists c'. split; [exact K|].
  destruct (tracks_end e c c' (fixed_bits 6 i) rest HR) as [T1 _]; [rewrite rem_content; exact HB|exact T|].
  split; [|exact X]. rewrite T1, fixed_bits_length. reflexivity.
Qed.

(** C23: entries without encoding details are determined by the meaning. *)
Fixpoint node_entries (n : node) : list entry :=
  match n with
  | NRecord code fields => [ERecord None code fields]
  | NBlock bid body => ESubBlock bid 0 :: flat_map node_entries body ++ [EEndBlock]
  end.

Lemma flat_map_flat_map {A B D} (f : A -> list B) (g : B -> list D) l :
  flat_map g (flat_map f l) = flat_map (fun x => flat_map g (f x)) l.
Proof. induction l as [|x l IH]; [reflexivity|]. cbn [flat_map]. now rewrite flat_map_app, IH. Qed.
Lemma map_flat_map {A B D} (f : A -> list B) (g : B -> D) l :
  map g (flat_map f l) = flat_map (fun x => map g (f x)) l.
Proof. induction l as [|x l IH]; [reflexivity|]. cbn [flat_map]. now rewrite map_app, IH. Qed.

Lemma item_bare it : forall i, map bare (item_entries i it) = flat_map node_entries (nodes_of i it).
Proof.
  induction it as [a|code fields|id code fields|bid w words body IH] using item_ind2; intros i; cbn [item_entries nodes_of].
  - reflexivity.
  - destruct i; reflexivity.
  - destruct i; reflexivity.
  - assert (K : forall i, map bare (flat_map (item_entries i) body) = flat_map node_entries (flat_map (nodes_of i) body)).
    { intros j. rewrite map_flat_map, flat_map_flat_map.
      induction IH as [|x l Hx Hl IHl]; [reflexivity|]. cbn [flat_map]. now rewrite Hx, IHl. }
    destruct (bid =? 0); [apply K|]. cbn [map bare flat_map node_entries]. rewrite map_app, K, app_nil_r. reflexivity.
Qed.
Lemma entries_bare l : map bare (entries l) = flat_map node_entries (meaning l).
Proof.
  unfold entries, meaning. rewrite map_flat_map, flat_map_flat_map. apply flat_map_ext. intros it. apply item_bare.
Qed.

Lemma meaning_main e magic l1 l2 bits1 bits2 :
  write_stream magic l1 = Some bits1 -> write_stream magic l2 = Some bits2 ->
  forallb (item_small (alloc_limit e)) l1 = true -> forallb (item_small (alloc_limit e)) l2 = true ->
  meaning l1 = meaning l2 ->
  exists s1 s2, from_raw (bytes_of_bits bits1) = Ok (mkBitstream magic s1) /\
    from_raw (bytes_of_bits bits2) = Ok (mkBitstream magic s2) /\
    forall n, map bare_result (run e cursor_ops n s1) = map bare_result (run e cursor_ops n s2).
Proof.
  intros W1 W2 S1 S2 HM. destruct (written_raw e magic l1 bits1 W1 S1) as (s1 & F1 & R1).
  destruct (written_raw e magic l2 bits2 W2 S2) as (s2 & F2 & R2). exists s1, s2. split; [exact F1|]. split; [exact F2|].
  assert (HB : map bare (entries l1) = map bare (entries l2)) by (rewrite !entries_bare, HM; reflexivity).
  assert (HL : length (entries l1) = length (entries l2)) by (rewrite <- (map_length bare (entries l1)), HB; apply map_length).
  assert (FR : forall n s, run e cursor_ops n s = firstn n (run e cursor_ops (length (entries l1) + n) s)).
  { intros n s. generalize (length (entries l1)). intros m. rewrite Nat.add_comm. revert s. induction n as [|n IH]; intros s; [reflexivity|].
    cbn [Nat.add run]. destruct (next e cursor_ops s) as [r s']. cbn [firstn]. now rewrite <- IH. }
  intros n. rewrite (FR n s1), (FR n s2), R1, HL, R2, <- !firstn_map, !map_app, !map_map. cbn [bare_result].
  do 2 f_equal. rewrite <- !(map_map bare (fun x => Some (Ok x))), HB. reflexivity.
Qed.
