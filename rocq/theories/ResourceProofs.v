(** Exactly when the unrolling overflows a bounded stack. *)
From Verif Require Import Base Strings EnumModel CursorModel StreamModel StreamSpec StreamHist StreamMain StreamEnd
  StreamRound UnrollModel UnrollSpec UnrollProofs UnrollMain UnrollApi UnrollStopSpec UnrollStops CursorSpec CursorProofs ResourceModel ResourceSpec.
From Coq Require Import Lia ZifyBool ZifyNat ZifyN.
Local Open Scope N_scope.

Lemma sbind_none {E A B} (m : option (outcome E A)) (k : A -> option (outcome E B)) :
  sbind m k = None <-> m = None \/ exists a, m = Some (Ok a) /\ k a = None.
Proof.
  destruct m as [[a|x|p|]|]; cbn; split; try discriminate; auto.
  - intros H. right. now exists a.
  - intros [[=]|(b & [= ->] & H)]. exact H.
  - intros [[=]|(b & [=] & H)].
  - intros [[=]|(b & [=] & H)].
  - intros [[=]|(b & [=] & H)].
Qed.
Section Stack.
  Context {S : Type} (nxt : S -> option (outcome serr entry) * S).

  Lemma enter_in_enter f room b s o : enter_in nxt f room b s = Some o -> enter nxt f b s = o.
  Proof.
    revert room b s o. induction f as [|f IH]; intros room b s o H; [now injection H|]. cbn [enter_in enter] in *.
    destruct (nxt s) as [[r|] s1]; [|now injection H].
    destruct r as [[|bid len|a c fs]|x|p|]; cbn [omap_err obind sbind] in *; try (now injection H).
    - destruct room as [|room]; [discriminate H|].
      destruct (enter_in nxt f room (block_new bid) s1) as [o1|] eqn:E; [|discriminate H]. apply IH in E. rewrite E.
      destruct o1 as [[child s2]|x|p|]; cbn [sbind obind] in *; [|now injection H..]. eapply IH, H.
    - eapply IH, H.
  Qed.
  Lemma tops_in_tops f room rp s o : tops_in nxt f room rp s = Some o -> tops nxt f rp s = o.
  Proof.
    revert rp s o. induction f as [|f IH]; intros rp s o H; [now injection H|]. cbn [tops_in tops] in *.
    destruct (nxt s) as [[r|] s1]; [|now injection H].
    destruct r as [[|bid len|a c fs]|x|p|]; cbn [omap_err obind sbind] in *; try (now injection H).
    destruct room as [|room]; [discriminate H|].
    destruct (enter_in nxt f room (block_new bid) s1) as [o1|] eqn:E; [|discriminate H]. apply enter_in_enter in E. rewrite E.
    destruct o1 as [[child s2]|x|p|]; cbn [sbind obind] in *; [|now injection H..].
    destruct (group child rp) as [rp'|x|p|]; cbn [sbind obind] in *; [|now injection H..]. eapply IH, H.
  Qed.

  (** An overflow comes behind the opening of one block too many. *)
  Lemma enter_in_none f room b s : enter_in nxt f room b s = None ->
    exists body l s', yields nxt s (flat_map flat body ++ l) s' /\ nested (Datatypes.S room) l.
  Proof.
    revert room b s. induction f as [|f IH]; intros room b s H; [discriminate H|]. cbn [enter_in] in H.
    destruct (nxt s) as [[r|] s1] eqn:E; [|discriminate H].
    destruct r as [[|bid len|a c fs]|x|p|]; cbn [omap_err sbind] in H; try discriminate H.
    - apply sbind_none in H as [H|([child s2] & H & K)].
      + destruct room as [|room].
        * exists [], (ESubBlock bid len :: flat_map flat []), s1. split; [now exists s1|constructor].
        * apply IH in H as (body & l & s' & Y & N). exists [], (ESubBlock bid len :: flat_map flat body ++ l), s'.
          split; [now exists s1|now constructor].
      + destruct room as [|room]; [discriminate H|]. apply enter_in_enter, enter_sound in H as (cbody & Y1 & _).
        apply IH in K as (body & l & s' & Y & N). exists (TBlk bid len cbody :: body), l, s'. split; [|exact N].
        cbn [flat_map flat app yields]. exists s1. split; [exact E|]. rewrite <- app_assoc. apply yields_app. now exists s2.
    - apply IH in H as (body & l & s' & Y & N). exists (TRec a c fs :: body), l, s'. split; [|exact N]. now exists s1.
  Qed.
  Lemma tops_in_none f room rp s : tops_in nxt f room rp s = None ->
    exists forest rp' l s', yields nxt s (flat_map flat forest ++ l) s' /\ Forall is_blk forest /\
      groups (map build forest) rp = Ok rp' /\ nested (Datatypes.S room) l.
  Proof.
    revert rp s. induction f as [|f IH]; intros rp s H; [discriminate H|]. cbn [tops_in] in H.
    destruct (nxt s) as [[r|] s1] eqn:E; [|discriminate H].
    destruct r as [[|bid len|a c fs]|x|p|]; cbn [omap_err sbind] in H; try discriminate H.
    apply sbind_none in H as [H|([top s2] & H & K)].
    - destruct room as [|room].
      + exists [], rp, (ESubBlock bid len :: flat_map flat []), s1. split; [now exists s1|]. repeat split; constructor.
      + apply enter_in_none in H as (body & l & s' & Y & N). exists [], rp, (ESubBlock bid len :: flat_map flat body ++ l), s'.
        split; [now exists s1|]. split; [constructor|]. split; [reflexivity|now constructor].
    - destruct room as [|room]; [discriminate H|]. apply enter_in_enter, enter_sound in H as (cbody & Y1 & ->).
      destruct (group _ rp) as [rp1|x|p|] eqn:G; cbn [sbind] in K; try discriminate K.
      apply IH in K as (forest & rp' & l & s' & Y & B & GS & N). exists (TBlk bid len cbody :: forest), rp', l, s'.
      split; [|split; [constructor; [exact I|exact B]|split; [|exact N]]].
      + cbn [flat_map flat app yields]. exists s1. split; [exact E|]. rewrite <- app_assoc. apply yields_app. now exists s2.
      + cbn [map groups]. rewrite build_blk, G. exact GS.
  Qed.

  Lemma enter_ends f : forall body b s s', yields nxt s (flat_map flat body ++ [EEndBlock]) s' ->
    enter nxt f b s = OutOfFuel \/ enter nxt f b s = Ok (fold_left step body b, s').
  Proof.
    induction f as [|f IH]; intros body b s s' Y; [now left|]. cbn [enter].
    destruct body as [|[a c fs|bid len cbody] body].
    - cbn in Y. destruct Y as (s1 & E & ->). rewrite E. now right.
    - cbn [flat_map flat app yields] in Y. destruct Y as (s1 & E & Y). rewrite E. cbn [omap_err obind]. exact (IH _ _ _ _ Y).
    - cbn [flat_map flat app yields] in Y. destruct Y as (s1 & E & Y). rewrite E. cbn [omap_err obind].
      rewrite <- app_assoc in Y. apply yields_app in Y as (s2 & Y1 & Y2).
      destruct (IH cbody (block_new bid) s1 s2 Y1) as [K|K]; rewrite K; cbn [obind]; [now left|]. rewrite <- build_blk with (len := len). exact (IH _ _ _ _ Y2).
  Qed.

  (** Behind the opening of one block too many there is an overflow. *)
  Lemma enter_in_deep f : forall room b s o body l s', enter_in nxt f room b s = Some o ->
    yields nxt s (flat_map flat body ++ l) s' -> nested (Datatypes.S room) l -> o = OutOfFuel.
  Proof.
    induction f as [|f IH]; intros room b s o body l s' H Y N; [now injection H|]. cbn [enter_in] in H.
    destruct body as [|[a c fs|bid len cbody] body].
    - inversion N as [bid len body Hn Hl|n bid len body l' N' Hn Hl]; subst; cbn [flat_map app yields] in Y;
        destruct Y as (s1 & E & Y); rewrite E in H; cbn [omap_err sbind] in H.
      + discriminate H.
      + destruct room as [|room]; [inversion N'|].
        destruct (enter_in nxt f room (block_new bid) s1) as [o1|] eqn:E1; [|discriminate H].
        rewrite (IH _ _ _ _ _ _ _ E1 Y N') in H. now injection H.
    - cbn [flat_map flat app yields] in Y. destruct Y as (s1 & E & Y). rewrite E in H. cbn [omap_err sbind] in H.
      exact (IH _ _ _ _ _ _ _ H Y N).
    - cbn [flat_map flat app yields] in Y. destruct Y as (s1 & E & Y). rewrite E in H. cbn [omap_err sbind] in H.
      destruct room as [|room]; [discriminate H|].
      rewrite <- app_assoc in Y. apply yields_app in Y as (s2 & Y1 & Y2).
      destruct (enter_in nxt f room (block_new bid) s1) as [o1|] eqn:E1; [|discriminate H]. apply enter_in_enter in E1.
      destruct (enter_ends f cbody (block_new bid) s1 s2 Y1) as [K|K]; rewrite K in E1; subst o1; cbn [sbind] in H.
      + now injection H.
      + exact (IH _ _ _ _ _ _ _ H Y2 N).
  Qed.
  Lemma tops_in_deep f : forall room rp rp' s o forest l s', tops_in nxt f room rp s = Some o ->
    yields nxt s (flat_map flat forest ++ l) s' -> Forall is_blk forest -> groups (map build forest) rp = Ok rp' ->
    nested (Datatypes.S room) l -> o = OutOfFuel.
  Proof.
    induction f as [|f IH]; intros room rp rp' s o forest l s' H Y B G N; [now injection H|].
    cbn [tops_in] in H.
    destruct forest as [|[a c fs|bid len cbody] forest].
    - inversion N as [bid len body Hn Hl|n bid len body l' N' Hn Hl]; subst; cbn [flat_map app yields] in Y;
        destruct Y as (s1 & E & Y); rewrite E in H; cbn [omap_err sbind] in H.
      + discriminate H.
      + destruct room as [|room]; [inversion N'|].
        destruct (enter_in nxt f room (block_new bid) s1) as [o1|] eqn:E1; [|discriminate H].
        rewrite (enter_in_deep _ _ _ _ _ _ _ _ E1 Y N') in H. now injection H.
    - inversion B as [|? ? Bt Bf]. destruct Bt.
    - inversion B as [|? ? Bt Bf]; subst. cbn [flat_map flat app yields] in Y. destruct Y as (s1 & E & Y).
      rewrite E in H. cbn [omap_err sbind] in H. destruct room as [|room]; [discriminate H|].
      rewrite <- app_assoc in Y. apply yields_app in Y as (s2 & Y1 & Y2).
      destruct (enter_in nxt f room (block_new bid) s1) as [o1|] eqn:E1; [|discriminate H]. apply enter_in_enter in E1.
      destruct (enter_ends f cbody (block_new bid) s1 s2 Y1) as [K|K]; rewrite K in E1; subst o1; cbn [sbind] in H.
      + now injection H.
      + rewrite <- build_blk with (len := len) in H. cbn [map groups] in G. destruct (group _ rp) as [rp1|x|p|]; try discriminate G. cbn [obind sbind] in G, H.
        exact (IH _ _ _ _ _ _ _ _ H Y2 Bf G N).
  Qed.

  (** Enough room. *)
  Lemma enter_in_fits f : forall room body b s s', yields nxt s (flat_map flat body ++ [EEndBlock]) s' ->
    (deepest body <= room)%nat -> enter_in nxt f room b s = Some (enter nxt f b s).
  Proof.
    induction f as [|f IH]; intros room body b s s' Y D; [reflexivity|]. cbn [enter_in enter].
    destruct body as [|[a c fs|bid len cbody] body].
    - cbn in Y. destruct Y as (s1 & E & ->). now rewrite E.
    - cbn [flat_map flat app yields] in Y. destruct Y as (s1 & E & Y). rewrite E. cbn [omap_err obind sbind].
      apply (IH _ _ _ _ _ Y). unfold deepest in *. cbn [map depth list_max fold_right] in D. exact D.
    - cbn [flat_map flat app yields] in Y. destruct Y as (s1 & E & Y). rewrite E. cbn [omap_err obind sbind].
      unfold deepest in D. cbn [map depth] in D. change (list_max (?a :: ?l)) with (Nat.max a (list_max l)) in D.
      rewrite <- app_assoc in Y. apply yields_app in Y as (s2 & Y1 & Y2).
      destruct room as [|room]; [lia|].
      rewrite (IH room cbody (block_new bid) s1 s2 Y1) by (unfold deepest; lia). cbn [sbind].
      destruct (enter_ends f cbody (block_new bid) s1 s2 Y1) as [K|K]; rewrite K; [reflexivity|]. cbn [obind].
      apply (IH _ _ _ _ _ Y2). unfold deepest; lia.
  Qed.
  Lemma tops_in_fits f : forall room forest rp s s', yields nxt s (flat_map flat forest) s' -> fst (nxt s') = None ->
    (deepest forest <= room)%nat -> tops_in nxt f room rp s = Some (tops nxt f rp s).
  Proof.
    induction f as [|f IH]; intros room forest rp s s' Y E0 D; [reflexivity|]. cbn [tops_in tops].
    destruct forest as [|[a c fs|bid len cbody] forest].
    - cbn in Y. subst s'. destruct (nxt s) as [r s1]. cbn in E0. now subst r.
    - cbn [flat_map flat app yields] in Y. destruct Y as (s1 & E & Y). now rewrite E.
    - cbn [flat_map flat app yields] in Y. destruct Y as (s1 & E & Y). rewrite E. cbn [omap_err obind sbind].
      unfold deepest in D. cbn [map depth] in D. change (list_max (?a :: ?l)) with (Nat.max a (list_max l)) in D.
      apply yields_app in Y as (s2 & Y1 & Y2). destruct room as [|room]; [lia|].
      rewrite (enter_in_fits f room cbody (block_new bid) s1 s2 Y1) by (unfold deepest; lia). cbn [sbind].
      destruct (enter_ends f cbody (block_new bid) s1 s2 Y1) as [K|K]; rewrite K; [reflexivity|]. cbn [obind].
      destruct (group _ rp) as [rp1|x|p|]; cbn [obind sbind]; try reflexivity.
      apply (IH _ _ _ _ _ Y2 E0). unfold deepest; lia.
  Qed.
End Stack.

(** *** Trees *)

Lemma deep_tree : forall t n, (0 < n <= depth t)%nat -> exists l rest, flat t = l ++ rest /\ nested n l.
Proof.
  fix IH 1. intros [a c fs|bid len body] n D; [cbn in D; lia|].
  assert (G : forall body m, (0 < m <= list_max (map depth body))%nat ->
    exists body1 l rest, flat_map flat body = flat_map flat body1 ++ l ++ rest /\ nested m l).
  { clear bid len body n D. induction body as [|t body IHb]; intros m D; [cbn in D; lia|].
    cbn [map] in D. change (list_max (?a :: ?l)) with (Nat.max a (list_max l)) in D.
    destruct (Nat.le_gt_cases m (depth t)) as [L|L].
    - destruct (IH t m ltac:(lia)) as (l & rest & E & N). exists [], l, (rest ++ flat_map flat body). split; [|exact N].
      cbn [flat_map app]. now rewrite E, <- app_assoc.
    - destruct (IHb m ltac:(lia)) as (body1 & l & rest & E & N). exists (t :: body1), l, rest. split; [|exact N].
      cbn [flat_map]. now rewrite E, <- app_assoc. }
  cbn [depth] in D. destruct n as [|n]; [lia|]. destruct n as [|n].
  - exists (ESubBlock bid len :: flat_map flat body), [EEndBlock]. split; [reflexivity|constructor].
  - destruct (G body (S n) ltac:(lia)) as (body1 & l & rest & E & N).
    exists (ESubBlock bid len :: flat_map flat body1 ++ l), (rest ++ [EEndBlock]). split; [|now constructor].
    cbn [flat app]. rewrite E. now rewrite <- !app_assoc.
Qed.
Lemma deep_forest forest n : (0 < n <= deepest forest)%nat ->
  exists l1 t l2 l rest, forest = l1 ++ t :: l2 /\ flat t = l ++ rest /\ nested n l.
Proof.
  unfold deepest. induction forest as [|t forest IH]; intros D; [cbn in D; lia|].
  cbn [map] in D. change (list_max (?a :: ?l)) with (Nat.max a (list_max l)) in D.
  destruct (Nat.le_gt_cases n (depth t)) as [L|L].
  - destruct (deep_tree t n ltac:(lia)) as (l & rest & E & N). exists [], t, forest, l, rest. auto.
  - destruct (IH ltac:(lia)) as (l1 & t' & l2 & l & rest & -> & E & N). exists (t :: l1), t', l2, l, rest. auto.
Qed.
Lemma nested_length n l : nested n l -> (n <= length l)%nat.
Proof. induction 1 as [bid len body|n bid len body l N IH]; cbn [length]; rewrite ?app_length; lia. Qed.

Lemma grouped_prefix l1 l2 : well_grouped (l1 ++ l2) -> well_grouped l1.
Proof.
  rewrite !well_grouped_okay. generalize false as room. induction l1 as [|t l1 IH]; intros room H; [exact I|].
  cbn [app okay] in *. destruct (is_top IDENTIFICATION t); [now apply IH|]. destruct (is_top MODULE t).
  - destruct H as [R H]. split; [exact R|now apply IH].
  - destruct (is_top STRTAB t || is_top SYMTAB t); [now apply IH|exact H].
Qed.

(** *** The parser *)

Lemma grouped_groups forest : well_grouped forest ->
  Forall is_blk forest /\ groups (map build forest) [] = Ok (rev (map bm (modules_of forest))).
Proof.
  intros W. split; [now apply grouped_blk|].
  rewrite (proj2 (groups_spec forest [] (rev (map bm (modules_of forest)) ++ finish forest []) I I (grouped_blk _ W))).
  - unfold finish. cbn [map]. now rewrite app_nil_r.
  - split; [now apply well_grouped_okay|reflexivity].
Qed.

Lemma unroll_in_unroll e room s o : unroll_in e room s = Some o -> unroll e s = o.
Proof.
  unfold unroll_in, unroll. set (f := (N.to_nat (bit_len (p_cur s)) + 2)%nat).
  destruct (tops_in (next e cursor_ops) f room [] s) as [o1|] eqn:E; [|discriminate].
  apply tops_in_tops in E. rewrite E. destruct o1; cbn; now intros [= <-].
Qed.

Lemma unroll_in_none e room s : parser_reachable e s ->
  (unroll_in e room s = None <->
   exists forest l, begins e s (flat_map flat forest ++ l) /\ well_grouped forest /\ nested (S room) l).
Proof.
  intros HR. split.
  - intros H. unfold unroll_in in H. apply sbind_none in H as [H|(rp & _ & [=])].
    apply tops_in_none in H as (forest & rp' & l & s' & Y & B & G & N). exists forest, l.
    split; [apply begins_iff; now exists s'|]. split; [|exact N].
    apply groups_spec in G as [G _]; [|exact I|exact I|exact B]. now apply well_grouped_okay.
  - intros (forest & l & BG & W & N). apply begins_iff in BG as (s' & Y). apply grouped_groups in W as [B G].
    destruct (unroll_in e room s) as [o|] eqn:E; [|reflexivity]. exfalso.
    pose proof (unroll_in_unroll _ _ _ _ E) as U. pose proof (unroll_terminates e s HR) as T.
    unfold unroll_in in E.
    destruct (tops_in (next e cursor_ops) (N.to_nat (bit_len (p_cur s)) + 2) room [] s) as [o1|] eqn:E1; [|discriminate E].
    pose proof (tops_in_deep _ _ _ _ _ _ _ _ _ _ E1 Y B G N) as ->. cbn in E. injection E as <-. contradiction.
Qed.

Lemma unroll_in_fits e room s forest : stream_is e s forest -> (deepest forest <= room)%nat ->
  unroll_in e room s = Some (unroll e s).
Proof.
  intros [n H] D. apply run_yields in H as (s' & Y & E). unfold unroll_in, unroll.
  rewrite (tops_in_fits _ _ room forest [] s s' Y E D). now destruct (tops _ _ _ s).
Qed.
Lemma unroll_in_depth e room s forest : parser_reachable e s -> stream_is e s forest -> well_grouped forest ->
  (unroll_in e room s = None <-> (room < deepest forest)%nat).
Proof.
  intros HR ST W. split.
  - intros H. destruct (Nat.le_gt_cases (deepest forest) room) as [L|L]; [|exact L].
    rewrite (unroll_in_fits e room s forest ST L) in H. discriminate H.
  - intros L. apply unroll_in_none; [exact HR|].
    destruct (deep_forest forest (S room) ltac:(lia)) as (l1 & t & l2 & l & rest & -> & E & N).
    exists l1, l. split; [|split; [|exact N]].
    + apply begins_iff. destruct ST as [n H]. apply run_yields in H as (s' & Y & _).
      rewrite flat_map_app in Y. cbn [flat_map] in Y. rewrite E, <- app_assoc, app_assoc in Y.
      apply yields_app in Y as (s1 & Y & _). now exists s1.
    + revert W. apply grouped_prefix.
Qed.

(** As many activations as the input has bits are enough. *)
Lemma unroll_in_bits e room s : parser_reachable e s -> (N.to_nat (bit_len (p_cur s)) <= room)%nat ->
  unroll_in e room s = Some (unroll e s).
Proof.
  intros HR L. destruct (unroll_in e room s) as [o|] eqn:E; [now rewrite (unroll_in_unroll _ _ _ _ E)|]. exfalso.
  apply unroll_in_none in E as (forest & l & BG & _ & N); [|exact HR]. apply begins_iff in BG as (s' & Y).
  pose proof (reach_bounded e s HR _ _ Y) as B. unfold total in B. rewrite app_length in B. apply nested_length in N. lia.
Qed.

(** *** Blocks in blocks *)

Definition nest_words (n : nat) : N := 3 * N.of_nat n + 1.
Fixpoint nest (n : nat) : list item :=
  match n with
  | O => []
  | S m => [IBlock 13 2 (nest_words m) (nest m)]
  end.

Lemma pad_blen pos : blen (pad pos) = (32 - pos mod 32) mod 32.
Proof. unfold blen, pad. rewrite repeat_length. lia. Qed.
Lemma nest_items n : forall p pos st, place_width p = 2 -> pos mod 32 = 0 -> 3 * N.of_nat n < 2 ^ 32 ->
  exists x st', write_items p (nest n) pos st = Some (x, st') /\ blen x = 96 * N.of_nat n.
Proof.
  change (2 ^ 32) with 4294967296. induction n as [|n IH]; intros p pos st W A L; [exists [], st; now split|].
  cbn [nest write_items]. rewrite write_block, W.
  set (h := fixed_bits 2 1 ++ vbr_bits 8 13 ++ vbr_bits 4 2).
  set (head := h ++ pad (pos + blen h) ++ fixed_bits 32 (nest_words n)).
  assert (LH : blen head = 64).
  { unfold head. rewrite !blen_app, pad_blen. change (blen h) with 14. unfold blen. rewrite fixed_bits_length. lia. }
  destruct (IH (InBlock 2 13) (pos + blen head) (mkW (w_info st) None (w_info st 13)) eq_refl ltac:(lia) ltac:(lia)) as (x & st' & E & LX).
  change (fixed 2 1) with (Some (fixed_bits 2 1)). change (vbr 8 13) with (Some (vbr_bits 8 13)).
  change (vbr 4 2) with (Some (vbr_bits 4 2)).
  assert (F : fixed 32 (nest_words n) = Some (fixed_bits 32 (nest_words n))).
  { unfold fixed. change (2 ^ 32) with 4294967296. unfold nest_words. replace (_ <? _) with true by lia. reflexivity. }
  rewrite F. cbn beta iota zeta. fold h. fold head. cbn [andb N.leb N.compare]. change ((1 <=? 2) && (2 <=? 63)) with true.
  cbn beta iota zeta. rewrite E. cbn beta iota zeta.
  set (y := x ++ fixed_bits 2 0 ++ pad (pos + blen head + blen x + blen (fixed_bits 2 0))).
  assert (LY : blen y = 96 * N.of_nat n + 32).
  { unfold y. rewrite !blen_app, pad_blen. change (blen (fixed_bits 2 0)) with 2. lia. }
  replace (blen y =? 32 * nest_words n) with true by (unfold nest_words; lia).
  exists ((head ++ y) ++ []), (mkW (w_info st') (w_bid st) (w_abbrevs st)). split; [reflexivity|].
  rewrite app_nil_r, blen_app. lia.
Qed.

Lemma nest_small lim n : forallb (item_small lim) (nest n) = true.
Proof. induction n as [|n IH]; [reflexivity|]. cbn [nest forallb item_small]. now rewrite IH. Qed.
Lemma nest_depth n : deepest (trees (nest n)) = n.
Proof.
  induction n as [|n IH]; [reflexivity|]. unfold deepest, trees in *. cbn [nest flat_map item_trees app map depth].
  change (13 =? 0) with false. cbn [app map depth]. rewrite IH. cbn. lia.
Qed.
Lemma nest_grouped n : well_grouped (trees (nest n)).
Proof. apply well_grouped_okay. destruct n as [|n]; exact I. Qed.

Lemma nest_overflows e room : N.of_nat room < 2 ^ 30 ->
  exists buf b parts, N.of_nat (length buf) = 12 * N.of_nat room + 16 /\ from_raw buf = Ok b /\
    unroll e (bs_parser b) = Ok parts /\ unroll_in e room (bs_parser b) = None.
Proof.
  change (2 ^ 30) with 1073741824. intros L.
  destruct (nest_items (S room) AtTop 32 (mkW (fun _ => []) None []) eq_refl eq_refl ltac:(change (2 ^ 32) with 4294967296; lia))
    as (x & st' & E & LX).
  assert (WS : write_stream 0xdec04342 (nest (S room)) = Some (fixed_bits 32 0xdec04342 ++ x)).
  { unfold write_stream. change (fixed 32 0xdec04342) with (Some (fixed_bits 32 0xdec04342)). cbv beta iota zeta. rewrite E. reflexivity. }
  destruct (written_raw e _ _ _ WS (nest_small _ _)) as (s & HF & HRun).
  assert (ST : stream_is e s (trees (nest (S room)))).
  { exists (length (entries (nest (S room))) + 1)%nat. rewrite flat_trees, HRun. reflexivity. }
  pose proof (from_raw_reachable e _ _ HF) as HR. cbn [bs_parser] in HR.
  destruct (unroll_accepts e s _ HR ST (nest_grouped _)) as [parts P].
  exists (bytes_of_bits (fixed_bits 32 0xdec04342 ++ x)), (mkBitstream 0xdec04342 s), parts.
  split; [|split; [exact HF|split; [exact P|]]].
  - assert (LL : blen (fixed_bits 32 0xdec04342 ++ x) = 96 * N.of_nat room + 128).
    { rewrite blen_app. change (blen (fixed_bits 32 0xdec04342)) with 32. lia. }
    unfold blen in LL. assert (M : (length (fixed_bits 32 0xdec04342 ++ x) mod 8 = 0)%nat).
    { replace (length _) with ((12 * room + 16) * 8)%nat by lia. apply Nat.mod_mul. lia. }
    apply bytes_of_bits_spec in M as [_ M]. lia.
  - apply (unroll_in_depth e room s _ HR ST (nest_grouped _)). rewrite nest_depth. lia.
Qed.
