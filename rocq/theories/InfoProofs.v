(** Proofs for C80 (statements in P_Info.v). *)
From Verif Require Import Base Strings CursorModel CursorSpec StreamModel StreamSpec StreamRound UnrollSpec UnrollApi InfoSpec.
From Coq Require Import Lia ZifyBool ZifyNat ZifyN.
Local Open Scope N_scope.

(** *** The writers, unfolded *)

Lemma write_block bid w' words body p pos st :
  write_item (IBlock bid w' words body) p pos st =
    (guard! (1 <=? w') && (w' <=? 63) in
     do! i := fixed (place_width p) 1 in
     do! b := vbr 8 bid in
     do! n := vbr 4 w' in
     do! l := fixed 32 words in
     let h := i ++ b ++ n in
     let head := h ++ pad (pos + blen h) ++ l in
     let start := pos + blen head in
     do! (x, st') := write_items (InBlock w' bid) body start (mkW (w_info st) None (w_info st bid)) in
     let tail := fixed_bits w' 0 in
     let y := x ++ tail ++ pad (start + blen x + blen tail) in
     guard! blen y =? 32 * words in
     Some (head ++ y, mkW (w_info st') (w_bid st) (w_abbrevs st))).
Proof.
  assert (K : forall body pos st,
      (fix write_list (l : list item) (pos : N) (st : wstate) {struct l} : option (list bool * wstate) :=
         match l with
         | [] => Some ([], st)
         | it :: l' =>
             do! (x, st1) := write_item it (InBlock w' bid) pos st in
             do! (y, st2) := write_list l' (pos + blen x) st1 in
             Some (x ++ y, st2)
         end) body pos st = write_items (InBlock w' bid) body pos st).
  { clear. induction body as [|it body IH]; intros pos st; cbn [write_items]; [reflexivity|].
    destruct (write_item it (InBlock w' bid) pos st) as [[x st1]|]; [|reflexivity]. rewrite IH. reflexivity. }
  cbn [write_item]. destruct (_ && _); [|reflexivity].
  destruct (fixed (place_width p) 1); [|reflexivity]. destruct (vbr 8 bid); [|reflexivity].
  destruct (vbr 4 w'); [|reflexivity]. destruct (fixed 32 words); [|reflexivity]. cbn zeta. rewrite K. reflexivity.
Qed.
Lemma llvm_block bid w' words body p pos st :
  llvm_item (IBlock bid w' words body) p pos st =
    (guard! (1 <=? w') && (w' <=? 63) in
     do! i := fixed (place_width p) 1 in
     do! b := vbr 8 bid in
     do! n := vbr 4 w' in
     do! l := fixed 32 words in
     let h := i ++ b ++ n in
     let head := h ++ pad (pos + blen h) ++ l in
     let start := pos + blen head in
     do! (x, st') := llvm_items (InBlock w' bid) body start (mkW (if bid =? 0 then fun _ => [] else w_info st) None (w_info st bid)) in
     let tail := fixed_bits w' 0 in
     let y := x ++ tail ++ pad (start + blen x + blen tail) in
     guard! blen y =? 32 * words in
     Some (head ++ y, mkW (w_info st') (w_bid st) (w_abbrevs st))).
Proof.
  assert (K : forall body pos st,
      (fix llvm_list (l : list item) (pos : N) (st : wstate) {struct l} : option (list bool * wstate) :=
         match l with
         | [] => Some ([], st)
         | it :: l' =>
             do! (x, st1) := llvm_item it (InBlock w' bid) pos st in
             do! (y, st2) := llvm_list l' (pos + blen x) st1 in
             Some (x ++ y, st2)
         end) body pos st = llvm_items (InBlock w' bid) body pos st).
  { clear. induction body as [|it body IH]; intros pos st; cbn [llvm_items]; [reflexivity|].
    destruct (llvm_item it (InBlock w' bid) pos st) as [[x st1]|]; [|reflexivity]. rewrite IH. reflexivity. }
  cbn [llvm_item]. destruct (_ && _); [|reflexivity].
  destruct (fixed (place_width p) 1); [|reflexivity]. destruct (vbr 8 bid); [|reflexivity].
  destruct (vbr 4 w'); [|reflexivity]. destruct (fixed 32 words); [|reflexivity]. cbn zeta. rewrite K. reflexivity.
Qed.

(** *** Lists of BLOCKINFO blocks *)

Lemma for_block_app b x y : for_block b (x ++ y) = for_block b x ++ for_block b y.
Proof. unfold for_block. now rewrite filter_app, map_app. Qed.
Lemma for_block_one b b0 a : for_block b [(b0, a)] = if b =? b0 then [a] else [].
Proof. unfold for_block. cbn [filter fst]. rewrite (N.eqb_sym b b0). now destruct (b0 =? b). Qed.
Lemma agrees_block infos bid w n body : bid <> 0 ->
  item_agrees infos (IBlock bid w n body) <-> same_ids infos bid body /\ items_agree infos body.
Proof.
  intros B. cbn [item_agrees]. destruct (N.eqb_spec bid 0) as [|_]; [contradiction|].
  assert (K : forall l infos, (fix go (infos : list (list (N * abbrev))) (l : list item) : Prop :=
              match l with [] => True | it :: l' => item_agrees infos it /\ go (infos ++ infos_of it) l' end) infos l <-> items_agree infos l).
  { clear. induction l as [|it l IH]; intros infos; cbn [items_agree]; [tauto|]. rewrite IH. tauto. }
  now rewrite K.
Qed.

(** *** One writer follows the other *)

(** The states of the two writers behind these BLOCKINFO blocks; with [k] the abbreviations are the same, without they only begin with the
    same ones. *)
Record tied (k : bool) (infos : list (list (N * abbrev))) (sl sa : wstate) : Prop := mkTied {
  td_latest : forall b, w_info sl b = for_block b (last infos []);
  td_all : forall b, w_info sa b = for_block b (concat infos);
  td_bid : w_bid sa = w_bid sl;
  td_abbrevs : exists more, w_abbrevs sa = w_abbrevs sl ++ more /\ (k = true -> more = [])
}.

(** The items of a BLOCKINFO block; [old] is registered before it, [done] by it so far. *)
Lemma info_body w : forall body pos sl sa old done bits sl', plain_info body = true ->
  (forall b, w_info sl b = for_block b done) -> (forall b, w_info sa b = for_block b (old ++ done)) -> w_bid sa = w_bid sl ->
  llvm_items (InBlock w 0) body pos sl = Some (bits, sl') ->
  exists sa', write_items (InBlock w 0) body pos sa = Some (bits, sa') /\
    (forall b, w_info sl' b = for_block b (done ++ info_defs (w_bid sl) body)) /\
    (forall b, w_info sa' b = for_block b (old ++ done ++ info_defs (w_bid sl) body)).
Proof.
  induction body as [|it body IH]; intros pos sl sa old done bits sl' HP H1 H2 H3 H.
  - cbn in H |- *. injection H as <- <-. exists sa. rewrite app_nil_r. auto.
  - cbn [plain_info forallb] in HP. apply andb_true_iff in HP as [HP1 HP2].
    cbn [llvm_items write_items] in H |- *.
    destruct it as [a|c f|i c f|b' w' n' body']; try discriminate HP1; cbn [llvm_item] in H.
    + cbn [write_item] in H |- *. change (0 =? 0) with true in *. cbv iota in *.
      destruct (fixed w 2) as [i|]; [|discriminate]. destruct (def_bits a) as [d|]; [|discriminate]. rewrite H3.
      destruct (w_bid sl) as [b0|] eqn:EB; [|discriminate].
      destruct (llvm_items (InBlock w 0) body (pos + blen (i ++ d)) (mkW (register (w_info sl) b0 a) (Some b0) (w_abbrevs sl))) as [[y st2]|] eqn:E;
        [|discriminate].
      injection H as <- <-.
      assert (R1 : forall b, register (w_info sl) b0 a b = for_block b (done ++ [(b0, a)])).
      { intros b. unfold register. rewrite H1, for_block_app, for_block_one. destruct (b =? b0); [reflexivity|now rewrite app_nil_r]. }
      assert (R2 : forall b, register (w_info sa) b0 a b = for_block b (old ++ done ++ [(b0, a)])).
      { intros b. unfold register. rewrite H2, app_assoc, (for_block_app b (old ++ done)), for_block_one. destruct (b =? b0); [reflexivity|now rewrite app_nil_r]. }
      destruct (IH _ (mkW (register (w_info sl) b0 a) (Some b0) (w_abbrevs sl)) (mkW (register (w_info sa) b0 a) (Some b0) (w_abbrevs sa)) old (done ++ [(b0, a)]) _ _ HP2 R1 R2 eq_refl E) as (sa' & -> & S1 & S2).
      exists sa'. split; [reflexivity|]. cbn [w_bid] in S1, S2. cbn [info_defs].
      split; intros b; [rewrite S1|rewrite S2]; f_equal; now rewrite <- !app_assoc.
    + cbn [write_item] in H |- *. change (0 =? 0) with true in *. cbv iota in *.
      destruct (fixed w 3) as [i|]; [|discriminate]. destruct (unabbrev_bits c f) as [d|]; [|discriminate].
      assert (K : (exists b0 f', c = 1 /\ f = b0 :: f') \/
                  (((match c, f with 1, b :: _ => Some (mkW (w_info sl) (Some b) (w_abbrevs sl)) | 2, _ | 3, _ => Some sl | _, _ => None end) = Some sl \/
                    (match c, f with 1, b :: _ => Some (mkW (w_info sl) (Some b) (w_abbrevs sl)) | 2, _ | 3, _ => Some sl | _, _ => None end) = None) /\
                   ((match c, f with 1, b :: _ => Some (mkW (w_info sl) (Some b) (w_abbrevs sl)) | 2, _ | 3, _ => Some sl | _, _ => None end) = Some sl ->
                    (match c, f with 1, b :: _ => Some (mkW (w_info sa) (Some b) (w_abbrevs sa)) | 2, _ | 3, _ => Some sa | _, _ => None end) = Some sa) /\
                   info_defs (w_bid sl) (IUnabbrev c f :: body) = info_defs (w_bid sl) body)).
      { destruct (N.eq_dec c 1) as [->|C1]; [destruct f as [|b0 f']; [right; repeat split; cbn; auto; discriminate|left; eauto]|]. right.
        assert (D : info_defs (w_bid sl) (IUnabbrev c f :: body) = info_defs (w_bid sl) body).
        { cbn [info_defs]. destruct c as [|[c|c|]]; try reflexivity. congruence. }
        rewrite D. destruct c as [|[[c|c|]|[c|c|]|]]; cbn; repeat split; auto; try congruence. }
      destruct K as [(b0 & f' & -> & ->)|(K1 & K2 & K3)].
      * destruct (llvm_items (InBlock w 0) body (pos + blen (i ++ d)) (mkW (w_info sl) (Some b0) (w_abbrevs sl))) as [[y st2]|] eqn:E; [|discriminate].
        injection H as <- <-.
        destruct (IH _ (mkW (w_info sl) (Some b0) (w_abbrevs sl)) (mkW (w_info sa) (Some b0) (w_abbrevs sa)) old done _ _ HP2 H1 H2 eq_refl E) as (sa' & -> & S1 & S2).
        exists sa'. auto.
      * destruct K1 as [K1|K1]; rewrite K1 in H; [|discriminate]. rewrite (K2 K1), K3.
        destruct (llvm_items (InBlock w 0) body (pos + blen (i ++ d)) sl) as [[y st2]|] eqn:E; [|discriminate].
        injection H as <- <-. destruct (IH _ _ sa old done _ _ HP2 H1 H2 H3 E) as (sa' & -> & S1 & S2). exists sa'. auto.
Qed.

(** An item outside of BLOCKINFO blocks. *)
Definition outside (p : place) : Prop := match p with AtTop => True | InBlock _ b => b <> 0 end.
Definition follows (it : item) : Prop := forall k infos p pos sl sa bits sl', outside p -> tied k infos sl sa ->
  item_agrees infos it -> (k = false -> is_define it = false) -> llvm_item it p pos sl = Some (bits, sl') ->
  exists sa', write_item it p pos sa = Some (bits, sa') /\ tied k (infos ++ infos_of it) sl' sa'.

Lemma follows_items l : Forall follows l -> forall k infos p pos sl sa bits sl', outside p -> tied k infos sl sa ->
  items_agree infos l -> (k = false -> forallb (fun it => negb (is_define it)) l = true) -> llvm_items p l pos sl = Some (bits, sl') ->
  exists sa', write_items p l pos sa = Some (bits, sa') /\ tied k (infos ++ flat_map infos_of l) sl' sa'.
Proof.
  induction 1 as [|it l F _ IH]; intros k infos p pos sl sa bits sl' O T A D H.
  - cbn in *. injection H as <- <-. rewrite app_nil_r. eauto.
  - cbn [llvm_items write_items items_agree forallb flat_map] in *. destruct A as [A1 A2].
    destruct (llvm_item it p pos sl) as [[x st1]|] eqn:E1; [|discriminate].
    destruct (llvm_items p l (pos + blen x) st1) as [[y st2]|] eqn:E2; [|discriminate]. injection H as <- <-.
    destruct (F k infos p pos sl sa x st1 O T A1) as (sa1 & -> & T1); [|exact E1|].
    { intros K. specialize (D K). apply andb_true_iff in D as [D _]. now destruct (is_define it). }
    assert (D2 : k = false -> forallb (fun it => negb (is_define it)) l = true) by (intros K; specialize (D K); now apply andb_true_iff in D as [_ D]).
    destruct (IH k _ p _ _ _ _ _ O T1 A2 D2 E2) as (sa2 & -> & T2).
    rewrite <- app_assoc in T2. eauto.
Qed.

Lemma follows_item it : follows it.
Proof.
  induction it as [a|c f|i c f|bid w n body IH] using item_ind'; intros k infos p pos sl sa bits sl' O T A D H.
  - cbn [llvm_item write_item infos_of] in *. rewrite app_nil_r. destruct p as [|w bid]; [discriminate|]. cbn in O.
    destruct (fixed w 2) as [i|]; [|discriminate]. destruct (def_bits a) as [d|]; [|discriminate].
    destruct (N.eqb_spec bid 0) as [|_]; [contradiction|]. injection H as <- <-. eexists. split; [reflexivity|].
    destruct T as [T1 T2 T3 (more & T4 & T5)]. constructor; cbn [w_info w_bid w_abbrevs]; auto.
    destruct k; [|now discriminate D]. exists []. rewrite T4, T5, !app_nil_r by reflexivity. auto.
  - cbn [llvm_item write_item infos_of] in *. rewrite app_nil_r. destruct p as [|w bid]; [discriminate|]. cbn in O.
    destruct (fixed w 3) as [i|]; [|discriminate]. destruct (unabbrev_bits c f) as [d|]; [|discriminate].
    destruct (N.eqb_spec bid 0) as [|_]; [contradiction|]. injection H as <- <-. eauto.
  - cbn [llvm_item write_item infos_of] in *. rewrite app_nil_r. destruct p as [|w bid]; [discriminate|]. cbn in O.
    destruct (4 <=? i); [|discriminate]. destruct (fixed w i) as [x|]; [|discriminate].
    destruct (nth_error (w_abbrevs sl) (N.to_nat (i - 4))) as [a|] eqn:EN; [|discriminate].
    pose proof T as [T1 T2 T3 (more & T4 & T5)]. rewrite T4, nth_error_app1 by (apply nth_error_Some; congruence). rewrite EN.
    destruct (rec_bits (pos + blen x) a (c :: f)) as [d|]; [|discriminate]. injection H as <- <-. eauto.
  - rewrite llvm_block in H. rewrite write_block. pose proof T as [T1 T2 T3 T4].
    destruct ((1 <=? w) && (w <=? 63)); [|discriminate]. destruct (fixed (place_width p) 1) as [i|]; [|discriminate].
    destruct (vbr 8 bid) as [b|]; [|discriminate]. destruct (vbr 4 w) as [m|]; [|discriminate]. destruct (fixed 32 n) as [l|]; [|discriminate].
    cbn zeta in *. set (start := pos + _) in *. destruct (N.eqb_spec bid 0) as [->|B].
    + destruct (llvm_items (InBlock w 0) body start (mkW (fun _ => []) None (w_info sl 0))) as [[x st']|] eqn:E; [|discriminate].
      assert (Q : forall b', w_info (mkW (w_info sa) None (w_info sa 0)) b' = for_block b' (concat infos ++ []))
        by (intros b'; cbn [w_info]; rewrite app_nil_r; apply T2).
      destruct (info_body w body start (mkW (fun _ => []) None (w_info sl 0)) _ (concat infos) [] _ _ A (fun _ => eq_refl) Q eq_refl E) as (sa' & -> & S1 & S2).
      destruct (blen _ =? 32 * n); [|discriminate]. injection H as <- <-. eexists. split; [reflexivity|].
      cbn [infos_of]. change (0 =? 0) with true. cbv iota. cbn [app w_bid] in S1, S2. constructor; cbn [w_info w_bid w_abbrevs]; auto.
      * intros b'. rewrite S1. f_equal. now rewrite last_last.
      * intros b'. rewrite S2, concat_app. cbn. now rewrite app_nil_r.
    + apply (agrees_block _ _ w n _ B) in A as [A1 A2].
      destruct (llvm_items (InBlock w bid) body start (mkW (w_info sl) None (w_info sl bid))) as [[x st']|] eqn:E; [|discriminate].
      assert (K : exists k', tied k' infos (mkW (w_info sl) None (w_info sl bid)) (mkW (w_info sa) None (w_info sa bid)) /\
                  (k' = false -> forallb (fun it => negb (is_define it)) body = true)).
      { unfold same_ids in A1. cbn zeta in A1. rewrite <- T1, <- T2 in A1. destruct A1 as [A1|[[more A1] ND]].
        - exists true. split; [|discriminate]. constructor; cbn [w_info w_bid w_abbrevs]; auto. exists []. rewrite A1, app_nil_r. auto.
        - exists false. split; [|auto]. constructor; cbn [w_info w_bid w_abbrevs]; auto. exists more. split; [exact A1|discriminate]. }
      destruct K as (k' & TK & DK).
      destruct (follows_items body IH k' infos (InBlock w bid) start _ _ _ _ B TK A2 DK E) as (sa' & -> & [S1 S2 _ _]).
      destruct (blen _ =? 32 * n); [|discriminate]. injection H as <- <-. eexists. split; [reflexivity|].
      cbn [infos_of]. destruct (N.eqb_spec bid 0) as [|_]; [contradiction|]. constructor; cbn [w_info w_bid w_abbrevs]; auto.
Qed.

Lemma llvm_streams magic l bits : llvm_stream magic l = Some bits -> items_agree [] l -> write_stream magic l = Some bits.
Proof.
  unfold llvm_stream, write_stream. intros H A. destruct (fixed 32 magic) as [m|]; [|discriminate].
  destruct (llvm_items AtTop l 32 (mkW (fun _ => []) None [])) as [[x st]|] eqn:E; [|discriminate]. injection H as <-.
  assert (T : tied true [] (mkW (fun _ => []) None []) (mkW (fun _ => []) None [])) by (constructor; auto; exists []; auto).
  assert (F : Forall follows l) by (apply Forall_forall; intros; apply follows_item).
  assert (D : true = false -> forallb (fun it => negb (is_define it)) l = true) by discriminate.
  destruct (follows_items l F true [] AtTop 32 _ _ _ _ I T A D E) as (sa' & -> & _). reflexivity.
Qed.

(** *** When the abbreviations agree *)

Lemma agree_when (good : list (list (N * abbrev)) -> Prop) (own : item -> bool) :
  (forall a b, good (a ++ b) -> good a) ->
  (forall infos bid w n body, bid <> 0 -> good infos -> own (IBlock bid w n body) = true -> same_ids infos bid body /\ forallb own body = true) ->
  forall it infos, good (infos ++ infos_of it) -> plain_item it = true -> own it = true -> item_agrees infos it.
Proof.
  intros G S. induction it as [a|c f|i c f|bid w n body IH] using item_ind'; intros infos H P O; try exact I.
  cbn [infos_of plain_item] in H, P. destruct (N.eqb_spec bid 0) as [->|B]; [exact P|].
  apply (agrees_block _ _ w n _ B). destruct (S infos bid w n body B (G _ _ H) O) as [S1 S2]. split; [exact S1|]. clear S1 O B.
  revert infos H. induction IH as [|it l F _ IH]; intros infos H; [exact I|]. cbn [forallb flat_map items_agree] in *.
  apply andb_true_iff in P as [P1 P2]. apply andb_true_iff in S2 as [O1 O2]. rewrite app_assoc in H. split; [apply F; auto|apply IH; auto].
  now apply G in H.
Qed.
Lemma all_agree_when (good : list (list (N * abbrev)) -> Prop) (own : item -> bool) :
  (forall a b, good (a ++ b) -> good a) ->
  (forall infos bid w n body, bid <> 0 -> good infos -> own (IBlock bid w n body) = true -> same_ids infos bid body /\ forallb own body = true) ->
  forall l infos, good (infos ++ flat_map infos_of l) -> forallb plain_item l = true -> forallb own l = true -> items_agree infos l.
Proof.
  intros G S. induction l as [|it l IH]; intros infos H P O; [exact I|]. cbn [forallb flat_map items_agree] in *.
  apply andb_true_iff in P as [P1 P2]. apply andb_true_iff in O as [O1 O2]. rewrite app_assoc in H.
  split; [apply (agree_when good own); auto; now apply G in H|apply IH; auto].
Qed.

Lemma one_blockinfo l : (length (flat_map infos_of l) <= 1)%nat -> forallb plain_item l = true -> items_agree [] l.
Proof.
  intros L P. apply (all_agree_when (fun infos => (length infos <= 1)%nat) (fun _ => true)); auto.
  - intros a b H. rewrite app_length in H. lia.
  - intros infos bid w n body _ H _. split; [left|apply forallb_forall; auto].
    destruct infos as [|x [|y infos]]; [reflexivity| |cbn in H; lia]. cbn. now rewrite app_nil_r.
  - apply forallb_forall. auto.
Qed.

Lemma same_concat d bid infos : Forall (eq d) infos -> infos <> [] ->
  last infos [] = d /\ exists more, for_block bid (concat infos) = for_block bid d ++ more /\ (for_block bid d = [] -> more = []).
Proof.
  induction 1 as [|x infos <- F IH]; [contradiction|]. intros _. destruct infos as [|y infos].
  - cbn. split; [reflexivity|]. exists []. rewrite !app_nil_r. auto.
  - destruct IH as [IH1 (more & IH2 & IH3)]; [discriminate|]. split; [exact IH1|]. exists (for_block bid (concat (y :: infos))).
    cbn [concat]. rewrite for_block_app. split; [reflexivity|]. intros Z. cbn [concat] in IH2. rewrite IH2, Z, (IH3 Z). reflexivity.
Qed.
Lemma same_blockinfo d l : Forall (eq d) (flat_map infos_of l) -> forallb plain_item l = true -> forallb (no_own d) l = true -> items_agree [] l.
Proof.
  intros F P O. apply (all_agree_when (Forall (eq d)) (no_own d)); auto.
  - intros a b H. now apply Forall_app in H as [H _].
  - intros infos bid w n body B H N. cbn [no_own] in N. destruct (N.eqb_spec bid 0) as [|_]; [contradiction|].
    apply andb_true_iff in N as [N1 N2]. split; [|exact N2]. unfold same_ids. destruct infos as [|x infos]; [now left|].
    destruct (same_concat d bid (x :: infos) H) as [-> (more & E & Z)]; [discriminate|]. rewrite E.
    destruct (for_block bid d) as [|a r]; [left; now rewrite Z|right; eauto].
Qed.
