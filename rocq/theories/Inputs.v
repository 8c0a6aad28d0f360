(** The fate of every input is the one InputSpec.v gives it. *)
From Verif Require Import Base Strings EnumModel CursorModel CursorSpec CursorHist CursorProofs CursorSim CursorVbr CursorMain
  StreamModel StreamSpec StreamHist StreamProofs StreamPres StreamEffect StreamRound StreamMain StreamEnd StreamBox
  GrammarSpec GrammarProofs GrammarStopSpec GrammarStops
  UnrollModel UnrollSpec UnrollProofs UnrollMain UnrollApi UnrollStopSpec UnrollStops StreamExact ModuleModel PipelineSpec PipelineProofs PipelinePanics PipelineExact RuleSpec Rules VerdictSpec VerdictModules
  OpenSpec Opens InputSpec.
From Coq Require Import Lia ZifyBool ZifyNat ZifyN.
Ltac Zify.zify_post_hook ::= Z.div_mod_to_equations.
Local Open Scope N_scope.
#[local] Arguments N.add : simpl never.
#[local] Arguments N.mul : simpl never.
#[local] Arguments N.div : simpl never.
#[local] Arguments N.modulo : simpl never.
#[local] Arguments N.sub : simpl never.
#[local] Arguments N.pow : simpl never.

(** *** What the parser says, and the story *)

Section Story.
  Context (e : env) (s : sparser cursor) (xs : list entry) (x : stop).
  Hypothesis HR : run e cursor_ops (S (length xs)) s = oks xs ++ [told x].

  Lemma run_length n s0 : length (run e cursor_ops n s0) = n.
  Proof. revert s0. induction n as [|n IH]; intros s0; [reflexivity|]. cbn [run]. destruct (next e cursor_ops s0). cbn [length]. now rewrite IH. Qed.
  Lemma oks_length l : length (oks l) = length l.
  Proof. apply map_length. Qed.
  Lemma oks_firstn n l : firstn n (oks l) = oks (firstn n l).
  Proof. apply firstn_map. Qed.
  Lemma oks_app l l' : oks (l ++ l') = oks l ++ oks l'.
  Proof. apply map_app. Qed.
  Lemma oks_inj l l' : oks l = oks l' -> l = l'.
  Proof. revert l'. induction l as [|a l IH]; intros [|b l'] H; try discriminate H; [reflexivity|]. injection H as -> H. f_equal. now apply IH. Qed.
  Lemma begins_story l : begins e s l <-> exists rest, xs = l ++ rest.
  Proof.
    split.
    - intros (n & H). fold (oks l) in H. assert (N0 : n = length l) by (rewrite <- (run_length n s), H; apply oks_length). subst n.
      destruct (Nat.le_gt_cases (length l) (length xs)) as [L|L].
      + destruct (run_prefix e (length l) (S (length xs)) s) as (r & P); [lia|]. rewrite HR, H in P.
        exists (skipn (length l) xs). rewrite <- (firstn_skipn (length l) xs) at 1. f_equal. apply oks_inj.
        apply (f_equal (firstn (length l))) in P. rewrite !firstn_app, !oks_length in P.
        replace (length l - length xs)%nat with 0%nat in P by lia. rewrite Nat.sub_diag, !firstn_O, !app_nil_r in P.
        rewrite !oks_firstn, firstn_all in P. exact P.
      + exfalso. destruct (run_prefix e (S (length xs)) (length l) s) as (r & P); [lia|]. rewrite HR, H in P.
        apply (f_equal (fun q => nth_error q (length xs))) in P. rewrite <- app_assoc in P. rewrite nth_error_app2 in P by (rewrite oks_length; lia).
        rewrite oks_length, Nat.sub_diag in P. cbn [app nth_error] in P. unfold oks in P.
        rewrite nth_error_map in P. destruct (nth_error l (length xs)) as [a|]; [|discriminate P]. cbn in P. injection P as P. symmetry in P. now apply told_not_ok in P.
    - intros (rest & E). exists (length l). fold (oks l). destruct (run_prefix e (length l) (S (length xs)) s) as (r & P); [rewrite E, app_length; lia|].
      rewrite HR, E, oks_app, <- app_assoc in P. apply (f_equal (firstn (length l))) in P.
      rewrite !firstn_app, oks_length, run_length, Nat.sub_diag, !firstn_O, !app_nil_r, oks_firstn, firstn_all in P.
      rewrite firstn_all2 in P by (rewrite run_length; lia). now symmetry.
  Qed.
  Lemma says_story l y : says e s l (told y) <-> xs = l /\ x = y.
  Proof.
    split; [|intros [<- <-]; eexists; exact HR]. intros (n & H). apply (run_stops_once e xs l s x y HR).
    assert (n = S (length l)) as ->; [|exact H]. rewrite <- (run_length n s), H, app_length, map_length. cbn. lia.
  Qed.
  Lemma stream_story forest : stream_is e s forest <-> xs = flat_map flat forest /\ x = Stop SExhausted.
  Proof. exact (says_story (flat_map flat forest) (Stop SExhausted)). Qed.
  Lemma stops_story v : ends (unroll_stops e s) v <-> entries_stop xs x v.
  Proof.
    split.
    - intros (o & Y & <-). destruct Y as [forest t y B W M|forest y B W M|forest open y B W M|forest open y B W M|forest open B W M].
      + apply begins_story in B as (rest & B). now apply EtMisplaced with forest t rest.
      + apply begins_story in B as (rest & B). rewrite <- app_assoc in B. now apply EtTopLevel with forest y rest.
      + assert (y <> SExhausted) as NE.
        { intros ->. destruct B as (n & B). assert (I : In (Some (Err SExhausted)) (run e cursor_ops n s)) by (rewrite B; apply in_or_app; right; now left).
          apply run_in in I as (i & _ & I). unfold next in I. destruct (advance e cursor_ops _) as [[?|[]|?|] ?]; discriminate I. }
        replace (Some (Err y)) with (told (Stop y)) in B by (destruct y; auto; congruence). apply says_story in B as [B1 B2]. now apply EtError with forest open.
      + change (Some (Panic y)) with (told (Crash y)) in B. apply says_story in B as [B1 B2]. now apply EtPanic with forest open.
      + change None with (told (Stop SExhausted)) in B. apply says_story in B as [B1 B2]. now apply EtEnd with forest open.
    - intros Y. destruct Y as [forest t rest y B W M|forest y rest B W M|forest open y B X NE W M|forest open y B X W M|forest open B X W M].
      + exists (Err y). split; [|reflexivity]. apply UsMisplaced with forest t; auto. apply begins_story; eauto.
      + exists (Err UTopLevel). split; [|reflexivity]. apply UsTopLevel with forest y; auto. apply begins_story. exists rest. now rewrite <- app_assoc.
      + exists (Err (UParse y)). split; [|reflexivity]. apply UsError with forest open; auto. 
        assert (told (Stop y) = Some (Err y)) as <- by (destruct y; auto; congruence). now apply says_story.
      + exists (Panic y). split; [|reflexivity]. apply UsPanic with forest open; auto. change (Some (Panic y)) with (told (Crash y)). now apply says_story.
      + exists (Err UStreamEnd). split; [|reflexivity]. apply UsEnd with forest open; auto. change None with (told (Stop SExhausted)). now apply says_story.
  Qed.
  Lemma rule_story v : stream_rule e s v <-> entries_rule e xs x v.
  Proof.
    split.
    - intros [w X|forest w X W M].
      + apply EnStop. destruct X as [Y|y Y|y Y|Y]; apply stops_story in Y; now constructor.
      + apply stream_story in X as [X1 X2]. now apply EnParts with forest.
    - intros [w X|forest w X1 X2 W M].
      + apply StrStop. destruct X as [Y|y Y|y Y|Y]; apply stops_story in Y; now constructor.
      + apply StrParts with forest; auto. now apply stream_story.
  Qed.
End Story.

(** *** The start *)

Lemma skipn_bits n (l : list byte) : skipn (8 * n) (bits_of_bytes l) = bits_of_bytes (skipn n l).
Proof.
  destruct (Nat.le_gt_cases n (length l)) as [L|L].
  - rewrite <- (firstn_skipn n l) at 1. rewrite bits_of_bytes_app, skipn_app.
    assert (K : length (bits_of_bytes (firstn n l)) = (8 * n)%nat) by (rewrite bits_of_bytes_length, firstn_length; lia).
    rewrite skipn_all2 by lia. now rewrite K, Nat.sub_diag.
  - rewrite !skipn_all2; [reflexivity|lia|rewrite bits_of_bytes_length; lia].
Qed.
Lemma starts_unread buf start len b : len <= N.of_nat (length buf) -> starts_at buf start len b ->
  unread (bs_parser b) = bits_of_bytes (sub_bytes buf (start + 4) len).
Proof.
  intros L (_ & P & _ & C & _). unfold unread. unfold pos in P. rewrite P, C.
  replace (N.to_nat (8 * start + 32)) with (8 * N.to_nat (start + 4))%nat by lia. rewrite skipn_bits. unfold sub_bytes. f_equal.
  rewrite skipn_firstn_comm. f_equal. lia.
Qed.
Lemma raw_or_wrapped e buf w b : from e buf = Ok (w, b) ->
  match w with None => from_raw buf = Ok b | Some w => from_wrapped e buf = Ok (w, b) end.
Proof.
  intros F. destruct (Nat.lt_ge_cases (length buf) 4) as [L|L].
  - pose proof (from_short e buf L). congruence.
  - destruct (four buf L) as (b0 & b1 & b2 & b3 & rest & ->). rewrite from_dispatch in F. destruct (_ =? _).
    + destruct (from_wrapped e _) as [[]| | |] eqn:Q; try discriminate F. now injection F as <- <-.
    + destruct (from_raw _) eqn:Q; try discriminate F. now injection F as <- <-.
Qed.
Lemma open_text e buf w b : from e buf = Ok (w, b) ->
  exists g, opened e g (bs_parser b) /\ (forall h p l, stream_text buf h p l <-> h = g /\ p = pos (bs_parser b) /\ l = unread (bs_parser b)) /\
  p_scopes (bs_parser b) = [ScInitial] /\ p_info (bs_parser b) = [].
Proof.
  intros F. pose proof (raw_or_wrapped e buf w b F) as RW. destruct (from_exact e buf) as [D B]. pose proof (B w b F) as BB.
  assert (OR : open_rule buf Fine) by (apply D; now rewrite F). destruct BB as [n b FW NW S|w rest b E W M S].
  - exists word_gap. split; [now apply (OpRaw e buf)|]. pose proof (starts_unread _ _ _ _ (N.le_refl _) S) as U. destruct S as (S1 & S2 & S3 & S4 & S5 & S6).
    split; [|auto]. rewrite U, S2.
    assert (SB : sub_bytes buf (0 + 4) (N.of_nat (length buf)) = skipn 4 buf).
    { unfold sub_bytes. change (N.to_nat (0 + 4)) with 4%nat. apply firstn_all2. rewrite skipn_length. lia. }
    rewrite SB. intros h p l. split.
    + intros T. destruct T as [n' FW' NW' L|w rest E W M]; [auto|]. exfalso. apply NW. rewrite E in FW. apply header_word in FW; congruence.
    + intros (-> & -> & ->). change (8 * 0 + 32) with 32. apply TxRaw with n; auto. inversion OR; subst; try congruence.
      * match goal with H : demand _ _ Fine |- _ => now inversion H end.
      * exfalso. apply NW. apply header_word in FW; congruence.
  - exists (block_gap (8 * wr_offset w) (8 * (wr_size w + 20))). split; [now apply (OpWrapped e buf w)|].
    assert (Q : wr_size w <= N.of_nat (length rest) /\ wr_size w mod 4 = 0 /\ wr_offset w + 4 <= wr_size w + 20).
    { destruct (wrapped_at e w rest W) as [DW _]. rewrite <- E in DW. assert (I : in_order [demand (wr_size w <= N.of_nat (length rest)) (SCursor InvalidLength);
                demand (wr_offset w <= wr_size w + 20) (SStreamParse (PfSeek SeekInvalidInput));
                demand (wr_size w mod 4 = 0) (SBadContainer BxLength);
                demand (wr_offset w <> wr_size w + 20) (SBadContainer (BxMagic Eof));
                demand (wr_offset w + 4 <= wr_size w + 20) (SBadContainer (BxMagic Short))] (@Fine serr)) by (apply DW; now rewrite RW).
      repeat match goal with H : in_order _ _ |- _ => inversion H; clear H; subst | H : demand _ _ Fine |- _ => inversion H; clear H; subst end; try congruence; auto. }
    destruct Q as (Q1 & Q2 & Q3).
    assert (LL : wr_size w + 20 <= N.of_nat (length buf)) by (rewrite E, app_length; unfold wrapper_header, le32; cbn [app length]; lia).
    pose proof (starts_unread _ _ _ _ LL S) as U. destruct S as (S1 & S2 & S3 & S4 & S5 & S6). split; [|auto]. rewrite U, S2.
    intros h p l. split.
    + intros T. destruct T as [n' FW' NW' L|w' rest' E' W' M'].
      * exfalso. apply NW'. rewrite E in FW'. apply header_word in FW'; congruence.
      * rewrite E in E'. apply header_same in E' as [<- <-]; auto. split; [reflexivity|]. split; [lia|reflexivity].
    + intros (-> & -> & ->). replace (8 * wr_offset w + 32) with (8 * (wr_offset w + 4)) by lia. now apply TxWrapped with rest.
Qed.
Lemma wrapped_starts e buf w b : from_wrapped e buf = Ok (w, b) ->
  wr_size w + 20 <= N.of_nat (length buf) /\ starts_at buf (wr_offset w) (wr_size w + 20) b.
Proof.
  intros F. destruct (Nat.lt_ge_cases (length buf) 20) as [S20|S20].
  { unfold from_wrapped in F. rewrite (header_short buf S20) in F. discriminate F. }
  destruct (header_exists buf S20) as (w' & r & B & W). pose proof (wrapped_at e w' r W) as [Q1 Q2]. rewrite <- B in Q1, Q2.
  destruct (Q2 w b F) as [<- O]. split; [|exact O]. specialize (Q1 Fine). rewrite F in Q1. cbn [verdict_of] in Q1.
  pose proof (proj1 Q1 eq_refl) as I. inversion I as [|? ? ? D|]; subst; [|congruence].
  inversion D; subst. rewrite app_length. unfold wrapper_header, le32. cbn [app length]. lia.
Qed.
Lemma wrapped_story e buf w b xs x : from_wrapped e buf = Ok (w, b) ->
  (run e cursor_ops (S (length xs)) (bs_parser b) = oks xs ++ [told x] <->
   story e (block_gap (8 * wr_offset w) (8 * (wr_size w + 20))) (8 * (wr_offset w + 4)) (fun _ => []) [ScInitial]
     (bits_of_bytes (sub_bytes buf (wr_offset w + 4) (wr_size w + 20))) xs x).
Proof.
  intros F. pose proof (OpWrapped e buf w b F) as O. pose proof (wrapped_starts e buf w b F) as [LL S].
  pose proof (starts_unread _ _ _ _ LL S) as U. destruct S as (S1 & S2 & S3 & S4 & S5 & S6).
  rewrite <- U, <- S5. replace (8 * (wr_offset w + 4)) with (pos (bs_parser b)) by lia. split.
  - intros R. apply (story_sound e _ xs x _ O) in R. rewrite S6 in R. exact R.
  - intros R. apply (story_complete e _ xs x _ (fun _ => []) O); [now rewrite S6|exact R].
Qed.
Lemma block_gap_whole start total p : start <= p -> start + 64 * ((p - start) / 64 + 1) <= total ->
  block_gap start total p = word_gap (p - start).
Proof.
  intros H L. unfold block_gap, word_gap. cbv zeta. destruct ((p - start) mod 64 =? 0) eqn:E; [lia|].
  now replace (start + 64 * ((p - start) / 64 + 1) <=? total) with true by lia.
Qed.
Lemma closed_text e buf x g p l : from e buf = Err x -> ~ stream_text buf g p l.
Proof.
  intros F T. destruct (from_exact e buf) as [D _]. specialize (D Fine). rewrite F in D. cbn in D.
  enough (open_rule buf Fine) by (apply D in H; discriminate H). destruct T as [n FW NW L|w rest E W M Q1 Q2 Q3].
  - apply OgRaw with n; auto. now constructor.
  - apply OgWrapped with w rest; auto. repeat (apply IoNext; [constructor; first [assumption|lia]|]). constructor.
Qed.
Lemma input_decided e host buf : N.of_nat (length buf) < 2 ^ 61 -> decided (bitcode_of e host buf) (input_rule e buf).
Proof.
  intros L. apply (dec_ext _ _ _ (buffer_decided e host buf L)). intros v. destruct (from_settled e buf) as [[[w b] F]|[x F]].
  - destruct (open_text e buf w b F) as (g & O & T & S1 & S2).
    destruct (run_stops e g _ O (fun s' H => opened_fuel e g s' H)) as (xs & x & HR).
    pose proof (story_sound e g xs x _ O HR) as ST. rewrite S1, S2 in ST. change (registered []) with (fun _ : N => @nil abbrev) in ST. split.
    + intros H. inversion H as [y Y|w' b' v' Y Z]; subst; [congruence|]. assert (b' = b) as -> by congruence.
      apply InText with g (pos (bs_parser b)) (unread (bs_parser b)) xs x; [now apply T|exact ST|now apply (rule_story e _ xs x HR)].
    + intros H. inversion H as [y Y|h p l xs' x' v' Y Z V]; subst.
      * exfalso. destruct (from_exact e buf) as [D _]. apply D in Y. rewrite F in Y. discriminate Y.
      * apply T in Y as (-> & -> & ->). apply BuStream with w b; [exact F|]. rewrite <- S1 in Z.
        apply (story_complete e g xs' x' _ (fun _ => []) O) in Z; [|now rewrite S2].
        now apply (rule_story e _ xs' x' Z).
  - split.
    + intros H. inversion H as [y Y|w' b' v' Y Z]; subst; [|congruence]. apply InClosed. destruct (from_exact e buf) as [D _]. apply D. now rewrite Y.
    + intros H. inversion H as [y Y|h p l xs' x' v' Y Z V]; subst; [|now apply (closed_text e buf x h p l F) in Y].
      apply BuClosed. destruct (from_exact e buf) as [D _]. apply D in Y. rewrite F in Y |- *. now injection Y as ->.
Qed.
Lemma input_unique e buf : N.of_nat (length buf) < 2 ^ 61 -> exists! v, input_rule e buf v.
Proof.
  intros L. exists (verdict_of (bitcode_of e [] buf)). split; [now apply (input_decided e [] buf L)|].
  intros v H. now apply (input_decided e [] buf L).
Qed.
