(** The parser on targets of another word size: what it yields with 64-bit words, it yields there. *)
From Verif Require Import Base CursorModel CursorSpec CursorHist CursorProofs CursorSim CursorVbr CursorMain
  StreamModel StreamSpec StreamHist StreamProofs StreamPres StreamEffect StreamRound StreamMain StreamEnd StreamSize WordModel WordSpec WordCursor.
From Coq Require Import Lia ZifyBool ZifyNat ZifyN.
Ltac Zify.zify_post_hook ::= Z.div_mod_to_equations.
Local Open Scope N_scope.
Arguments N.add : simpl never.
Arguments N.mul : simpl never.
Arguments N.div : simpl never.
Arguments N.modulo : simpl never.
Arguments N.sub : simpl never.
Arguments N.pow : simpl never.

Lemma progressive_w U : progressive cursor_ops (inv_w U) cmu.
Proof.
  destruct cursor_progressive as [P1 P2 P3]. constructor.
  - intros n c [I B]. pose proof (P1 n c I) as K. pose proof (read_keeps U n c (conj I B)) as K'. fold (cmu c) in K.
    destruct (op_read cursor_ops n c) as [[v|x|p|] c']; try contradiction; cbn [snd] in K'; unfold cmu; tauto.
  - intros c [I B]. pose proof (P2 c I) as K. split; [apply K|]. exact (align_keeps U c (conj I B)).
  - intros c [I B]. exact (P3 c I).
Qed.

Section Stream.
  Context (U : N) (e : env).
  Context (U64 : 64 < U).
  Notation o := cursor_ops.
  Notation w := (cursor_ops_w U e).
  Notation PG := (progressive_w U).
  Local Open Scope m_scope.

  (** What succeeds with 64-bit words succeeds alike. *)
  Definition follows {E A} (m m' : M cursor E A) : Prop :=
    forall c x c', inv_w U c -> m c = (Ok x, c') -> m' c = (Ok x, c') /\ inv_w U c' /\ (cmu c' <= cmu c)%nat.
  Lemma follows_ret {E A} (a : A) : follows (E := E) (ret a) (ret a).
  Proof. intros c x c' I [= <- <-]. auto. Qed.
  Lemma follows_fail {E A} x (m' : M cursor E A) : follows (fail x) m'.
  Proof. intros c y c' I [=]. Qed.
  Lemma follows_crash {E A} p (m' : M cursor E A) : follows (crash p) m'.
  Proof. intros c y c' I [=]. Qed.
  Lemma follows_bind {E A B} (m m' : M cursor E A) (k k' : A -> M cursor E B) :
    follows m m' -> (forall a, follows (k a) (k' a)) -> follows (bind m k) (bind m' k').
  Proof.
    intros H K c x c' I X. unfold bind in *. destruct (m c) as [[a|y|p|] c1] eqn:M1; try discriminate X.
    destruct (H _ _ _ I M1) as (-> & I1 & L1). destruct (K a _ _ _ I1 X) as (-> & I2 & L2). split; [reflexivity|]. split; [exact I2|lia].
  Qed.
  Lemma follows_alike {E A} Pan (m m' : M cursor E A) : alike U m m' -> nice (inv_w U) cmu Pan m -> follows m m'.
  Proof. intros H N1 c x c' I X. rewrite (H c I). specialize (N1 c I). rewrite X in N1. tauto. Qed.
  Lemma alike_lift {E F A} (f : E -> F) (m m' : M cursor E A) : alike U m m' -> alike U (lift_err f m) (lift_err f m').
  Proof. intros H c I. unfold lift_err. now rewrite (H c I). Qed.

  Lemma c_read_alike n : alike U (c_read o n) (c_read w n).
  Proof. apply alike_lift. intros c I. exact (read_same U e n c I). Qed.
  Lemma c_vbr_alike n : alike U (c_vbr e o n) (c_vbr e w n).
  Proof. apply alike_lift, read_vbr_same. Qed.
  Lemma c_read_as_alike t n : alike U (c_read_as o t n) (c_read_as w t n).
  Proof. apply alike_lift, read_as_same. Qed.
  Lemma c_align_alike : alike U (c_align o) (c_align w).
  Proof. intros c _. reflexivity. Qed.
  Lemma c_read_follows n : follows (c_read o n) (c_read w n).
  Proof. eapply follows_alike; [apply c_read_alike|exact (c_read_nice e o _ _ PG n)]. Qed.
  Lemma c_vbr_follows n : follows (c_vbr e o n) (c_vbr e w n).
  Proof. eapply follows_alike; [apply c_vbr_alike|exact (c_vbr_nice e o _ _ PG n)]. Qed.
  Lemma c_read_as_follows t n : follows (c_read_as o t n) (c_read_as w t n).
  Proof.
    intros c x c' I X. rewrite (c_read_as_alike t n c I). split; [exact X|].
    destruct (c_read_as_pays o _ _ PG t n _ _ _ I X) as [I' L]. split; [exact I'|lia].
  Qed.
  Lemma c_align_follows : follows (c_align o) (c_align w).
  Proof. eapply follows_alike; [apply c_align_alike|exact (c_align_nice e o _ _ PG)]. Qed.
  Lemma times_follows {A} (m m' : M cursor serr (list A)) n : follows m m' -> follows (times n m) (times n m').
  Proof.
    intros H c x c' I X. rewrite times_nat in *. revert c x c' I X. generalize (N.to_nat n). intros k. change (follows (times_n k m) (times_n k m')).
    induction k as [|k IH]; cbn [times_n]; [apply follows_ret|]. apply follows_bind; [exact H|]. intros a. apply follows_bind; [exact IH|]. intros b. apply follows_ret.
  Qed.
  (** Each of [n] elements takes a bit. *)
  Lemma times_count {A} (m : M cursor serr (list A)) n c x c' : pays (inv_w U) cmu (fun _ => 1%nat) 0 m -> inv_w U c ->
    times n m c = (Ok x, c') -> (N.to_nat n + cmu c' <= cmu c)%nat.
  Proof.
    intros H I X. rewrite times_nat in X. revert c x c' I X. generalize (N.to_nat n). intros k. induction k as [|k IH]; intros c x c' I X; cbn [times_n] in X.
    - injection X as <- <-. lia.
    - unfold bind in X. destruct (m c) as [[a|y|p|] c1] eqn:M1; try discriminate X. destruct (H _ _ _ I M1) as [I1 L1].
      destruct (times_n k m c1) as [[b|y|p|] c2] eqn:M2; try discriminate X. specialize (IH _ _ _ I1 M2). injection X as <- <-. lia.
  Qed.
  Lemma cmu_small c : inv_w U c -> N.of_nat (cmu c) < U.
  Proof. intros [_ B]. unfold cmu, bit_len. lia. Qed.
  Lemma read_width n c x c' : c_read_as o u64t n c = (Ok x, c') -> n < 64.
  Proof.
    unfold c_read_as, lift_err, read_as, bind. cbn [op_read cursor_ops]. unfold read. destruct (n =? 0) eqn:E1; cbn [orb]; [discriminate|].
    destruct (64 <=? n) eqn:E; [discriminate|]. lia.
  Qed.
  Lemma vbr_width n c x c' : c_vbr e o n c = (Ok x, c') -> n <= 32.
  Proof. unfold c_vbr, lift_err, read_vbr. destruct ((2 <=? n) && (n <=? 32))%bool eqn:E; [lia|discriminate]. Qed.

  Lemma elem_follows op : elem_sized op -> follows (op_parse e o op) (op_parse_w U e op).
  Proof.
    destruct op as [v|n|n|el| |]; try contradiction; intros _; cbn [op_parse op_parse_w].
    - intros c x c' I X. unfold bind in X. destruct (c_vbr e o n c) as [[a|y|p|] c1] eqn:M1; try discriminate X.
      pose proof (vbr_width _ _ _ _ M1). rewrite us_small by lia. unfold bind. destruct (c_vbr_follows n _ _ _ I M1) as (-> & I1 & L1). injection X as <- <-. auto.
    - intros c x c' I X. unfold bind in X. destruct (c_read_as o u64t n c) as [[a|y|p|] c1] eqn:M1; try discriminate X.
      pose proof (read_width _ _ _ _ M1). rewrite us_small by lia. unfold bind. destruct (c_read_as_follows u64t n _ _ _ I M1) as (-> & I1 & L1). injection X as <- <-. auto.
    - apply follows_bind; [apply c_read_as_follows|]. intros a. apply follows_bind; [|intros b; apply follows_ret].
      unfold decode_char6. destruct (nth_error _ _); [apply follows_ret|apply follows_crash].
  Qed.
  Lemma elem_costs op : elem_sized op -> pays (inv_w U) cmu (fun _ => 1%nat) 0 (op_parse e o op).
  Proof.
    destruct op as [v|n|n|el| |]; try contradiction; intros _; cbn [op_parse].
    - apply (pays_bind _ _ (fun _ => 1%nat)); [exact (c_vbr_pays e o _ _ PG n)|]. intros x. apply pays_ret. lia.
    - apply (pays_bind _ _ (fun _ => 1%nat)); [exact (c_read_as_pays o _ _ PG u64t n)|]. intros x. apply pays_ret. lia.
    - apply (pays_bind _ _ (fun _ => 1%nat)); [exact (c_read_as_pays o _ _ PG u8t 6)|]. intros x. unfold decode_char6.
      destruct (nth_error _ _); [apply (pays_bind _ _ (fun _ => 0%nat)); [apply pays_ret; lia|intros; apply pays_ret; lia]|].
      intros c y c' I X. discriminate X.
  Qed.
  Lemma capacity_follows n : follows (E := serr) (with_capacity e n) (with_capacity e n).
  Proof. unfold with_capacity. destruct (_ <=? _); [apply follows_ret|apply follows_crash]. Qed.
  Lemma op_follows op : op_sized op -> follows (op_parse e o op) (op_parse_w U e op).
  Proof.
    destruct op as [v|n|n|el| |]; intros O; try (now apply elem_follows); cbn [op_parse op_parse_w].
    - apply follows_ret.
    - assert (ES : elem_sized el) by (destruct el; try contradiction; exact Logic.I).
      intros c x c' I X. unfold bind in X. destruct (c_vbr e o 6 c) as [[n|y|p|] c1] eqn:M1; try discriminate X.
      destruct (c_vbr_follows 6 _ _ _ I M1) as (F1 & I1 & L1). destruct (with_capacity e n c1) as [[a|y|p|] c2] eqn:M2; try discriminate X.
      assert (c2 = c1) as -> by (unfold with_capacity in M2; destruct (_ <=? _); [now injection M2|discriminate M2]).
      pose proof (times_count _ _ _ _ _ (elem_costs el ES) I1 X) as K. pose proof (cmu_small c1 I1) as S1.
      unfold bind. rewrite F1. rewrite us_small by lia. rewrite M2.
      destruct (times_follows _ _ n (elem_follows el ES) _ _ _ I1 X) as (-> & I3 & L3). split; [reflexivity|]. split; [exact I3|lia].
    - intros c x c' I X. unfold bind in X. destruct (c_vbr e o 6 c) as [[n|y|p|] c1] eqn:M1; try discriminate X.
      destruct (c_vbr_follows 6 _ _ _ I M1) as (F1 & I1 & L1). destruct (c_align o c1) as [[a|y|p|] c2] eqn:M2; try discriminate X.
      destruct (c_align_follows _ _ _ I1 M2) as (F2 & I2 & L2). destruct (with_capacity e n c2) as [[a'|y|p|] c3] eqn:M3; try discriminate X.
      assert (c3 = c2) as -> by (unfold with_capacity in M3; destruct (_ <=? _); [now injection M3|discriminate M3]).
      match type of X with context [times n ?mm c2] => set (m := mm) in * end.
      destruct (times n m c2) as [[bs|y|p|] c4] eqn:M4; try discriminate X.
      assert (P1 : pays (inv_w U) cmu (fun _ => 1%nat) 0 m).
      { apply (pays_bind _ _ (fun _ => 1%nat)); [exact (c_read_as_pays o _ _ PG u8t 8)|]. intros b. apply pays_ret. lia. }
      pose proof (times_count _ _ _ _ _ P1 I2 M4) as K. pose proof (cmu_small c2 I2) as S1.
      unfold bind at 1. rewrite F1. unfold bind at 1. rewrite F2. unfold bind at 1. rewrite us_small by lia. rewrite M3.
      assert (F4 : follows m (b <- c_read_as w u8t 8 ;; ret [b])) by (apply follows_bind; [apply c_read_as_follows|intros b; apply follows_ret]).
      destruct (times_follows _ _ n F4 _ _ _ I2 M4) as (F5 & I4 & L4). unfold bind at 1. rewrite F5.
      destruct (c_align o c4) as [[a''|y|p|] c5] eqn:M5; try discriminate X. destruct (c_align_follows _ _ _ I4 M5) as (F6 & I5 & L5).
      unfold bind. rewrite F6. injection X as <- <-. split; [reflexivity|]. split; [exact I5|lia].
  Qed.
  Lemma abbrev_follows a : Forall op_sized a -> follows (abbrev_parse e o a) (abbrev_parse_w U e a).
  Proof.
    induction 1 as [|op a O _ IH]; cbn [abbrev_parse abbrev_parse_w]; [apply follows_ret|].
    apply follows_bind; [now apply op_follows|]. intros x. apply follows_bind; [exact IH|]. intros y. apply follows_ret.
  Qed.

  (** Definitions of abbreviations. *)
  Lemma read_enc_follows : follows (read_enc o) (read_enc w).
  Proof. apply follows_bind; [apply c_read_follows|]. intros v. destruct (abbrev_enc_of v); [apply follows_ret|apply follows_fail]. Qed.
  Lemma array_elem_follows : follows (array_elem e o) (array_elem e w).
  Proof.
    apply follows_bind; [apply c_read_follows|]. intros _. apply follows_bind; [apply read_enc_follows|]. intros x.
    destruct x; try apply follows_fail; try apply follows_ret; (apply follows_bind; [apply c_vbr_follows|]; intros v; apply follows_ret).
  Qed.
  Lemma abbrev_loop_follows f : forall num idx acc, follows (abbrev_loop e o f num idx acc) (abbrev_loop e w f num idx acc).
  Proof.
    induction f as [|f IH]; intros num idx acc; cbn [abbrev_loop]; [intros c x c' I [=]|].
    destruct (num <=? idx); [apply follows_ret|]. apply follows_bind; [apply c_read_follows|]. intros kind. destruct (kind =? 1).
    { apply follows_bind; [apply c_vbr_follows|]. intros v. apply IH. }
    apply follows_bind; [apply read_enc_follows|]. intros x. destruct x.
    - apply follows_bind; [apply c_vbr_follows|]. intros v. apply IH.
    - apply follows_bind; [apply c_vbr_follows|]. intros v. apply IH.
    - destruct (_ && _)%bool; [apply follows_crash|]. cbv zeta. destruct (negb _); [apply follows_fail|].
      apply follows_bind; [apply array_elem_follows|]. intros v. apply follows_ret.
    - apply IH.
    - destruct (negb _); [apply follows_fail|apply IH].
  Qed.
  Lemma abbrev_new_follows : follows (abbrev_new e o) (abbrev_new e w).
  Proof.
    apply follows_bind; [apply c_vbr_follows|]. intros num. destruct (num <? 1); [apply follows_fail|].
    intros c x c' I X. exact (abbrev_loop_follows _ num 0 [] c x c' I X).
  Qed.
  Lemma abbrev_new_costs c a c' : inv_w U c -> abbrev_new e o c = (Ok a, c') -> Forall op_sized a /\ (S (cmu c') <= cmu c)%nat.
  Proof.
    intros I X. split; [exact (proj1 (abbrev_new_sized e o _ _ PG c a c' I X))|].
    unfold abbrev_new, bind in X. destruct (c_vbr e o 5 c) as [[num|?|?|] c1] eqn:M1; try discriminate X.
    destruct (c_vbr_pays e o _ _ PG 5 _ _ _ I M1) as [I1 L1]. destruct (num <? 1); [discriminate X|].
    destruct (abbrev_loop_follows _ num 0 [] c1 a c' I1 X) as (_ & _ & L2). lia.
  Qed.

  (** *** The parser *)
  Context (B : nat) (BU : N.of_nat B + 8 <= U).
  Definition list_fine (k : nat) (l : list abbrev) : Prop := Forall (Forall op_sized) l /\ (length l + k <= B)%nat.
  Definition scope_fine (k : nat) (s : scope) : Prop := match s with ScInitial => True | ScBlock _ _ _ l => list_fine k l end.
  Definition G (s : sparser cursor) : Prop :=
    inv_w U (p_cur s) /\ (cmu (p_cur s) <= B)%nat /\ Forall (scope_fine (cmu (p_cur s))) (p_scopes s) /\
    Forall (fun x => list_fine (cmu (p_cur s)) (snd x)) (p_info s).
  Lemma list_fine_less k k' l : (k' <= k)%nat -> list_fine k l -> list_fine k' l.
  Proof. intros L [H1 H2]. split; [exact H1|lia]. Qed.
  Lemma scope_fine_less k k' s : (k' <= k)%nat -> scope_fine k s -> scope_fine k' s.
  Proof. intros L. destruct s; [auto|]. now apply list_fine_less. Qed.
  Lemma G_less s c' : G s -> inv_w U c' -> (cmu c' <= cmu (p_cur s))%nat -> G (mkParser c' (p_scopes s) (p_info s)).
  Proof.
    intros (G1 & G2 & G3 & G4) I L. unfold G. cbn [p_cur p_scopes p_info]. split; [exact I|]. split; [lia|]. split.
    - eapply Forall_impl; [|exact G3]. intros x. now apply scope_fine_less.
    - eapply Forall_impl; [|exact G4]. intros x. now apply list_fine_less.
  Qed.

  Notation PM := (M (sparser cursor) serr).
  Definition keeps {A} (s : sparser cursor) (m m' : PM A) : Prop :=
    forall x s', m s = (Ok x, s') -> m' s = (Ok x, s') /\ G s'.
  Lemma keeps_bind {A A'} s (m m' : PM A) (k k' : A -> PM A') : keeps s m m' ->
    (forall a s', m s = (Ok a, s') -> G s' -> keeps s' (k a) (k' a)) -> keeps s (bind m k) (bind m' k').
  Proof.
    intros H K x s' X. unfold bind in *. destruct (m s) as [[a|y|p|] s1] eqn:M1; try discriminate X.
    destruct (H _ _ M1) as [H1 G1]. rewrite H1. exact (K a s1 eq_refl G1 _ _ X).
  Qed.
  Lemma keeps_ret {A} s (a : A) : G s -> keeps s (ret a) (ret a).
  Proof. intros H x s' [= <- <-]. auto. Qed.
  Lemma keeps_fail {A} s x (m' : PM A) : keeps s (fail x) m'.
  Proof. intros y s' [=]. Qed.
  Lemma keeps_crash {A} s p (m' : PM A) : keeps s (crash p) m'.
  Proof. intros y s' [=]. Qed.
  Lemma keeps_cur {A} s (m m' : M cursor serr A) : G s -> follows m m' -> keeps s (on_cur m) (on_cur m').
  Proof.
    intros H F x s' X. unfold on_cur in *. destruct (m (p_cur s)) as [r c'] eqn:M1. injection X as -> <-.
    destruct (F _ _ _ (proj1 H) M1) as (-> & I & L). split; [reflexivity|]. now apply G_less.
  Qed.
  Lemma keeps_scope s : G s -> keeps s get_scope get_scope.
  Proof. intros H x s' X. split; [exact X|]. unfold get_scope in X. destruct (p_scopes s); [discriminate X|]. now injection X as <- <-. Qed.
  Lemma get_scope_is s sc s' : G s -> get_scope s = (Ok sc, s') -> s' = s /\ scope_fine (cmu (p_cur s)) sc.
  Proof.
    intros (_ & _ & H & _) X. unfold get_scope in X. destruct (p_scopes s); [discriminate X|]. injection X as <- <-. split; [reflexivity|]. now inversion H.
  Qed.
  Lemma keeps_set_scope s sc : G s -> scope_fine (cmu (p_cur s)) sc -> keeps s (set_scope sc) (set_scope sc).
  Proof.
    intros (G1 & G2 & G3 & G4) F x s' X. split; [exact X|]. unfold set_scope in X. destruct (p_scopes s) as [|h t]; [discriminate X|]. injection X as <- <-.
    unfold G. cbn [p_cur p_scopes p_info]. inversion G3; subst. auto.
  Qed.
  Lemma keeps_extend s l : G s -> Forall (Forall op_sized) l ->
    (forall sc, hd_error (p_scopes s) = Some sc -> match sc with ScInitial => True | ScBlock _ _ _ l0 => (length l0 + length l + cmu (p_cur s) <= B)%nat end) ->
    keeps s (extend_scope l) (extend_scope l).
  Proof.
    intros H F L. unfold extend_scope. apply keeps_bind; [now apply keeps_scope|]. intros sc s' X G1.
    destruct (get_scope_is _ _ _ H X) as [-> FS].
    assert (HD : hd_error (p_scopes s) = Some sc) by (unfold get_scope in X; destruct (p_scopes s); [discriminate X|now injection X as <-]).
    specialize (L _ HD). destruct sc as [|x1 x2 x3 l0]; cbn [sc_extend]; [apply keeps_fail|]. apply keeps_set_scope; [exact H|].
    destruct FS as [FS _]. split; [now apply Forall_app|]. cbv beta iota in L. rewrite app_length. exact L.
  Qed.
  Lemma info_get_fine k m b l : Forall (fun x : N * list abbrev => list_fine k (snd x)) m -> info_get m b = Some l -> list_fine k l.
  Proof.
    intros H. induction H as [|[k' v] m X H IH]; cbn [info_get]; [discriminate|]. destruct (k' =? b); [intros [= <-]; exact X|exact IH].
  Qed.
  Lemma info_push_fine k k' m b a : (S k' <= k)%nat -> (k <= B)%nat -> Forall op_sized a ->
    Forall (fun x : N * list abbrev => list_fine k (snd x)) m -> Forall (fun x => list_fine k' (snd x)) (info_push m b a).
  Proof.
    intros L LB A H. induction H as [|[b' v] m X H IH]; cbn [info_push].
    - constructor; [|constructor]. cbn. split; [constructor; [exact A|constructor]|cbn; lia].
    - destruct (b' =? b).
      + constructor; cbn [snd] in *.
        * destruct X as [X1 X2]. split; [apply Forall_app; split; [exact X1|constructor; [exact A|constructor]]|]. rewrite app_length. cbn. lia.
        * eapply Forall_impl; [|exact H]. intros y. apply list_fine_less. lia.
      + constructor; [|exact IH]. cbn [snd] in *. eapply list_fine_less; [|exact X]. lia.
  Qed.

  Lemma enter_block_keeps s : G s -> keeps s (enter_block e o) (enter_block e w).
  Proof.
    intros H. unfold enter_block. apply keeps_bind; [apply keeps_cur; [exact H|apply c_vbr_follows]|]. intros bid s1 _ G1.
    apply keeps_bind; [apply keeps_cur; [exact G1|apply c_vbr_follows]|]. intros wd s2 _ G2.
    apply keeps_bind; [apply keeps_cur; [exact G2|apply c_align_follows]|]. intros _ s3 _ G3.
    destruct (wd <? 1); [apply keeps_fail|]. apply keeps_bind; [apply keeps_cur; [exact G3|apply c_read_follows]|]. intros words s4 _ G4.
    apply keeps_bind.
    { intros x s' [= <- <-]. split; [reflexivity|]. destruct G4 as (K1 & K2 & K3 & K4). unfold G. cbn [p_cur p_scopes p_info].
      split; [exact K1|]. split; [exact K2|]. split; [|exact K4]. constructor; [|exact K3]. split; [constructor|cbn; lia]. }
    intros u5 s5 Y5 G5; assert (E5 := f_equal snd Y5); cbn [snd] in E5; clear Y5. apply keeps_bind.
    { pose proof G5 as (_ & _ & _ & K4). destruct (info_get (p_info s5) bid) as [l|] eqn:E.
      - destruct (info_get_fine _ _ _ _ K4 E) as [F1 F2].
        intros x s' X. rewrite E in *. revert x s' X. apply keeps_extend; [exact G5|exact F1|]. rewrite <- E5. cbn [p_scopes hd_error p_cur].
        intros sc [= <-]. rewrite <- E5 in F2. cbn [p_cur length] in *. exact F2.
      - intros x s' X. rewrite E in *. injection X as <- <-. split; [reflexivity|exact G5]. }
    intros _ s6 _ G6. apply keeps_bind; [now apply keeps_scope|]. intros sc s7 _ G7. destruct (sc_is_blockinfo sc); now apply keeps_ret.
  Qed.
  Lemma exit_block_keeps s : G s -> keeps s (exit_block o) (exit_block w).
  Proof.
    intros H. unfold exit_block. apply keeps_bind; [apply keeps_cur; [exact H|apply c_align_follows]|]. intros _ s1 _ G1 x s' X.
    split; [exact X|]. destruct G1 as (K1 & K2 & K3 & K4). destruct (p_scopes s1) as [|sc [|sc' l]] eqn:E; try discriminate X. injection X as _ <-.
    unfold G. cbn [p_cur p_scopes p_info]. inversion K3; subst. auto.
  Qed.
  Lemma define_abbrev_keeps s : G s -> keeps s (define_abbrev e o) (define_abbrev e w).
  Proof.
    intros H. unfold define_abbrev. apply keeps_bind; [apply keeps_cur; [exact H|apply abbrev_new_follows]|]. intros a s1 X1 G1.
    unfold on_cur in X1. destruct (abbrev_new e o (p_cur s)) as [r c1] eqn:M1. injection X1 as -> E1.
    destruct (abbrev_new_costs _ _ _ (proj1 H) M1) as [WA CA].
    apply keeps_bind; [now apply keeps_scope|]. intros sc s2 X2 _. destruct (get_scope_is _ _ _ G1 X2) as [-> _].
    pose proof H as (H1 & H2 & H3 & H4).
    destruct (sc_is_blockinfo sc).
    - destruct (sc_blockinfo_bid sc) as [bid|]; [|apply keeps_fail]. intros x s' [= <- <-]. split; [reflexivity|].
      destruct G1 as (K1 & K2 & K3 & K4). unfold G. cbn [p_cur p_scopes p_info]. split; [exact K1|]. split; [exact K2|]. split; [exact K3|].
      rewrite <- E1. cbn [p_cur p_info]. now apply (info_push_fine (cmu (p_cur s))).
    - apply keeps_extend; [exact G1|constructor; [exact WA|constructor]|]. rewrite <- E1. cbn [p_scopes p_cur length]. intros y Y.
      destruct y as [|y1 y2 y3 l0]; [exact Logic.I|]. destruct (p_scopes s) as [|h t]; [discriminate Y|]. injection Y as ->. destruct (Forall_inv H3) as [_ Z]. unfold abbrev in *. lia.
  Qed.
  Lemma unabbrev_follows num : follows (times num (x <- c_vbr e o 6 ;; ret [x])) (times num (x <- c_vbr e w 6 ;; ret [x])).
  Proof. apply times_follows. apply follows_bind; [apply c_vbr_follows|]. intros x. apply follows_ret. Qed.
  Lemma parse_unabbrev_keeps s : G s -> keeps s (parse_unabbrev e o) (parse_unabbrev_w U e).
  Proof.
    intros H. unfold parse_unabbrev, parse_unabbrev_w. apply keeps_bind; [now apply keeps_scope|]. intros sc s0 X0 _. destruct (get_scope_is _ _ _ H X0) as [-> _].
    destruct sc as [|x1 x2 x3 x4]; [apply keeps_fail|].
    apply keeps_bind; [apply keeps_cur; [exact H|apply c_vbr_follows]|]. intros code s1 _ G1.
    apply keeps_bind; [apply keeps_cur; [exact G1|apply c_vbr_follows]|]. intros num s2 _ G2.
    intros x s' X. unfold bind at 1 in X. destruct (with_capacity e num s2) as [[a|y|p|] s3] eqn:M3; try discriminate X.
    assert (s3 = s2) as -> by (unfold with_capacity in M3; destruct (_ <=? _); [now injection M3|discriminate M3]).
    assert (S1 : num < U).
    { unfold bind at 1 in X. unfold on_cur in X. destruct (times num _ (p_cur s2)) as [[fs|y|p|] c3] eqn:M4; try discriminate X.
      assert (P1 : pays (inv_w U) cmu (fun _ => 1%nat) 0 (x <- c_vbr e o 6 ;; ret [x])).
      { apply (pays_bind _ _ (fun _ => 1%nat)); [exact (c_vbr_pays e o _ _ PG 6)|]. intros b. apply pays_ret. lia. }
      pose proof (times_count _ _ _ _ _ P1 (proj1 G2) M4) as K. destruct G2 as (_ & G2 & _). lia. }
    unfold bind at 1. rewrite us_small by exact S1. rewrite M3. clear M3. revert x s' X.
    apply keeps_bind; [apply keeps_cur; [exact G2|apply unabbrev_follows]|]. intros fields s4 _ G4.
    apply keeps_bind; [now apply keeps_scope|]. intros sc s5 X5 _. destruct (get_scope_is _ _ _ G4 X5) as [-> FS].
    destruct (sc_is_blockinfo sc); [|now apply keeps_ret].
    destruct (blockinfo_code_of code) as [[]|]; try apply keeps_fail; try (now apply keeps_ret).
    destruct fields as [|bid fs]; [apply keeps_crash|]. destruct sc as [|y1 y2 y3 y4]; cbn [sc_set_bid]; [apply keeps_fail|].
    apply keeps_bind; [apply keeps_set_scope; [exact G4|exact FS]|]. intros _ s6 _ G6. now apply keeps_ret.
  Qed.
  Lemma parse_with_abbrev_keeps id s : G s -> keeps s (parse_with_abbrev e o id) (parse_with_abbrev_w U e id).
  Proof.
    intros H. unfold parse_with_abbrev, parse_with_abbrev_w. apply keeps_bind; [now apply keeps_scope|]. intros sc s0 X0 _. destruct (get_scope_is _ _ _ H X0) as [-> FS].
    assert (GA : forall a s', get_abbrev sc id s = (Ok a, s') -> s' = s /\ get_abbrev_w U e sc id s = (Ok a, s) /\ Forall op_sized a).
    { intros a s' X. unfold get_abbrev in X. destruct sc as [|x1 x2 x3 l]; [discriminate X|]. destruct (id <? 4) eqn:E4; [discriminate X|].
      destruct (nth_error l (N.to_nat (id - 4))) as [a1|] eqn:E; [|discriminate X]. injection X as <- <-. split; [reflexivity|].
      destruct FS as [F1 F2]. assert (LT : (N.to_nat (id - 4) < length l)%nat) by (apply nth_error_Some; congruence).
      split; [|apply nth_error_In in E; rewrite Forall_forall in F1; now apply F1].
      destruct H as (_ & _ & _ & _). unfold get_abbrev_w, w_sub.
      destruct (N.lt_ge_cases id U) as [LU|LU].
      + rewrite us_small by exact LU. replace (4 <=? id) with true by lia. now rewrite E.
      + exfalso. pose proof BU. lia. }
    apply keeps_bind.
    { intros a s' X. destruct (GA _ _ X) as (-> & -> & _). split; [reflexivity|exact H]. }
    intros a s1 X1 _. destruct (GA _ _ X1) as (-> & _ & WA).
    apply keeps_bind; [apply keeps_cur; [exact H|now apply abbrev_follows]|]. intros fields s2 _ G2.
    destruct fields as [|code fs]; [apply keeps_crash|]. apply keeps_bind; [now apply keeps_scope|]. intros sc' s3 _ G3.
    destruct (sc_is_blockinfo sc'); now apply keeps_ret.
  Qed.
  Lemma step_keeps s : G s -> keeps s (step e o) (step_w U e).
  Proof.
    intros H x s' X. unfold step, step_w in *. cbn [op_exhausted cursor_ops] in X. destruct (exhausted (p_cur s)); [discriminate X|]. revert x s' X.
    apply keeps_bind; [now apply keeps_scope|]. intros sc s0 X0 _. destruct (get_scope_is _ _ _ H X0) as [-> _].
    apply keeps_bind.
    { intros v s1 X. assert (WD : sc_width sc < 64).
      { unfold on_cur, c_read, lift_err in X. cbn [op_read cursor_ops] in X. unfold read in X. destruct (sc_width sc =? 0); cbn [orb] in X; [discriminate X|].
        destruct (64 <=? sc_width sc) eqn:E; [discriminate X|]. lia. }
      rewrite us_small by lia. revert v s1 X. apply keeps_cur; [exact H|apply c_read_follows]. }
    intros v s1 _ G1. destruct (abbrev_id_of v).
    - now apply exit_block_keeps.
    - now apply enter_block_keeps.
    - apply keeps_bind; [now apply define_abbrev_keeps|]. intros _ s2 _ G2. now apply keeps_ret.
    - now apply parse_unabbrev_keeps.
    - now apply parse_with_abbrev_keeps.
  Qed.
  Lemma advance_loop_keeps f : forall s, G s -> keeps s (advance_loop e o f) (advance_loop_w U e f).
  Proof.
    induction f as [|f IH]; intros s H; cbn [advance_loop advance_loop_w]; [intros x s' [=]|].
    apply keeps_bind; [now apply step_keeps|]. intros [x|] s' _ G'; [now apply keeps_ret|now apply IH].
  Qed.
  Lemma advance_loop_ends f : forall s s', G s -> advance_loop e o f s = (Err SExhausted, s') -> advance_loop_w U e f s = (Err SExhausted, s').
  Proof.
    induction f as [|f IH]; intros s s' H X; cbn [advance_loop advance_loop_w] in *; [discriminate X|].
    unfold bind in *. destruct (step e o s) as [[[x|]|x|p|] s1] eqn:M1; try discriminate X.
    - destruct (step_keeps s H _ _ M1) as [-> G1]. now apply IH.
    - injection X as -> ->. destruct (step_exhausted e o _ _ M1) as [-> XH]. cbn [op_exhausted cursor_ops] in XH. unfold step_w. now rewrite XH.
  Qed.
  Lemma next_keeps s x s' : G s -> next e o s = (Some (Ok x), s') -> next_w U e s = (Some (Ok x), s') /\ G s'.
  Proof.
    intros H X. unfold next in X. destruct (advance e o s) as [r s1] eqn:M1.
    assert (r = Ok x /\ s1 = s') as [-> ->] by (destruct r as [y|[]|p|]; try discriminate X; injection X; intros; subst; auto).
    unfold next_w, advance_w. destruct (advance_loop_keeps _ s H _ _ M1) as [K1 K2]. change (op_fuel (cursor_ops_w U e)) with (op_fuel o). rewrite K1. auto.
  Qed.
  Lemma next_ends s s' : G s -> next e o s = (None, s') -> next_w U e s = (None, s').
  Proof.
    intros H X. unfold next in X. destruct (advance e o s) as [r s1] eqn:M1.
    assert (r = Err SExhausted /\ s1 = s') as [-> ->] by (destruct r as [y|[]|p|]; try discriminate X; injection X; intros; subst; auto).
    unfold next_w, advance_w. change (op_fuel (cursor_ops_w U e)) with (op_fuel o). now rewrite (advance_loop_ends _ s _ H M1).
  Qed.
End Stream.

(** *** Opening *)
Section Open.
  Context (U : N) (e : env).
  Lemma new_inv buf : 8 * N.of_nat (length buf) < U -> inv_w U (cur_new buf).
  Proof. intros B2. split; [exact (proj1 (fresh_inv _ (or_introl (ex_intro _ buf eq_refl))))|exact B2]. Qed.
  Lemma from_cursor_keeps c b : inv_w U c -> from_cursor c = Ok b ->
    from_cursor_w U e c = Ok b /\ exists c', bs_parser b = parser_new c' /\ inv_w U c' /\ byte_len c' = byte_len c.
  Proof.
    intros I X. unfold from_cursor, from_cursor_w in *. destruct (negb _); [discriminate X|]. unfold read_exact in *.
    rewrite (read_as_same U e u32t (ity_bits u32t) c I). pose proof (read_as_keeps U u32t (ity_bits u32t) c I) as K.
    destruct (read_as cursor_ops u32t (ity_bits u32t) c) as [[m|y|p|] c'] eqn:M1; try discriminate X. injection X as <-. split; [reflexivity|].
    exists c'. split; [reflexivity|]. split; [exact K|].
    unfold read_as, bind in M1. cbn [op_read cursor_ops] in M1. destruct (read_inv (ity_bits u32t) c (proj1 I)) as (_ & [_ D] & _).
    destruct (read (ity_bits u32t) c) as [[v|y|p|] c2]; try discriminate M1. cbn [snd] in D. rewrite <- D.
    destruct (num_cast u32t v); [now injection M1 as _ <-|discriminate M1].
  Qed.
  Lemma read_wrapper_same : alike U read_wrapper (read_wrapper_w U e).
  Proof.
    unfold read_wrapper, read_wrapper_w, read_exact.
    repeat (apply alike_bind; [apply read_as_same|apply read_as_keeps|intros ?]). intros c _. reflexivity.
  Qed.
  Lemma from_keeps buf w b : 8 * N.of_nat (length buf) + 8 <= U ->
    from e buf = Ok (w, b) ->
    from_w U e buf = Ok (w, b) /\ exists c, bs_parser b = parser_new c /\ inv_w U c /\ byte_len c <= N.of_nat (length buf).
  Proof.
    intros B3 X. assert (B2 : 8 * N.of_nat (length buf) < U) by lia. pose proof (new_inv buf B2) as I. unfold from, from_w in *. unfold read_exact at 1 in X. unfold read_exact at 1.
    rewrite (read_as_same U e u32t (ity_bits u32t) _ I).
    destruct (fst (read_as cursor_ops u32t (ity_bits u32t) (cur_new buf))) as [m| | |]; try discriminate X. cbn [omap_err obind] in *.
    destruct (m =? BITCODE_WRAPPER_MAGIC).
    - destruct (from_wrapped e buf) as [[w1 b1]| | |] eqn:F; try discriminate X. cbn [obind fst snd] in X. injection X as <- <-.
      unfold from_wrapped in F. unfold from_wrapped_w. rewrite (read_wrapper_same _ I).
      destruct (fst (read_wrapper (cur_new buf))) as [wr| | |]; try discriminate F. cbn [omap_err obind] in *.
      unfold cur_new_with_len in *. destruct (N.of_nat (length buf) <? wr_size wr + 20) eqn:L; [discriminate F|]. cbn [omap_err obind] in F.
      rewrite us_small by lia. unfold w_add. replace (wr_size wr + 20 <? U) with true by lia. cbn [obind]. rewrite L. cbn [omap_err obind].
      set (c := mkCursor (wr_size wr + 20) buf 0 0 0) in *.
      assert (C0 : cur_new_with_len buf (wr_size wr + 20) = Ok c) by (unfold cur_new_with_len; rewrite L; reflexivity). unfold seek, seek_w in *. cbn [seek_offset seek_offset_w] in *.
      destruct (byte_len c <? wr_offset wr) eqn:L2; [discriminate F|].
      assert (byte_len c = wr_size wr + 20) as BL by reflexivity.
      rewrite us_small by lia. rewrite L2.
      match type of F with context [from_cursor ?c'] => set (c2 := c') in * end.
      destruct (from_cursor c2) as [b2| | |] eqn:F2; try discriminate F. cbn [obind] in F. injection F as <- <-.
      assert (I2 : inv_w U c2).
      { destruct (seek_bit_start c (wr_offset wr)) as (K & _); [|lia|].
        - apply (proj1 (fresh_inv c (or_intror (ex_intro _ buf (ex_intro _ (wr_size wr + 20) C0))))).
        - split; [exact K|]. cbn. lia. }
      destruct (from_cursor_keeps c2 b2 I2 F2) as (-> & c3 & P1 & P2 & P3). split; [reflexivity|]. exists c3. split; [exact P1|]. split; [exact P2|].
      rewrite P3. cbn. lia.
    - unfold from_raw, from_raw_w in *. destruct (from_cursor (cur_new buf)) as [b1| | |] eqn:F; try discriminate X. cbn [obind] in X. injection X as <- <-.
      destruct (from_cursor_keeps _ b1 I F) as (-> & c3 & P1 & P2 & P3). split; [reflexivity|]. exists c3. split; [exact P1|]. split; [exact P2|].
      rewrite P3. cbn. lia.
  Qed.
  Lemma new_G c : inv_w U c -> G U (N.to_nat (bit_len c)) (parser_new c).
  Proof.
    intros I. unfold G, parser_new. cbn [p_cur p_scopes p_info]. split; [exact I|]. split; [unfold cmu; lia|]. split; repeat constructor.
  Qed.
End Open.
