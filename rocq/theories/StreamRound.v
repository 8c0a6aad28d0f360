(** The parser reads back what the writer of [StreamSpec] writes, on the list cursor. *)
From Verif Require Import Base CursorModel CursorSpec CursorHist CursorProofs CursorSim CursorVbr CursorMain
  StreamModel StreamSpec StreamProofs StreamPres StreamEffect.
From Coq Require Import Lia ZifyBool ZifyNat ZifyN.
Ltac Zify.zify_post_hook ::= Z.div_mod_to_equations.
Local Open Scope N_scope.
Arguments N.add : simpl never.
Arguments N.mul : simpl never.
Arguments N.div : simpl never.
Arguments N.modulo : simpl never.
Arguments N.sub : simpl never.
Arguments N.pow : simpl never.

(** Case analysis on the writers' results. *)
Ltac winv H :=
  repeat match type of H with
  | (match ?x with Some _ => _ | None => None end) = Some _ =>
      let E := fresh "E" in destruct x eqn:E; [|discriminate H]
  | (match ?x with (_, _) => _ end) = Some _ => destruct x
  | (if ?b then _ else None) = Some _ =>
      let E := fresh "E" in destruct b eqn:E; [|discriminate H]
  end.

Lemma vbr_inv w v x : vbr w v = Some x -> v < two64 /\ x = vbr_bits w v.
Proof. unfold vbr, fits64. intros H. winv H. injection H as <-. split; [lia|reflexivity]. Qed.
Lemma fixed_inv w v x : fixed w v = Some x -> v < 2 ^ w /\ x = fixed_bits w v.
Proof. unfold fixed. intros H. winv H. injection H as <-. split; [lia|reflexivity]. Qed.
Lemma fixed_blen w v : blen (fixed_bits w v) = w.
Proof. unfold blen. rewrite fixed_bits_length. lia. Qed.
Lemma blen_app a b : blen (a ++ b) = blen a + blen b.
Proof. unfold blen. rewrite app_length. lia. Qed.

Lemma pad_blen pos : blen (pad pos) = (32 - pos mod 32) mod 32.
Proof. unfold blen, pad. rewrite repeat_length. lia. Qed.

Lemma align_pad pos rest : (pos + blen (pad pos) + blen rest) mod 32 = 0 ->
  list_align32 (pad pos ++ rest) = rest.
Proof.
  intros H. unfold list_align32. pose proof (pad_blen pos) as P.
  assert (E : (length (pad pos ++ rest) mod 32)%nat = length (pad pos)).
  { rewrite app_length. unfold blen in *. generalize dependent (length (pad pos)). generalize (length rest). intros. lia. }
  rewrite E, skipn_app, skipn_all, Nat.sub_diag. reflexivity.
Qed.

Local Opaque fixed_bits vbr_bits.

Section Round.
  Context (e : env).
  Notation L := (list bool).
  Notation o := list_ops.

  Lemma rd_fixed n v rest : 1 <= n <= 63 -> v < 2 ^ n -> c_read o n (fixed_bits n v ++ rest) = (Ok v, rest).
  Proof. intros Hn Hv. unfold c_read, lift_err. cbn [op_read list_ops]. now rewrite list_read_fixed. Qed.
  Lemma rd_vbr w v rest : 2 <= w <= 32 -> v < two64 -> c_vbr e o w (vbr_bits w v ++ rest) = (Ok v, rest).
  Proof. intros Hw Hv. unfold c_vbr, lift_err. now rewrite read_vbr_list. Qed.
  Lemma rd_as t n v rest : 1 <= n <= 63 -> v < 2 ^ n -> n <= ity_bits t -> ity_signed t = false ->
    c_read_as o t n (fixed_bits n v ++ rest) = (Ok v, rest).
  Proof.
    intros Hn Hv Ht Hs. unfold c_read_as, lift_err, read_as, bind. cbn [op_read list_ops].
    rewrite list_read_fixed by assumption. unfold num_cast. rewrite Hs.
    assert (v < 2 ^ ity_bits t) by (eapply N.lt_le_trans; [exact Hv|apply N.pow_le_mono_r; lia]).
    replace (v <? 2 ^ ity_bits t) with true by lia. reflexivity.
  Qed.

  Lemma rd_times (f : N -> option L) (m : M L serr (list N)) vals bits rest :
    (forall v x rest, f v = Some x -> m (x ++ rest) = (Ok [v], rest)) ->
    concat_opt f vals = Some bits ->
    times (N.of_nat (length vals)) m (bits ++ rest) = (Ok vals, rest).
  Proof.
    intros Hm. rewrite times_nat, Nat2N.id. revert bits. induction vals as [|v vals IH]; intros bits H; cbn [concat_opt length times_n] in *.
    - injection H as <-. reflexivity.
    - winv H. injection H as <-. rewrite <- app_assoc. unfold bind at 1. rewrite (Hm _ _ _ E).
      unfold bind. rewrite (IH _ eq_refl). reflexivity.
  Qed.

  Lemma char6_decode c i : char6_code c = Some i -> i < 64 /\ nth_error char6_alphabet (N.to_nat i) = Some c.
  Proof.
    intros H. assert (Hc : c < 256).
    { unfold char6_code in H. repeat match type of H with (if ?b then _ else _) = _ => destruct b eqn:?; [lia|] end. discriminate. }
    assert (K : forallb (fun n => match char6_code (N.of_nat n) with
              | Some i => (i <? 64) && match nth_error char6_alphabet (N.to_nat i) with Some c => c =? N.of_nat n | None => false end
              | None => true end) (seq 0 256) = true) by (vm_compute; reflexivity).
    rewrite forallb_forall in K. specialize (K (N.to_nat c) ltac:(apply in_seq; lia)).
    rewrite N2Nat.id, H in K. apply andb_true_iff in K. destruct K as [K1 K2].
    split; [lia|]. destruct (nth_error _ _); [|discriminate]. f_equal. lia.
  Qed.

  Lemma rd_scalar op v x rest : scalar_bits op v = Some x -> op_parse e o op (x ++ rest) = (Ok [v], rest).
  Proof.
    destruct op; cbn [scalar_bits op_parse]; intros H; try discriminate.
    - winv H. apply vbr_inv in H. destruct H as [Hv ->]. unfold bind. rewrite rd_vbr by lia. reflexivity.
    - winv H. apply fixed_inv in H. destruct H as [Hv ->]. unfold bind. rewrite rd_as by (cbn; lia). reflexivity.
    - winv H. injection H as <-. destruct (char6_decode _ _ E) as [Hi Hc]. unfold bind.
      rewrite rd_as by (cbn; lia). unfold decode_char6. rewrite Hc. reflexivity.
  Qed.

  Lemma rd_byte v x rest : fixed 8 v = Some x ->
    bind (c_read_as o u8t 8) (fun b => ret [b]) (x ++ rest) = (Ok [v], rest).
  Proof. intros H. apply fixed_inv in H. destruct H as [Hv ->]. unfold bind. rewrite rd_as by (cbn; lia). reflexivity. Qed.

  Lemma rd_record pos a vals bits rest :
    rec_bits pos a vals = Some bits -> N.of_nat (length vals) <= alloc_limit e ->
    (pos + blen bits + blen rest) mod 32 = 0 ->
    abbrev_parse e o a (bits ++ rest) = (Ok vals, rest).
  Proof.
    revert pos vals bits. induction a as [|op a IH]; intros pos vals bits H Hl Hm.
    - cbn [rec_bits] in H. destruct vals; [|discriminate]. injection H as <-. reflexivity.
    - assert (Scalar : forall v vals' x y, vals = v :: vals' -> scalar_bits op v = Some x ->
                 rec_bits (pos + blen x) a vals' = Some y -> bits = x ++ y ->
                 abbrev_parse e o (op :: a) (bits ++ rest) = (Ok vals, rest)).
      { intros v vals' x y -> Hx Hy ->. cbn [abbrev_parse]. rewrite <- app_assoc. unfold bind at 1.
        rewrite (rd_scalar _ _ _ _ Hx). unfold bind. cbn [length] in Hl. rewrite blen_app in Hm.
        rewrite (IH _ _ _ Hy) by (lia || (rewrite <- Hm; f_equal; lia)). reflexivity. }
      destruct op as [lit|w|w|elem| |]; cbn [rec_bits] in H.
      + destruct vals as [|v vals]; [discriminate|]. winv H. assert (v = lit) as -> by lia.
        cbn [abbrev_parse op_parse]. unfold bind at 1, ret at 1. unfold bind. cbn [length] in Hl.
        rewrite (IH _ _ _ H) by (assumption || lia). reflexivity.
      + destruct vals as [|v vals]; [discriminate|]. winv H. injection H as <-. eapply Scalar; eauto.
      + destruct vals as [|v vals]; [discriminate|]. winv H. injection H as <-. eapply Scalar; eauto.
      + winv H. injection H as <-. destruct a; [|discriminate]. apply vbr_inv in E0. destruct E0 as [Hv ->].
        cbn [abbrev_parse op_parse]. rewrite <- app_assoc. unfold bind at 1. unfold bind at 1.
        rewrite rd_vbr by lia. unfold bind at 1, with_capacity. rewrite (proj2 (N.leb_le _ _) Hl). unfold ret at 1.
        rewrite (rd_times _ _ _ _ rest (rd_scalar elem) E1). unfold bind, ret. now rewrite app_nil_r.
      + destruct vals as [|v vals]; [discriminate|]. winv H. injection H as <-. eapply Scalar; eauto.
      + winv H. injection H as <-. destruct a; [|discriminate]. apply vbr_inv in E0. destruct E0 as [Hv ->].
        cbn [abbrev_parse op_parse]. rewrite <- !app_assoc in *. unfold bind at 1. unfold bind at 1.
        rewrite rd_vbr by lia. unfold bind at 1. unfold c_align at 1. cbn [op_align32 list_ops].
        rewrite !blen_app in Hm.
        assert (Hm2 : (pos + blen (vbr_bits 6 (N.of_nat (length vals))) +
                       blen (pad (pos + blen (vbr_bits 6 (N.of_nat (length vals))))) +
                       blen (l0 ++ pad (pos + (blen (vbr_bits 6 (N.of_nat (length vals))) + blen (pad (pos + blen (vbr_bits 6 (N.of_nat (length vals)))))) + blen l0) ++ rest)) mod 32 = 0).
        { rewrite !blen_app, <- Hm. f_equal. lia. }
        rewrite blen_app. rewrite align_pad by exact Hm2.
        unfold bind at 1, with_capacity. rewrite (proj2 (N.leb_le _ _) Hl). unfold ret at 1.
        unfold bind at 1. rewrite (rd_times _ _ _ _ _ rd_byte E1).
        unfold bind at 1, c_align. cbn [op_align32 list_ops]. rewrite align_pad.
        * unfold bind, ret. now rewrite app_nil_r.
        * rewrite <- Hm. f_equal. lia.
  Qed.

  Lemma rd_enc v rest x : 1 <= v <= 5 -> abbrev_enc_of v = Some x ->
    read_enc o (fixed_bits 3 v ++ rest) = (Ok x, rest).
  Proof. intros Hv Hx. unfold read_enc, bind. rewrite rd_fixed by lia. now rewrite Hx. Qed.

  (** *** Abbreviation definitions *)
  Lemma rd_bit b rest : c_read o 1 (b :: rest) = (Ok (if b then 1 else 0), rest).
  Proof.
    change (b :: rest) with ([b] ++ rest). unfold c_read, lift_err. cbn [op_read list_ops].
    rewrite list_read_app by (cbn; lia). destruct b; reflexivity.
  Qed.

  Lemma rd_array_elem op x rest : scalar_def_bits op = Some x -> array_elem e o (x ++ rest) = (Ok op, rest).
  Proof.
    destruct op; cbn [scalar_def_bits]; intros H; try discriminate; unfold array_elem.
    - winv H. apply vbr_inv in E. destruct E as [Hv ->]. injection H as <-.
      cbn [app]. unfold bind at 1. rewrite rd_bit. rewrite <- app_assoc. unfold bind at 1.
      rewrite (rd_enc 2 _ EncVbr) by (lia || reflexivity). unfold bind. rewrite rd_vbr by lia. reflexivity.
    - winv H. apply vbr_inv in E. destruct E as [Hv ->]. injection H as <-.
      cbn [app]. unfold bind at 1. rewrite rd_bit. rewrite <- app_assoc. unfold bind at 1.
      rewrite (rd_enc 1 _ EncFixed) by (lia || reflexivity). unfold bind. rewrite rd_vbr by lia. reflexivity.
    - injection H as <-. unfold bind at 1. cbn [app]. rewrite rd_bit. unfold bind.
      rewrite (rd_enc 4 _ EncChar6) by (lia || reflexivity). reflexivity.
  Qed.

  Definition op_total (a : abbrev) : N := fold_right (fun op n => op_count op + n) 0 a.

  Lemma rd_ops a bits rest fuel num idx acc :
    ops_def_bits a = Some bits -> num = idx + op_total a -> num < two64 ->
    (length (bits ++ rest) < fuel)%nat ->
    abbrev_loop e o fuel num idx acc (bits ++ rest) = (Ok (acc ++ a), rest).
  Proof.
    revert bits fuel idx acc. induction a as [|op a IH]; intros bits fuel idx acc H Hn Hb Hf;
      (destruct fuel as [|f]; [lia|]).
    - cbn in H. injection H as <-. cbn [op_total fold_right] in Hn. cbn [abbrev_loop].
      replace (num <=? idx) with true by lia. rewrite app_nil_r. reflexivity.
    - assert (Hc : 1 <= op_count op) by (destruct op; cbn; lia).
      assert (HT : op_total (op :: a) = op_count op + op_total a) by reflexivity.
      cbn [abbrev_loop]. replace (num <=? idx) with false by lia.
      assert (Rec : forall y r, op_count op = 1 -> ops_def_bits a = Some y -> (length (y ++ rest) < f)%nat -> r = y ++ rest ->
         abbrev_loop e o f num (idx + 1) (acc ++ [op]) r = (Ok (acc ++ op :: a), rest)).
      { intros y r Ho Hy Hfy ->. rewrite (IH y f (idx + 1) (acc ++ [op]) Hy); [|lia|lia|exact Hfy].
        now rewrite <- app_assoc. }
      destruct op as [lit|w|w|elem| |].
      + assert (exists y, ops_def_bits a = Some y /\ lit < two64 /\ bits = [true] ++ vbr_bits 8 lit ++ y) as (y & Hy & Hl & ->).
        { destruct a; cbn [ops_def_bits] in *; winv H; apply vbr_inv in E; destruct E as [Hl ->]; injection H as <-; eauto. }
        cbn [app]. unfold bind at 1. rewrite rd_bit. change (1 =? 1) with true. cbv iota. rewrite <- app_assoc. unfold bind.
        rewrite rd_vbr by lia. eapply Rec; [reflexivity|exact Hy| |reflexivity].
        rewrite !app_length in *. cbn [length] in *. lia.
      + assert (exists y, ops_def_bits a = Some y /\ w < two64 /\ bits = ([false] ++ fixed_bits 3 2 ++ vbr_bits 5 w) ++ y) as (y & Hy & Hl & ->).
        { destruct a; cbn [ops_def_bits scalar_def_bits] in *; winv H; destruct (vbr 5 w) eqn:EV; try discriminate;
            apply vbr_inv in EV; destruct EV as [Hl ->]; injection E as <-; injection H as <-; eauto. }
        cbn [app] in *. rewrite <- !app_assoc in *. unfold bind at 1. rewrite rd_bit. change (0 =? 1) with false. cbv iota.
        unfold bind at 1. rewrite (rd_enc 2 _ EncVbr) by (lia || reflexivity).
        unfold bind. rewrite rd_vbr by lia. eapply Rec; [reflexivity|exact Hy| |reflexivity].
        rewrite !app_length in *. cbn [length] in *. rewrite !app_length in *. lia.
      + assert (exists y, ops_def_bits a = Some y /\ w < two64 /\ bits = ([false] ++ fixed_bits 3 1 ++ vbr_bits 5 w) ++ y) as (y & Hy & Hl & ->).
        { destruct a; cbn [ops_def_bits scalar_def_bits] in *; winv H; destruct (vbr 5 w) eqn:EV; try discriminate;
            apply vbr_inv in EV; destruct EV as [Hl ->]; injection E as <-; injection H as <-; eauto. }
        cbn [app] in *. rewrite <- !app_assoc in *. unfold bind at 1. rewrite rd_bit. change (0 =? 1) with false. cbv iota.
        unfold bind at 1. rewrite (rd_enc 1 _ EncFixed) by (lia || reflexivity).
        unfold bind. rewrite rd_vbr by lia. eapply Rec; [reflexivity|exact Hy| |reflexivity].
        rewrite !app_length in *. cbn [length] in *. rewrite !app_length in *. lia.
      + assert (a = [] /\ exists x, scalar_def_bits elem = Some x /\ bits = [false] ++ fixed_bits 3 3 ++ x) as (-> & x & Hx & ->).
        { destruct a; cbn [ops_def_bits scalar_def_bits] in *; [|discriminate]. winv H. injection H as <-. eauto. }
        cbn [app] in *. rewrite <- !app_assoc in *. unfold bind at 1. rewrite rd_bit. change (0 =? 1) with false. cbv iota.
        unfold bind at 1. rewrite (rd_enc 3 _ EncArray) by (lia || reflexivity).
        cbn [op_total fold_right op_count] in *. replace (num <? 2) with false by lia. cbn [andb].
        replace (idx =? num - 2) with true by lia. cbn [negb]. unfold bind. rewrite (rd_array_elem _ _ _ Hx). reflexivity.
      + assert (exists y, ops_def_bits a = Some y /\ bits = ([false] ++ fixed_bits 3 4) ++ y) as (y & Hy & ->).
        { destruct a; cbn [ops_def_bits scalar_def_bits] in *; winv H; try injection E as <-; injection H as <-; eauto. }
        cbn [app] in *. unfold bind at 1. rewrite rd_bit. change (0 =? 1) with false. cbv iota.
        rewrite <- ?app_assoc in *. unfold bind at 1.
        rewrite (rd_enc 4 _ EncChar6) by (lia || reflexivity).
        eapply Rec; [reflexivity|exact Hy| |reflexivity]. cbn [length] in Hf. rewrite !app_length in *. lia.
      + assert (a = [] /\ bits = [false] ++ fixed_bits 3 5) as (-> & ->).
        { destruct a; cbn [ops_def_bits scalar_def_bits] in *; [|discriminate]. injection H as <-. eauto. }
        cbn [app] in *. unfold bind at 1. rewrite rd_bit. change (0 =? 1) with false. cbv iota.
        unfold bind at 1.
        rewrite (rd_enc 5 _ EncBlob) by (lia || reflexivity).
        cbn [op_total fold_right op_count] in *. replace (idx =? num - 1) with true by lia. cbn [negb].
        eapply (Rec []); [reflexivity|reflexivity| |reflexivity]. cbn [length app] in *. rewrite !app_length in *. rewrite fixed_bits_length in Hf. lia.
  Qed.

  Lemma rd_define a bits rest : def_bits a = Some bits -> abbrev_new e o (bits ++ rest) = (Ok a, rest).
  Proof.
    unfold def_bits. intros H. winv H. injection H as <-. apply vbr_inv in E0. destruct E0 as [Hn ->].
    unfold abbrev_new, bind. rewrite <- app_assoc, rd_vbr by lia. fold (op_total a) in *.
    assert (1 <= op_total a).
    { destruct a as [|op a]; [discriminate|]. cbn [op_total fold_right]. destruct op; cbn; lia. }
    replace (op_total a <? 1) with false by lia. apply (rd_ops a l0 rest _ _ 0 []); [assumption|lia|lia|cbn; lia].
  Qed.

  Lemma rd_unabbrev_fields fields bits rest : concat_opt (vbr 6) fields = Some bits ->
    times (N.of_nat (length fields)) (bind (c_vbr e o 6) (fun x => ret [x])) (bits ++ rest) = (Ok fields, rest).
  Proof.
    apply rd_times. intros v x r H. apply vbr_inv in H. destruct H as [Hv ->]. unfold bind. rewrite rd_vbr by lia. reflexivity.
  Qed.

  (** *** Steps *)

  (** Successful steps from [s] to [s'], reporting the given entries. *)
  Inductive emits : sparser L -> list entry -> sparser L -> Prop :=
  | EmNil s : emits s [] s
  | EmSilent s s1 evs s' : step e o s = (Ok None, s1) -> emits s1 evs s' -> emits s evs s'
  | EmEntry s s1 x evs s' : step e o s = (Ok (Some x), s1) -> emits s1 evs s' -> emits s (x :: evs) s'.

  Lemma emits_app s s1 s2 a b : emits s a s1 -> emits s1 b s2 -> emits s (a ++ b) s2.
  Proof. intros H1 H2. induction H1; cbn [app]; [assumption|eapply EmSilent; eauto|eapply EmEntry; eauto]. Qed.
  Lemma emits_one s s1 x : step e o s = (Ok (Some x), s1) -> emits s [x] s1.
  Proof. intros H. eapply EmEntry; [exact H|constructor]. Qed.
  Lemma emits_silent s s1 : step e o s = (Ok None, s1) -> emits s [] s1.
  Proof. intros H. eapply EmSilent; [exact H|constructor]. Qed.

  (** Reading the abbreviation id that starts an item. *)
  Lemma step_id w v rest sc scs info : 1 <= w <= 63 -> sc_width sc = w -> v < 2 ^ w ->
    step e o (mkParser (fixed_bits w v ++ rest) (sc :: scs) info) =
    match abbrev_id_of v with
    | IdEndBlock => exit_block o
    | IdEnterSubBlock => enter_block e o
    | IdDefineAbbrev => bind (define_abbrev e o) (fun _ => ret None)
    | IdUnabbrevRecord => parse_unabbrev e o
    | IdDefined id => parse_with_abbrev e o id
    end (mkParser rest (sc :: scs) info).
  Proof.
    intros Hw Hs Hv. unfold step. cbn [p_cur op_exhausted list_ops].
    assert (list_exhausted (fixed_bits w v ++ rest) = false) as ->.
    { pose proof (fixed_bits_length w v) as FL. destruct (fixed_bits w v); [cbn in FL; lia|reflexivity]. }
    unfold bind at 1, get_scope. cbn [p_scopes]. unfold bind at 1, on_cur. cbn [p_cur p_scopes p_info].
    rewrite Hs, rd_fixed by assumption. reflexivity.
  Qed.

  (** The parser state that corresponds to a writer state. *)
  Definition st_scope (p : place) (st : wstate) : scope :=
    match p with
    | AtTop => ScInitial
    | InBlock w bid => ScBlock w bid (w_bid st) (w_abbrevs st)
    end.
  Definition st_info (st : wstate) (info : info_map) : Prop := forall b, registered info b = w_info st b.
  Definition place_ok (p : place) : Prop := match p with AtTop => True | InBlock w _ => 1 <= w <= 63 end.
  Definition place_info (p : place) : bool := match p with AtTop => false | InBlock _ bid => bid =? 0 end.

  Definition reads_back (p : place) (pos : N) (st : wstate) (bits : L) (st' : wstate) (evs : list entry) : Prop :=
    forall rest scs info, st_info st info -> (pos + blen bits + blen rest) mod 32 = 0 ->
    exists info', st_info st' info' /\
      emits (mkParser (bits ++ rest) (st_scope p st :: scs) info) evs
            (mkParser rest (st_scope p st' :: scs) info').

  Lemma st_info_push st info b a : st_info st info ->
    st_info (mkW (register (w_info st) b a) (w_bid st) (w_abbrevs st)) (info_push info b a).
  Proof. intros H k. cbn [w_info]. rewrite registered_push. unfold register. rewrite (H k). destruct (k =? b); reflexivity. Qed.

  Lemma define_reads a w bid pos st bits st' : 1 <= w <= 63 ->
    write_item (IDefine a) (InBlock w bid) pos st = Some (bits, st') ->
    reads_back (InBlock w bid) pos st bits st' [].
  Proof.
    intros Hw H rest scs info HI Hm. cbn [write_item] in H. winv H. injection H as <- <-.
    apply fixed_inv in E. destruct E as [Hv ->].
    assert (Step : forall info' st2, step e o (mkParser ((fixed_bits w 2 ++ l0) ++ rest) (st_scope (InBlock w bid) st :: scs) info) =
       (Ok None, mkParser rest (st_scope (InBlock w bid) st2 :: scs) info') -> st_info st2 info' ->
       exists info', st_info st2 info' /\ emits (mkParser ((fixed_bits w 2 ++ l0) ++ rest) (st_scope (InBlock w bid) st :: scs) info) []
         (mkParser rest (st_scope (InBlock w bid) st2 :: scs) info')).
    { intros info' st2 HS HI2. exists info'. split; [exact HI2|]. now apply emits_silent. }
    destruct (bid =? 0) eqn:EB.
    - winv E1. injection E1 as <-. apply (Step (info_push info n a)); [|now apply st_info_push].
      rewrite <- app_assoc, step_id by (assumption || reflexivity).
      cbn [abbrev_id_of]. unfold define_abbrev. unfold bind at 1 2, on_cur. cbn [p_cur p_scopes p_info].
      rewrite (rd_define _ _ _ E0). unfold bind, get_scope. cbn [p_scopes st_scope sc_is_blockinfo]. rewrite EB.
      cbn [sc_blockinfo_bid]. rewrite E. reflexivity.
    - injection E1 as <-. apply (Step info); [|exact HI].
      rewrite <- app_assoc, step_id by (assumption || reflexivity).
      cbn [abbrev_id_of]. unfold define_abbrev. unfold bind at 1 2, on_cur. cbn [p_cur p_scopes p_info].
      rewrite (rd_define _ _ _ E0). unfold bind, get_scope. cbn [p_scopes st_scope sc_is_blockinfo]. rewrite EB.
      unfold extend_scope, bind, get_scope. cbn [p_scopes sc_extend]. reflexivity.
  Qed.

  Lemma unabbrev_reads code fields w bid pos st bits st' : 1 <= w <= 63 ->
    item_small (alloc_limit e) (IUnabbrev code fields) = true ->
    write_item (IUnabbrev code fields) (InBlock w bid) pos st = Some (bits, st') ->
    reads_back (InBlock w bid) pos st bits st' (item_entries (bid =? 0) (IUnabbrev code fields)).
  Proof.
    intros Hw HL H rest scs info HI Hm. cbn [write_item] in H. winv H. injection H as <- <-.
    apply fixed_inv in E. destruct E as [Hv ->]. unfold unabbrev_bits in E0. winv E0. injection E0 as <-.
    apply vbr_inv in E, E2. destruct E as [Hc ->], E2 as [Hn ->]. cbn [item_small] in HL.
    assert (Hstep : forall k, parse_unabbrev e o (mkParser ((vbr_bits 6 code ++ vbr_bits 6 (N.of_nat (length fields)) ++ l2) ++ rest) (st_scope (InBlock w bid) st :: scs) info) =
       k -> step e o (mkParser ((fixed_bits w 3 ++ vbr_bits 6 code ++ vbr_bits 6 (N.of_nat (length fields)) ++ l2) ++ rest) (st_scope (InBlock w bid) st :: scs) info) = k).
    { intros k <-. rewrite <- app_assoc, step_id by (assumption || reflexivity). reflexivity. }
    assert (Hparse : parse_unabbrev e o (mkParser ((vbr_bits 6 code ++ vbr_bits 6 (N.of_nat (length fields)) ++ l2) ++ rest) (st_scope (InBlock w bid) st :: scs) info) =
       (if bid =? 0 then
          match blockinfo_code_of code with
          | None => fail (SBadBlockInfoCode code)
          | Some BiSetBid =>
              match fields with
              | [] => crash PSetBidNoField
              | b :: _ => bind (set_scope (ScBlock w bid (Some b) (w_abbrevs st))) (fun _ => ret None)
              end
          | Some _ => ret None
          end
        else ret (Some (ERecord None code fields))) (mkParser rest (st_scope (InBlock w bid) st :: scs) info)).
    { unfold parse_unabbrev. unfold bind at 1, get_scope. cbn [p_scopes st_scope].
      rewrite <- !app_assoc. unfold bind at 1, on_cur. cbn [p_cur p_scopes p_info]. rewrite rd_vbr by lia.
      unfold bind at 1. cbn [p_cur p_scopes p_info]. rewrite rd_vbr by lia.
      unfold bind at 1, with_capacity. replace (N.of_nat (length fields) <=? alloc_limit e) with true by lia.
      unfold ret at 1. unfold bind at 1. cbn [p_cur p_scopes p_info].
      rewrite (rd_unabbrev_fields _ _ _ E3). unfold bind at 1, get_scope. cbn [p_scopes p_cur p_info sc_is_blockinfo].
      destruct (bid =? 0); [|reflexivity]. destruct (blockinfo_code_of code) as [[]|]; reflexivity. }
    cbn [item_entries]. destruct (bid =? 0) eqn:EB.
    - assert (forall st2, parse_unabbrev e o (mkParser ((vbr_bits 6 code ++ vbr_bits 6 (N.of_nat (length fields)) ++ l2) ++ rest) (st_scope (InBlock w bid) st :: scs) info) =
         (Ok None, mkParser rest (st_scope (InBlock w bid) st2 :: scs) info) -> st_info st2 info ->
         exists info', st_info st2 info' /\ emits (mkParser ((fixed_bits w 3 ++ vbr_bits 6 code ++ vbr_bits 6 (N.of_nat (length fields)) ++ l2) ++ rest) (st_scope (InBlock w bid) st :: scs) info) []
           (mkParser rest (st_scope (InBlock w bid) st2 :: scs) info')) as K.
      { intros st2 HP HI2. exists info. split; [exact HI2|]. apply emits_silent. now apply Hstep. }
      rewrite Hparse in K. clear Hparse Hstep.
      destruct code as [|[[]|[]|]]; try discriminate E1.
      + injection E1 as <-. apply K; [reflexivity|exact HI].
      + injection E1 as <-. apply K; [reflexivity|exact HI].
      + destruct fields as [|b fs]; [discriminate|]. injection E1 as <-. apply K; [reflexivity|exact HI].
    - injection E1 as <-. exists info. split; [exact HI|]. apply emits_one. apply Hstep. rewrite Hparse. reflexivity.
  Qed.

  Lemma abbrev_reads id code fields w bid pos st bits st' : 1 <= w <= 63 ->
    item_small (alloc_limit e) (IAbbrev id code fields) = true ->
    write_item (IAbbrev id code fields) (InBlock w bid) pos st = Some (bits, st') ->
    reads_back (InBlock w bid) pos st bits st' (item_entries (bid =? 0) (IAbbrev id code fields)).
  Proof.
    intros Hw HL H rest scs info HI Hm. cbn [write_item] in H. winv H. injection H as <- <-.
    apply fixed_inv in E0. destruct E0 as [Hv ->]. cbn [item_small] in HL.
    assert (Hid : abbrev_id_of id = IdDefined id).
    { unfold abbrev_id_of. destruct id as [|[[]|[]|]]; try reflexivity; lia. }
    assert (Hstep : step e o (mkParser ((fixed_bits w id ++ l0) ++ rest) (st_scope (InBlock w bid) st :: scs) info) =
       (Ok (if bid =? 0 then None else Some (ERecord (Some id) code fields)), mkParser rest (st_scope (InBlock w bid) st :: scs) info)).
    { rewrite <- app_assoc, step_id by (assumption || reflexivity). rewrite Hid.
      unfold parse_with_abbrev. unfold bind at 1, get_scope. cbn [p_scopes st_scope].
      unfold bind at 1, get_abbrev. replace (id <? 4) with false by lia. rewrite E1. unfold ret at 1.
      unfold bind at 1, on_cur. cbn [p_cur p_scopes p_info].
      rewrite (rd_record (pos + blen (fixed_bits w id)) a (code :: fields) l0 rest E2).
      - unfold bind, get_scope. cbn [p_scopes sc_is_blockinfo]. destruct (bid =? 0); reflexivity.
      - cbn [length]. lia.
      - rewrite blen_app in Hm. rewrite <- Hm. f_equal. lia. }
    exists info. split; [exact HI|]. cbn [item_entries]. destruct (bid =? 0).
    - now apply emits_silent.
    - now apply emits_one.
  Qed.

  Lemma write_block bid w' words body p pos st :
    write_item (IBlock bid w' words body) p pos st =
      (guard! (1 <=? w') && (w' <=? 63) in
      do! i := fixed (place_width p) 1 in
      do! b := vbr 8 bid in
      do! n := vbr 4 w' in
      do! l := fixed 32 words in
      let h := i ++ b ++ n in
      let head := h ++ pad (pos + blen h) ++ l in
      let start := pos + blen head in
      do! (x, st') := write_items (InBlock w' bid) body start (mkW (w_info st) None (w_info st bid)) in
      let tail := fixed_bits w' 0 in
      let y := x ++ tail ++ pad (start + blen x + blen tail) in
      guard! blen y =? 32 * words in
      Some (head ++ y, mkW (w_info st') (w_bid st) (w_abbrevs st))).
  Proof.
    assert (K : forall body pos st,
        (fix write_list (l : list item) (pos : N) (st : wstate) {struct l}
           : option (list bool * wstate) :=
           match l with
           | [] => Some ([], st)
           | it :: l' =>
               do! (x, st1) := write_item it (InBlock w' bid) pos st in
               do! (y, st2) := write_list l' (pos + blen x) st1 in
               Some (x ++ y, st2)
           end) body pos st = write_items (InBlock w' bid) body pos st).
    { clear. induction body as [|it body IH]; intros pos st; cbn [write_items]; [reflexivity|].
      destruct (write_item it (InBlock w' bid) pos st) as [[x st1]|]; [|reflexivity]. rewrite IH. reflexivity. }
    cbn [write_item]. destruct (_ && _); [|reflexivity].
    destruct (fixed (place_width p) 1); [|reflexivity]. destruct (vbr 8 bid); [|reflexivity].
    destruct (vbr 4 w'); [|reflexivity]. destruct (fixed 32 words); [|reflexivity]. cbn zeta. rewrite K. reflexivity.
  Qed.

  Lemma items_read (l : list item) p :
    Forall (fun it => item_small (alloc_limit e) it = true -> forall p pos st bits st', place_ok p ->
              write_item it p pos st = Some (bits, st') ->
              reads_back p pos st bits st' (item_entries (place_info p) it)) l ->
    forallb (item_small (alloc_limit e)) l = true -> place_ok p ->
    forall pos st bits st', write_items p l pos st = Some (bits, st') ->
    reads_back p pos st bits st' (flat_map (item_entries (place_info p)) l).
  Proof.
    intros HF HS Hp. induction HF as [|it l Hit HF IH]; intros pos st bits st' H; cbn [write_items flat_map forallb] in *.
    - injection H as <- <-. intros rest scs info HI Hm. exists info. split; [exact HI|constructor].
    - apply andb_true_iff in HS. destruct HS as [HS1 HS2].
      destruct (write_item it p pos st) as [[x st1]|] eqn:E1; [|discriminate].
      destruct (write_items p l (pos + blen x) st1) as [[y st2]|] eqn:E2; [|discriminate].
      injection H as <- <-. intros rest scs info HI Hm. rewrite blen_app in Hm.
      destruct (Hit HS1 p pos st x st1 Hp E1 (y ++ rest) scs info HI) as (info1 & HI1 & Em1).
      { rewrite blen_app, <- Hm. f_equal. lia. }
      destruct (IH HS2 _ _ _ _ E2 rest scs info1 HI1) as (info2 & HI2 & Em2).
      { rewrite <- Hm. f_equal. lia. }
      exists info2. split; [exact HI2|]. rewrite <- app_assoc. eapply emits_app; eassumption.
  Qed.

  Lemma block_reads bid w' words body p pos st bits st' : place_ok p ->
    Forall (fun it => item_small (alloc_limit e) it = true -> forall p pos st bits st', place_ok p ->
              write_item it p pos st = Some (bits, st') ->
              reads_back p pos st bits st' (item_entries (place_info p) it)) body ->
    item_small (alloc_limit e) (IBlock bid w' words body) = true ->
    write_item (IBlock bid w' words body) p pos st = Some (bits, st') ->
    reads_back p pos st bits st' (item_entries (place_info p) (IBlock bid w' words body)).
  Proof.
    intros Hp HF HS H rest scs info HI Hm. rewrite write_block in H. cbn [item_small] in HS. cbn zeta in H.
    winv H. apply fixed_inv in E0, E3. apply vbr_inv in E1, E2.
    destruct E0 as [Hi ->], E1 as [Hb ->], E2 as [Hw ->], E3 as [Hwo ->]. injection H as <- <-.
    apply andb_true_iff in E. destruct E as [Ew1 Ew2].
    set (pw := place_width p) in *.
    assert (Hpw : 1 <= pw <= 63 /\ sc_width (st_scope p st) = pw).
    { subst pw. destruct p; cbn in *; lia. }
    set (h := fixed_bits pw 1 ++ vbr_bits 8 bid ++ vbr_bits 4 w') in *.
    set (head := h ++ pad (pos + blen h) ++ fixed_bits 32 words) in *.
    set (tail := fixed_bits w' 0) in *.
    set (start := pos + blen head) in *.
    set (pd := pad (start + blen l3 + blen tail)) in *.
    set (stb := mkW (w_info st) None (w_info st bid)) in *.
    set (s0 := mkParser ((head ++ l3 ++ tail ++ pd) ++ rest) (st_scope p st :: scs) info).
    assert (EN : step e o s0 = (Ok (if bid =? 0 then None else Some (ESubBlock bid (words * 4))),
                  mkParser (l3 ++ tail ++ pd ++ rest) (st_scope (InBlock w' bid) stb :: st_scope p st :: scs) info)).
    { assert (EQ : (head ++ l3 ++ tail ++ pd) ++ rest =
                   fixed_bits pw 1 ++ vbr_bits 8 bid ++ vbr_bits 4 w' ++ pad (pos + blen h) ++ fixed_bits 32 words ++ l3 ++ tail ++ pd ++ rest).
      { subst head h. now rewrite <- !app_assoc. }
      subst s0. rewrite EQ, step_id by (tauto || reflexivity). cbn [abbrev_id_of].
      unfold enter_block. unfold bind at 1, on_cur at 1. cbn [p_cur p_scopes p_info]. rewrite rd_vbr by lia.
      unfold bind at 1, on_cur at 1. cbn [p_cur p_scopes p_info]. rewrite rd_vbr by lia.
      unfold bind at 1, on_cur at 1, c_align at 1. cbn [p_cur p_scopes p_info op_align32 list_ops].
      rewrite align_pad.
      2:{ rewrite !blen_app in *. rewrite <- Hm. f_equal. subst head. rewrite !blen_app in *. lia. }
      replace (w' <? 1) with false by lia.
      unfold bind at 1, on_cur at 1. cbn [p_cur p_scopes p_info]. rewrite rd_fixed by (lia || assumption).
      unfold bind at 1. cbn [push_scope]. unfold bind at 1. cbn [p_info p_scopes p_cur].
      specialize (HI bid). unfold registered in HI. destruct (info_get info bid) as [l5|].
      - unfold extend_scope, bind, get_scope. cbn [p_scopes sc_extend app set_scope p_cur p_info sc_is_blockinfo].
        unfold ret, stb, st_scope. cbn [w_bid w_abbrevs]. rewrite HI. destruct (bid =? 0); reflexivity.
      - unfold ret at 1, bind, get_scope. cbn [p_scopes p_cur p_info sc_is_blockinfo].
        unfold ret, stb, st_scope. cbn [w_bid w_abbrevs]. rewrite HI. destruct (bid =? 0); reflexivity. }
    destruct (items_read body (InBlock w' bid) HF HS ltac:(cbn; lia) _ _ _ _ E4
                (tail ++ pd ++ rest) (st_scope p st :: scs) info) as (info' & HI' & Em).
    { exact HI. }
    { rewrite !blen_app in *. rewrite <- Hm. f_equal. lia. }
    assert (EX : step e o (mkParser (tail ++ pd ++ rest) (st_scope (InBlock w' bid) w :: st_scope p st :: scs) info') =
                 (Ok (if bid =? 0 then None else Some EEndBlock), mkParser rest (st_scope p st :: scs) info')).
    { subst tail. rewrite step_id; [|lia|reflexivity|apply N.neq_0_lt_0, N.pow_nonzero; lia].
      cbn [abbrev_id_of]. unfold exit_block, bind, on_cur, c_align. cbn [p_cur p_scopes p_info op_align32 list_ops].
      subst pd. rewrite align_pad; [reflexivity|]. rewrite !blen_app in *. eapply eq_trans; [|exact Hm]. f_equal. subst start. lia. }
    exists info'. split; [exact HI'|].
    assert (SP : st_scope p (mkW (w_info w) (w_bid st) (w_abbrevs st)) = st_scope p st) by (destruct p; reflexivity).
    rewrite SP. cbn [item_entries]. destruct (bid =? 0) eqn:EB.
    - eapply EmSilent; [exact EN|]. replace (flat_map (item_entries true) body) with (flat_map (item_entries true) body ++ []) by apply app_nil_r.
      eapply emits_app; [|apply emits_silent, EX]. cbn [place_info] in Em. rewrite EB in Em. exact Em.
    - replace (4 * words) with (words * 4) by lia. eapply EmEntry; [exact EN|].
      eapply emits_app; [|apply emits_one, EX]. cbn [place_info] in Em. rewrite EB in Em. exact Em.
  Qed.

  Fixpoint item_ind2 (P : item -> Prop) (Hd : forall a, P (IDefine a)) (Hu : forall c f, P (IUnabbrev c f))
      (Ha : forall i c f, P (IAbbrev i c f))
      (Hb : forall b w n body, Forall P body -> P (IBlock b w n body)) (it : item) : P it :=
    match it with
    | IDefine a => Hd a
    | IUnabbrev c f => Hu c f
    | IAbbrev i c f => Ha i c f
    | IBlock b w n body =>
        Hb b w n body ((fix go (l : list item) : Forall P l :=
          match l with
          | [] => Forall_nil P
          | x :: l' => Forall_cons x (item_ind2 P Hd Hu Ha Hb x) (go l')
          end) body)
    end.

  Lemma item_reads it : item_small (alloc_limit e) it = true -> forall p pos st bits st', place_ok p ->
    write_item it p pos st = Some (bits, st') ->
    reads_back p pos st bits st' (item_entries (place_info p) it).
  Proof.
    induction it as [a|c f|i c f|b w n body IH] using item_ind2; intros HS p pos st bits st' Hp H.
    - destruct p as [|w bid]; [discriminate|]. now apply define_reads with (a := a).
    - destruct p as [|w bid]; [discriminate|]. now apply unabbrev_reads.
    - destruct p as [|w bid]; [discriminate|]. now apply abbrev_reads.
    - now apply block_reads.
  Qed.

  Lemma stream_reads l pos bits st' : forallb (item_small (alloc_limit e)) l = true ->
    write_items AtTop l pos (mkW (fun _ => []) None []) = Some (bits, st') ->
    (pos + blen bits) mod 32 = 0 ->
    exists s', p_cur s' = [] /\ p_scopes s' = [ScInitial] /\ emits (parser_new bits) (entries l) s'.
  Proof.
    intros HS H Hm. assert (HF : Forall (fun it => item_small (alloc_limit e) it = true -> forall p pos st bits st', place_ok p ->
              write_item it p pos st = Some (bits, st') ->
              reads_back p pos st bits st' (item_entries (place_info p) it)) l).
    { clear. induction l; constructor; auto. apply item_reads. }
    destruct (items_read l AtTop HF HS I _ _ _ _ H [] [] []) as (info' & HI & Em).
    - intros b. reflexivity.
    - rewrite <- Hm. f_equal. unfold blen. cbn. lia.
    - rewrite app_nil_r in Em. eexists. split; [|split; [|exact Em]]; reflexivity.
  Qed.

  (** *** From steps to [next] *)
  Lemma advance_loop_emits s x evs s' fuel : emits s (x :: evs) s' -> pinv (fun _ => True) s ->
    (pmu (@length bool) s < fuel)%nat ->
    exists s1, advance_loop e o fuel s = (Ok x, s1) /\ emits s1 evs s' /\ pinv (fun _ => True) s1.
  Proof.
    remember (x :: evs) as l eqn:El. intros H. revert x evs El fuel.
    induction H as [s|s s1 evs0 s' HS H IH|s s1 y evs0 s' HS H IH]; intros x evs El fuel Hsc Hf; [discriminate| |].
    - subst evs0. destruct fuel as [|f]; [lia|]. cbn [advance_loop]. unfold bind.
      pose proof (step_nice e o _ _ list_progressive s Hsc) as N1. rewrite HS in *. destruct N1 as [N1 N2].
      apply (IH x evs eq_refl f N2). lia.
    - injection El as -> ->. destruct fuel as [|f]; [lia|]. cbn [advance_loop]. unfold bind.
      pose proof (step_nice e o _ _ list_progressive s Hsc) as N1. rewrite HS in *. destruct N1 as [N1 N2]. exists s1. auto.
  Qed.

  Lemma next_emits s x evs s' : emits s (x :: evs) s' -> pinv (fun _ => True) s ->
    exists s1, next e o s = (Some (Ok x), s1) /\ emits s1 evs s' /\ pinv (fun _ => True) s1.
  Proof.
    intros H Hs. destruct (advance_loop_emits s x evs s' (op_fuel o (p_cur s)) H Hs) as (s1 & E1 & H1).
    { unfold pmu. cbn. lia. }
    exists s1. unfold next, advance. rewrite E1. auto.
  Qed.

  Lemma advance_loop_end s s' fuel : emits s [] s' -> pinv (fun _ => True) s -> p_cur s' = [] ->
    (pmu (@length bool) s < fuel)%nat -> advance_loop e o fuel s = (Err SExhausted, s').
  Proof.
    remember [] as l eqn:El. intros H. revert El fuel.
    induction H as [s|s s1 evs0 s' HS H IH|s s1 y evs0 s' HS H IH]; intros El fuel Hsc Hc Hf; [| |discriminate].
    - destruct fuel as [|f]; [lia|]. cbn [advance_loop]. unfold bind, step. rewrite Hc. reflexivity.
    - destruct fuel as [|f]; [lia|]. cbn [advance_loop]. unfold bind.
      pose proof (step_nice e o _ _ list_progressive s Hsc) as N1. rewrite HS in *. destruct N1 as [N1 N2].
      apply IH; try assumption. lia.
  Qed.

  Lemma run_end k s : p_cur s = [] -> run e o k s = repeat None k.
  Proof.
    intros H. induction k as [|k IH]; [reflexivity|]. cbn [run repeat].
    assert (next e o s = (None, s)) as ->.
    { unfold next, advance. rewrite H. cbn [op_fuel list_ops length advance_loop]. unfold bind, step. rewrite H. reflexivity. }
    now rewrite IH.
  Qed.

  Lemma run_emits evs k s s' : emits s evs s' -> pinv (fun _ => True) s -> p_cur s' = [] ->
    run e o (length evs + k) s = map (fun x => Some (Ok x)) evs ++ repeat None k.
  Proof.
    revert s. induction evs as [|x evs IH]; intros s H Hs Hc; cbn [length Nat.add map app].
    - destruct k as [|k]; [reflexivity|]. cbn [run repeat].
      assert (next e o s = (None, s')) as ->.
      { unfold next, advance. rewrite (advance_loop_end s s'); try assumption; [reflexivity|].
        unfold pmu. cbn. lia. }
      now rewrite run_end.
    - destruct (next_emits s x evs s' H Hs) as (s1 & E1 & H1 & Hs1). cbn [run]. rewrite E1. f_equal. now apply IH.
  Qed.
End Round.
