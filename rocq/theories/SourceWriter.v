(** The plain encoding can always be written. *)
From Verif Require Import Base CursorSpec CursorProofs CursorModel CursorSim StreamModel StreamSpec StreamHist StreamRound SupportModel ModuleModel SourceSpec SourceProofs.
From Coq Require Import Lia ZifyBool ZifyNat ZifyN.
Local Open Scope N_scope.

Fixpoint node_ind' (P : node -> Prop) (H1 : forall c f, P (NRecord c f)) (H2 : forall b body, Forall P body -> P (NBlock b body)) (n : node) : P n :=
  match n with
  | NRecord c f => H1 c f
  | NBlock b body => H2 b body ((fix go (l : list node) : Forall P l :=
      match l with [] => Forall_nil P | n :: l' => Forall_cons n (node_ind' P H1 H2 n) (go l') end) body)
  end.

Lemma node_fits_block k b body : node_fits k (NBlock b body) <-> 0 < b < 2 ^ 64 /\ Forall (node_fits k) body.
Proof.
  cbn [node_fits]. assert (E : forall l, (fix all (l : list node) : Prop := match l with [] => True | n :: l' => node_fits k n /\ all l' end) l <-> Forall (node_fits k) l).
  { induction l as [|n l IH]; [split; [constructor|trivial]|]. rewrite Forall_cons_iff, <- IH. reflexivity. }
  now rewrite E.
Qed.
Lemma weight_block b body : weight (NBlock b body) = 1000 + weights body.
Proof. reflexivity. Qed.
Lemma node_bits_block w b body pos : node_bits w (NBlock b body) pos =
  let h := fixed_bits w 1 ++ vbr_bits 8 b ++ vbr_bits 4 3 in
  h ++ pad (pos + blen h) ++ fixed_bits 32 (blen (body_bits body) / 32) ++ body_bits body.
Proof.
  cbn [node_bits]. assert (E : forall l p, (fix seq (l : list node) (pos : N) : list bool :=
    match l with [] => [] | n :: l' => node_bits 3 n pos ++ seq l' (pos + blen (node_bits 3 n pos)) end) l p = nodes_bits 3 l p).
  { induction l as [|n l IH]; intros p; [reflexivity|]. cbn [nodes_bits]. now rewrite IH. }
  rewrite E. unfold body_bits. reflexivity.
Qed.

Lemma vbr_groups_blen n w v : 2 <= w -> blen (vbr_groups n w v) <= w * (N.of_nat n + 1).
Proof.
  intros W. revert v. induction n as [|n IH]; intros v; cbn [vbr_groups].
  - rewrite fixed_blen. lia.
  - destruct (v <? _); [rewrite fixed_blen; nia|]. rewrite !blen_app, fixed_blen. specialize (IH (v / 2 ^ (w - 1))). change (blen [true]) with 1. nia.
Qed.
Lemma vbr_bits_blen w v : 2 <= w -> v < 2 ^ 64 -> blen (vbr_bits w v) <= w * 65.
Proof.
  intros W V. unfold vbr_bits. pose proof (vbr_groups_blen (N.size_nat v) w v W) as H.
  rewrite size_nat_size in H. assert (S0 : N.size v <= 64); [|nia].
  destruct v as [|p]; [cbn; lia|]. rewrite N.size_log2 by discriminate. apply N.log2_lt_pow2 in V; [|reflexivity]. lia.
Qed.

Lemma pad_mod p q : p mod 32 = q mod 32 -> pad p = pad q.
Proof. unfold pad. intros ->. reflexivity. Qed.
Lemma add_mod32 p q x : p mod 32 = q mod 32 -> (p + x) mod 32 = (q + x) mod 32.
Proof. intros E. rewrite (N.add_mod p), (N.add_mod q), E by lia. reflexivity. Qed.

Lemma node_bits_mod w n p q : p mod 32 = q mod 32 -> node_bits w n p = node_bits w n q.
Proof.
  destruct n as [c f|b body]; intros E; [reflexivity|]. rewrite !node_bits_block. cbv zeta.
  rewrite (pad_mod (p + _) (q + blen (fixed_bits w 1 ++ vbr_bits 8 b ++ vbr_bits 4 3))); [reflexivity|]. now apply add_mod32.
Qed.
Lemma nodes_bits_mod w l : forall p q, p mod 32 = q mod 32 -> nodes_bits w l p = nodes_bits w l q.
Proof.
  induction l as [|n l IH]; intros p q E; [reflexivity|]. cbn [nodes_bits]. rewrite (node_bits_mod w n p q E). f_equal.
  apply IH. now apply add_mod32.
Qed.

Lemma pad_ends p : (p + blen (pad p)) mod 32 = 0.
Proof.
  rewrite pad_blen. rewrite (N.div_mod p 32) at 1 by lia. pose proof (N.mod_lt p 32 ltac:(lia)) as M.
  generalize dependent (p mod 32). intros r M. generalize (p / 32). intros d.
  destruct (N.eq_dec r 0) as [->|R].
  - change ((32 - 0) mod 32) with 0. replace (32 * d + 0 + 0) with (d * 32) by lia. apply N.mod_mul. lia.
  - rewrite (N.mod_small (32 - r)) by lia. replace (32 * d + r + (32 - r)) with ((d + 1) * 32) by lia. apply N.mod_mul. lia.
Qed.
Lemma pad_short p : blen (pad p) < 32.
Proof. rewrite pad_blen. apply N.mod_lt. lia. Qed.
Lemma body_bits_words body : blen (body_bits body) = 32 * (blen (body_bits body) / 32).
Proof.
  assert (E : blen (body_bits body) mod 32 = 0).
  { unfold body_bits. rewrite !blen_app, fixed_blen, N.add_assoc. apply pad_ends. }
  rewrite (N.div_mod (blen (body_bits body)) 32) at 1 by lia. lia.
Qed.

Local Opaque fixed_bits vbr_bits.

Lemma fields_blen f : Forall (fun x => x < 2 ^ 64) f -> blen (flat_map (vbr_bits 6) f) <= 390 * N.of_nat (length f).
Proof.
  induction 1 as [|x f X F IH]; [cbn; lia|]. cbn [flat_map length]. rewrite blen_app. pose proof (vbr_bits_blen 6 x ltac:(lia) X). lia.
Qed.

Definition lean (k : N) (n : node) : Prop := forall w pos, w <= 3 -> node_fits k n -> k <= 2 ^ 64 -> blen (node_bits w n pos) <= weight n.
Lemma nodes_lean k l : Forall (lean k) l -> forall pos, Forall (node_fits k) l -> k <= 2 ^ 64 -> blen (nodes_bits 3 l pos) <= weights l.
Proof.
  induction 1 as [|n l N1 _ IH]; intros pos F K; [cbn; lia|]. apply Forall_cons_iff in F. destruct F as [F1 F2].
  cbn [nodes_bits weights fold_right]. rewrite blen_app. specialize (N1 3 pos ltac:(lia) F1 K).
  specialize (IH (pos + blen (node_bits 3 n pos)) F2 K). unfold weights in IH. lia.
Qed.
Lemma body_lean k body : Forall (lean k) body -> Forall (node_fits k) body -> k <= 2 ^ 64 -> blen (body_bits body) <= weights body + 34.
Proof.
  intros L F K. unfold body_bits. rewrite !blen_app, fixed_blen. pose proof (nodes_lean k body L 0 F K). pose proof (pad_short (blen (nodes_bits 3 body 0) + 3)). lia.
Qed.
Lemma node_lean k n : lean k n.
Proof.
  induction n as [c f|b body IH] using node_ind'; intros w pos W F K.
  - cbn [node_fits] in F. destruct F as (C & F & L). cbn [node_bits weight]. rewrite !blen_app, fixed_blen.
    pose proof (vbr_bits_blen 6 c ltac:(lia) C). pose proof (vbr_bits_blen 6 (N.of_nat (length f)) ltac:(lia) ltac:(lia)). pose proof (fields_blen f F). lia.
  - apply node_fits_block in F. destruct F as (B & F). rewrite node_bits_block, weight_block. cbv zeta. rewrite !blen_app, !fixed_blen.
    pose proof (vbr_bits_blen 8 b ltac:(lia) (proj2 B)). change (blen (vbr_bits 4 3)) with 4.
    match goal with |- context [pad ?x] => pose proof (pad_short x) end. pose proof (body_lean k body IH F K). lia.
Qed.

Lemma fixed_ok w v : v < 2 ^ w -> fixed w v = Some (fixed_bits w v).
Proof. intros V. unfold fixed. now replace (v <? 2 ^ w) with true by lia. Qed.
Lemma vbr_ok w v : v < 2 ^ 64 -> vbr w v = Some (vbr_bits w v).
Proof. intros V. unfold vbr, fits64. change two64 with (2 ^ 64). now replace (v <? 2 ^ 64) with true by lia. Qed.
Lemma fields_ok f : Forall (fun x => x < 2 ^ 64) f -> concat_opt (vbr 6) f = Some (flat_map (vbr_bits 6) f).
Proof. induction 1 as [|x f X F IH]; [reflexivity|]. cbn [concat_opt flat_map]. rewrite vbr_ok by assumption. now rewrite IH. Qed.

(** The place of a node: blocks anywhere, records in blocks of three-bit abbreviation ids. *)
Definition goes (p : place) (n : node) : Prop :=
  match p, n with
  | AtTop, NBlock _ _ => True
  | AtTop, NRecord _ _ => False
  | InBlock w bid, _ => w = 3 /\ bid <> 0
  end.
Definition writes (k : N) (n : node) : Prop := forall p pos st, goes p n -> node_fits k n -> k <= 2 ^ 64 -> weight n < 2 ^ 36 ->
  write_item (plain n) p pos st = Some (node_bits (place_width p) n pos, st).

Lemma items_written k p l : Forall (writes k) l -> forall pos st, Forall (goes p) l -> Forall (node_fits k) l -> k <= 2 ^ 64 -> weights l < 2 ^ 36 ->
  write_items p (map plain l) pos st = Some (nodes_bits (place_width p) l pos, st).
Proof.
  induction 1 as [|n l N1 _ IH]; intros pos st G F K W; [reflexivity|]. apply Forall_cons_iff in F. destruct F as [F1 F2].
  apply Forall_cons_iff in G. destruct G as [G1 G2]. cbn [weights fold_right] in W. fold (weights l) in W.
  cbn [map write_items nodes_bits]. rewrite N1 by (trivial; lia). rewrite IH by (trivial; lia). reflexivity.
Qed.

Lemma node_written k n : writes k n.
Proof.
  induction n as [c f|b body IH] using node_ind'; intros p pos st G F K W.
  - destruct p as [|w bid]; [destruct G|]. destruct G as [-> B]. cbn [node_fits] in F. destruct F as (C & F & L).
    cbn [plain write_item node_bits place_width]. rewrite fixed_ok by reflexivity. unfold unabbrev_bits.
    rewrite !vbr_ok, fields_ok by (trivial; lia). replace (bid =? 0) with false by lia. reflexivity.
  - apply node_fits_block in F. destruct F as (B & F). rewrite weight_block in W. rewrite node_bits_block. cbv zeta.
    cbn [plain write_item]. change ((1 <=? 3) && (3 <=? 63)) with true. cbv iota.
    assert (P1 : fixed (place_width p) 1 = Some (fixed_bits (place_width p) 1)).
    { apply fixed_ok. destruct p as [|w bid]; [reflexivity|]. destruct G as [-> _]. reflexivity. }
    rewrite P1, !vbr_ok by (trivial; lia).
    assert (LN : blen (body_bits body) < 2 ^ 36 + 34).
    { eapply N.le_lt_trans; [apply (body_lean k); trivial; apply Forall_forall; intros ? _; apply node_lean|]. lia. }
    rewrite fixed_ok.
    2:{ apply N.div_lt_upper_bound; [lia|]. eapply N.le_lt_trans; [apply (body_lean k); trivial; apply Forall_forall; intros ? _; apply node_lean|].
        change (32 * 2 ^ 32) with 137438953472. change (2 ^ 36) with 68719476736 in W. lia. }
    set (h := fixed_bits (place_width p) 1 ++ vbr_bits 8 b ++ vbr_bits 4 3).
    set (start := pos + blen _).
    assert (GS : Forall (goes (InBlock 3 b)) body) by (apply Forall_forall; intros x _; split; [reflexivity|lia]).
    assert (WB : weights body < 2 ^ 36) by lia.
    assert (WL := items_written k (InBlock 3 b) body IH start (mkW (w_info st) None (w_info st b)) GS F K WB).
    assert (SM : start mod 32 = 0 mod 32).
    { subst start. rewrite !blen_app, fixed_blen, !N.add_assoc. rewrite N.add_mod by lia. rewrite pad_ends. reflexivity. }
    cbn [place_width] in WL. rewrite (nodes_bits_mod 3 body start 0 SM) in WL.
    match goal with |- context [(fix write_list (l : list item) (pos : N) (st : wstate) {struct l} := _) ?a ?q ?r] =>
      replace ((fix write_list (l : list item) (pos : N) (st : wstate) {struct l} : option (list bool * wstate) :=
           match l with
           | [] => Some ([], st)
           | it :: l' =>
               match write_item it (InBlock 3 b) pos st with
               | Some (x, st1) => match write_list l' (pos + blen x) st1 with Some (y, st2) => Some (x ++ y, st2) | None => None end
               | None => None
               end
           end) a q r) with (Some (nodes_bits 3 body 0, mkW (w_info st) None (w_info st b)))
    end.
    2:{ rewrite <- WL. generalize (map plain body) start (mkW (w_info st) None (w_info st b)). clear.
        intros l. induction l as [|it l IH]; intros q r; [reflexivity|]. cbn [write_items].
        destruct (write_item it (InBlock 3 b) q r) as [[x s1]|]; [|reflexivity]. now rewrite IH. }
    cbv iota. rewrite fixed_blen. rewrite (pad_mod (start + blen (nodes_bits 3 body 0) + 3) (blen (nodes_bits 3 body 0) + 3)).
    2:{ rewrite <- N.add_assoc. rewrite (add_mod32 start 0 _ SM). now rewrite N.add_0_l. }
    fold (body_bits body). rewrite <- body_bits_words, N.eqb_refl. destruct st as [i sb ab]. cbn [w_info w_bid w_abbrevs].
    rewrite <- !app_assoc. reflexivity.
Qed.

Lemma plain_written k l : Forall (goes AtTop) l -> Forall (node_fits k) l -> k <= 2 ^ 64 -> weights l < 2 ^ 36 ->
  write_stream 0xdec04342 (map plain l) = Some (fixed_bits 32 0xdec04342 ++ nodes_bits 2 l 32).
Proof.
  intros G F K W. unfold write_stream. rewrite fixed_ok by reflexivity.
  rewrite (items_written k AtTop l) by (trivial; apply Forall_forall; intros n _; apply node_written). reflexivity.
Qed.

Lemma plain_small k n : node_fits k n -> item_small k (plain n) = true.
Proof.
  induction n as [c f|b body IH] using node_ind'; intros F.
  - cbn [node_fits] in F. cbn [plain item_small]. lia.
  - apply node_fits_block in F. destruct F as (_ & F). cbn [plain item_small]. rewrite forallb_forall. intros i I.
    apply in_map_iff in I. destruct I as (n & <- & I). rewrite Forall_forall in IH, F. auto.
Qed.
Lemma plain_means k n : node_fits k n -> nodes_of false (plain n) = [n].
Proof.
  induction n as [c f|b body IH] using node_ind'; intros F; [reflexivity|].
  apply node_fits_block in F. destruct F as (B & F). cbn [plain nodes_of]. replace (b =? 0) with false by lia. do 2 f_equal.
  induction IH as [|n l N1 _ IH]; [reflexivity|]. apply Forall_cons_iff in F. destruct F as [F1 F2]. cbn [map flat_map].
  rewrite (N1 F1). now rewrite (IH F2).
Qed.
Lemma plains_mean k l : Forall (node_fits k) l -> meaning (map plain l) = l.
Proof.
  unfold meaning. induction 1 as [|n l F _ IH]; [reflexivity|]. cbn [map flat_map]. rewrite (plain_means k n F). cbn [app]. now f_equal.
Qed.
Lemma plains_small k l : Forall (node_fits k) l -> forallb (item_small k) (map plain l) = true.
Proof. intros F. rewrite forallb_forall. intros i I. apply in_map_iff in I. destruct I as (n & <- & I). rewrite Forall_forall in F. apply plain_small. auto. Qed.

Lemma plain_short k l : Forall (node_fits k) l -> k <= 2 ^ 64 -> forall pos, blen (nodes_bits 2 l pos) <= weights l.
Proof.
  intros F K. induction F as [|n l F _ IH]; intros pos; [cbn; lia|]. cbn [nodes_bits weights fold_right]. rewrite blen_app.
  specialize (IH (pos + blen (node_bits 2 n pos))). unfold weights in IH. pose proof (node_lean k n 2 pos ltac:(lia) F K). lia.
Qed.

Lemma file_goes ms y t : Forall (goes AtTop) (file_nodes ms y t).
Proof.
  unfold file_nodes. rewrite !Forall_app. repeat split.
  - apply Forall_forall. intros n I. apply in_flat_map in I. destruct I as (p & _ & [<-|[<-|[]]]); exact I.
  - destruct y; cbn [opt_list map]; repeat constructor.
  - repeat constructor.
Qed.
Lemma file_exists e host ms y t : long_blob t -> (forall x, y = Some x -> long_blob x) ->
  Forall (fun p => module_body (fst p) (snd p) /\ source_means (fst p) <> None /\ exists settings, source_ok e t (fst p) settings) ms ->
  Forall (node_fits (N.min (alloc_limit e) (2 ^ 64))) (file_nodes ms y t) -> weights (file_nodes ms y t) < 2 ^ 36 ->
  exists l bits, write_stream 0xdec04342 l = Some bits /\ meaning l = file_nodes ms y t /\
    bitcode_of e host (bytes_of_bits bits) = Ok (read_file host ms y t).
Proof.
  intros LT LY OK F W. pose proof (plain_written _ _ (file_goes ms y t) F ltac:(lia) W) as WS.
  exists (map plain (file_nodes ms y t)). eexists. split; [exact WS|]. pose proof (plains_mean _ _ F) as M. split; [exact M|].
  apply (file_round_trip e host 0xdec04342 _ _ ms y t WS); trivial.
  - pose proof (plains_small _ _ F) as S0. rewrite forallb_forall in *. intros i I. specialize (S0 i I). revert S0. clear. revert i.
    fix IH 1. intros i. destruct i as [a|c f|i c f|b w n body]; cbn [item_small]; [trivial|lia|lia|]. rewrite !forallb_forall. intros H.
    induction body as [|x body IHb]; intros z Z; [destruct Z|]. destruct Z as [<-|Z]; [apply IH, H; now left|].
    apply IHb; [intros; apply H; now right|exact Z].
  - discriminate.
  - pose proof (plain_short _ _ F ltac:(lia) 32) as L. rewrite app_length, fixed_bits_length. unfold blen in L. lia.
Qed.
