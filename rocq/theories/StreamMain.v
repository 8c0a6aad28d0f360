(** Parser results on the real cursor: end of iteration, round trip, containers. *)
From Verif Require Import Base CursorModel CursorSpec CursorHist CursorProofs CursorSim CursorVbr CursorMain
  StreamModel StreamSpec StreamHist StreamProofs StreamPres StreamEffect StreamRound.
From Coq Require Import Lia ZifyBool ZifyNat ZifyN.
Ltac Zify.zify_post_hook ::= Z.div_mod_to_equations.
Local Open Scope N_scope.
Arguments N.add : simpl never.
Arguments N.mul : simpl never.
Arguments N.div : simpl never.
Arguments N.modulo : simpl never.
Arguments N.sub : simpl never.
Arguments N.pow : simpl never.

(** ** [Error::Exhausted] only comes from the check at the start of [advance] *)

Definition noex {St A} (m : M St serr A) : Prop := forall s, fst (m s) <> Err SExhausted.

Lemma noex_bind {St A B} (m : M St serr A) (k : A -> M St serr B) :
  noex m -> (forall a, noex (k a)) -> noex (bind m k).
Proof.
  intros H1 H2 s. specialize (H1 s). unfold bind. destruct (m s) as [[a|x|p|] s1]; cbn [fst] in *; first [apply H2 | congruence].
Qed.
Lemma noex_ret {St A} (a : A) : noex (St := St) (ret a).
Proof. intros s. discriminate. Qed.
Lemma noex_fail {St A} x : x <> SExhausted -> noex (St := St) (fail (A := A) x).
Proof. intros H s. cbn. congruence. Qed.
Lemma noex_crash {St A} p : noex (St := St) (crash (A := A) p).
Proof. intros s. discriminate. Qed.
Lemma noex_cursor {St A} (m : M St cerr A) : noex (lift_err SCursor m).
Proof. intros s. unfold lift_err. destruct (m s) as [[] s']; discriminate. Qed.
Lemma noex_times {St A} (m : M St serr (list A)) n : noex m -> noex (times n m).
Proof.
  intros Hm s. rewrite times_nat. generalize (N.to_nat n). intros k. revert s.
  induction k as [|k IH]; cbn [times_n]; [apply noex_ret|].
  apply noex_bind; [exact Hm|]. intros a. apply noex_bind; [exact IH|]. intros b. apply noex_ret.
Qed.

Section NoEx.
  Context {C : Type} (e : env) (o : cops C).
  Lemma c_read_noex n : noex (c_read o n).
  Proof. apply noex_cursor. Qed.
  Lemma c_vbr_noex n : noex (c_vbr e o n).
  Proof. apply noex_cursor. Qed.
  Lemma c_read_as_noex t n : noex (c_read_as o t n).
  Proof. apply noex_cursor. Qed.
  Lemma c_align_noex : noex (c_align o).
  Proof. intros s. discriminate. Qed.
  Lemma with_capacity_noex {St} n : noex (St := St) (with_capacity e n).
  Proof. unfold with_capacity. destruct (_ <=? _); [apply noex_ret|apply noex_crash]. Qed.
  Hint Resolve c_read_noex c_vbr_noex c_read_as_noex c_align_noex with_capacity_noex noex_ret noex_crash : noex.
  Hint Extern 1 (noex (fail _)) => (apply noex_fail; discriminate) : noex.
  Ltac bnd := apply noex_bind; [auto with noex|intros ?].
  Lemma op_parse_noex op : noex (op_parse e o op).
  Proof.
    induction op; cbn [op_parse]; repeat (bnd || apply noex_times || auto with noex).
    unfold decode_char6. destruct (nth_error _ _); auto with noex.
  Qed.
  Lemma read_enc_noex : noex (read_enc o).
  Proof. unfold read_enc. bnd. destruct (abbrev_enc_of _); auto with noex. Qed.
  Hint Resolve read_enc_noex : noex.
  Lemma array_elem_noex : noex (array_elem e o).
  Proof. unfold array_elem. bnd. bnd. destruct a0; try bnd; auto with noex. Qed.
  Hint Resolve array_elem_noex : noex.
  Lemma abbrev_loop_noex f num idx acc : noex (abbrev_loop e o f num idx acc).
  Proof.
    revert idx acc. induction f as [|f IH]; intros idx acc; cbn [abbrev_loop]; [intros s; discriminate|].
    destruct (_ <=? _); [auto with noex|]. bnd. destruct (_ =? 1); [bnd; auto|]. bnd. destruct a0.
    - bnd. auto.
    - bnd. auto.
    - destruct (_ && _); [auto with noex|]. destruct (negb _); [auto with noex|]. bnd. auto with noex.
    - auto.
    - destruct (negb _); auto with noex.
  Qed.
  Lemma abbrev_new_noex : noex (abbrev_new e o).
  Proof. unfold abbrev_new. bnd. destruct (_ <? _); [auto with noex|]. intros c. apply abbrev_loop_noex. Qed.
  Lemma abbrev_parse_noex a : noex (abbrev_parse e o a).
  Proof.
    induction a as [|op a IH]; cbn [abbrev_parse]; [auto with noex|].
    apply noex_bind; [apply op_parse_noex|]. intros ?. bnd. auto with noex.
  Qed.
  Lemma on_cur_noex {A} (m : M C serr A) : noex m -> noex (on_cur m).
  Proof. intros H s. specialize (H (p_cur s)). unfold on_cur. destruct (m (p_cur s)). exact H. Qed.
  Lemma get_scope_noex : noex (St := sparser C) get_scope.
  Proof. intros s. unfold get_scope. destruct (p_scopes s); discriminate. Qed.
  Lemma set_scope_noex sc : noex (St := sparser C) (set_scope sc).
  Proof. intros s. unfold set_scope. destruct (p_scopes s); discriminate. Qed.
  Lemma push_scope_noex sc : noex (St := sparser C) (push_scope sc).
  Proof. intros s. discriminate. Qed.
  Hint Resolve on_cur_noex get_scope_noex set_scope_noex push_scope_noex abbrev_new_noex abbrev_parse_noex : noex.
  Lemma extend_scope_noex l : noex (St := sparser C) (extend_scope l).
  Proof. unfold extend_scope. bnd. destruct (sc_extend _ _); auto with noex. Qed.
  Hint Resolve extend_scope_noex : noex.
  Lemma body_noex v : noex (body e o v).
  Proof.
    unfold body. destruct (abbrev_id_of v).
    - unfold exit_block. bnd. intros s. destruct (p_scopes s) as [|? [|]]; discriminate.
    - unfold enter_block. bnd. bnd. bnd. destruct (_ <? _); [auto with noex|]. bnd. bnd.
      apply noex_bind; [|intros ?; bnd; destruct (sc_is_blockinfo _); auto with noex].
      intros s. destruct (info_get _ _); [apply extend_scope_noex|discriminate].
    - apply noex_bind; [|auto with noex]. unfold define_abbrev. bnd. bnd.
      destruct (sc_is_blockinfo _); [|auto with noex]. destruct (sc_blockinfo_bid _); [|auto with noex].
      intros s. discriminate.
    - unfold parse_unabbrev. bnd. destruct a; [auto with noex|]. bnd. bnd. bnd.
      apply noex_bind; [apply on_cur_noex, noex_times; bnd; auto with noex|]. intros ?. bnd.
      destruct (sc_is_blockinfo _); [|auto with noex]. destruct (blockinfo_code_of _) as [[]|]; auto with noex.
      match goal with |- context [match ?l with [] => _ | _ :: _ => _ end] => destruct l end; [auto with noex|].
      destruct (sc_set_bid _ _); [|auto with noex]. bnd. auto with noex.
    - unfold parse_with_abbrev. bnd. apply noex_bind.
      { unfold get_abbrev. destruct a; [auto with noex|]. destruct (_ <? _); [auto with noex|]. destruct (nth_error _ _); auto with noex. }
      intros ?. bnd. match goal with |- context [match ?l with [] => _ | _ :: _ => _ end] => destruct l end; [auto with noex|].
      bnd. destruct (sc_is_blockinfo _); auto with noex.
  Qed.
  Lemma step_exhausted s s' : step e o s = (Err SExhausted, s') -> s' = s /\ op_exhausted o (p_cur s) = true.
  Proof.
    unfold step. destruct (op_exhausted o (p_cur s)) eqn:E; [intros [= <-]; auto|].
    intros H. exfalso. assert (K : noex (bind get_scope (fun sc => bind (on_cur (c_read o (sc_width sc))) (body e o)))).
    { bnd. bnd. apply body_noex. }
    specialize (K s). unfold body in K. rewrite H in K. now apply K.
  Qed.
  Lemma advance_loop_exhausted f s s' : advance_loop e o f s = (Err SExhausted, s') -> op_exhausted o (p_cur s') = true.
  Proof.
    revert s. induction f as [|f IH]; intros s; cbn [advance_loop]; [discriminate|]. unfold bind.
    destruct (step e o s) as [[[x|]|x|p|] s1] eqn:E; try discriminate.
    - apply IH.
    - intros [= -> <-]. destruct (step_exhausted _ _ E) as [-> K]. exact K.
  Qed.

  Lemma next_exhausted s : op_exhausted o (p_cur s) = true -> op_fuel o (p_cur s) <> O -> next e o s = (None, s).
  Proof.
    intros H F. unfold next, advance. destruct (op_fuel o (p_cur s)) as [|f]; [congruence|]. cbn [advance_loop].
    unfold bind, step. rewrite H. reflexivity.
  Qed.
  Lemma next_none s s' : next e o s = (None, s') -> op_exhausted o (p_cur s') = true.
  Proof.
    unfold next, advance. destruct (advance_loop e o (op_fuel o (p_cur s)) s) as [[x|[]|p|] s1] eqn:E; try discriminate.
    intros [= <-]. eapply advance_loop_exhausted, E.
  Qed.
  Lemma none_forever s s' k : (forall c, op_fuel o c <> O) -> next e o s = (None, s') -> run e o k s' = repeat None k.
  Proof.
    intros F H. apply next_none in H. induction k as [|k IH]; [reflexivity|]. cbn [run repeat].
    rewrite next_exhausted by auto. now rewrite IH.
  Qed.
End NoEx.

(** ** Simulation of [next] *)

Lemma sim_next {C D} (R : C -> D -> Prop) (o1 : cops C) (o2 : cops D) (HS : ops_sim R o1 o2) e s t :
  PR R s t ->
  let (r1, s') := next e o1 s in
  let (r2, t') := next e o2 t in
  r1 = r2 /\ ((exists x, r1 = Some (Ok x)) -> PR R s' t').
Proof.
  intros H. pose proof (advance_sim R o1 o2 HS e s t H) as K. unfold next, sim_res in *.
  destruct (advance e o1 s) as [[x|x|p|] s1], (advance e o2 t) as [[y|y|q|] t1]; cbn [fst snd] in *; try contradiction.
  - destruct K as [-> K]. split; auto.
  - subst y. destruct x; (split; [reflexivity|]; intros [z Hz]; discriminate).
  - subst q. split; [reflexivity|]. intros [z Hz]; discriminate.
  - split; [reflexivity|]. intros [z Hz]; discriminate.
Qed.

Lemma sim_run {C D} (R : C -> D -> Prop) (o1 : cops C) (o2 : cops D) (HS : ops_sim R o1 o2) e n s t :
  PR R s t -> upto_stop (run e o1 n s) = upto_stop (run e o2 n t).
Proof.
  revert s t. induction n as [|n IH]; intros s t H; [reflexivity|]. cbn [run].
  pose proof (sim_next R o1 o2 HS e s t H) as K.
  destruct (next e o1 s) as [r1 s'], (next e o2 t) as [r2 t']. destruct K as [-> K].
  destruct r2 as [[x|x|p|]|]; try reflexivity. cbn [upto_stop]. f_equal. apply IH, K. eauto.
Qed.

(** Entries followed by the end are the whole story. *)
Lemma run_transport {C D} (R : C -> D -> Prop) (o1 : cops C) (o2 : cops D) (HS : ops_sim R o1 o2) e evs k s t :
  (forall c, op_fuel o1 c <> O) -> PR R s t ->
  run e o2 (length evs + k) t = map (fun x => Some (Ok x)) evs ++ repeat None k ->
  run e o1 (length evs + k) s = map (fun x => Some (Ok x)) evs ++ repeat None k.
Proof.
  intros F. revert s t. induction evs as [|x evs IH]; intros s t H HR; cbn [length Nat.add map app] in *.
  - destruct k as [|k]; [reflexivity|]. cbn [run repeat] in *. pose proof (sim_next R o1 o2 HS e s t H) as K.
    destruct (next e o1 s) as [r1 s'] eqn:E1, (next e o2 t) as [r2 t']. destruct K as [-> K].
    injection HR as -> _. f_equal. eapply none_forever; [exact F|exact E1].
  - cbn [run] in *. pose proof (sim_next R o1 o2 HS e s t H) as K.
    destruct (next e o1 s) as [r1 s'], (next e o2 t) as [r2 t']. destruct K as [-> K].
    injection HR as -> HR. f_equal. eapply IH; [apply K; eauto|exact HR].
Qed.

Lemma cursor_fuel c : op_fuel cursor_ops c <> O.
Proof. discriminate. Qed.

(** ** Bits and bytes *)

Lemma byte_bits_b8 l : length l = 8%nat -> byte_bits (b8 (N_of_bits l)) = l.
Proof.
  do 8 (destruct l as [|[] l]; [discriminate| |]);
  intros H; destruct l; try discriminate; reflexivity.
Qed.

Lemma bytes_of_bits_spec l : (length l mod 8 = 0)%nat ->
  bits_of_bytes (bytes_of_bits l) = l /\ (8 * length (bytes_of_bits l) = length l)%nat.
Proof.
  remember (length l / 8)%nat as k eqn:Hk. intros Hm.
  assert (HL : length l = (8 * k)%nat) by (subst k; lia). clear Hk Hm. revert l HL.
  induction k as [|k IH]; intros l HL.
  - destruct l; [|cbn in HL; lia]. split; reflexivity.
  - do 8 (destruct l as [|? l]; [cbn in HL; lia|]). cbn [length] in HL.
    destruct (IH l ltac:(lia)) as [I1 I2]. cbn [bytes_of_bits length]. split; [|lia].
    unfold bits_of_bytes in *. cbn [flat_map]. rewrite byte_bits_b8 by reflexivity. rewrite I1. reflexivity.
Qed.

Lemma bits_of_bytes_length bs : length (bits_of_bytes bs) = (8 * length bs)%nat.
Proof. induction bs as [|b bs IH]; [reflexivity|]. unfold bits_of_bytes in *. cbn [flat_map]. rewrite app_length, IH. cbn. lia. Qed.

(** ** Raw streams *)

Lemma new_tracks buf : N.of_nat (length buf) mod 4 = 0 ->
  tracks4 buf (N.of_nat (length buf)) (cur_new buf) (bits_of_bytes buf).
Proof.
  intros H. split; [|split; [reflexivity|exact H]].
  split; [split; [apply inv_new|cbn; lia]|]. split; [reflexivity|]. split; [reflexivity|].
  unfold rem, data, tell_bit. cbn [cur_new byte_len inner byte_pos bit_index]. rewrite Nat2N.id, firstn_all. reflexivity.
Qed.

Lemma read_u32_list l : read_exact list_ops u32t l =
  match list_read 32 l with
  | (Ok v, l') => (Ok v, l')
  | (Err x, l') => (Err x, l')
  | (Panic p, l') => (Panic p, l')
  | (OutOfFuel, l') => (OutOfFuel, l')
  end.
Proof.
  unfold read_exact, read_as, bind. cbn [op_read list_ops ity_bits u32t].
  pose proof (pg_read _ _ _ list_progressive 32 l I) as K. cbn [op_read list_ops] in K.
  destruct (list_read 32 l) as [[v|x|p|] l'] eqn:E; try reflexivity.
  unfold num_cast. cbn [ity_signed ity_bits u32t]. destruct K as (_ & K & _).
  replace (v <? 2 ^ 32) with true by lia. reflexivity.
Qed.

(** What [from_cursor] makes of a cursor with the bits [l] left. *)
Lemma from_cursor_spec buf len c l : tracks4 buf len c l ->
  if (32 <=? length l)%nat
  then exists c', from_cursor c = Ok (mkBitstream (N_of_bits (firstn 32 l)) (parser_new c')) /\
                  tracks4 buf len c' (skipn 32 l)
  else from_cursor c = Err (SBadContainer (BxMagic (match l with [] => Eof | _ => Short end))).
Proof.
  intros T. pose proof T as [(HI & HB & HL & HR) [A1 A2]]. unfold from_cursor.
  rewrite A2. cbn [N.eqb negb].
  pose proof (read_as_sim _ _ _ (os_read _ _ _ (cursor_sim buf len)) u32t 32 c l T) as K.
  change (read_as cursor_ops u32t 32) with (read_exact cursor_ops u32t) in K.
  change (read_as list_ops u32t 32) with (read_exact list_ops u32t) in K.
  rewrite read_u32_list in K. unfold list_read in K.
  change ((32 =? 0) || (64 <=? 32)) with false in K. cbv iota in K.
  destruct (32 <=? length l)%nat eqn:E.
  - replace (32 <=? N.of_nat (length l)) with true in K by lia. apply sim_ok in K. destruct K as (c' & -> & K).
    exists c'. split; [reflexivity|exact K].
  - replace (32 <=? N.of_nat (length l)) with false in K by lia.
    destruct (read_exact cursor_ops u32t c) as [[v|x|p|] c']; destruct l; try contradiction; cbn in K; subst; reflexivity.
Qed.

(** The raw container: any buffer of whole words, at least one. *)
Lemma from_raw_spec buf : 
  if (N.of_nat (length buf) mod 4 =? 0) && (4 <=? N.of_nat (length buf))
  then exists c', from_raw buf = Ok (mkBitstream (N_of_bits (firstn 32 (bits_of_bytes buf))) (parser_new c')) /\
                  tracks4 buf (N.of_nat (length buf)) c' (skipn 32 (bits_of_bytes buf))
  else from_raw buf = Err (SBadContainer (if N.of_nat (length buf) mod 4 =? 0 then BxMagic Eof else BxLength)).
Proof.
  unfold from_raw. destruct (N.of_nat (length buf) mod 4 =? 0) eqn:E; cbn [andb].
  - pose proof (from_cursor_spec _ _ _ _ (new_tracks buf ltac:(lia))) as K.
    rewrite bits_of_bytes_length in K. 
    replace (32 <=? 8 * length buf)%nat with (4 <=? N.of_nat (length buf)) in K by lia.
    destruct (4 <=? N.of_nat (length buf)) eqn:L; [exact K|]. rewrite K. destruct buf; [reflexivity|]. cbn [length] in *. lia.
  - unfold from_cursor. cbn [byte_len cur_new]. rewrite E. reflexivity.
Qed.

(** ** C13: written streams read back *)

Lemma top_aligned l pos st bits st' : pos mod 32 = 0 ->
  write_items AtTop l pos st = Some (bits, st') -> (pos + blen bits) mod 32 = 0.
Proof.
  revert pos st bits st'. induction l as [|it l IH]; intros pos st bits st' Hp H; cbn [write_items] in H.
  - injection H as <- <-. cbn. now rewrite N.add_0_r.
  - destruct (write_item it AtTop pos st) as [[x st1]|] eqn:E; [|discriminate].
    destruct (write_items AtTop l (pos + blen x) st1) as [[y st2]|] eqn:E2; [|discriminate].
    injection H as <- <-. rewrite blen_app, N.add_assoc. eapply IH; [|exact E2].
    clear E2 IH. destruct it as [a|code fields|id code fields|bid w words body]; try discriminate.
    rewrite write_block in E. cbv zeta in E. winv E. injection E as <- <-.
    rewrite !blen_app, !pad_blen. lia.
Qed.

Lemma write_stream_inv magic l bits : write_stream magic l = Some bits ->
  exists x st', write_items AtTop l 32 (mkW (fun _ => []) None []) = Some (x, st') /\
    magic < 2 ^ 32 /\ bits = fixed_bits 32 magic ++ x /\ (32 + blen x) mod 32 = 0.
Proof.
  unfold write_stream. intros H. winv H. injection H as <-. apply fixed_inv in E. destruct E as [Hm ->].
  do 2 eexists. split; [reflexivity|]. split; [exact Hm|]. split; [reflexivity|].
  eapply top_aligned; [|exact E0]. reflexivity.
Qed.

Lemma N_of_fixed w v : v < 2 ^ w -> N_of_bits (fixed_bits w v) = v.
Proof.
  intros H. unfold fixed_bits. rewrite N_of_bits_of_N. rewrite N2Nat.id. now apply N.mod_small.
Qed.

Lemma written_raw e magic l bits : write_stream magic l = Some bits ->
  forallb (item_small (alloc_limit e)) l = true ->
  exists s, from_raw (bytes_of_bits bits) = Ok (mkBitstream magic s) /\
    forall k, run e cursor_ops (length (entries l) + k) s
              = map (fun x => Some (Ok x)) (entries l) ++ repeat None k.
Proof.
  intros H HS. destruct (write_stream_inv _ _ _ H) as (x & st' & HW & Hm & -> & Ha).
  set (bits := fixed_bits 32 magic ++ x) in *.
  assert (HB : (length bits mod 32 = 0)%nat).
  { subst bits. rewrite app_length, fixed_bits_length. unfold blen in Ha. lia. }
  destruct (bytes_of_bits_spec bits ltac:(lia)) as [B1 B2].
  pose proof (from_raw_spec (bytes_of_bits bits)) as K. rewrite B1 in K.
  replace ((N.of_nat (length (bytes_of_bits bits)) mod 4 =? 0) && (4 <=? N.of_nat (length (bytes_of_bits bits)))) with true in K.
  2:{ assert (32 <= length bits)%nat by (subst bits; rewrite app_length, fixed_bits_length; lia). lia. }
  destruct K as (c' & K & T). exists (parser_new c').
  assert (F : firstn 32 bits = fixed_bits 32 magic /\ skipn 32 bits = x).
  { subst bits. split; [rewrite firstn_app|rewrite skipn_app]; rewrite fixed_bits_length;
      [rewrite firstn_all2|rewrite skipn_all2]; rewrite ?fixed_bits_length; try lia;
      [rewrite firstn_O, app_nil_r|]; reflexivity. }
  destruct F as [F1 F2]. rewrite F1, N_of_fixed in K by exact Hm. rewrite F2 in T.
  split; [exact K|]. intros k.
  destruct (stream_reads e l 32 x st' HS HW Ha) as (s' & C1 & C2 & EM).
  apply (run_transport _ _ _ (cursor_sim (bytes_of_bits bits) (N.of_nat (length (bytes_of_bits bits)))) e _ _ _ (parser_new x)); [exact cursor_fuel| |].
  - split; [exact T|]. split; reflexivity.
  - eapply run_emits; [exact EM| |exact C1]. split; [exact I|discriminate].
Qed.
