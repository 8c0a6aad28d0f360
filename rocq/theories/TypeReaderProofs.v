(** Type tables: llvm-mapper and LLVM's reader. *)
From Coq Require Import Bool Lia ZifyBool ZifyNat ZifyN.
From Verif Require Import Base Strings EnumModel SupportModel SupportSpec UnrollModel AttributeModel TablesSpec TypeTableModel TypeTableSpec
  StringsProofs AttributeProofs TypeTableMain ReaderSpec TypeReaderSpec.
Local Open Scope N_scope.

(** *** LLVM's loop *)

Definition plain_node (r : record) (name : list N) (n : lnode) : Prop :=
  (exists t, In (r_code r, t) simple_types /\ n = LnSimple t) \/
  (exists w l, r_code r = 7 /\ r_fields r = w :: l /\ n = LnInteger w) \/
  (exists i more, r_code r = 8 /\ r_fields r = i :: more /\ n = LnPointer i (match more with [a] => a | _ => 0 end)) \/
  (exists a, r_code r = 25 /\ r_fields r = [a] /\ n = LnOpaquePointer a) \/
  (exists va x i js, r_code r = 9 /\ r_fields r = va :: x :: i :: js /\ n = LnFunction i js (negb (va =? 0))) \/
  (exists va i js, r_code r = 21 /\ r_fields r = va :: i :: js /\ n = LnFunction i js (negb (va =? 0))) \/
  (exists pk js, r_code r = 18 /\ r_fields r = pk :: js /\ n = LnStruct None js (negb (pk =? 0))) \/
  (exists pk js, r_code r = 20 /\ r_fields r = pk :: js /\ n = LnStruct (Some name) js (negb (pk =? 0))) \/
  (exists x, r_code r = 6 /\ r_fields r = [x] /\ n = LnOpaque name) \/
  (exists k i l, r_code r = 11 /\ r_fields r = k :: i :: l /\ n = LnArray k i) \/
  (exists k i more, r_code r = 12 /\ r_fields r = k :: i :: more /\ k <> 0 /\ n = LnVector k i (negb (hd 0 more =? 0))).

(** The checks of an entry against a table. *)
Definition seen (ok : lnode -> bool) (s : list slot) (i : N) : Prop :=
  exists x, nth_error s (N.to_nat i) = Some x /\ passes ok x = true.
Definition checked (bits : N) (s : list slot) (n : lnode) : Prop :=
  match n with
  | LnInteger w => 1 <= w <= bits
  | LnPointer i _ => seen pointee_node s i
  | LnFunction i js _ => seen any_node s i /\ Forall (seen param_node s) js
  | LnStruct _ js _ => Forall (seen any_node s) js
  | LnArray _ i => seen array_node s i
  | LnVector _ i _ => seen vector_node s i
  | _ => True
  end.

Definition is_named (n : lnode) : Prop := match n with LnStruct (Some _) _ _ | LnOpaque _ => True | _ => False end.
Definition slot_le (x y : slot) : Prop :=
  match x with Empty => True | Forward => y = Forward \/ exists n, y = Filled n /\ is_named n | Filled n => y = Filled n end.
Definition grows (s s' : list slot) : Prop := Forall2 slot_le s s'.

Lemma slot_refl x : slot_le x x.
Proof. destruct x; cbn; auto. Qed.
Lemma slot_trans x y z : slot_le x y -> slot_le y z -> slot_le x z.
Proof.
  destruct x; cbn; auto.
  - intros [->|(n & -> & N)]; cbn; [auto|]. intros ->. right. eauto.
  - intros ->. cbn. auto.
Qed.
Lemma grows_refl s : grows s s.
Proof. induction s; constructor; [apply slot_refl|assumption]. Qed.
Lemma grows_trans a b c : grows a b -> grows b c -> grows a c.
Proof.
  intros H. revert c. induction H as [|x y a b E H IH]; intros c K; inversion K; subst; constructor; [eapply slot_trans; eassumption|now apply IH].
Qed.
Lemma grows_at s s' k x : grows s s' -> nth_error s k = Some x -> exists y, nth_error s' k = Some y /\ slot_le x y.
Proof. intros H. revert k. induction H as [|a b s s' E H IH]; intros [|k] K; try discriminate; cbn in *; [injection K as <-; eauto|auto]. Qed.
Lemma grows_back s s' k y : grows s s' -> nth_error s' k = Some y -> exists x, nth_error s k = Some x /\ slot_le x y.
Proof. intros H. revert k. induction H as [|a b s s' E H IH]; intros [|k] K; try discriminate; cbn in *; [injection K as <-; eauto|auto]. Qed.
Lemma grows_length s s' : grows s s' -> length s = length s'.
Proof. induction 1; cbn; congruence. Qed.

Lemma put_length s k x : length (put s k x) = length s.
Proof. revert k. induction s as [|y s IH]; intros [|k]; cbn; auto. Qed.
Lemma put_same s k x : (k < length s)%nat -> nth_error (put s k x) k = Some x.
Proof. revert k. induction s as [|y s IH]; intros [|k] L; cbn in *; [lia|lia|reflexivity|apply IH; lia]. Qed.
Lemma put_other s k j x : j <> k -> nth_error (put s k x) j = nth_error s j.
Proof. revert k j. induction s as [|y s IH]; intros [|k] [|j] L; cbn; auto; congruence. Qed.
Lemma put_grows s k x y : nth_error s k = Some y -> slot_le y x -> grows s (put s k x).
Proof.
  revert k. induction s as [|z s IH]; intros [|k] E L; try discriminate; cbn in *.
  - injection E as ->. constructor; [exact L|apply grows_refl].
  - constructor; [apply slot_refl|now apply IH].
Qed.

Definition steady (ok : lnode -> bool) : Prop := ok (LnOpaque []) = true -> forall n, is_named n -> ok n = true.
Lemma passes_le ok x y : steady ok -> slot_le x y -> passes ok x = true -> passes ok y = true.
Proof.
  intros S L P. destruct x as [| |n]; cbn in *; [discriminate| |subst y; exact P].
  destruct L as [->|(n & -> & N)]; cbn; [exact P|now apply S].
Qed.
Lemma seen_grows ok s s' i : steady ok -> grows s s' -> seen ok s i -> seen ok s' i.
Proof.
  intros S G (x & E & P). destruct (grows_at _ _ _ _ G E) as (y & E' & L). exists y. split; [exact E'|]. eapply passes_le; eassumption.
Qed.
Lemma steady_pointee : steady pointee_node. Proof. intros _ [] N; now cbn in *. Qed.
Lemma steady_array : steady array_node. Proof. intros _ [] N; now cbn in *. Qed.
Lemma steady_any : steady any_node. Proof. now intros _ n _. Qed.
Lemma steady_vector : steady vector_node. Proof. intros K; discriminate K. Qed.
Lemma steady_param : steady param_node. Proof. intros K; discriminate K. Qed.

Lemma take_all_grows ok s ids s' : steady ok -> take_all ok s ids = Some s' -> grows s s' /\ Forall (seen ok s') ids.
Proof.
  intros S. revert s. induction ids as [|i ids IH]; intros s; cbn [take_all].
  - intros [= <-]. split; [apply grows_refl|constructor].
  - destruct (nth_error s (N.to_nat i)) as [x|] eqn:E; [|discriminate].
    set (s1 := match x with Empty => put s (N.to_nat i) Forward | _ => s end).
    destruct (passes ok _) eqn:P; [|discriminate]. intros H. apply IH in H as [G F].
    assert (G1 : grows s s1 /\ seen ok s1 i).
    { unfold s1, seen. destruct x as [| |n].
      - split; [eapply put_grows; [exact E|exact I]|]. exists Forward. split; [|exact P]. apply put_same. apply nth_error_Some. congruence.
      - split; [apply grows_refl|eauto].
      - split; [apply grows_refl|eauto]. }
    destruct G1 as [G1 S1]. split; [eapply grows_trans; eassumption|]. constructor; [|exact F]. eapply seen_grows; eassumption.
Qed.

Lemma checked_grows bits s s' n : grows s s' -> checked bits s n -> checked bits s' n.
Proof.
  intros G. destruct n; cbn; auto; intros H.
  - eapply seen_grows; [apply steady_pointee|exact G|exact H].
  - destruct H as [H1 H2]. split; [eapply seen_grows; [apply steady_any|exact G|exact H1]|].
    eapply Forall_impl; [|exact H2]. intros j K. eapply seen_grows; [apply steady_param|exact G|exact K].
  - eapply Forall_impl; [|exact H]. intros j K. eapply seen_grows; [apply steady_any|exact G|exact K].
  - eapply seen_grows; [apply steady_array|exact G|exact H].
  - eapply seen_grows; [apply steady_vector|exact G|exact H].
Qed.

Lemma simple_find c t : find (fun p => fst p =? c) simple_types = Some t -> In (c, snd t) simple_types.
Proof. intros H. apply find_some in H as [I E]. destruct t as [c' t]. cbn in *. replace c with c' by lia. exact I. Qed.

Lemma fn_inv s js i s' (n m : lnode) :
  (try! s := take_all param_node s js in try! s := take_all any_node s [i] in Some (m, s)) = Some (n, s') ->
  n = m /\ grows s s' /\ seen any_node s' i /\ Forall (seen param_node s') js.
Proof.
  intros H. destruct (take_all param_node s js) as [s1|] eqn:T1; [|discriminate].
  destruct (take_all any_node s1 [i]) as [s2|] eqn:T2; [|discriminate]. injection H as <- <-.
  apply take_all_grows in T1 as [G1 F1]; [|apply steady_param]. apply take_all_grows in T2 as [G2 F2]; [|apply steady_any].
  split; [reflexivity|]. split; [eapply grows_trans; eassumption|]. split; [now inversion F2|].
  eapply Forall_impl; [|exact F1]. intros j K. eapply seen_grows; [apply steady_param|exact G2|exact K].
Qed.
Lemma ids_inv ok s js s' (n m : lnode) : steady ok ->
  (try! s := take_all ok s js in Some (m, s)) = Some (n, s') -> n = m /\ grows s s' /\ Forall (seen ok s') js.
Proof.
  intros S H. destruct (take_all ok s js) as [s1|] eqn:T1; [|discriminate]. injection H as <- <-.
  split; [reflexivity|]. now apply take_all_grows.
Qed.

Lemma entry_inv bits s name r n s' : llvm_entry bits s name r = Some (n, s') ->
  grows s s' /\ plain_node r name n /\ checked bits s' n.
Proof.
  unfold llvm_entry. destruct (find _ simple_types) as [[c t]|] eqn:F.
  - intros [= <- <-]. apply simple_find in F. split; [apply grows_refl|]. split; [left; eauto|exact I].
  - clear F. unfold plain_node. destruct (r_code r) as [|p] eqn:C; [discriminate|].
    do 5 (try destruct p as [p|p|]); try discriminate.
    all: destruct (r_fields r) as [|x fs] eqn:FS; try discriminate.
    all: let c := match type of C with _ = ?c => c end in
      match c with
      | 7 => idtac
      | 8 => intros H; apply ids_inv in H as (-> & G & F); [|apply steady_pointee]; split; [exact G|]; split;
          [do 2 right; left; exists x, fs; auto|now inversion F]
      | 25 => destruct fs; [|discriminate]; intros [= <- <-]; split; [apply grows_refl|]; split; [do 3 right; left; exists x; auto|exact I]
      | 9 => destruct fs as [|y [|i js]]; try discriminate; intros H; apply fn_inv in H as (-> & G & F); split; [exact G|]; split;
          [do 4 right; left; exists x, y, i, js; auto|exact F]
      | 21 => destruct fs as [|i js]; try discriminate; intros H; apply fn_inv in H as (-> & G & F); split; [exact G|]; split;
          [do 5 right; left; exists x, i, js; auto|exact F]
      | 18 => intros H; apply ids_inv in H as (-> & G & F); [|apply steady_any]; split; [exact G|]; split;
          [do 6 right; left; exists x, fs; auto|exact F]
      | 20 => intros H; apply ids_inv in H as (-> & G & F); [|apply steady_any]; split; [exact G|]; split;
          [do 7 right; left; exists x, fs; auto|exact F]
      | 6 => destruct fs; [|discriminate]; intros [= <- <-]; split; [apply grows_refl|]; split; [do 8 right; left; exists x; auto|exact I]
      | 11 => destruct fs as [|i l]; try discriminate; intros H; apply ids_inv in H as (-> & G & F); [|apply steady_array]; split; [exact G|]; split;
          [do 9 right; left; exists x, i, l; auto|now inversion F]
      | 12 => destruct fs as [|i l]; try discriminate; destruct (x =? 0) eqn:Z; [discriminate|];
          intros H; apply ids_inv in H as (-> & G & F); [|apply steady_vector]; split; [exact G|]; split;
          [do 10 right; exists x, i, l; repeat split; auto; lia|now inversion F]
      end.
    destruct ((1 <=? x) && (x <=? bits))%bool eqn:B; [|discriminate]. intros [= <- <-]. split; [apply grows_refl|].
    split; [right; left; exists x, fs; auto|]. cbn. lia.
Qed.

(** The entries of a list of records, syntactically; the name before and after. *)
Definition named_code (c : N) : bool := (c =? 6) || (c =? 20).
Inductive makes : list N -> list record -> list lnode -> list N -> Prop :=
| MkNil name : makes name [] [] name
| MkNum name r l ns out : r_code r = 1 -> makes name l ns out -> makes name (r :: l) ns out
| MkName name r l ns out : r_code r = 19 -> makes (name ++ map (fun c => c mod 256) (r_fields r)) l ns out -> makes name (r :: l) ns out
| MkEntry name r n l ns out : r_code r <> 1 -> r_code r <> 19 -> plain_node r name n ->
    makes (if named_code (r_code r) then [] else name) l ns out -> makes name (r :: l) (n :: ns) out.

Lemma makes_app n0 l1 ns1 n1 l2 ns2 n2 : makes n0 l1 ns1 n1 -> makes n1 l2 ns2 n2 -> makes n0 (l1 ++ l2) (ns1 ++ ns2) n2.
Proof. induction 1; intros K; cbn [app]; [exact K|apply MkNum; auto|apply MkName; auto|apply MkEntry; auto]. Qed.

Lemma turn_inv bits s num name r s' num' name' : r_code r <> 1 -> r_code r <> 19 ->
  llvm_turn bits (s, num, name) r = Some (s', num', name') ->
  exists n, plain_node r name n /\ grows s s' /\ nth_error s' num = Some (Filled n) /\ checked bits s' n /\ num' = S num /\
    name' = if named_code (r_code r) then [] else name.
Proof.
  intros C1 C19. unfold llvm_turn. replace (r_code r =? 1) with false by lia. replace (r_code r =? 19) with false by lia. fold (named_code (r_code r)).
  set (s1 := match named_code (r_code r), nth_error s num with true, Some Forward => put s num Empty | _, _ => s end).
  destruct (llvm_entry bits s1 name r) as [[n s2]|] eqn:E; [|discriminate]. apply entry_inv in E as (G & P & CH).
  destruct (nth_error s2 num) as [[| |x]|] eqn:EM; try discriminate. intros [= <- <- <-].
  exists n. split; [exact P|].
  assert (G3 : grows s2 (put s2 num (Filled n))) by (eapply put_grows; [exact EM|exact I]).
  assert (AT : nth_error (put s2 num (Filled n)) num = Some (Filled n)) by (apply put_same, nth_error_Some; congruence).
  split; [|split; [exact AT|split; [eapply checked_grows; eassumption|auto]]].
  destruct (named_code (r_code r)) eqn:NC; [|exact (grows_trans _ _ _ G G3)].
  destruct (nth_error s num) as [[| |x]|] eqn:SN; try exact (grows_trans _ _ _ G G3).
  assert (IN : is_named n).
  { unfold named_code in NC. unfold plain_node in P.
    destruct P as [(t & I & _)|[P|[P|[P|[P|[P|[P|[(pk & js & _ & _ & ->)|[(x & _ & _ & ->)|[P|P]]]]]]]]]]; try exact I;
      try (decompose [ex and] P; lia).
    exfalso. cbn in I. repeat (destruct I as [I|I]; [injection I as I _; lia|]). destruct I. }
  (* slot by slot *)
  assert (L : length s = length (put s2 num (Filled n))).
  { rewrite put_length, <- (grows_length _ _ G). unfold s1. now rewrite put_length. }
  clear - G SN AT IN L s1. unfold s1 in G. clear s1. revert s2 num G SN AT L.
  induction s as [|y s IH]; intros s2 num G SN AT L; [now destruct num|].
  destruct num as [|num]; cbn in SN.
  - injection SN as ->. cbn [put] in G. inversion G as [|? z ? s2' _ G']; subst. cbn [put]. constructor; [right; eauto|exact G'].
  - cbn [put] in G. inversion G as [|? z ? s2' G0 G']; subst. cbn [put]. constructor; [exact G0|]. apply IH; [exact G'|exact SN|exact AT|cbn in L; lia].
Qed.

Lemma loop_inv bits l : Forall (fun x => r_code x <> 1) l -> forall s num name s' num' name',
  llvm_loop bits l (s, num, name) = Some (s', num', name') ->
  exists ns, makes name l ns name' /\ grows s s' /\ num' = (num + length ns)%nat /\ Forall (checked bits s') ns /\
    forall k n, nth_error ns k = Some n -> nth_error s' (num + k) = Some (Filled n).
Proof.
  induction 1 as [|r l C1 _ IH]; intros s num name s' num' name'; cbn [llvm_loop].
  - intros [= <- <- <-]. exists []. split; [constructor|]. split; [apply grows_refl|]. split; [cbn; lia|]. split; [constructor|]. intros [|k] n K; discriminate K.
  - destruct (N.eq_dec (r_code r) 19) as [C19|C19].
    + unfold llvm_turn at 1. rewrite C19. cbn [N.eqb Pos.eqb]. intros H. apply IH in H as (ns & M & H). exists ns. split; [now apply MkName|exact H].
    + destruct (llvm_turn bits (s, num, name) r) as [[[s1 num1] name1]|] eqn:T; [|discriminate].
      apply turn_inv in T as (n & P & G & AT & CH & -> & ->); [|exact C1|exact C19].
      intros H. apply IH in H as (ns & M & G' & -> & F & AL). exists (n :: ns). split; [now apply MkEntry|].
      split; [exact (grows_trans _ _ _ G G')|]. split; [cbn; lia|]. split; [constructor; [eapply checked_grows; eassumption|exact F]|].
      intros [|k] x K; cbn in K.
      * injection K as <-. rewrite Nat.add_0_r. destruct (grows_at _ _ _ _ G' AT) as (y & E & ->). exact E.
      * replace (num + S k)%nat with (S num + k)%nat by lia. now apply AL.
Qed.

Lemma filled_all s ns : all_filled s = Some ns -> s = map Filled ns.
Proof.
  revert ns. induction s as [|x s IH]; intros ns; cbn; [intros [= <-]; reflexivity|]. destruct x as [| |n]; try discriminate.
  destruct (all_filled s) as [m|]; [|discriminate]. intros [= <-]. cbn. f_equal. now apply IH.
Qed.

Lemma loop_app bits l1 : forall l2 st, llvm_loop bits (l1 ++ l2) st = try! st := llvm_loop bits l1 st in llvm_loop bits l2 st.
Proof. induction l1 as [|r l1 IH]; intros l2 st; cbn [app llvm_loop]; [reflexivity|]. destruct (llvm_turn bits st r); [apply IH|reflexivity]. Qed.

(** What LLVM accepts: the entries are those of the records, and all checks hold in the finished table. *)
Lemma types_inv bits l ns : one_count l -> llvm_types bits l = Some ns ->
  (exists out, makes [] l ns out) /\ Forall (checked bits (map Filled ns)) ns /\
  exists r l', first_record 1 l r /\ r_fields r = N.of_nat (length ns) :: l'.
Proof.
  intros (l1 & r & l2 & -> & C & F). apply Forall_app in F as [F1 F2]. unfold llvm_types. rewrite loop_app. cbn [llvm_loop].
  destruct (llvm_loop bits l1 ([], 0%nat, [])) as [[[s1 num1] name1]|] eqn:L1; [|discriminate].
  apply loop_inv in L1 as (ns1 & M1 & G1 & -> & _ & A1); [|exact F1].
  assert (s1 = []) by (inversion G1; reflexivity). subst s1.
  assert (ns1 = []) by (destruct ns1 as [|n ns1]; [reflexivity|specialize (A1 0%nat n eq_refl); discriminate]). subst ns1.
  unfold llvm_turn at 1. rewrite C. cbn [N.eqb Pos.eqb]. destruct (r_fields r) as [|n rest] eqn:FR; [discriminate|].
  cbn [length Nat.add]. destruct (llvm_loop bits l2 _) as [[[s2 num2] name2]|] eqn:L2; [|discriminate].
  apply loop_inv in L2 as (ns2 & M2 & G2 & -> & CH & A2); [|exact F2]. cbn [Nat.add].
  destruct (length ns2 =? length s2)%nat eqn:E; [|discriminate]. intros H. apply filled_all in H. subst s2.
  assert (ns = ns2).
  { rewrite map_length in E. apply Nat.eqb_eq in E. clear - E A2. revert ns E A2. induction ns2 as [|x ns2 IH]; intros [|y ns] E A2; try discriminate; [reflexivity|].
    pose proof (A2 0%nat x eq_refl) as K. cbn in K. injection K as ->. f_equal. apply IH; [cbn in E; lia|]. intros k n K. exact (A2 (S k) n K). }
  subst ns2. split; [|split; [exact CH|]].
  - exists name2. change ns with ([] ++ ns). eapply makes_app; [exact M1|]. now apply MkNum.
  - exists r, rest. split; [exists l1, l2; auto|]. rewrite FR. f_equal. apply grows_length in G2. unfold resize in G2.
    rewrite app_length, firstn_nil, repeat_length, map_length in G2. cbn in G2. lia.
Qed.

(** *** Tables read by both *)

Definition is_entry (r : record) : bool := negb ((r_code r =? 1) || (r_code r =? 19)).
Lemma makes_length name l ns out : makes name l ns out -> length ns = length (filter is_entry l).
Proof.
  induction 1 as [| ? ? ? ? ? C ? IH| ? ? ? ? ? C ? IH| ? ? ? ? ? ? C1 C2 ? ? IH]; cbn [filter]; [reflexivity| | |]; unfold is_entry at 1.
  - rewrite C. exact IH.
  - rewrite C. exact IH.
  - replace (r_code r =? 1) with false by lia. replace (r_code r =? 19) with false by lia. cbn. now f_equal.
Qed.

Lemma turns_count T l : forall acc name fin after, (after = true <-> ends_in_struct acc) -> type_turns T acc name l fin ->
  (length fin <= length acc + length (filter is_entry l))%nat /\
  (length fin = (length acc + length (filter is_entry l))%nat -> apart after l).
Proof.
  induction l as [|r l IH]; intros acc name fin after EA H; inversion H as [|? ? ? acc1 n1 ? ? ST K]; subst.
  - cbn. split; [lia|auto].
  - assert (IE : r_code r <> 1 -> r_code r <> 19 -> filter is_entry (r :: l) = r :: filter is_entry l).
    { intros C1 C2. cbn [filter]. unfold is_entry at 1. replace (r_code r =? 1) with false by lia. now replace (r_code r =? 19) with false by lia. }
    inversion ST as [? ? ? C | ? ? ? s SP | ? ? ? t N1 D | ? ? ? t TN D L | front ? ? pk pk' js ts C FI X R | front ? ? ts pk C NE]; subst; cbn [apart].
    + assert (X : is_entry r = false) by (unfold is_entry; now rewrite C). cbn [filter]. rewrite X, C. cbn. exact (IH _ _ _ _ EA K).
    + destruct (SP) as (C & _). assert (X : is_entry r = false) by (unfold is_entry; now rewrite C). cbn [filter]. rewrite X, C. cbn. exact (IH _ _ _ _ EA K).
    + destruct (plain_struct _ _ _ _ N1 D) as (C1 & C2 & C3). rewrite (IE C1 C2). cbn [length].
      replace (r_code r =? 1) with false by lia. replace (r_code r =? 19) with false by lia. cbn [orb].
      replace (r_code r =? 6) with false by (unfold takes_name in N1; cbn in N1; lia).
      replace (r_code r =? 20) with false by (unfold takes_name in N1; cbn in N1; lia). cbn [orb].
      assert (EA' : (r_code r =? 18) = true <-> ends_in_struct (acc ++ [t])) by (rewrite snoc_struct, C3; apply N.eqb_eq).
      destruct (IH _ _ _ _ EA' K) as [I1 I2]. rewrite app_length in I1, I2. cbn [length] in I1, I2.
      split; [lia|]. intros E. apply I2. lia.
    + destruct (TypeTableMain.named_code _ _ _ _ TN D) as [C S]. rewrite IE by lia. cbn [length].
      replace (r_code r =? 1) with false by lia. replace (r_code r =? 19) with false by lia. cbn [orb].
      replace ((r_code r =? 6) || (r_code r =? 20))%bool with true by lia.
      assert (EA' : true = true <-> ends_in_struct (acc ++ [t])) by (rewrite snoc_struct; tauto).
      destruct (IH _ _ _ _ EA' K) as [I1 I2]. rewrite app_length in I1, I2. cbn [length] in I1, I2.
      split; [lia|]. intros E. split; [|apply I2; lia]. destruct after; [|reflexivity]. exfalso.
      destruct (proj1 EA eq_refl) as (f & x & -> & SX). exact (L f x eq_refl SX).
    + rewrite IE by (rewrite C; discriminate). cbn [length].
      match type of K with type_turns _ ?a _ _ _ => assert (EA' : true = true <-> ends_in_struct a) by (rewrite snoc_struct; unfold struct_type; split; eauto) end.
      destruct (IH _ _ _ _ EA' K) as [I1 _].
      rewrite !app_length in *. cbn [length] in *. split; [lia|]. intros E. exfalso. lia.
    + rewrite IE by (rewrite C; discriminate). cbn [length].
      match type of K with type_turns _ ?a _ _ _ => assert (EA' : true = true <-> ends_in_struct a) by (rewrite snoc_struct; unfold struct_type; split; eauto) end.
      destruct (IH _ _ _ _ EA' K) as [I1 _].
      rewrite !app_length in *. cbn [length] in *. split; [lia|]. intros E. exfalso. lia.
Qed.

Lemma first_unique {c l r1 r2} : first_record c l r1 -> first_record c l r2 -> r1 = r2.
Proof.
  intros (a & b & -> & C1 & F1) (a' & b' & E & C2 & F2). revert a' E F2. induction a as [|x a IH]; intros [|y a'] E F2; cbn in E.
  - now injection E.
  - injection E as <- _. inversion F2; contradiction.
  - injection E as -> _. inversion F1; contradiction.
  - injection E as -> E. inversion F1; inversion F2; subst. eapply IH; eassumption.
Qed.

Lemma encode_app a b : utf8_encode (a ++ b) = utf8_encode a ++ utf8_encode b.
Proof. apply flat_map_app. Qed.
Lemma encode_small s : forallb is_scalar_value s = true -> map (fun c => c mod 256) (utf8_encode s) = utf8_encode s.
Proof.
  intros H. apply encode_bytes in H. induction H as [|x l X _ IH]; [reflexivity|]. cbn. rewrite IH, N.mod_small by exact X. reflexivity.
Qed.

(** A record has one code: all alternatives of [plain_node] but one are excluded. *)
Ltac one_case P := unfold plain_node in P; decompose [ex and or] P; clear P; try congruence.
Ltac simple_case I := cbn in I; repeat (destruct I as [I|I]; [injection I as I ?; try congruence; try lia|]); try contradiction.

Lemma simple_unique c t u : In (c, t) simple_types -> In (c, u) simple_types -> t = u.
Proof. intros I J. cbn in I, J. repeat (destruct I as [I|I]; [injection I as <- <-; repeat (destruct J as [J|J]; [try discriminate J; now injection J|]); destruct J|]). destruct I. Qed.
Lemma simple_codes c t : In (c, t) simple_types -> In c [2; 3; 4; 5; 10; 13; 14; 15; 16; 17; 22; 23; 24].
Proof. intros I. cbn in I. repeat (destruct I as [I|I]; [injection I as <- <-; cbn; tauto|]). destruct I. Qed.

Ltac absurd_code := exfalso; match goal with
  | C : r_code ?r = _, I : In (r_code ?r, _) simple_types |- _ => apply simple_codes in I; rewrite C in I; cbn in I; intuition discriminate
  end.

Lemma both_node T name r t n : describes T name r t -> plain_node r (utf8_encode name) n ->
  (forall w, n = LnInteger w -> w < 2 ^ 32) -> (r_code r = 8 -> (length (r_fields r) <= 2)%nat) -> node_type T n t.
Proof.
  intros D P W PT. unfold plain_node in P.
  destruct P as [(u & I' & ->)|[(w' & l' & C' & F' & ->)|[(i' & l' & C' & F' & ->)|[(a' & C' & F' & ->)|[(va' & x' & i' & js' & C' & F' & ->)|
    [(va' & i' & js' & C' & F' & ->)|[(pk' & js' & C' & F' & ->)|[(pk' & js' & C' & F' & ->)|[(x' & C' & F' & ->)|[(k' & i' & l' & C' & F' & ->)|
    (k' & i' & l' & C' & F' & K' & ->)]]]]]]]]]];
  destruct D as [t I|w l C F R|i a l t C F R A PR|a l C F R|k i l t C F A R|k i l t C F Z A R|k i l t C F Z A R|va i js t ts C F A R FA R'|pk js ts C F FA R|pk js ts C F FA R|C NE];
  try absurd_code; try (exfalso; congruence); cbn [node_type]; try (rewrite F in F'; injection F' as <- <- <-); try (rewrite F in F'; injection F' as <- <-);
  try (rewrite F in F'; injection F' as <-).
  - symmetry. eapply simple_unique; eassumption.
  - rewrite N.mod_small by (apply W; reflexivity). reflexivity.
  - exists t. split; [exact A|]. specialize (PT C'). rewrite F in PT. destruct l; [reflexivity|cbn in PT; lia].
  - reflexivity.
  - exists t, ts. auto.
  - exists ts. auto.
  - exists name, ts. auto.
  - exists name. auto.
  - exists t. auto.
  - exists t. split; [exact A|]. rewrite Z. reflexivity.
  - exists t. split; [exact A|]. replace (hd 0 l =? 0) with false by lia. reflexivity.
Qed.

Lemma both_nodes T name l ts : lists T name l ts -> forall ns out, makes (utf8_encode name) l ns out ->
  (forall w, In (LnInteger w) ns -> w < 2 ^ 32) -> (forall r, In r l -> r_code r = 8 -> (length (r_fields r) <= 2)%nat) -> Forall2 (node_type T) ns ts.
Proof.
  induction 1 as [name|name r l ts C _ IH|name r s l ts SP _ IH|name r t l ts TN D _ IH|name r t l ts TN D _ IH]; intros ns out M W PT.
  - inversion M; subst. constructor.
  - inversion M; subst; try congruence. eapply IH; [eassumption|exact W|]. intros x X. apply PT. now right.
  - destruct (SP) as (C & F & SC & _). inversion M as [|? ? ? ? ? C'|? ? ? ? ? C' M'|? ? ? ? ? ? C1 C2]; subst; try congruence.
    eapply IH; [|exact W|intros x X; apply PT; now right]. rewrite encode_app. rewrite F, encode_small in M' by exact SC. exact M'.
  - destruct (plain_struct _ _ _ _ TN D) as (C1 & C2 & _). inversion M as [|? ? ? ? ? C'|? ? ? ? ? C' M'|? ? n ? ns' ? _ _ P M']; subst; try congruence.
    constructor.
    + eapply both_node; [exact D|exact P|intros w ->; apply W; now left|apply PT; now left].
    + eapply IH; [|intros w I; apply W; now right|intros x X; apply PT; now right].
      unfold named_code in M'. replace ((r_code r =? 6) || (r_code r =? 20))%bool with false in M' by (unfold takes_name in TN; cbn in TN; lia). exact M'.
  - destruct (TypeTableMain.named_code _ _ _ _ TN D) as [C S]. inversion M as [|? ? ? ? ? C'|? ? ? ? ? C' M'|? ? n ? ns' ? _ _ P M']; subst; try lia.
    constructor.
    + eapply both_node; [exact D|exact P|intros w ->; apply W; now left|apply PT; now left].
    + eapply (IH ns' out); [|intros w I; apply W; now right|intros x X; apply PT; now right].
      unfold named_code in M'. replace ((r_code r =? 6) || (r_code r =? 20))%bool with true in M' by lia. exact M'.
Qed.

(** The number of entries is the same, hence no struct was merged. *)
Lemma both_lists e bits b ns T : Forall named_fields (b_records b) -> one_count (b_records b) ->
  llvm_types bits (b_records b) = Some ns -> type_table_of e b = Ok T ->
  apart false (b_records b) /\ lists T [] (b_records b) T /\ length ns = length T.
Proof.
  intros NF OC L H. destruct (types_inv _ _ _ OC L) as ((out & M) & _ & (r & l' & FR & RF)).
  pose proof H as H0. apply (type_table_exact e b T NF) in H as ((r' & l & FR' & RF' & _) & TT).
  assert (E : length ns = length T).
  { pose proof (first_unique FR FR') as X. subst r'. rewrite RF in RF'. injection RF' as X _. lia. }
  assert (EA : false = true <-> ends_in_struct []) by (split; [discriminate|intros (f & x & K & _); now destruct f]).
  destruct (turns_count T _ _ _ _ false EA TT) as [_ AP].
  assert (A : apart false (b_records b)) by (apply AP; cbn [length]; rewrite <- E, (makes_length _ _ _ _ M); reflexivity).
  split; [exact A|]. split; [|exact E]. apply (type_table_lists e b T NF A). exact H0.
Qed.

Lemma same_table e bits b ns T : bits < 2 ^ 32 -> Forall named_fields (b_records b) -> one_count (b_records b) ->
  (forall r, In r (b_records b) -> r_code r = 8 -> (length (r_fields r) <= 2)%nat) ->
  llvm_types bits (b_records b) = Some ns -> type_table_of e b = Ok T -> same_types ns T.
Proof.
  intros B NF OC PT L H. destruct (both_lists _ _ _ _ _ NF OC L H) as (_ & LI & _). destruct (types_inv _ _ _ OC L) as ((out & M) & CH & _).
  eapply both_nodes; [exact LI|exact M| |exact PT]. intros w I. rewrite Forall_forall in CH. specialize (CH _ I). cbn in CH. lia.
Qed.

(** *** Which tables of LLVM are accepted *)

Lemma both_records T name l ts : lists T name l ts -> forall ns out, makes (utf8_encode name) l ns out ->
  Forall2 (fun n t => exists name r, In r l /\ describes T name r t /\ plain_node r (utf8_encode name) n) ns ts.
Proof.
  assert (WK : forall (r : record) l ns ts, Forall2 (fun n t => exists name r, In r l /\ describes T name r t /\ plain_node r (utf8_encode name) n) ns ts ->
    Forall2 (fun n t => exists name r0, In r0 (r :: l) /\ describes T name r0 t /\ plain_node r0 (utf8_encode name) n) ns ts).
  { induction 1 as [|n t ns0 ts0 (nm & r0 & I & D & P) _ IH]; constructor; [exists nm, r0; split; [now right|auto]|exact IH]. }
  induction 1 as [name|name r l ts C _ IH|name r s l ts SP _ IH|name r t l ts TN D _ IH|name r t l ts TN D _ IH]; intros ns out M.
  - inversion M; subst. constructor.
  - inversion M; subst; try congruence. apply WK. eapply IH. eassumption.
  - destruct (SP) as (C & F & SC & _). inversion M as [|? ? ? ? ? C'|? ? ? ? ? C' M'|? ? ? ? ? ? C1 C2]; subst; try congruence.
    apply WK. eapply IH. rewrite encode_app. rewrite F, encode_small in M' by exact SC. exact M'.
  - destruct (plain_struct _ _ _ _ TN D) as (C1 & C2 & _). inversion M as [|? ? ? ? ? C'|? ? ? ? ? C' M'|? ? n ? ns' ? _ _ P M']; subst; try congruence.
    constructor; [exists name, r; split; [now left|auto]|]. apply WK. eapply IH.
    unfold named_code in M'. replace ((r_code r =? 6) || (r_code r =? 20))%bool with false in M' by (unfold takes_name in TN; cbn in TN; lia). exact M'.
  - destruct (TypeTableMain.named_code _ _ _ _ TN D) as [C S]. inversion M as [|? ? ? ? ? C'|? ? ? ? ? C' M'|? ? n ? ns' ? _ _ P M']; subst; try lia.
    constructor; [exists name, r; split; [now left|auto]|]. apply WK. apply (IH ns' out).
    unfold named_code in M'. replace ((r_code r =? 6) || (r_code r =? 20))%bool with true in M' by lia. exact M'.
Qed.

(** Every record of an accepted table is a count, a name, or describes a type. *)
Lemma lists_records T name l ts : lists T name l ts -> forall r, In r l ->
  r_code r = 1 \/ (exists s, spells r s) \/ exists name t, describes T name r t.
Proof.
  induction 1 as [name|name r l ts C _ IH|name r s l ts SP _ IH|name r t l ts TN D _ IH|name r t l ts TN D _ IH]; [intros x []|..]; intros x [<-|I]; eauto 6.
Qed.

Lemma F2_at {A B} (R : A -> B -> Prop) l m k a : Forall2 R l m -> nth_error l k = Some a -> exists b, nth_error m k = Some b /\ R a b.
Proof. intros H. revert k. induction H as [|x y l m E H IH]; intros [|k] K; try discriminate; cbn in *; [injection K as <-; eauto|auto]. Qed.

Fixpoint tsize (t : ty) : nat :=
  match t with
  | TFunction r ps _ => S (tsize r + (fix go l := match l with [] => 0%nat | x :: l => (tsize x + go l)%nat end) ps)
  | TPointer p _ => S (tsize p)
  | TStruct _ fs _ => S ((fix go l := match l with [] => 0%nat | x :: l => (tsize x + go l)%nat end) fs)
  | TArray _ t | TFixedVector _ t | TScalableVector _ t => S (tsize t)
  | _ => 1%nat
  end.
Lemma tsize_in t l : In t l -> (tsize t <= (fix go l := match l with [] => 0%nat | x :: l => (tsize x + go l)%nat end) l)%nat.
Proof. induction l as [|x l IH]; [intros []|]. intros [->|I]; [lia|]. specialize (IH I). lia. Qed.
Lemma F2_in {T js ts} j : Forall2 (at_index T) js ts -> In j js -> exists t, at_index T j t /\ In t ts.
Proof. induction 1 as [|i t js ts A _ IH]; [intros []|]. intros [->|I]; [exists t; split; [exact A|now left]|]. destruct (IH I) as (u & X & Y). exists u. split; [exact X|now right]. Qed.

Lemma node_smaller T n t i : node_type T n t -> In i (node_refs n) -> exists u, at_index T i u /\ (tsize u < tsize t)%nat.
Proof.
  destruct n as [u|w|j a|a|j js va|[nm|] js pk|nm|k j|k j sc]; cbn; try contradiction.
  - intros (p & A & ->) [->|[]]. exists p. split; [exact A|cbn; lia].
  - intros (r & ps & A & F & ->) [->|I].
    + exists r. split; [exact A|cbn; lia].
    + destruct (F2_in _ F I) as (u & X & Y). apply tsize_in in Y. exists u. split; [exact X|]. cbn. lia.
  - intros (s & fs & _ & F & ->) I. destruct (F2_in _ F I) as (u & X & Y). apply tsize_in in Y. exists u. split; [exact X|]. cbn. lia.
  - intros (fs & F & ->) I. destruct (F2_in _ F I) as (u & X & Y). apply tsize_in in Y. exists u. split; [exact X|]. cbn. lia.
  - intros (u & A & ->) [->|[]]. exists u. split; [exact A|cbn; lia].
  - intros (u & A & ->) [->|[]]. exists u. split; [exact A|destruct sc; cbn; lia].
Qed.

Lemma accepted_strict e bits b ns T : bits < 2 ^ 32 -> Forall named_fields (b_records b) -> one_count (b_records b) ->
  (forall r, In r (b_records b) -> r_code r = 8 -> (length (r_fields r) <= 2)%nat) ->
  llvm_types bits (b_records b) = Some ns -> type_table_of e b = Ok T -> strict_table e (b_records b) ns.
Proof.
  intros B NF OC PT L H. pose proof (same_table _ _ _ _ _ B NF OC PT L H) as ST. unfold same_types in ST.
  destruct (both_lists _ _ _ _ _ NF OC L H) as (AP & LI & LEN). destruct (types_inv _ _ _ OC L) as ((out & M) & CH & _).
  pose proof (accepted_built _ _ _ H) as WB. rewrite Forall_forall in WB.
  assert (AT : forall n, In n ns -> exists t, In t T /\ node_type T n t).
  { intros n I. apply In_nth_error in I as (k & K). destruct (F2_at _ _ _ _ _ ST K) as (t & E & N). exists t. split; [eapply nth_error_In, E|exact N]. }
  assert (IX : forall i m u, nth_error ns (N.to_nat i) = Some m -> at_index T i u -> node_type T m u).
  { intros i m u E A. destruct (F2_at _ _ _ _ _ ST E) as (t & E' & N). unfold at_index in A. congruence. }
  constructor.
  - apply (type_table_exact e b T NF) in H as ((r' & l & _ & _ & A) & _). lia.
  - intros r I C. destruct (lists_records _ _ _ _ LI r I) as [K|[K|(nm & t & D)]]; [congruence|exact K|].
    exfalso. destruct D; try congruence. match goal with I : In _ simple_types |- _ => apply simple_codes in I; rewrite C in I; cbn in I; intuition discriminate end.
  - exact AP.
  - intros r I C. destruct (lists_records _ _ _ _ LI r I) as [K|[(s & K & _)|(nm & t & D)]]; [congruence|congruence|].
    destruct D as [t J|w l K F R|i a l t K F R A PR|a l K F R|k i l t K F A R|k i l t K F Z A R|k i l t K F Z A R|va i js t ts K F A R FA R'|pk js ts K F FA R|pk js ts K F FA R|K NE]; try congruence.
    + apply simple_codes in J. rewrite C in J. cbn in J. intuition discriminate.
    + exists i, a, l. split; [exact F|exact R].
  - intros a I. destruct (AT _ I) as (t & IT & N). cbn in N. subst t. specialize (WB _ IT). inversion WB as [c t J| | | |? S| | | |]; subst; [|exact S].
    exfalso. cbn in J. repeat (destruct J as [J|J]; [discriminate J|]). exact J.
  - intros r I C. destruct (lists_records _ _ _ _ LI r I) as [K|[(s & K & _)|(nm & t & D)]]; [congruence|congruence|].
    destruct D; try congruence. match goal with I : In _ simple_types |- _ => apply simple_codes in I; rewrite C in I; cbn in I; intuition discriminate end.
  - intros I. apply In_nth_error in I as (k & K). pose proof (both_records _ _ _ _ LI _ _ M) as BR.
    destruct (F2_at _ _ _ _ _ BR K) as (t & _ & nm & r & _ & D & P).
    unfold plain_node in P. destruct P as [(u & _ & E)|[P|[P|[P|[P|[P|[P|[P|[(x & C & F & E)|[P|P]]]]]]]]]]; try (decompose [ex and] P; discriminate).
    + discriminate.
    + injection E as E. symmetry in E. apply (proj1 (encode_nil nm)) in E. subst nm. destruct D; try congruence.
      match goal with I : In _ simple_types |- _ => apply simple_codes in I; rewrite C in I; cbn in I; intuition discriminate end.
  - intros k i sc a I K. destruct (AT _ I) as (t & IT & (u & A & E)). pose proof (IX _ _ _ K A) as N. cbn in N. subst u.
    specialize (WB _ IT). subst t.
    assert (VR : vector_rule (TOpaquePointer a)).
    { destruct sc; inversion WB as [c t J| | | | | | |? ? _ V|? ? _ V]; subst; try exact V; exfalso; cbn in J; repeat (destruct J as [J|J]; [discriminate J|]); exact J. }
    destruct VR as [J|[(w & J)|(p & x & J)]]; try discriminate. cbn in J. repeat (destruct J as [J|J]; [discriminate J|]). exact J.
  - intros name js pk j m I J E. destruct (AT _ I) as (t & IT & N). specialize (WB _ IT).
    assert (X : exists nm fs, Forall2 (at_index T) js fs /\ t = TStruct nm fs pk) by (destruct name; cbn in N; decompose [ex and] N; eauto).
    destruct X as (nm & fs & F & ->). destruct (F2_in _ F J) as (u & A & IU). pose proof (IX _ _ _ E A) as NU.
    assert (FR : field_rule u).
    { inversion WB as [c t J'| | | | |? ? ? _ R| | |]; subst; [exfalso; cbn in J'; repeat (destruct J' as [J'|J']; [discriminate J'|]); exact J'|].
      rewrite Forall_forall in R. now apply R. }
    destruct FR as [R1 R2]. destruct m as [[]| | | | | | | | ]; try exact Logic.I; cbn in NU; try (subst u; apply R1; cbn; tauto).
    destruct NU as (r & ps & _ & _ & ->). apply R2. unfold function_type. eauto.
  - intros i js va m I E. destruct (AT _ I) as (t & IT & (u & ps & A & _ & ->)). specialize (WB _ IT). pose proof (IX _ _ _ E A) as NU.
    assert (RR : return_rule u).
    { inversion WB as [c t J'| |? ? ? _ R| | | | | |]; subst; [exfalso; cbn in J'; repeat (destruct J' as [J'|J']; [discriminate J'|]); exact J'|exact R]. }
    destruct RR as [R1 R2]. destruct m as [[]| | | | | | | | ]; try exact Logic.I; cbn in NU; try (subst u; apply R1; cbn; tauto).
    destruct NU as (r & ps' & _ & _ & ->). apply R2. unfold function_type. eauto.
  - exists (fun k => tsize (nth k T TVoid)). intros k n i K I. destruct (F2_at _ _ _ _ _ ST K) as (t & E & N).
    destruct (node_smaller _ _ _ _ N I) as (u & A & S). unfold at_index in A. rewrite (nth_error_nth _ _ TVoid A), (nth_error_nth _ _ TVoid E). exact S.
Qed.

(** The types of a graph without cycles. *)
Definition name_of (b : list N) : str := match utf8_decode b with Some s => s | None => [] end.
Definition node_ty (g : N -> ty) (n : lnode) : ty :=
  match n with
  | LnSimple t => t
  | LnInteger w => TInteger w
  | LnPointer i a => TPointer (g i) a
  | LnOpaquePointer a => TOpaquePointer a
  | LnFunction i js va => TFunction (g i) (map g js) va
  | LnStruct nm js pk => TStruct (option_map name_of nm) (map g js) pk
  | LnOpaque nm => TStruct (Some (name_of nm)) [] false
  | LnArray k i => TArray k (g i)
  | LnVector k i sc => if sc then TScalableVector k (g i) else TFixedVector k (g i)
  end.
Lemma node_ty_ext g h n : (forall i, In i (node_refs n) -> g i = h i) -> node_ty g n = node_ty h n.
Proof.
  destruct n as [u|w|j a|a|j js va|nm js pk|nm|k j|k j sc]; cbn; intros H; auto.
  - now rewrite H by auto.
  - rewrite H by auto. f_equal. apply map_ext_in. auto.
  - f_equal. now apply map_ext_in.
  - now rewrite H by auto.
  - now rewrite H by auto.
Qed.

Fixpoint unroll_node (f : nat) (ns : list lnode) (i : N) : ty :=
  match f with
  | O => TVoid
  | S f' => match nth_error ns (N.to_nat i) with Some n => node_ty (unroll_node f' ns) n | None => TVoid end
  end.
Lemma unroll_stable ns (rank : nat -> nat) :
  (forall k n i, nth_error ns k = Some n -> In i (node_refs n) -> (rank (N.to_nat i) < rank k)%nat) ->
  forall f h i, (rank (N.to_nat i) < f)%nat -> (rank (N.to_nat i) < h)%nat -> unroll_node f ns i = unroll_node h ns i.
Proof.
  intros R. induction f as [|f IH]; intros [|h] i F H; try lia. cbn [unroll_node].
  destruct (nth_error ns (N.to_nat i)) as [n|] eqn:E; [|reflexivity]. apply node_ty_ext. intros j J. specialize (R _ _ _ E J). apply IH; lia.
Qed.

Lemma rank_bound (rank : nat -> nat) n : exists F, forall k, (k < n)%nat -> (rank k < F)%nat.
Proof.
  induction n as [|n (F & IH)]; [exists 0%nat; lia|]. exists (S (F + rank n)). intros k K. destruct (Nat.eq_dec k n) as [->|]; [lia|]. specialize (IH k). lia.
Qed.

Lemma graph_types ns (rank : nat -> nat) :
  (forall k n i, nth_error ns k = Some n -> In i (node_refs n) -> (rank (N.to_nat i) < rank k)%nat) ->
  (forall n i, In n ns -> In i (node_refs n) -> (N.to_nat i < length ns)%nat) ->
  exists T, T = map (node_ty (fun i => nth (N.to_nat i) T TVoid)) ns.
Proof.
  intros R B. destruct (rank_bound rank (length ns)) as (F & BF).
  set (g := unroll_node (S F) ns). exists (map (node_ty g) ns). apply map_ext_in. intros n I. apply node_ty_ext. intros i J.
  specialize (B _ _ I J). destruct (nth_error ns (N.to_nat i)) as [m|] eqn:E; [|apply nth_error_None in E; lia].
  rewrite (nth_error_nth (map (node_ty g) ns) _ TVoid (map_nth_error (node_ty g) _ _ E)).
  unfold g at 1. cbn [unroll_node]. rewrite E. apply node_ty_ext. intros j K. pose proof (R _ _ _ E K) as RJ. specialize (BF (N.to_nat i) B).
  apply (unroll_stable ns rank R); lia.
Qed.

(** What a type needs to be described by its record. *)
Definition good (T : list ty) (n : lnode) : Prop :=
  let g i := nth (N.to_nat i) T TVoid in
  match n with
  | LnInteger w => width_rule w
  | LnPointer i _ => pointee_rule (g i)
  | LnOpaquePointer a => space_rule a
  | LnFunction i js _ => return_rule (g i) /\ Forall param_rule (map g js)
  | LnStruct _ js _ => Forall field_rule (map g js)
  | LnOpaque nm => nm <> []
  | LnArray _ i => array_rule (g i)
  | LnVector _ i _ => vector_rule (g i)
  | LnSimple _ => True
  end.

Lemma index_nth T i : (N.to_nat i < length T)%nat -> at_index T i (nth (N.to_nat i) T TVoid).
Proof. intros L. unfold at_index. now apply nth_error_nth'. Qed.
Lemma indexes_nth T js : (forall j, In j js -> (N.to_nat j < length T)%nat) -> Forall2 (at_index T) js (map (fun i => nth (N.to_nat i) T TVoid) js).
Proof. induction js as [|j js IH]; intros B; cbn [map]; constructor; [apply index_nth, B; now left|apply IH; intros i I; apply B; now right]. Qed.

Lemma name_back s : forallb is_scalar_value s = true -> name_of (utf8_encode s) = s.
Proof. intros H. unfold name_of. now rewrite (decode_encode s H). Qed.

Lemma node_described T name r n : forallb is_scalar_value name = true -> plain_node r (utf8_encode name) n -> good T n ->
  (forall i, In i (node_refs n) -> (N.to_nat i < length T)%nat) -> r_code r <> 9 ->
  (r_code r = 8 -> exists i a, r_fields r = [i; a] /\ a < 2 ^ 23) ->
  describes T name r (node_ty (fun i => nth (N.to_nat i) T TVoid) n).
Proof.
  intros SC P G B N9 P8. unfold plain_node in P.
  destruct P as [(u & I' & ->)|[(w & l & C & F & ->)|[(i & l & C & F & ->)|[(a & C & F & ->)|[(va & x & i & js & C & F & ->)|
    [(va & i & js & C & F & ->)|[(pk & js & C & F & ->)|[(pk & js & C & F & ->)|[(x & C & F & ->)|[(k & i & l & C & F & ->)|
    (k & i & l & C & F & K & ->)]]]]]]]]]]; cbn [node_ty good node_refs option_map] in *.
  - now apply D_simple.
  - assert (E : w mod 2 ^ 32 = w) by (apply N.mod_small; unfold width_rule in G; lia). rewrite <- E. eapply D_integer; [exact C|exact F|rewrite E; exact G].
  - destruct (P8 C) as (i' & a & F' & S). rewrite F in F'. injection F' as -> ->. eapply D_pointer; [exact C|exact F|exact S|apply index_nth, B; now left|exact G].
  - eapply D_opaque_pointer; [exact C|exact F|exact G].
  - contradiction.
  - destruct G as [G1 G2]. eapply D_function; [exact C|exact F|apply index_nth, B; now left|exact G1|apply indexes_nth; intros j J; apply B; now right|exact G2].
  - eapply D_struct; [exact C|exact F|apply indexes_nth; exact B|exact G].
  - rewrite name_back by exact SC. eapply D_named; [exact C|exact F|apply indexes_nth; exact B|exact G].
  - rewrite name_back by exact SC. apply D_opaque; [exact C|]. intros ->. now apply G.
  - eapply D_array; [exact C|exact F|apply index_nth, B; now left|exact G].
  - destruct (hd 0 l =? 0) eqn:Z; cbn [negb].
    + eapply D_vector; [exact C|exact F|lia|apply index_nth, B; now left|exact G].
    + eapply D_scalable; [exact C|exact F|lia|apply index_nth, B; now left|exact G].
Qed.

Lemma nodes_listed T l : forall name ns out, forallb is_scalar_value name = true -> makes (utf8_encode name) l ns out -> Forall (good T) ns ->
  (forall n i, In n ns -> In i (node_refs n) -> (N.to_nat i < length T)%nat) -> (forall r, In r l -> r_code r <> 9) ->
  (forall r, In r l -> r_code r = 8 -> exists i a, r_fields r = [i; a] /\ a < 2 ^ 23) ->
  (forall r, In r l -> r_code r = 19 -> exists s, spells r s) ->
  lists T name l (map (node_ty (fun i => nth (N.to_nat i) T TVoid)) ns).
Proof.
  induction l as [|r l IH]; intros name ns out SC M G B N9 P8 S19.
  - inversion M; subst. constructor.
  - assert (N9' : forall r, In r l -> r_code r <> 9) by (intros; apply N9; now right).
    assert (P8' : forall r, In r l -> r_code r = 8 -> exists i a, r_fields r = [i; a] /\ a < 2 ^ 23) by (intros x X; apply P8; now right).
    assert (S19' : forall r, In r l -> r_code r = 19 -> exists s, spells r s) by (intros x X; apply S19; now right).
    inversion M as [|? ? ? ? ? C M'|? ? ? ? ? C M'|? ? n ? ns' ? C1 C19 P M']; subst.
    + apply LI_num; [exact C|]. eapply IH; eassumption.
    + destruct (S19 r (or_introl eq_refl) C) as (s & SP). destruct (SP) as (_ & F & SS & _). apply (LI_name _ _ _ s); [exact SP|].
      eapply IH; try eassumption; [rewrite forallb_app, SC, SS; reflexivity|]. rewrite F, encode_small in M' by exact SS. rewrite encode_app. exact M'.
    + inversion G as [|? ? G0 G']; subst. assert (B' : forall n i, In n ns' -> In i (node_refs n) -> (N.to_nat i < length T)%nat) by (intros x i X; apply B; now right).
      assert (D : describes T name r (node_ty (fun i => nth (N.to_nat i) T TVoid) n)).
      { apply node_described; [exact SC|exact P|exact G0|intros i I; apply (B n); [now left|exact I]|apply N9; now left|apply P8; now left]. }
      cbn [map]. destruct (named_code (r_code r)) eqn:NC; unfold named_code in NC.
      * apply LI_named; [unfold takes_name; cbn; lia|exact D|]. now apply (IH [] ns' out).
      * apply LI_plain; [unfold takes_name; cbn; lia|exact D|]. now apply (IH name ns' out).
Qed.

Lemma simple_rule (t : ty) g (l : list ty) : ~ In t l -> ~ In (node_ty g (LnSimple t)) l.
Proof. auto. Qed.

Lemma seen_filled ok ns i : seen ok (map Filled ns) i -> exists m, nth_error ns (N.to_nat i) = Some m /\ ok m = true.
Proof.
  intros (x & E & P). rewrite nth_error_map in E. destruct (nth_error ns _) as [m|]; [|discriminate]. injection E as <-. exists m. auto.
Qed.

Ltac listed := let K := fresh in intros K; cbn in K; repeat (destruct K as [K|K]; [discriminate K|]); exact K.
Ltac not_function := let r := fresh in let p := fresh in let v := fresh in let K := fresh in intros (r & p & v & K); discriminate K.

Definition plain_simple (n : lnode) : Prop := match n with LnSimple t => exists c, In (c, t) simple_types | _ => True end.
Lemma makes_simple name l ns out : makes name l ns out -> Forall plain_simple ns.
Proof.
  induction 1 as [| | |name r n l ns out _ _ P _ IH]; [constructor|assumption|assumption|]. constructor; [|exact IH].
  unfold plain_node in P. destruct P as [(t & I & ->)|P]; [exists (r_code r); exact I|]. decompose [ex and or] P; subst; exact Logic.I.
Qed.
Lemma simple_flat c t : In (c, t) simple_types -> ~ function_type t /\ ~ scalable_type t.
Proof.
  intros I. cbn in I. unfold function_type, scalable_type.
  repeat (destruct I as [I|I]; [injection I as <- <-; split; [intros (? & ? & ? & K); discriminate K|intros (? & ? & K); discriminate K]|]). destruct I.
Qed.

Lemma strict_accepted e bits b ns : bits < 2 ^ 24 -> Forall named_fields (b_records b) -> one_count (b_records b) ->
  (forall r, In r (b_records b) -> r_code r = 8 -> (length (r_fields r) <= 2)%nat) ->
  llvm_types bits (b_records b) = Some ns -> strict_table e (b_records b) ns -> exists T, type_table_of e b = Ok T.
Proof.
  intros BT NF OC PT L [SZ NM AP PO OP OLD OPQ VE FI RE (rank & RK)].
  destruct (types_inv _ _ _ OC L) as ((out & M) & CH & (r & l' & FR & RF)). rewrite Forall_forall in CH.
  pose proof (makes_simple _ _ _ _ M) as PS. rewrite Forall_forall in PS.
  assert (B : forall n i, In n ns -> In i (node_refs n) -> exists m, nth_error ns (N.to_nat i) = Some m).
  { intros n i I J. specialize (CH n I).
    assert (S : exists ok, seen ok (map Filled ns) i).
    { destruct n as [u|w|j a|a|j js va|nm js pk|nm|k j|k j sc]; cbn in CH, J; try contradiction.
      - destruct J as [->|[]]. eauto.
      - destruct CH as [C1 C2]. rewrite Forall_forall in C2. destruct J as [->|J]; eauto.
      - rewrite Forall_forall in CH. eauto.
      - destruct J as [->|[]]. eauto.
      - destruct J as [->|[]]. eauto. }
    destruct S as (ok & S). apply seen_filled in S as (m & E & _). eauto. }
  destruct (graph_types ns rank RK) as (T & TE).
  { intros n i I J. destruct (B n i I J) as (m & E). apply nth_error_Some. congruence. }
  set (g := fun i => nth (N.to_nat i) T TVoid) in TE.
  assert (LEN : length T = length ns) by (rewrite TE; apply map_length).
  assert (AT : forall i m, nth_error ns (N.to_nat i) = Some m -> g i = node_ty g m).
  { intros i m E. unfold g at 1. apply nth_error_nth. rewrite TE at 1. now apply map_nth_error. }
  exists T. apply (type_table_lists e b T NF AP). split.
  - exists r, l'. split; [exact FR|]. rewrite RF, LEN. split; [reflexivity|exact SZ].
  - rewrite TE at 2. apply (nodes_listed T _ [] ns out); [reflexivity|exact M| |..].
    + apply Forall_forall. intros n I. specialize (CH n I). fold g.
      destruct n as [u|w|j a|a|j js va|nm js pk|nm|k j|k j sc]; cbn in CH.
      * exact Logic.I.
      * unfold good, width_rule. lia.
      * change (pointee_rule (g j)). apply seen_filled in CH as (m & E & OK). rewrite (AT _ _ E). unfold pointee_rule.
        destruct m as [t| | | | | | | |? ? [] ]; cbn [node_ty]; try listed. cbn in OK. destruct t; try discriminate OK; listed.
      * exact (OP _ I).
      * change (return_rule (g j) /\ Forall param_rule (map g js)). destruct CH as [C1 C2]. split.
        -- destruct (B _ j I (or_introl eq_refl)) as (m & E). rewrite (AT _ _ E). specialize (RE _ _ _ _ I E). unfold return_rule, function_type.
           assert (PM : plain_simple m) by (apply PS; eapply nth_error_In, E).
           destruct m as [t| | | | | | | |? ? [] ]; cbn [node_ty]; try (split; [listed|not_function]); try contradiction.
           destruct PM as (c & PM). split; [destruct t; try contradiction; listed|exact (proj1 (simple_flat _ _ PM))].
        -- rewrite Forall_map. apply Forall_forall. intros i J. rewrite Forall_forall in C2. specialize (C2 i J).
           apply seen_filled in C2 as (m & E & OK). rewrite (AT _ _ E). unfold param_rule, function_type.
           assert (PM : plain_simple m) by (apply PS; eapply nth_error_In, E).
           destruct m as [t| | | | | | | |? ? [] ]; cbn [node_ty]; try (split; [discriminate|not_function]); try discriminate OK.
           destruct PM as (c & PM). split; [destruct t; discriminate|exact (proj1 (simple_flat _ _ PM))].
      * change (Forall field_rule (map g js)). rewrite Forall_map. apply Forall_forall. intros i J. destruct (B _ i I J) as (m & E). rewrite (AT _ _ E).
        specialize (FI _ _ _ _ _ I J E). unfold field_rule, function_type. assert (PM : plain_simple m) by (apply PS; eapply nth_error_In, E).
        destruct m as [t| | | | | | | |? ? [] ]; cbn [node_ty]; try (split; [listed|not_function]); try contradiction.
        destruct PM as (c & PM). split; [destruct t; try contradiction; listed|exact (proj1 (simple_flat _ _ PM))].
      * intros ->. exact (OPQ I).
      * change (array_rule (g j)). apply seen_filled in CH as (m & E & OK). rewrite (AT _ _ E). unfold array_rule.
        assert (PM : plain_simple m) by (apply PS; eapply nth_error_In, E).
        destruct m as [t| | | | | | | |? ? [] ]; cbn [node_ty]; try discriminate OK;
          try (split; [listed|split; [not_function|intros (? & ? & K); discriminate K]]).
        destruct PM as (c & PM). split; [cbn in OK; destruct t; try discriminate OK; listed|exact (simple_flat _ _ PM)].
      * change (vector_rule (g j)). apply seen_filled in CH as (m & E & OK). rewrite (AT _ _ E). unfold vector_rule.
        destruct m as [t| | |a| | | | |? ? [] ]; cbn [node_ty]; try discriminate OK; eauto.
        -- left. cbn in OK. destruct t; try discriminate OK; cbn; tauto.
        -- exfalso. exact (VE _ _ _ _ I E).
    + intros n i I J. rewrite LEN. destruct (B n i I J) as (m & E). apply nth_error_Some. congruence.
    + exact OLD.
    + intros x I C. destruct (PO x I C) as (i & a & more & F & A). specialize (PT x I C). rewrite F in PT. destruct more; [eauto|cbn in PT; lia].
    + exact NM.
Qed.

(** *** What LLVM accepts, exactly *)

(** A reference from entry [k]: back, or ahead to a named struct. *)
Definition ref_ok (ns : list lnode) (ok : lnode -> bool) (k : nat) (i : N) : Prop :=
  exists m, nth_error ns (N.to_nat i) = Some m /\
    (((N.to_nat i < k)%nat /\ ok m = true) \/ ((k < N.to_nat i)%nat /\ is_named m /\ ok (LnOpaque []) = true)).
Definition node_ok (bits : N) (ns : list lnode) (k : nat) (n : lnode) : Prop :=
  match n with
  | LnInteger w => 1 <= w <= bits
  | LnPointer i _ => ref_ok ns pointee_node k i
  | LnFunction i js _ => ref_ok ns any_node k i /\ Forall (ref_ok ns param_node k) js
  | LnStruct _ js _ => Forall (ref_ok ns any_node k) js
  | LnArray _ i => ref_ok ns array_node k i
  | LnVector _ i _ => ref_ok ns vector_node k i
  | _ => True
  end.

(** The state of the table in the middle: [num] entries are there. *)
Definition midway (ns : list lnode) (s : list slot) (num : nat) : Prop :=
  length s = length ns /\
  forall i m, nth_error ns i = Some m ->
    ((i < num)%nat /\ nth_error s i = Some (Filled m)) \/
    ((num <= i)%nat /\ (nth_error s i = Some Empty \/ (nth_error s i = Some Forward /\ is_named m))).

Lemma take_back ns ok ids : forall s num, midway ns s num -> Forall (ref_ok ns ok num) ids ->
  exists s', take_all ok s ids = Some s' /\ midway ns s' num /\ nth_error s' num = nth_error s num.
Proof.
  induction ids as [|i ids IH]; intros s num M F; [exists s; auto|]. inversion F as [|? ? R F']; subst. cbn [take_all].
  destruct R as (m & E & R). destruct M as [LN M]. pose proof (M _ _ E) as MI.
  destruct R as [(L & OK)|(L & NM & OK)].
  - destruct MI as [(_ & SI)|(K & _)]; [|lia]. rewrite SI. cbn [passes]. rewrite OK. apply IH; [split; assumption|exact F'].
  - destruct MI as [(K & _)|(_ & [SI|(SI & _)])]; [lia| |].
    + rewrite SI. cbn [passes]. rewrite OK. destruct (IH (put s (N.to_nat i) Forward) num) as (s' & T & M' & AT); [|exact F'|].
      * split; [now rewrite put_length|]. intros j x X. destruct (Nat.eq_dec j (N.to_nat i)) as [->|NE].
        -- right. split; [lia|]. right. rewrite put_same by (apply nth_error_Some; congruence). split; [reflexivity|]. congruence.
        -- rewrite put_other by exact NE. exact (M _ _ X).
      * exists s'. split; [exact T|]. split; [exact M'|]. rewrite AT. apply put_other. lia.
    + rewrite SI. cbn [passes]. rewrite OK. apply IH; [split; assumption|exact F'].
Qed.

Lemma simple_find_back c t : In (c, t) simple_types -> find (fun p => fst p =? c) simple_types = Some (c, t).
Proof. intros I. cbn in I. repeat (destruct I as [I|I]; [injection I as <- <-; reflexivity|]). destruct I. Qed.

Lemma entry_back bits ns s num name r n : midway ns s num -> plain_node r name n -> node_ok bits ns num n ->
  exists s', llvm_entry bits s name r = Some (n, s') /\ midway ns s' num /\ nth_error s' num = nth_error s num.
Proof.
  intros M P O. unfold llvm_entry. unfold plain_node in P.
  destruct P as [(u & I' & ->)|[(w & l & C & F & ->)|[(i & l & C & F & ->)|[(a & C & F & ->)|[(va & x & i & js & C & F & ->)|
    [(va & i & js & C & F & ->)|[(pk & js & C & F & ->)|[(pk & js & C & F & ->)|[(x & C & F & ->)|[(k & i & l & C & F & ->)|
    (k & i & l & C & F & K & ->)]]]]]]]]]]; [rewrite (simple_find_back _ _ I'); exists s; auto|..]; rewrite C, F; cbn [find simple_types fst N.eqb Pos.eqb];
    cbn [node_ok] in O.
  - replace ((1 <=? w) && (w <=? bits))%bool with true by lia. exists s; auto.
  - destruct (take_back ns pointee_node [i] s num M) as (s' & T & R); [constructor; [exact O|constructor]|]. rewrite T. exists s'. auto.
  - exists s; auto.
  - destruct O as [O1 O2]. destruct (take_back ns param_node js s num M O2) as (s1 & T1 & M1 & A1). rewrite T1.
    destruct (take_back ns any_node [i] s1 num M1) as (s' & T & M' & A'); [constructor; [exact O1|constructor]|]. rewrite T. exists s'. rewrite <- A1. auto.
  - destruct O as [O1 O2]. destruct (take_back ns param_node js s num M O2) as (s1 & T1 & M1 & A1). rewrite T1.
    destruct (take_back ns any_node [i] s1 num M1) as (s' & T & M' & A'); [constructor; [exact O1|constructor]|]. rewrite T. exists s'. rewrite <- A1. auto.
  - destruct (take_back ns any_node js s num M O) as (s' & T & R). rewrite T. exists s'. auto.
  - destruct (take_back ns any_node js s num M O) as (s' & T & R). rewrite T. exists s'. auto.
  - exists s; auto.
  - destruct (take_back ns array_node [i] s num M) as (s' & T & R); [constructor; [exact O|constructor]|]. rewrite T. exists s'. auto.
  - replace (k =? 0) with false by lia. destruct (take_back ns vector_node [i] s num M) as (s' & T & R); [constructor; [exact O|constructor]|]. rewrite T. exists s'. auto.
Qed.

Lemma named_iff r name n : plain_node r name n -> (named_code (r_code r) = true <-> is_named n).
Proof.
  intros P. unfold plain_node in P. unfold named_code.
  destruct P as [(u & I' & ->)|[(w & l & C & F & ->)|[(i & l & C & F & ->)|[(a & C & F & ->)|[(va & x & i & js & C & F & ->)|
    [(va & i & js & C & F & ->)|[(pk & js & C & F & ->)|[(pk & js & C & F & ->)|[(x & C & F & ->)|[(k & i & l & C & F & ->)|
    (k & i & l & C & F & K & ->)]]]]]]]]]]; try rewrite C; cbn; try (split; [discriminate|contradiction]); try tauto.
  apply simple_codes in I'. cbn in I'. split; [lia|contradiction].
Qed.

Lemma loop_back bits ns l : Forall (fun x => r_code x <> 1) l -> forall ns' name out s num, makes name l ns' out -> midway ns s num ->
  (forall k n, nth_error ns' k = Some n -> nth_error ns (num + k) = Some n /\ node_ok bits ns (num + k) n) ->
  exists s', llvm_loop bits l (s, num, name) = Some (s', (num + length ns')%nat, out) /\ midway ns s' (num + length ns').
Proof.
  induction 1 as [|r l C1 _ IH]; intros ns' name out s num M MW A; inversion M as [|? ? ? ? ? C M'|? ? ? ? ? C M'|? ? n ? ns2 ? C1' C19 P M']; subst.
  - exists s. cbn. rewrite Nat.add_0_r. auto.
  - contradiction.
  - cbn [llvm_loop]. unfold llvm_turn at 1. rewrite C. cbn [N.eqb Pos.eqb]. now apply IH.
  - cbn [llvm_loop]. unfold llvm_turn at 1. replace (r_code r =? 1) with false by lia. replace (r_code r =? 19) with false by lia. fold (named_code (r_code r)).
    destruct (A 0%nat n eq_refl) as [AN AO]. rewrite Nat.add_0_r in AN, AO.
    set (s1 := match named_code (r_code r), nth_error s num with true, Some Forward => put s num Empty | _, _ => s end).
    assert (X : midway ns s1 num /\ nth_error s1 num = Some Empty).
    { destruct MW as [LN MW]. destruct (MW _ _ AN) as [(K & _)|(_ & [E|(E & NM)])]; [lia| |].
      - unfold s1. rewrite E. destruct (named_code _); split; try assumption; split; assumption.
      - apply (named_iff _ _ _ P) in NM. unfold s1. rewrite E, NM. split; [|apply put_same, nth_error_Some; congruence].
        split; [now rewrite put_length|]. intros j x X. destruct (Nat.eq_dec j num) as [->|NE].
        + right. split; [lia|]. left. apply put_same, nth_error_Some. congruence.
        + rewrite put_other by exact NE. exact (MW _ _ X). }
    destruct X as [M1 E1]. destruct (entry_back bits ns s1 num name r n M1 P AO) as (s2 & T & M2 & E2). rewrite T, E2, E1.
    destruct (IH ns2 (if named_code (r_code r) then [] else name) out (put s2 num (Filled n)) (S num) M') as (s' & T' & M3).
    + destruct M2 as [LN M2]. split; [now rewrite put_length|]. intros j x X. destruct (Nat.eq_dec j num) as [->|NE].
      * left. split; [lia|]. rewrite put_same by (apply nth_error_Some; rewrite E2, E1; discriminate). congruence.
      * rewrite put_other by exact NE. destruct (M2 _ _ X) as [(K & Y)|(K & Y)]; [left; split; [lia|exact Y]|right; split; [lia|exact Y]].
    + intros k m K. replace (S num + k)%nat with (num + S k)%nat by lia. exact (A (S k) m K).
    + exists s'. cbn [length]. replace (num + S (length ns2))%nat with (S num + length ns2)%nat by lia. auto.
Qed.

(** Filled slots are those before [num]. *)
Definition filled_to (s : list slot) (num : nat) : Prop :=
  forall i x, nth_error s i = Some x -> ((exists n, x = Filled n) <-> (i < num)%nat).

Lemma take_filled ok ids : forall s s', take_all ok s ids = Some s' ->
  forall i n, nth_error s' i = Some (Filled n) -> nth_error s i = Some (Filled n).
Proof.
  induction ids as [|j ids IH]; intros s s'; cbn [take_all]; [intros [= <-]; auto|].
  destruct (nth_error s (N.to_nat j)) as [x|] eqn:E; [|discriminate]. destruct (passes ok _); [|discriminate].
  intros H i n K. specialize (IH _ _ H i n K). destruct x; try exact IH.
  destruct (Nat.eq_dec i (N.to_nat j)) as [->|NE]; [|now rewrite put_other in IH by exact NE].
  rewrite put_same in IH by (apply nth_error_Some; congruence). discriminate.
Qed.

Lemma entry_filled bits s name r n s' : llvm_entry bits s name r = Some (n, s') ->
  forall i m, nth_error s' i = Some (Filled m) -> nth_error s i = Some (Filled m).
Proof.
  unfold llvm_entry. destruct (find _ simple_types) as [[c t]|] eqn:F; [intros [= <- <-]; auto|]. clear F.
  destruct (r_code r) as [|p] eqn:C; [discriminate|]. do 5 (try destruct p as [p|p|]); try discriminate.
  all: destruct (r_fields r) as [|x fs] eqn:FS; try discriminate.
  all: repeat match goal with |- match ?l with [] => _ | _ :: _ => _ end = _ -> _ => destruct l; try discriminate end.
  all: try (destruct (_ && _)%bool; [|discriminate]). all: try (destruct (x =? 0); [discriminate|]).
  all: repeat match goal with |- (match take_all ?a ?b ?c with Some _ => _ | None => _ end) = _ -> _ =>
    let T := fresh "T" in destruct (take_all a b c) eqn:T; [|discriminate] end.
  all: intros [= <- <-] i m K; repeat match goal with T : take_all _ _ _ = Some _ |- _ => apply (take_filled _ _ _ _ T) in K; clear T | _ => idtac end; auto.
Qed.

(** A reference seen from entry [k]. *)
Definition slot_ref (ok : lnode -> bool) (s : list slot) (k : nat) (i : N) : Prop :=
  exists x, nth_error s (N.to_nat i) = Some x /\ passes ok x = true /\
    ((N.to_nat i < k)%nat \/ ((k < N.to_nat i)%nat /\ ok (LnOpaque []) = true /\ (x = Forward \/ exists n, x = Filled n /\ is_named n))).
Definition ordered (bits : N) (s : list slot) (k : nat) (n : lnode) : Prop :=
  match n with
  | LnInteger w => 1 <= w <= bits
  | LnPointer i _ => slot_ref pointee_node s k i
  | LnFunction i js _ => slot_ref any_node s k i /\ Forall (slot_ref param_node s k) js
  | LnStruct _ js _ => Forall (slot_ref any_node s k) js
  | LnArray _ i => slot_ref array_node s k i
  | LnVector _ i _ => slot_ref vector_node s k i
  | _ => True
  end.
Lemma ref_grows ok s s' k i : steady ok -> grows s s' -> slot_ref ok s k i -> slot_ref ok s' k i.
Proof.
  intros S G (x & E & P & O). destruct (grows_at _ _ _ _ G E) as (y & E' & LE). exists y. split; [exact E'|].
  split; [exact (passes_le _ _ _ S LE P)|]. destruct O as [O|(O & K & X)]; [now left|]. right. split; [exact O|]. split; [exact K|].
  destruct X as [->|(n & -> & N)]; cbn in LE.
  - destruct LE as [->|LE]; [now left|]. now right.
  - subst y. right. eauto.
Qed.
Lemma ordered_grows bits s s' k n : grows s s' -> ordered bits s k n -> ordered bits s' k n.
Proof.
  intros G. destruct n; cbn [ordered]; auto.
  - apply ref_grows; [apply steady_pointee|exact G].
  - intros [A B]. split; [revert A; apply ref_grows; [apply steady_any|exact G]|].
    revert B. apply Forall_impl. intros j. apply ref_grows; [apply steady_param|exact G].
  - apply Forall_impl. intros j. apply ref_grows; [apply steady_any|exact G].
  - apply ref_grows; [apply steady_array|exact G].
  - apply ref_grows; [apply steady_vector|exact G].
Qed.
Lemma seen_ref ok s num i : filled_to s num -> nth_error s num = Some Empty -> seen ok s i -> slot_ref ok s num i.
Proof.
  intros F E (x & X & P). exists x. split; [exact X|]. split; [exact P|]. specialize (F _ _ X). destruct x as [| |n].
  - discriminate P.
  - right. assert (NE : N.to_nat i <> num) by (intros K; rewrite K in X; congruence).
    assert (NL : ~ (N.to_nat i < num)%nat) by (intros K; apply F in K as (n & K); discriminate K).
    split; [lia|]. split; [exact P|now left].
  - left. apply F. eauto.
Qed.
Lemma checked_ordered bits s num n : filled_to s num -> nth_error s num = Some Empty -> checked bits s n -> ordered bits s num n.
Proof.
  intros F E. destruct n; cbn; auto.
  - now apply seen_ref.
  - intros [A B]. split; [now apply seen_ref|]. revert B. apply Forall_impl. intros j. now apply seen_ref.
  - apply Forall_impl. intros j. now apply seen_ref.
  - now apply seen_ref.
  - now apply seen_ref.
Qed.

Lemma turn_order bits s num name r s' num' name' n : r_code r <> 1 -> r_code r <> 19 -> filled_to s num ->
  llvm_turn bits (s, num, name) r = Some (s', num', name') -> nth_error s' num = Some (Filled n) ->
  ordered bits s' num n /\ filled_to s' (S num).
Proof.
  intros C1 C19 FT. unfold llvm_turn. replace (r_code r =? 1) with false by lia. replace (r_code r =? 19) with false by lia. fold (named_code (r_code r)).
  set (s1 := match named_code (r_code r), nth_error s num with true, Some Forward => put s num Empty | _, _ => s end).
  assert (F1 : filled_to s1 num).
  { unfold s1. destruct (named_code _); [|exact FT]. destruct (nth_error s num) as [[| |x]|] eqn:SN; try exact FT.
    intros i x X. destruct (Nat.eq_dec i num) as [->|NE].
    - rewrite put_same in X by (apply nth_error_Some; congruence). injection X as <-. split; [intros (y & K); discriminate K|lia].
    - rewrite put_other in X by exact NE. now apply FT. }
  destruct (llvm_entry bits s1 name r) as [[n' s2]|] eqn:E; [|discriminate]. pose proof (entry_filled _ _ _ _ _ _ E) as EF.
  apply entry_inv in E as (G & P & CH).
  destruct (nth_error s2 num) as [[| |x]|] eqn:EM; try discriminate. intros [= <- <- <-] AT.
  assert (LT : (num < length s2)%nat) by (apply nth_error_Some; congruence).
  rewrite put_same in AT by exact LT. injection AT as ->.
  assert (F2 : filled_to s2 num).
  { intros i x X. split.
    - intros (m & EX). subst x. apply EF in X. apply (F1 _ _ X). eauto.
    - intros L. destruct (grows_back _ _ _ _ G X) as (y & Y & LE). destruct (proj2 (F1 _ _ Y) L) as (m & EY). subst y. cbn in LE. subst x. eauto. }
  split.
  - eapply ordered_grows; [|exact (checked_ordered _ _ _ _ F2 EM CH)]. eapply put_grows; [exact EM|exact I].
  - intros i x X. destruct (Nat.eq_dec i num) as [->|NE].
    + rewrite put_same in X by exact LT. injection X as <-. split; [lia|eauto].
    + rewrite put_other in X by exact NE. rewrite (F2 _ _ X). lia.
Qed.

Lemma loop_order bits l : Forall (fun x => r_code x <> 1) l -> forall s num name s' num' name', filled_to s num ->
  llvm_loop bits l (s, num, name) = Some (s', num', name') ->
  exists ns, makes name l ns name' /\ grows s s' /\ num' = (num + length ns)%nat /\
    forall k n, nth_error ns k = Some n -> nth_error s' (num + k) = Some (Filled n) /\ ordered bits s' (num + k) n.
Proof.
  induction 1 as [|r l C1 _ IH]; intros s num name s' num' name' FT; cbn [llvm_loop].
  - intros [= <- <- <-]. exists []. split; [constructor|]. split; [apply grows_refl|]. split; [cbn; lia|]. intros [|k] n K; discriminate K.
  - destruct (N.eq_dec (r_code r) 19) as [C19|C19].
    + unfold llvm_turn at 1. rewrite C19. cbn [N.eqb Pos.eqb]. intros H. apply IH in H as (ns & M & H); [|exact FT]. exists ns. split; [now apply MkName|exact H].
    + destruct (llvm_turn bits (s, num, name) r) as [[[s1 num1] name1]|] eqn:T; [|discriminate]. pose proof T as T0.
      apply turn_inv in T as (n & P & G & AT & CH & -> & ->); [|exact C1|exact C19].
      destruct (turn_order _ _ _ _ _ _ _ _ _ C1 C19 FT T0 AT) as [O F1].
      intros H. apply IH in H as (ns & M & G' & -> & AL); [|exact F1]. exists (n :: ns). split; [now apply MkEntry|].
      split; [exact (grows_trans _ _ _ G G')|]. split; [cbn; lia|].
      intros [|k] x K; cbn in K.
      * injection K as <-. rewrite Nat.add_0_r. destruct (grows_at _ _ _ _ G' AT) as (y & E & ->). split; [exact E|exact (ordered_grows _ _ _ _ _ G' O)].
      * replace (num + S k)%nat with (S num + k)%nat by lia. now apply AL.
Qed.

Lemma ref_final ok ns k i : slot_ref ok (map Filled ns) k i -> ref_ok ns ok k i.
Proof.
  intros (x & E & P & O). rewrite nth_error_map in E. unfold ref_ok. destruct (nth_error ns (N.to_nat i)) as [m|]; [|discriminate].
  injection E as <-. cbn in P. exists m. split; [reflexivity|]. destruct O as [O|(O & K & [X|(n & X & N)])]; [now left|discriminate|].
  right. injection X as ->. auto.
Qed.
Lemma ordered_final bits ns k n : ordered bits (map Filled ns) k n -> node_ok bits ns k n.
Proof.
  destruct n; cbn [ordered node_ok]; auto using ref_final.
  - intros [A B]. split; [now apply ref_final|]. revert B. apply Forall_impl. intros j. apply ref_final.
  - apply Forall_impl. intros j. apply ref_final.
Qed.

Lemma no_entries name l out : makes name l [] out -> Forall (fun x => r_code x <> 1) l -> Forall (fun x => r_code x = 19) l.
Proof.
  intros M. remember [] as ns eqn:E. induction M; intros F; inversion F; subst; try discriminate; [constructor|contradiction|constructor; auto].
Qed.
Lemma only_names bits l : Forall (fun x => r_code x = 19) l -> forall s num name,
  exists name', llvm_loop bits l (s, num, name) = Some (s, num, name') /\ makes name l [] name'.
Proof.
  induction 1 as [|r l C _ IH]; intros s num name; [exists name; split; [reflexivity|constructor]|].
  cbn [llvm_loop]. unfold llvm_turn at 1. rewrite C. cbn [N.eqb Pos.eqb]. destruct (IH s num (name ++ map (fun c => c mod 256) (r_fields r))) as (name' & L & M).
  exists name'. split; [exact L|]. now apply MkName.
Qed.

Lemma lists_equal {A} (l m : list A) : (forall i, nth_error l i = nth_error m i) -> l = m.
Proof.
  revert m. induction l as [|x l IH]; intros [|y m] H; [reflexivity|discriminate (H 0%nat)|discriminate (H 0%nat)|].
  pose proof (H 0%nat) as E. cbn in E. injection E as ->. f_equal. apply IH. intros i. exact (H (S i)).
Qed.

(** One count, before the entries. *)
Definition counted (l : list record) (n : nat) : Prop :=
  exists l1 r l' l2, l = l1 ++ r :: l2 /\ r_code r = 1 /\ r_fields r = N.of_nat n :: l' /\
    Forall (fun x => r_code x = 19) l1 /\ Forall (fun x => r_code x <> 1) l2.

Lemma types_exact bits l ns : one_count l ->
  (llvm_types bits l = Some ns <->
   counted l (length ns) /\ (exists out, makes [] l ns out) /\ forall k n, nth_error ns k = Some n -> node_ok bits ns k n).
Proof.
  intros OC. split.
  - intros H. destruct (types_inv _ _ _ OC H) as (MK & _ & (r0 & l0 & FR0 & RF0)). destruct OC as (l1 & r & l2 & -> & C & F). apply Forall_app in F as [F1 F2].
    assert (X : r0 = r) by (apply (first_unique FR0); exists l1, l2; auto). subst r0. revert H. unfold llvm_types. rewrite loop_app. cbn [llvm_loop].
    destruct (llvm_loop bits l1 ([], 0%nat, [])) as [[[s1 num1] name1]|] eqn:L1; [|discriminate].
    apply loop_inv in L1 as (ns1 & M1 & G1 & -> & _ & A1); [|exact F1].
    assert (s1 = []) by (inversion G1; reflexivity). subst s1.
    assert (ns1 = []) by (destruct ns1 as [|n ns1]; [reflexivity|specialize (A1 0%nat n eq_refl); discriminate]). subst ns1.
    unfold llvm_turn at 1. rewrite C. cbn [N.eqb Pos.eqb]. rewrite RF0. cbn [length Nat.add].
    destruct (llvm_loop bits l2 _) as [[[s2 num2] name2]|] eqn:L2; [|discriminate].
    apply loop_order in L2 as (ns2 & M2 & G2 & -> & A2); [|exact F2|].
    2:{ intros i x X. unfold resize in X. rewrite firstn_nil in X. cbn [app] in X. apply nth_error_In, repeat_spec in X. subst x.
        split; [intros (n & K); discriminate K|lia]. }
    cbn [Nat.add]. destruct (length ns2 =? length s2)%nat eqn:E; [|discriminate]. intros H. apply filled_all in H. subst s2.
    assert (ns = ns2).
    { rewrite map_length in E. apply Nat.eqb_eq in E. clear - E A2. assert (A : forall k n, nth_error ns2 k = Some n -> nth_error (map Filled ns) k = Some (Filled n)) by (intros k n K; apply (A2 k n K)).
      clear A2. revert ns E A. induction ns2 as [|x ns2 IH]; intros [|y ns] E A2; try discriminate; [reflexivity|].
      pose proof (A2 0%nat x eq_refl) as K. cbn in K. injection K as ->. f_equal. apply IH; [cbn in E; lia|]. intros k n K. exact (A2 (S k) n K). }
    subst ns2. split; [|split; [exact MK|]].
    + exists l1, r, l0, l2. split; [reflexivity|]. split; [exact C|]. split; [exact RF0|]. split; [exact (no_entries _ _ _ M1 F1)|exact F2].
    + intros k n K. apply ordered_final. now apply A2.
  - intros ((l1 & r & l' & l2 & -> & C & RF & F1 & F2) & (out & M) & A). unfold llvm_types. rewrite loop_app. cbn [llvm_loop].
    destruct (only_names bits l1 F1 [] 0%nat []) as (name1 & L1 & M1). rewrite L1. unfold llvm_turn at 1. rewrite C. cbn [N.eqb Pos.eqb]. rewrite RF, Nnat.Nat2N.id.
    assert (M2 : makes name1 l2 ns out).
    { clear - M M1 F1 C. revert M M1. generalize (@nil N). induction F1 as [|x l1 X _ IH]; intros name M M1; cbn [app] in M.
      - inversion M1; subst. inversion M; subst; congruence.
      - inversion M; subst; try congruence. inversion M1; subst; try congruence. eapply IH; eassumption. }
    destruct (loop_back bits ns l2 F2 ns name1 out (resize [] (length ns)) 0%nat M2) as (s' & T & M').
    + unfold resize. rewrite firstn_nil. cbn [app length]. rewrite Nat.sub_0_r. split; [apply repeat_length|]. intros i m E. right. split; [lia|]. left.
      apply nth_error_repeat. apply nth_error_Some. congruence.
    + intros k n K. split; [exact K|now apply A].
    + rewrite T. cbn [Nat.add]. destruct M' as [LN M']. rewrite LN, Nat.eqb_refl.
      assert (X : s' = map Filled ns).
      { apply lists_equal. intros i. rewrite nth_error_map. destruct (nth_error ns i) as [m|] eqn:E.
        - destruct (M' _ _ E) as [(_ & K)|(K & _)]; [exact K|]. exfalso. cbn in K. apply nth_error_None in K. congruence.
        - cbn. apply nth_error_None. rewrite LN. now apply nth_error_None. }
      rewrite X. clear. induction ns as [|n ns IH]; [reflexivity|]. cbn. now rewrite IH.
Qed.

(** *** Which accepted tables LLVM reads *)

Lemma makes_entries name l ns out : makes name l ns out -> Forall2 (fun r n => exists name, plain_node r name n) (entry_records l) ns.
Proof.
  unfold entry_records. induction 1 as [|name r l ns out C _ IH|name r l ns out C _ IH|name r n l ns out C1 C19 P _ IH]; cbn [filter]; [constructor|..].
  - rewrite C. exact IH.
  - rewrite C. exact IH.
  - replace (r_code r =? 1) with false by lia. replace (r_code r =? 19) with false by lia. cbn. constructor; [eauto|exact IH].
Qed.
Lemma F2_back {A B} (R : A -> B -> Prop) l m k b : Forall2 R l m -> nth_error m k = Some b -> exists a, nth_error l k = Some a /\ R a b.
Proof. intros H. revert k. induction H as [|x y l m E H IH]; intros [|k] K; try discriminate; cbn in *; [injection K as <-; eauto|auto]. Qed.
Lemma entry_in l r : In r (entry_records l) <-> In r l /\ r_code r <> 1 /\ r_code r <> 19.
Proof. unfold entry_records. rewrite filter_In. intuition lia. Qed.

Lemma plain_refs r name n : plain_node r name n -> r_code r <> 9 -> node_refs n = references r.
Proof.
  intros P N9. unfold plain_node in P. unfold references.
  destruct P as [(u & I' & ->)|[(w & l & C & F & ->)|[(i & l & C & F & ->)|[(a & C & F & ->)|[(va & x & i & js & C & F & ->)|
    [(va & i & js & C & F & ->)|[(pk & js & C & F & ->)|[(pk & js & C & F & ->)|[(x & C & F & ->)|[(k & i & l & C & F & ->)|
    (k & i & l & C & F & K & ->)]]]]]]]]]]; try rewrite C; try rewrite F; cbn; try reflexivity; try contradiction.
  apply simple_codes in I'. cbn in I'. repeat (destruct I' as [<-|I']; [reflexivity|]). destruct I'.
Qed.

(** A described record has a node, unless one of LLVM's rules is broken. *)
Lemma described_node T name r t : describes T name r t ->
  (In (r_code r) [6; 25] -> length (r_fields r) = 1%nat) -> (r_code r = 12 -> hd 0 (r_fields r) <> 0) -> exists n, plain_node r (utf8_encode name) n.
Proof.
  intros D S V. unfold plain_node.
  destruct D as [t I|w l C F R|i a l t C F R A PR|a l C F R|k i l t C F A R|k i l t C F Z A R|k i l t C F Z A R|va i js t ts C F A R FA R'|pk js ts C F FA R|pk js ts C F FA R|C NE].
  - eexists. left. eauto.
  - eexists. right. left. eauto 6.
  - eexists. right. right. left. eauto 6.
  - rewrite C, F in S. cbn in S. assert (l = []) by (destruct l; [reflexivity|]; specialize (S ltac:(tauto)); discriminate S). subst l.
    eexists. do 3 right. left. eauto 6.
  - eexists. do 9 right. left. eauto 7.
  - eexists. do 10 right. exists k, i, l. rewrite F in V. cbn in V. auto.
  - eexists. do 10 right. exists k, i, l. rewrite F in V. cbn in V. auto.
  - eexists. do 5 right. left. eauto 7.
  - eexists. do 6 right. left. eauto 7.
  - eexists. do 7 right. left. eauto 7.
  - rewrite C in S. destruct (r_fields r) as [|x [|y l]] eqn:F; try (specialize (S ltac:(cbn; tauto)); discriminate S).
    eexists. do 8 right. left. eauto 7.
Qed.
Lemma lists_makes T name l ts : lists T name l ts -> (forall r, In r l -> In (r_code r) [6; 25] -> length (r_fields r) = 1%nat) ->
  (forall r, In r l -> r_code r = 12 -> hd 0 (r_fields r) <> 0) -> exists ns out, makes (utf8_encode name) l ns out.
Proof.
  induction 1 as [name|name r l ts C _ IH|name r s l ts SP _ IH|name r t l ts TN D _ IH|name r t l ts TN D _ IH]; intros S V.
  - exists [], (utf8_encode name). constructor.
  - destruct IH as (ns & out & M); [intros x X; apply S; now right|intros x X; apply V; now right|]. exists ns, out. now apply MkNum.
  - destruct IH as (ns & out & M); [intros x X; apply S; now right|intros x X; apply V; now right|]. destruct (SP) as (C & F & SC & _).
    exists ns, out. apply MkName; [exact C|]. rewrite F, encode_small, <- encode_app by exact SC. exact M.
  - destruct IH as (ns & out & M); [intros x X; apply S; now right|intros x X; apply V; now right|].
    destruct (described_node _ _ _ _ D) as (n & P); [apply S; now left|apply V; now left|]. destruct (plain_struct _ _ _ _ TN D) as (C1 & C2 & _).
    exists (n :: ns), out. apply MkEntry; [exact C1|exact C2|exact P|].
    unfold named_code. replace ((r_code r =? 6) || (r_code r =? 20))%bool with false by (unfold takes_name in TN; cbn in TN; lia). exact M.
  - destruct IH as (ns & out & M); [intros x X; apply S; now right|intros x X; apply V; now right|].
    destruct (described_node _ _ _ _ D) as (n & P); [apply S; now left|apply V; now left|]. destruct (TypeTableMain.named_code _ _ _ _ TN D) as [C _].
    exists (n :: ns), out. apply MkEntry; [lia|lia|exact P|].
    unfold named_code. replace ((r_code r =? 6) || (r_code r =? 20))%bool with true by lia. exact M.
Qed.

Lemma count_split l1 : forall r l2, one_count (l1 ++ r :: l2) -> Forall (fun x => r_code x = 19) l1 -> r_code r = 1 -> Forall (fun x => r_code x <> 1) l2.
Proof.
  induction l1 as [|x l1 IH]; intros r l2 (a & q & c & E & Q & F) N C; cbn [app] in E; destruct a as [|y a]; cbn [app] in E, F.
  - injection E as <- ->. exact F.
  - injection E as <- ->. inversion F; contradiction.
  - injection E as <- _. inversion N; congruence.
  - injection E as <- E. inversion N; subst. inversion F; subst. eapply IH; [|eassumption|exact C]. exists a, q, c. auto.
Qed.

(** Rules of types, read off the nodes. *)
Lemma pointee_back T m u : pointee_rule u -> node_type T m u -> pointee_node m = true.
Proof. unfold pointee_rule. destruct m as [[]| | | | | | | | ]; cbn; intros R N; try reflexivity; subst u; exfalso; apply R; cbn; tauto. Qed.
Lemma array_back T m u : array_rule u -> node_type T m u -> array_node m = true.
Proof.
  intros (R & NF & NS). destruct m as [[]| | | |i js va| | |k i|k i []]; cbn; intros N; try reflexivity; try (subst u; exfalso; apply R; cbn; tauto).
  - destruct N as (r & ps & _ & _ & ->). exfalso. apply NF. unfold function_type. eauto.
  - destruct N as (x & _ & ->). exfalso. apply NS. unfold scalable_type. eauto.
Qed.
Lemma simple_not t : (exists c, In (c, t) simple_types) -> match t with TInteger _ | TFunction _ _ _ | TPointer _ _ | TOpaquePointer _ | TStruct _ _ _ | TArray _ _
  | TFixedVector _ _ | TScalableVector _ _ => False | _ => True end.
Proof. intros (c & J). cbn in J. repeat (destruct J as [J|J]; [injection J as _ <-; exact I|]). destruct J. Qed.
Lemma vector_back T m u : plain_simple m -> vector_rule u -> node_type T m u -> vector_node m = true.
Proof.
  unfold vector_rule, float_types. intros PS R N.
  assert (X : u = THalf \/ u = TBFloat \/ u = TFloat \/ u = TDouble \/ u = TX86Fp80 \/ u = TFp128 \/ u = TPpcFp128 \/ (exists w, u = TInteger w) \/ exists p a, u = TPointer p a)
    by (cbn in R; intuition auto).
  clear R. destruct m as [v| | | | |[nm|] js pk| |k i|k i []]; cbn in N; try reflexivity; try (decompose [ex and] N; subst;
    decompose [or ex] X; discriminate).
  subst v. cbn in PS. apply simple_not in PS. decompose [or ex] X; subst; try reflexivity; contradiction.
Qed.
Lemma param_back T m u : param_rule u -> (forall b, m <> LnOpaque b) -> node_type T m u -> param_node m = true.
Proof.
  intros (R & NF) O. destruct m as [[]| | | |i js va| |b| |]; cbn; intros N; try reflexivity.
  - now subst u.
  - destruct N as (r & ps & _ & _ & ->). exfalso. apply NF. unfold function_type. eauto.
  - now destruct (O b).
Qed.

(** The rules of the parts, from those of the whole. *)
Lemma built_parts t : well_built t -> match t with
  | TInteger w => width_rule w
  | TFunction r ps _ => Forall param_rule ps
  | TPointer p _ => pointee_rule p
  | TArray _ x => array_rule x
  | TFixedVector _ x | TScalableVector _ x => vector_rule x
  | _ => True
  end.
Proof. intros W. destruct W as [c t J| | | | | | | |]; auto. pose proof (simple_not t (ex_intro _ c J)) as K. destruct t; auto; contradiction. Qed.

Lemma rules_accepted e bits b T : bits < 2 ^ 32 -> Forall named_fields (b_records b) -> one_count (b_records b) ->
  (forall r, In r (b_records b) -> r_code r = 8 -> (length (r_fields r) <= 2)%nat) ->
  type_table_of e b = Ok T -> llvm_rules bits (b_records b) -> exists ns, llvm_types bits (b_records b) = Some ns.
Proof.
  intros B NF OC PT H R. set (l := b_records b) in *.
  assert (LI : lists T [] l T) by (apply (type_table_lists e b T NF (lr_apart _ _ R)); exact H).
  destruct (lists_makes _ _ _ _ LI (lr_single _ _ R) (lr_vectors _ _ R)) as (ns & out & M). change (utf8_encode []) with (@nil N) in M.
  exists ns. apply types_exact; [exact OC|]. pose proof (makes_entries _ _ _ _ M) as EN.
  assert (W : forall w, In (LnInteger w) ns -> 1 <= w -> w <= bits).
  { intros w I _. apply In_nth_error in I as (k & K). destruct (F2_back _ _ _ _ _ EN K) as (r & E & nm & P).
    apply nth_error_In, entry_in in E as (I & _). pose proof (lr_widths _ _ R r I) as X.
    unfold plain_node in P. destruct P as [(u & _ & Q)|[(w' & l' & C & F & Q)|[P|[P|[P|[P|[P|[P|[P|[P|P]]]]]]]]]]; try (decompose [ex and] P; discriminate).
    - discriminate.
    - injection Q as ->. specialize (X C). rewrite F in X. exact X. }
  assert (W' : forall w, In (LnInteger w) ns -> w < 2 ^ 32).
  { intros w I. destruct (N.eq_dec w 0) as [->|NZ]; [reflexivity|]. assert (w <= bits) by (apply W; [exact I|lia]). lia. }
  pose proof (both_nodes _ _ _ _ LI _ _ M W' PT) as ST.
  assert (LEN : length ns = length T) by (clear - ST; induction ST; cbn; congruence).
  pose proof (accepted_built _ _ _ H) as WB. rewrite Forall_forall in WB.
  split; [|split; [exists out; exact M|]].
  - destruct (lr_count _ _ R) as (l1 & r & l2 & E & F1 & C). unfold counted.
    apply (type_table_exact e b T NF) in H as ((r' & l' & FR & RF & _) & _).
    assert (X : r' = r).
    { apply (first_unique FR). exists l1, l2. split; [exact E|]. split; [exact C|]. revert F1. apply Forall_impl. intros x ->. discriminate. }
    subst r'. exists l1, r, l', l2. split; [exact E|]. split; [exact C|]. rewrite LEN. split; [exact RF|]. split; [exact F1|].
    rewrite E in OC. exact (count_split _ _ _ OC F1 C).
  - intros k n K. destruct (F2_at _ _ _ _ _ ST K) as (t & KT & NT). pose proof (WB _ (nth_error_In _ _ KT)) as BT. apply built_parts in BT.
    destruct (F2_back _ _ _ _ _ EN K) as (r & KR & nm & P).
    assert (N9 : r_code r <> 9).
    { intros C. pose proof (nth_error_In _ _ KR) as I. apply entry_in in I as (I & _).
      destruct (lists_records _ _ _ _ LI r I) as [X|[(s & X & _)|(nm' & t' & D)]]; [congruence|congruence|].
      destruct D; try congruence. match goal with I : In _ simple_types |- _ => apply simple_codes in I; rewrite C in I; cbn in I; intuition discriminate end. }
    pose proof (plain_refs _ _ _ P N9) as RE.
    assert (PART : forall i, In i (node_refs n) -> exists m u, nth_error ns (N.to_nat i) = Some m /\ at_index T i u /\ node_type T m u /\
      ((N.to_nat i < k)%nat \/ ((k < N.to_nat i)%nat /\ is_named m))).
    { intros i I. destruct (node_smaller _ _ _ _ NT I) as (u & A & S). destruct (F2_back _ _ _ _ _ ST A) as (m & E & N).
      exists m, u. split; [exact E|]. split; [exact A|]. split; [exact N|].
      destruct (Nat.lt_ge_cases (N.to_nat i) k) as [L|G]; [now left|right].
      assert (NE : N.to_nat i <> k) by (intros Q; unfold at_index in A; rewrite Q in A; assert (u = t) by congruence; subst u; lia).
      split; [lia|]. rewrite RE in I. destruct (lr_ahead _ _ R k r i KR I G) as (s & KS & TN).
      destruct (F2_at _ _ _ _ _ EN KS) as (m' & E' & nm' & P'). assert (m' = m) by congruence. subst m'.
      apply (named_iff _ _ _ P'). unfold named_code. unfold takes_name in TN. cbn in TN. lia. }
    destruct n as [v|w|i a|a|i js va|nm' js pk|nm'|q i|q i sc]; cbn [node_ok]; try exact I.
    + cbn in NT. subst t. cbn in BT. unfold width_rule in BT. split; [lia|]. apply W; [eapply nth_error_In, K|lia].
    + destruct NT as (p & A & ->). cbn in BT. destruct (PART i (or_introl eq_refl)) as (m & u & E & A' & N & O). assert (u = p) by (unfold at_index in *; congruence). subst u.
      exists m. split; [exact E|]. destruct O as [O|[O NM]]; [left; split; [exact O|exact (pointee_back _ _ _ BT N)]|right; auto].
    + destruct NT as (p & ps & A & F & ->). cbn in BT. split.
      * destruct (PART i (or_introl eq_refl)) as (m & u & E & A' & N & O). exists m. split; [exact E|]. destruct O as [O|[O NM]]; [left; auto|right; auto].
      * apply Forall_forall. intros j J. destruct (F2_in j F J) as (u & A' & IU). destruct (PART j (or_intror J)) as (m & u' & E & A2 & N & _).
        assert (u' = u) by (unfold at_index in *; congruence). subst u'. rewrite Forall_forall in BT. specialize (BT _ IU).
        assert (C : r_code r = 21 /\ In j (skipn 2 (r_fields r))).
        { unfold plain_node in P. destruct P as [(u' & _ & Q)|[P|[P|[P|[P|[(va' & i' & js' & C & FR & Q)|[P|[P|[P|[P|P]]]]]]]]]]; try (decompose [ex and] P; congruence).
          - discriminate Q.
          - injection Q as <- <- _. rewrite FR. auto. }
        destruct C as [C CJ]. exists m. split; [exact E|]. left. split; [exact (lr_params _ _ R k r j KR C CJ)|].
        apply (param_back T m u BT); [|exact N]. intros nb ->. destruct (F2_back _ _ _ _ _ EN E) as (s & KS & nm' & P').
        apply (lr_opaque _ _ R r j s) in CJ; [|apply nth_error_In, entry_in in KR; apply KR|exact C|exact KS]. apply CJ.
        unfold plain_node in P'. destruct P' as [(u' & _ & Q)|[P'|[P'|[P'|[P'|[P'|[P'|[P'|[(x & C' & _)|[P'|P']]]]]]]]]]; try (decompose [ex and] P'; congruence); congruence.
    + apply Forall_forall. intros j J. destruct (PART j J) as (m & u & E & _ & _ & O). exists m. split; [exact E|]. destruct O as [O|[O NM]]; [left; auto|right; auto].
    + destruct NT as (p & A & ->). cbn in BT. destruct (PART i (or_introl eq_refl)) as (m & u & E & A' & N & O). assert (u = p) by (unfold at_index in *; congruence). subst u.
      exists m. split; [exact E|]. destruct O as [O|[O NM]]; [left; split; [exact O|exact (array_back _ _ _ BT N)]|right; auto].
    + destruct NT as (p & A & ->). assert (VR : vector_rule p) by (destruct sc; exact BT).
      destruct (PART i (or_introl eq_refl)) as (m & u & E & A' & N & _).
      assert (PS : plain_simple m) by (pose proof (makes_simple _ _ _ _ M) as X; rewrite Forall_forall in X; apply X; eapply nth_error_In, E). assert (u = p) by (unfold at_index in *; congruence). subst u.
      exists m. split; [exact E|]. left. split; [|exact (vector_back _ _ _ PS VR N)].
      apply (lr_elements _ _ R k r i KR); [|rewrite <- RE; now left].
      unfold plain_node in P. destruct P as [(u' & _ & Q)|[P|[P|[P|[P|[P|[P|[P|[P|[P|P]]]]]]]]]]; decompose [ex and] P || idtac; congruence.
Qed.

Lemma accepted_rules e bits b T ns : Forall named_fields (b_records b) -> one_count (b_records b) ->
  type_table_of e b = Ok T -> llvm_types bits (b_records b) = Some ns -> llvm_rules bits (b_records b).
Proof.
  intros NF OC H L. destruct (both_lists _ _ _ _ _ NF OC L H) as (AP & LI & _). apply (types_exact _ _ _ OC) in L as ((l1 & r0 & l' & l2 & E0 & C0 & RF & F1 & F2) & (out & M) & OK).
  set (l := b_records b) in *. pose proof (makes_entries _ _ _ _ M) as EN.
  assert (NODE : forall r, In r l -> r_code r <> 1 -> r_code r <> 19 -> exists n nm k, nth_error ns k = Some n /\ plain_node r nm n).
  { intros r I C1 C2. assert (J : In r (entry_records l)) by (apply entry_in; auto). apply In_nth_error in J as (k & K).
    destruct (F2_at _ _ _ _ _ EN K) as (n & E & nm & P). exists n, nm, k. auto. }
  assert (R9 : forall r, In r l -> r_code r <> 9).
  { intros r I C. destruct (lists_records _ _ _ _ LI r I) as [X|[(s & X & _)|(nm' & t' & D)]]; [congruence|congruence|].
    destruct D; try congruence. match goal with I : In _ simple_types |- _ => apply simple_codes in I; rewrite C in I; cbn in I; intuition discriminate end. }
  constructor.
  - exists l1, r0, l2. auto.
  - exact AP.
  - intros r I C. destruct (NODE r I) as (n & nm & k & K & P); [congruence|congruence|]. specialize (OK _ _ K).
    unfold plain_node in P. destruct P as [(u & J & _)|[(w & m & _ & F & ->)|P]].
    + apply simple_codes in J. rewrite C in J. cbn in J. intuition discriminate.
    + rewrite F. cbn in *. lia.
    + decompose [ex and or] P; congruence.
  - intros r I C. cbn in C. destruct (NODE r I) as (n & nm & k & K & P); [intuition congruence|intuition congruence|].
    unfold plain_node in P. destruct P as [(u & J & _)|P].
    + apply simple_codes in J. destruct C as [C|[C|[]]]; rewrite <- C in J; cbn in J; intuition discriminate.
    + decompose [ex and or] P; try (exfalso; intuition congruence); match goal with F : r_fields r = _ |- _ => rewrite F; reflexivity end.
  - intros r I C. destruct (NODE r I) as (n & nm & k & K & P); [congruence|congruence|].
    unfold plain_node in P. destruct P as [(u & J & _)|P].
    + apply simple_codes in J. rewrite C in J. cbn in J. intuition discriminate.
    + decompose [ex and or] P; try congruence. match goal with F : r_fields r = _ |- _ => rewrite F; assumption end.
  - intros k r i K I G. destruct (F2_at _ _ _ _ _ EN K) as (n & E & nm & P). specialize (OK _ _ E).
    rewrite <- (plain_refs _ _ _ P) in I by (apply R9, entry_in, (nth_error_In _ _ K)).
    assert (X : exists m, nth_error ns (N.to_nat i) = Some m /\ is_named m).
    { assert (Y : exists ok, ref_ok ns ok k i).
      { destruct n; cbn [node_ok node_refs] in OK, I; try (destruct I; fail).
        - destruct I as [<-|[]]. eauto.
        - destruct OK as [O1 O2]. destruct I as [<-|I]; [eauto|]. rewrite Forall_forall in O2. eauto.
        - rewrite Forall_forall in OK. eauto.
        - destruct I as [<-|[]]. eauto.
        - destruct I as [<-|[]]. eauto. }
      destruct Y as (ok & m & Q & [(Y & _)|(_ & Y & _)]); [lia|eauto]. }
    destruct X as (m & Q & NM). destruct (F2_back _ _ _ _ _ EN Q) as (s & KS & nm' & P'). exists s. split; [exact KS|].
    apply (named_iff _ _ _ P') in NM. unfold named_code in NM. unfold takes_name. cbn. lia.
  - intros k r i K C I. destruct (F2_at _ _ _ _ _ EN K) as (n & E & nm & P). specialize (OK _ _ E).
    rewrite <- (plain_refs _ _ _ P) in I by congruence.
    unfold plain_node in P. destruct P as [(u & J & _)|P].
    + apply simple_codes in J. rewrite C in J. cbn in J. intuition discriminate.
    + decompose [ex and or] P; try congruence. subst n. cbn in OK, I. destruct I as [<-|[]]. destruct OK as (m & _ & [(Y & _)|(_ & _ & Y)]); [exact Y|discriminate Y].
  - intros k r i K C I. destruct (F2_at _ _ _ _ _ EN K) as (n & E & nm & P). specialize (OK _ _ E).
    unfold plain_node in P. destruct P as [(u & J & _)|P].
    + apply simple_codes in J. rewrite C in J. cbn in J. intuition discriminate.
    + decompose [ex and or] P; try congruence. subst n. match goal with F : r_fields r = _ |- _ => rewrite F in I end. cbn in OK, I.
      destruct OK as [_ OK]. rewrite Forall_forall in OK. destruct (OK _ I) as (m & _ & [(Y & _)|(_ & _ & Y)]); [exact Y|discriminate Y].
  - intros r i s I C J KS CS. destruct (NODE r I) as (n & nm & k & K & P); [congruence|congruence|]. specialize (OK _ _ K).
    destruct (F2_at _ _ _ _ _ EN KS) as (m & Q & nm' & P').
    unfold plain_node in P. destruct P as [(u & Z & _)|P].
    + apply simple_codes in Z. rewrite C in Z. cbn in Z. intuition discriminate.
    + decompose [ex and or] P; try congruence. subst n. match goal with F : r_fields r = _ |- _ => rewrite F in J end. cbn in OK, J.
      destruct OK as [_ OK]. rewrite Forall_forall in OK. destruct (OK _ J) as (m' & Q' & O). assert (m' = m) by congruence. subst m'.
      unfold plain_node in P'. destruct P' as [(u & Z & _)|P']; [apply simple_codes in Z; rewrite CS in Z; cbn in Z; intuition discriminate|].
      decompose [ex and or] P'; try congruence. subst m. destruct O as [(_ & Y)|(_ & _ & Y)]; discriminate Y.
Qed.
