(** Proofs about the [Debug] texts: a text can be read in one way only. *)
From Verif Require Import Base CursorModel StreamModel Strings StringsProofs EnumModel SupportModel SupportSpec LayoutModel UnrollModel AttributeModel TablesModel TypeTableModel
  RecordModel ModuleModel ExtraModel ExtraProofs MessageModel MessageSpec MessageProofs DebugModel.
From Coq Require Import Lia ZifyBool ZifyNat ZifyN.
Ltac Zify.zify_post_hook ::= Z.div_mod_to_equations.
Local Open Scope N_scope.
#[local] Arguments N.add : simpl never.
#[local] Arguments N.mul : simpl never.
#[local] Arguments N.sub : simpl never.
#[local] Arguments N.eqb : simpl never.
#[local] Arguments N.leb : simpl never.
#[local] Arguments N.ltb : simpl never.
#[local] Arguments N.modulo : simpl never.
#[local] Arguments N.div : simpl never.

(** ** What can be printed *)

Fixpoint dbg_ind' (P : dbg -> Prop) (HN : forall n, P (DNum n)) (HS : forall s, P (DStr s)) (HL : forall l, Forall P l -> P (DSeq l))
  (HU : forall n, P (DUnit n)) (HT : forall n l, Forall P l -> P (DTuple n l)) (HR : forall n l, Forall (fun x => P (snd x)) l -> P (DStruct n l))
  (d : dbg) : P d :=
  let rec := dbg_ind' P HN HS HL HU HT HR in
  let fix all (l : list dbg) : Forall P l := match l with [] => Forall_nil _ | x :: l => Forall_cons x (rec x) (all l) end in
  match d with
  | DNum n => HN n
  | DStr s => HS s
  | DSeq l => HL l (all l)
  | DUnit n => HU n
  | DTuple n l => HT n l (all l)
  | DStruct n l =>
      HR n l ((fix pairs (l : list (str * dbg)) : Forall (fun x => P (snd x)) l :=
                 match l with [] => Forall_nil _ | x :: l => Forall_cons x (rec (snd x)) (pairs l) end) l)
  end.

Definition letter (c : N) : bool := (65 <=? c) && (c <=? 90) || (97 <=? c) && (c <=? 122).
Definition inner (c : N) : bool := letter c || digit c || (c =? 95).
Definition ident (s : str) : bool := match s with c :: _ => letter c && forallb inner s | [] => false end.
Fixpoint printable (d : dbg) : Prop :=
  match d with
  | DNum _ | DStr _ => True
  | DSeq l => fold_right (fun x P => printable x /\ P) True l
  | DUnit n => ident n = true
  | DTuple n l => ident n = true /\ l <> [] /\ fold_right (fun x P => printable x /\ P) True l
  | DStruct n l => ident n = true /\ l <> [] /\ fold_right (fun x P => match x with (f, x) => ident f = true /\ printable x end /\ P) True l
  end.

(** ** Splitting texts *)

Lemma cons_same {A} (x : A) l l' : x :: l = x :: l' -> l = l'.
Proof. now injection 1. Qed.
Definition opens (P : N -> bool) (s : str) : bool := match s with [] => false | c :: _ => P c end.
Lemma span_inj (P : N -> bool) x : forall y r r', forallb P x = true -> forallb P y = true -> opens P r = false -> opens P r' = false ->
  x ++ r = y ++ r' -> x = y /\ r = r'.
Proof.
  induction x as [|c x IH]; intros [|c' y] r r' HX HY HR HR' H; cbn [app forallb] in *; try (split; [reflexivity|exact H]).
  - subst r. cbn in HR. apply andb_prop in HY as [HY _]. congruence.
  - subst r'. cbn in HR'. apply andb_prop in HX as [HX _]. congruence.
  - apply andb_prop in HX as [_ HX]. apply andb_prop in HY as [_ HY]. injection H as <- H. destruct (IH y r r' HX HY HR HR' H) as [<- <-]. easy.
Qed.
Lemma ident_inj x y r r' : ident x = true -> ident y = true -> opens inner r = false -> opens inner r' = false -> x ++ r = y ++ r' -> x = y /\ r = r'.
Proof.
  intros HX HY. apply span_inj.
  - destruct x; [discriminate|]. now apply andb_prop in HX.
  - destruct y; [discriminate|]. now apply andb_prop in HY.
Qed.
Lemma decimal_digits v : forallb digit (decimal v) = true.
Proof. apply forallb_forall. pose proof (decimal_all_digits v) as H. rewrite Forall_forall in H. exact H. Qed.
Lemma decimal_inj x y r r' : opens digit r = false -> opens digit r' = false ->
  decimal x ++ r = decimal y ++ r' -> x = y /\ r = r'.
Proof.
  intros HR HR' H. apply (span_inj digit) in H as [H ->]; try assumption; try apply decimal_digits. split; [|reflexivity].
  rewrite <- (value_decimal x), <- (value_decimal y). now rewrite H.
Qed.

(** Hexadecimal numbers. *)
Definition hex_digit (letter c : N) : bool := digit c || (letter <=? c) && (c <? letter + 6).
Definition hex_value (letter : N) (s : str) : N := fold_left (fun n c => 16 * n + (if c <? 58 then c - 48 else c - letter + 10)) s 0.
Lemma hex_loop_all a fuel : forall v acc, forallb (hex_digit a) acc = true -> forallb (hex_digit a) (hex_loop a fuel v acc) = true.
Proof.
  induction fuel as [|f IH]; intros v acc H; cbn [hex_loop]; [exact H|].
  assert (K : forallb (hex_digit a) ((if v mod 16 <? 10 then ch "0" + v mod 16 else a + (v mod 16 - 10)) :: acc) = true).
  { cbn [forallb]. rewrite H, andb_true_r. unfold hex_digit, digit. change (ch "0") with 48.
    destruct (v mod 16 <? 10) eqn:E; lia. }
  destruct (v / 16 =? 0); [exact K|now apply IH].
Qed.
Lemma hex_loop_acc a fuel : forall v acc, hex_loop a fuel v acc = hex_loop a fuel v [] ++ acc.
Proof.
  induction fuel as [|f IH]; intros v acc; cbn [hex_loop]; [reflexivity|]. destruct (v / 16 =? 0); [reflexivity|].
  rewrite (IH _ (_ :: acc)), (IH _ [_]), <- app_assoc. reflexivity.
Qed.
Lemma hex_loop_value a fuel : 58 <= a -> forall v, v < 16 ^ N.of_nat fuel -> hex_value a (hex_loop a fuel v []) = v.
Proof.
  intros A. unfold hex_value. induction fuel as [|f IH]; intros v H.
  - change (16 ^ N.of_nat 0) with 1 in H. cbn. lia.
  - replace (N.of_nat (S f)) with (N.succ (N.of_nat f)) in H by lia. rewrite N.pow_succ_r' in H. cbn [hex_loop]. change (ch "0") with 48.
    assert (D : forall n, 16 * n + (if (if v mod 16 <? 10 then 48 + v mod 16 else a + (v mod 16 - 10)) <? 58
                                    then (if v mod 16 <? 10 then 48 + v mod 16 else a + (v mod 16 - 10)) - 48
                                    else (if v mod 16 <? 10 then 48 + v mod 16 else a + (v mod 16 - 10)) - a + 10) = 16 * n + v mod 16).
    { intros n. destruct (v mod 16 <? 10) eqn:E.
      - replace (48 + v mod 16 <? 58) with true by lia. lia.
      - replace (a + (v mod 16 - 10) <? 58) with false by lia. lia. }
    destruct (v / 16 =? 0) eqn:EZ.
    + cbn [fold_left]. rewrite D. lia.
    + rewrite hex_loop_acc, fold_left_app. rewrite IH by lia. cbn [fold_left]. rewrite D. lia.
Qed.
Lemma hex_enough v : v < 16 ^ N.of_nat (S (N.to_nat (N.log2 v))).
Proof. eapply N.lt_le_trans; [apply decimal_enough|]. apply N.pow_le_mono_l. lia. Qed.
Definition hex (a v : N) : str := hex_loop a (S (N.to_nat (N.log2 v))) v [].
Lemma hex_inj a x y r r' : 58 <= a -> opens (hex_digit a) r = false -> opens (hex_digit a) r' = false ->
  hex a x ++ r = hex a y ++ r' -> x = y /\ r = r'.
Proof.
  intros A HR HR' H. unfold hex in H. apply (span_inj (hex_digit a)) in H as [H ->]; try assumption; try (apply hex_loop_all; reflexivity). split; [|reflexivity].
  rewrite <- (hex_loop_value a _ A x (hex_enough x)), <- (hex_loop_value a _ A y (hex_enough y)). now rewrite H.
Qed.

(** ** Strings *)

Section Text.
Variable shown : N -> bool.

(** How the escape of a character looks. *)
Inductive escaped (c : N) : str -> Prop :=
| EsZero : c = 0 -> escaped c [92; 48]
| EsTab : c = 9 -> escaped c [92; 116]
| EsReturn : c = 13 -> escaped c [92; 114]
| EsLine : c = 10 -> escaped c [92; 110]
| EsMark : c = 34 \/ c = 92 -> escaped c [92; c]
| EsSelf : c <> 34 -> c <> 92 -> c <> 10 -> escaped c [c]
| EsHex h : h = hex 97 c -> escaped c (92 :: 117 :: 123 :: h ++ [125]).
Lemma escape_escaped c : escaped c (escape shown c).
Proof.
  unfold escape. destruct (c =? 0) eqn:E0; [apply EsZero; lia|]. destruct (c =? 9) eqn:E1; [apply EsTab; lia|].
  destruct (c =? 13) eqn:E2; [apply EsReturn; lia|]. destruct (c =? 10) eqn:E3; [apply EsLine; lia|].
  destruct ((c =? 34) || (c =? 92)) eqn:E4; [apply EsMark; lia|].
  destruct (if c <? 128 then _ else _); [apply EsSelf; lia|]. now apply (EsHex c (hex_lower c)).
Qed.
Lemma escape_inj c c' r r' : escape shown c ++ r = escape shown c' ++ r' -> c = c' /\ r = r'.
Proof.
  pose proof (escape_escaped c) as X. pose proof (escape_escaped c') as Y.
  destruct X as [X|X|X|X|[X|X]|X1 X2 X3|h X]; destruct Y as [Y|Y|Y|Y|[Y|Y]|Y1 Y2 Y3|h' Y]; cbn [app]; intros H;
    try (exfalso; congruence); try (split; congruence).
  do 3 apply cons_same in H. rewrite <- !app_assoc in H. rewrite X, Y in H. apply (hex_inj 97) in H as [-> H]; [|discriminate|reflexivity|reflexivity].
  apply cons_same in H. now rewrite H.
Qed.
Lemma escape_open c r : opens (fun x => x =? 34) (escape shown c ++ r) = false.
Proof. destruct (escape_escaped c) as [X|X|X|X|X|X1 X2 X3|h X]; cbn [app opens]; lia. Qed.
Lemma strings_inj s : forall s' r r',
  flat_map (escape shown) s ++ 34 :: r = flat_map (escape shown) s' ++ 34 :: r' -> s = s' /\ r = r'.
Proof.
  induction s as [|c s IH]; intros [|c' s'] r r' H; cbn [flat_map app] in H.
  - injection H as ->. easy.
  - rewrite <- app_assoc in H. pose proof (escape_open c' (flat_map (escape shown) s' ++ 34 :: r')) as K. rewrite <- H in K. discriminate.
  - rewrite <- app_assoc in H. pose proof (escape_open c (flat_map (escape shown) s ++ 34 :: r)) as K. rewrite H in K. discriminate.
  - rewrite <- !app_assoc in H. apply escape_inj in H as [-> H]. apply IH in H as [-> ->]. easy.
Qed.

(** ** Texts without white space *)

(** The text with [last] after the last element of a list. *)
Definition listed (last : str) (l : list str) : str := match l with [] => [] | x :: l' => x ++ flat_map (fun y => 44 :: y) l' ++ last end.
Fixpoint dense (last : str) (d : dbg) : str :=
  match d with
  | DNum n => decimal n
  | DStr s => str_debug shown s
  | DSeq l => 91 :: listed last (map (dense last) l) ++ [93]
  | DUnit n => n
  | DTuple n l => n ++ 40 :: listed last (map (dense last) l) ++ [41]
  | DStruct n l => n ++ 123 :: listed last (map (fun x => match x with (f, d) => f ++ 58 :: dense last d end) l) ++ [125]
  end.

(** What may come after a value. *)
Definition closer (c : N) : bool := (c =? 44) || (c =? 93) || (c =? 41) || (c =? 125).
Definition ended (r : str) : Prop := match r with [] => True | c :: _ => closer c = true end.
Lemma ended_inner r : ended r -> opens inner r = false.
Proof. destruct r as [|c r]; [reflexivity|]. cbn [ended opens]. unfold closer, inner, letter, digit. lia. Qed.
Lemma ended_digit r : ended r -> opens digit r = false.
Proof. destruct r as [|c r]; [reflexivity|]. cbn [ended opens]. unfold closer, digit. lia. Qed.

(** The first character tells what kind of value it is. *)
Definition kind (d : dbg) (c : N) : bool :=
  match d with DNum _ => digit c | DStr _ => c =? 34 | DSeq _ => c =? 91 | DUnit _ | DTuple _ _ | DStruct _ _ => letter c end.
Lemma ident_open n r : ident n = true -> opens letter (n ++ r) = true.
Proof. destruct n as [|c n]; [discriminate|]. cbn [ident app opens]. intros H. now apply andb_prop in H. Qed.
Lemma dense_open last d r : printable d -> opens (kind d) (dense last d ++ r) = true.
Proof.
  destruct d as [n|s|l|n|n l|n l]; cbn [printable dense]; intros H; try reflexivity.
  - pose proof (decimal_digits n) as D. pose proof (decimal_nonempty n) as E. destruct (decimal n) as [|c s]; [easy|].
    cbn [app opens kind forallb] in *. now apply andb_prop in D.
  - now apply ident_open.
  - rewrite <- app_assoc. apply ident_open, H.
  - rewrite <- app_assoc. apply ident_open, H.
Qed.
Lemma open_not P s : opens P s = true -> (forall c, P c = true -> closer c = false) -> opens closer s = false.
Proof. destruct s as [|c s]; [discriminate|]. cbn [opens]. intros H K. now apply K. Qed.
Lemma kind_closer d c : kind d c = true -> closer c = false.
Proof. destruct d; cbn [kind]; unfold closer, letter, digit; lia. Qed.

(** Lists of things with readable texts. *)
Lemma listed_inj {A} (f : A -> str) (ok : A -> Prop) last close l : (last = [] \/ last = [44]) -> closer close = true -> close <> 44 ->
  (forall x r, ok x -> opens closer (f x ++ r) = false) ->
  (forall x r, ok x -> f x ++ r <> []) ->
  Forall (fun x => ok x -> forall y r r', ok y -> ended r -> ended r' -> f x ++ r = f y ++ r' -> x = y /\ r = r') l ->
  forall l' r r', Forall ok l -> Forall ok l' ->
  listed last (map f l) ++ close :: r = listed last (map f l') ++ close :: r' -> l = l' /\ r = r'.
Proof.
  intros HL HC HN HO HE.
  assert (EC : forall r, ended (close :: r)) by (intros; exact HC).
  assert (rest : forall l, Forall (fun x => ok x -> forall y r r', ok y -> ended r -> ended r' -> f x ++ r = f y ++ r' -> x = y /\ r = r') l ->
    forall l' r r', Forall ok l -> Forall ok l' ->
    flat_map (fun y => 44 :: y) (map f l) ++ last ++ close :: r = flat_map (fun y => 44 :: y) (map f l') ++ last ++ close :: r' -> l = l' /\ r = r').
  { assert (ER : forall l r, ended (flat_map (fun y => 44 :: y) (map f l) ++ last ++ close :: r)).
    { intros [|x m] r; [|reflexivity]. cbn [map flat_map app]. destruct HL as [-> | ->]; [apply EC|reflexivity]. }
    assert (NR : forall x m r r', ok x -> flat_map (fun y => 44 :: y) (map f (x :: m)) ++ last ++ close :: r <> last ++ close :: r').
    { intros x m r r' HX H. cbn [map flat_map app] in H. rewrite <- app_assoc in H. destruct HL as [-> | ->]; cbn [app] in H.
      - injection H as H _. congruence.
      - injection H as H. specialize (HO x (flat_map (fun y => 44 :: y) (map f m) ++ 44 :: close :: r) HX). rewrite H in HO. cbn [opens] in HO. congruence. }
    clear l. induction l as [|x l IH]; intros HF [|x' l'] r r' H H' E.
    - cbn [map flat_map app] in E. apply app_inv_head in E. injection E as ->. easy.
    - symmetry in E. inversion H'; subst. now apply NR in E.
    - inversion H; subst. now apply NR in E.
    - inversion H; inversion H'; inversion HF as [|? ? HX HF']; subst. cbn [map flat_map app] in E. rewrite <- !app_assoc in E. injection E as E.
      apply HX in E as [-> E]; try assumption; try apply ER. apply IH in E as [-> ->]; try assumption. easy. }
  assert (ER : forall l r, ended (flat_map (fun y => 44 :: y) (map f l) ++ last ++ close :: r)).
  { intros [|x m] r; [|reflexivity]. cbn [map flat_map app]. destruct HL as [-> | ->]; [apply EC|reflexivity]. }
  intros HF l' r r' H H' E. destruct l as [|x l], l' as [|x' l']; cbn [map listed app] in E.
  - injection E as ->. easy.
  - inversion H'; subst. rewrite <- !app_assoc in E. specialize (HO x' (flat_map (fun y => 44 :: y) (map f l') ++ last ++ close :: r') ltac:(assumption)).
    rewrite <- E in HO. cbn [opens] in HO. congruence.
  - inversion H; subst. rewrite <- !app_assoc in E. specialize (HO x (flat_map (fun y => 44 :: y) (map f l) ++ last ++ close :: r) ltac:(assumption)).
    rewrite E in HO. cbn [opens] in HO. congruence.
  - inversion H; inversion H'; inversion HF as [|? ? HX HF']; subst. rewrite <- !app_assoc in E.
    apply HX in E as [-> E]; try assumption; try apply ER. apply rest in E as [-> ->]; try assumption. easy.
Qed.
Lemma printable_all l : fold_right (fun x P => printable x /\ P) True l <-> Forall printable l.
Proof. induction l as [|x l IH]; cbn [fold_right]; [easy|]. rewrite IH. split; [intros []; now constructor|now inversion 1]. Qed.
Definition printable_field (x : str * dbg) : Prop := ident (fst x) = true /\ printable (snd x).
Lemma printable_fields l : fold_right (fun x P => match x with (f, x) => ident f = true /\ printable x end /\ P) True l <-> Forall printable_field l.
Proof.
  induction l as [|[f x] l IH]; cbn [fold_right]; [easy|]. rewrite IH. split; [intros []; now constructor|].
  inversion 1 as [|? ? K]; subst. split; [exact K|assumption].
Qed.

Lemma dense_inj last d : (last = [] \/ last = [44]) -> printable d -> forall d' r r', printable d' -> ended r -> ended r' ->
  dense last d ++ r = dense last d' ++ r' -> d = d' /\ r = r'.
Proof.
  intros HL.
  assert (clash : forall d d' r r', printable d -> printable d' -> dense last d ++ r = dense last d' ++ r' -> (forall c, kind d c = true -> kind d' c = true -> False) -> False).
  { intros x y r r' HX HY E K. pose proof (dense_open last x r HX) as A. pose proof (dense_open last y r' HY) as B. rewrite <- E in B.
    destruct (dense last x ++ r) as [|c s]; [discriminate|]. exact (K c A B). }
  induction d as [n|s|l IH|n|n l IH|n l IH] using dbg_ind'; intros H d' r r' H' HR HR' E.
  - destruct d' as [n'|s'|l'|n'|n' l'|n' l']; try (exfalso; apply (clash _ _ _ _ H H' E); cbn [kind]; unfold digit, letter; lia).
    cbn [dense printable] in *. apply decimal_inj in E as [-> ->]; try assumption; try now apply ended_digit. easy.
  - destruct d' as [n'|s'|l'|n'|n' l'|n' l']; try (exfalso; apply (clash _ _ _ _ H H' E); cbn [kind]; unfold digit, letter; lia).
    cbn [dense printable] in *. unfold str_debug in E. rewrite <- !app_comm_cons, <- !app_assoc in E. injection E as E.
    apply strings_inj in E as [-> ->]; try assumption. easy.
  - destruct d' as [n'|s'|l'|n'|n' l'|n' l']; try (exfalso; apply (clash _ _ _ _ H H' E); cbn [kind]; unfold digit, letter; lia).
    cbn [dense printable] in *. rewrite printable_all in H, H'. rewrite <- !app_comm_cons, <- !app_assoc in E. injection E as E. cbn [app] in E.
    eapply (listed_inj (dense last) printable last 93) in E as [-> ->]; try assumption; try easy.
    + intros x s HX. eapply open_not; [now apply dense_open|apply kind_closer].
    + intros x s HX K. pose proof (dense_open last x s HX) as O. now rewrite K in O.
  - cbn [dense printable] in H, E. destruct d' as [n'|s'|l'|n'|n' l'|n' l']; try (exfalso; apply (clash (DUnit n) _ r r' H H' E); cbn [kind]; unfold digit, letter; lia);
      cbn [dense printable] in H', E; rewrite <- ?app_assoc in E.
    + apply ident_inj in E as [-> ->]; try assumption; try now apply ended_inner. easy.
    + apply ident_inj in E as [-> ->]; try assumption; try reflexivity; try apply H'; try now apply ended_inner. discriminate HR.
    + apply ident_inj in E as [-> ->]; try assumption; try reflexivity; try apply H'; try now apply ended_inner. discriminate HR.
  - destruct d' as [n'|s'|l'|n'|n' l'|n' l']; try (exfalso; apply (clash _ _ r r' H H' E); cbn [kind]; unfold digit, letter; lia);
      cbn [dense printable] in H, H', E; rewrite <- ?app_assoc in E; destruct H as (H1 & H2 & H3).
    + apply ident_inj in E as [-> <-]; try assumption; try reflexivity; try now apply ended_inner. discriminate HR'.
    + destruct H' as (K1 & K2 & K3). apply ident_inj in E as [<- E]; try assumption; try reflexivity.
      rewrite printable_all in H3, K3. cbn [app] in E. apply cons_same in E. rewrite <- !app_assoc in E.
      eapply (listed_inj (dense last) printable last 41) in E as [-> ->]; try assumption; try easy.
      * intros x s HX. eapply open_not; [now apply dense_open|apply kind_closer].
      * intros x s HX K. pose proof (dense_open last x s HX) as O. now rewrite K in O.
    + destruct H' as (K1 & K2 & K3). apply ident_inj in E as [<- E]; try assumption; try reflexivity. discriminate.
  - destruct d' as [n'|s'|l'|n'|n' l'|n' l']; try (exfalso; apply (clash _ _ r r' H H' E); cbn [kind]; unfold digit, letter; lia);
      cbn [dense printable] in H, H', E; rewrite <- ?app_assoc in E; destruct H as (H1 & H2 & H3).
    + apply ident_inj in E as [-> <-]; try assumption; try reflexivity; try now apply ended_inner. discriminate HR'.
    + destruct H' as (K1 & K2 & K3). apply ident_inj in E as [<- E]; try assumption; try reflexivity. discriminate.
    + destruct H' as (K1 & K2 & K3). apply ident_inj in E as [<- E]; try assumption; try reflexivity.
      rewrite printable_fields in H3, K3. cbn [app] in E. apply cons_same in E. rewrite <- !app_assoc in E.
      eapply (listed_inj (fun x => match x with (f, d) => f ++ 58 :: dense last d end) printable_field last 125) in E as [-> ->]; try assumption; try easy.
      * intros [f x] s [HX _]. rewrite <- app_assoc. eapply open_not; [now apply ident_open|]. unfold closer, letter. lia.
      * intros [f x] s [HX _] K. rewrite <- app_assoc in K. pose proof (ident_open f ((58 :: dense last x) ++ s) HX) as O. cbn [fst] in O. now rewrite K in O.
      * eapply Forall_impl; [|exact IH]. intros [f x] HX [P1 P2] [g y] q q' [Q1 Q2] HQ HQ' HE. cbn [fst snd] in *. rewrite <- !app_assoc in HE.
        apply ident_inj in HE as [<- HE]; try assumption; try reflexivity. cbn [app] in HE. apply cons_same in HE. apply HX in HE as [<- <-]; try assumption. easy.
Qed.
Lemma dense_unique last d d' : (last = [] \/ last = [44]) -> printable d -> printable d' -> dense last d = dense last d' -> d = d'.
Proof. intros HL H H' E. apply (dense_inj last d HL H d' [] [] H' I I). now rewrite E. Qed.

(** ** Leaving out white space *)

Inductive place : Set := Outside | Inside | Escaped.
Definition next_place (p : place) (c : N) : place :=
  match p with
  | Outside => if c =? 34 then Inside else Outside
  | Inside => if c =? 34 then Outside else if c =? 92 then Escaped else Inside
  | Escaped => Inside
  end.
Fixpoint place_after (p : place) (s : str) : place := match s with [] => p | c :: s' => place_after (next_place p c) s' end.
Fixpoint squeeze (p : place) (s : str) : str :=
  match s with
  | [] => []
  | c :: s' => match p with Outside => if (c =? 32) || (c =? 10) then [] else [c] | _ => [c] end ++ squeeze (next_place p c) s'
  end.
Fixpoint calm (p : place) (s : str) : bool :=
  match s with
  | [] => true
  | c :: s' => match p with Outside => true | _ => negb (c =? 10) end && calm (next_place p c) s'
  end.
Lemma place_app s : forall p t, place_after p (s ++ t) = place_after (place_after p s) t.
Proof. induction s as [|c s IH]; intros p t; [reflexivity|]. apply IH. Qed.
Lemma squeeze_app s : forall p t, squeeze p (s ++ t) = squeeze p s ++ squeeze (place_after p s) t.
Proof. induction s as [|c s IH]; intros p t; [reflexivity|]. cbn [app squeeze place_after]. now rewrite IH, <- app_assoc. Qed.
Lemma calm_app s : forall p t, calm p (s ++ t) = calm p s && calm (place_after p s) t.
Proof. induction s as [|c s IH]; intros p t; [reflexivity|]. cbn [app calm place_after]. now rewrite IH, andb_assoc. Qed.
Lemma pad_place s : forall b p, calm p s = true -> (b = true -> p = Outside) ->
  squeeze p (pad b s) = squeeze p s /\ place_after p (pad b s) = place_after p s /\ calm p (pad b s) = true.
Proof.
  induction s as [|c s IH]; intros b p H HB; [easy|]. cbn [calm] in H. apply andb_prop in H as [H1 H2].
  destruct (IH (c =? nl) (next_place p c) H2) as (A & B & C).
  { unfold nl. intros E. apply N.eqb_eq in E as ->. destruct p; [reflexivity|discriminate H1|discriminate H1]. }
  cbn [pad]. destruct b.
  - rewrite (HB eq_refl) in *. rewrite squeeze_app, place_app, calm_app. change (squeeze Outside (lit "    ")) with (@nil N).
    change (place_after Outside (lit "    ")) with Outside. change (calm Outside (lit "    ")) with true. cbn [app squeeze place_after calm andb]. rewrite A, B, C. easy.
  - cbn [app squeeze place_after calm]. rewrite A, B, C, H1. easy.
Qed.

(** A text with a value: no line ends in strings, and the strings end. *)
Definition closed (s t : str) : Prop := squeeze Outside s = t /\ place_after Outside s = Outside /\ calm Outside s = true.
Lemma closed_app s t s' t' : closed s t -> closed s' t' -> closed (s ++ s') (t ++ t').
Proof. intros (A & B & C) (A' & B' & C'). unfold closed. rewrite squeeze_app, place_app, calm_app, B, A, A', C. easy. Qed.
Lemma closed_pad s t : closed s t -> closed (pad true s) t.
Proof. intros (A & B & C). destruct (pad_place s true Outside C ltac:(easy)) as (A' & B' & C'). unfold closed. now rewrite A', B', C'. Qed.
Lemma closed_plain s : forallb (fun c => negb ((c =? 32) || (c =? 10) || (c =? 34))) s = true -> closed s s.
Proof.
  induction s as [|c s IH]; intros H; [easy|]. cbn [forallb] in H. apply andb_prop in H as [H1 H2]. destruct (IH H2) as (A & B & C).
  unfold closed. cbn [squeeze place_after calm next_place]. replace (c =? 34) with false by lia. replace ((c =? 32) || (c =? 10)) with false by lia.
  rewrite A, B, C. easy.
Qed.
Lemma closed_ident n : ident n = true -> closed n n.
Proof.
  intros H. apply closed_plain. destruct n as [|c n]; [discriminate|]. cbn [ident] in H. apply andb_prop in H as [_ H].
  rewrite forallb_forall in *. intros x I. specialize (H x I). unfold inner, letter, digit in H. lia.
Qed.
Lemma closed_decimal n : closed (decimal n) (decimal n).
Proof. apply closed_plain. pose proof (decimal_digits n) as H. rewrite forallb_forall in *. intros x I. specialize (H x I). unfold digit in H. lia. Qed.
Lemma inside_plain s : forallb (fun c => negb ((c =? 10) || (c =? 34) || (c =? 92))) s = true ->
  squeeze Inside s = s /\ place_after Inside s = Inside /\ calm Inside s = true.
Proof.
  induction s as [|c s IH]; intros H; [easy|]. cbn [forallb] in H. apply andb_prop in H as [H1 H2]. destruct (IH H2) as (A & B & C).
  cbn [squeeze place_after calm next_place]. replace (c =? 34) with false by lia. replace (c =? 92) with false by lia. replace (c =? 10) with false by lia.
  cbn [app negb andb]. rewrite A, B, C. easy.
Qed.
Lemma inside_escape c : squeeze Inside (escape shown c) = escape shown c /\ place_after Inside (escape shown c) = Inside /\ calm Inside (escape shown c) = true.
Proof.
  destruct (escape_escaped c) as [X|X|X|X|[X|X]|X1 X2 X3|h X]; try (subst c; cbn; easy).
  - apply inside_plain. cbn [forallb]. lia.
  - assert (K : forallb (fun c => negb ((c =? 10) || (c =? 34) || (c =? 92))) (h ++ [125]) = true).
    { rewrite X. rewrite forallb_app. apply andb_true_intro. split; [|reflexivity]. pose proof (hex_loop_all 97 (S (N.to_nat (N.log2 c))) c [] eq_refl) as H. unfold hex.
      rewrite forallb_forall in *. intros x I. specialize (H x I). unfold hex_digit, digit in H. lia. }
    destruct (inside_plain _ K) as (A & B & C). clear K X. cbn [squeeze place_after calm next_place].
    change (92 =? 34) with false. change (92 =? 92) with true. change (92 =? 10) with false. change (117 =? 10) with false. change (123 =? 34) with false. change (123 =? 92) with false.
    change (123 =? 10) with false. cbn [app negb andb squeeze place_after calm next_place].
    change (123 =? 34) with false. change (123 =? 92) with false. change (123 =? 10) with false. cbn [app negb andb]. rewrite A, B, C. easy.
Qed.
Lemma closed_str s : closed (str_debug shown s) (str_debug shown s).
Proof.
  assert (K : squeeze Inside (flat_map (escape shown) s) = flat_map (escape shown) s /\ place_after Inside (flat_map (escape shown) s) = Inside /\
              calm Inside (flat_map (escape shown) s) = true).
  { induction s as [|c s (A & B & C)]; [easy|]. cbn [flat_map]. destruct (inside_escape c) as (A' & B' & C'). rewrite squeeze_app, place_app, calm_app, B', A', C', A, B, C. easy. }
  destruct K as (A & B & C). unfold closed, str_debug. cbn [squeeze place_after calm next_place]. change (34 =? 34) with true. change ((34 =? 32) || (34 =? 10)) with false.
  cbn [app]. rewrite squeeze_app, place_app, calm_app, A, B, C. easy.
Qed.

(** ** Both texts without their white space *)

Definition in_compact (d : dbg) : Prop := closed (compact shown d) (dense [] d).
Definition in_pretty (d : dbg) : Prop := closed (pretty shown d) (dense [44] d).
Lemma closed_commas l l' : Forall2 closed l l' -> closed (commas l) (listed [] l').
Proof.
  assert (K : forall l l', Forall2 closed l l' -> closed (flat_map (fun y => lit ", " ++ y) l) (flat_map (fun y => 44 :: y) l')).
  { clear. induction 1 as [|x y l l' H _ IH]; [easy|]. cbn [flat_map]. apply closed_app; [|exact IH]. change (44 :: y) with ([44] ++ y). apply closed_app; [easy|exact H]. }
  intros [|x y m m' H HF]; [easy|]. cbn [commas listed]. rewrite app_nil_r. apply closed_app; [exact H|now apply K].
Qed.
Lemma closed_items l l' : Forall2 closed l l' -> l <> [] -> closed (flat_map (fun x => pad true (x ++ lit "," ++ [nl])) l) (listed [44] l').
Proof.
  assert (K : forall l l', Forall2 closed l l' -> closed (flat_map (fun x => pad true (x ++ lit "," ++ [nl])) l) (flat_map (fun y => y ++ [44]) l')).
  { clear. induction 1 as [|x y l l' H _ IH]; [easy|]. cbn [flat_map]. apply closed_app; [|exact IH]. apply closed_pad, closed_app; [exact H|easy]. }
  intros H N. replace (listed [44] l') with (flat_map (fun y => y ++ [44]) l'); [now apply K|].
  destruct H as [|x y m m' _ H]; [easy|]. cbn [listed flat_map]. rewrite <- app_assoc. f_equal. clear. induction m' as [|z m' IH]; [reflexivity|].
  cbn [flat_map app] in *. rewrite <- !app_assoc. rewrite <- IH. reflexivity.
Qed.
Lemma Forall2_maps {A B C} (R : B -> C -> Prop) (f : A -> B) (g : A -> C) (l : list A) : Forall (fun x => R (f x) (g x)) l -> Forall2 R (map f l) (map g l).
Proof. induction 1; constructor; assumption. Qed.
Lemma both_imply {A} (P R : A -> Prop) l : Forall (fun x => P x -> R x) l -> Forall P l -> Forall R l.
Proof. induction 1; intros K; [constructor|]. inversion K; subst. constructor; auto. Qed.
Lemma compact_dense d : printable d -> in_compact d.
Proof.
  unfold in_compact. induction d as [n|s|l IH|n|n l IH|n l IH] using dbg_ind'; cbn [printable compact dense]; intros H.
  - apply closed_decimal.
  - apply closed_str.
  - rewrite printable_all in H. change (91 :: ?x) with ([91] ++ x). apply closed_app; [easy|]. apply closed_app; [|easy]. apply closed_commas, Forall2_maps.
    exact (both_imply _ _ _ IH H).
  - now apply closed_ident.
  - destruct H as (H1 & H2 & H3). rewrite printable_all in H3. destruct l as [|x l]; [easy|]. apply closed_app; [now apply closed_ident|].
    change (40 :: ?x) with ([40] ++ x). apply closed_app; [easy|]. apply closed_app; [|easy]. apply closed_commas, Forall2_maps. exact (both_imply _ _ _ IH H3).
  - destruct H as (H1 & H2 & H3). rewrite printable_fields in H3. destruct l as [|x l]; [easy|]. apply closed_app; [now apply closed_ident|].
    change (123 :: ?x) with ([123] ++ x). apply closed_app; [easy|]. apply closed_app; [|easy]. apply closed_commas, Forall2_maps.
    eapply (both_imply printable_field); [|exact H3]. eapply Forall_impl; [|exact IH]. intros [f y] HX [P1 P2]. cbn [fst snd] in *.
    apply closed_app; [now apply closed_ident|]. change (58 :: ?x) with ([58] ++ x). apply closed_app; [easy|auto].
Qed.
Lemma pretty_dense d : printable d -> in_pretty d.
Proof.
  unfold in_pretty. induction d as [n|s|l IH|n|n l IH|n l IH] using dbg_ind'; cbn [printable pretty dense]; intros H.
  - apply closed_decimal.
  - apply closed_str.
  - rewrite printable_all in H. change (91 :: ?x) with ([91] ++ x). destruct l as [|x l]; [easy|]. rewrite app_assoc. apply closed_app; [easy|]. apply closed_app; [|easy].
    apply closed_items; [|discriminate]. apply Forall2_maps. exact (both_imply _ _ _ IH H).
  - now apply closed_ident.
  - destruct H as (H1 & H2 & H3). rewrite printable_all in H3. destruct l as [|x l]; [easy|]. apply closed_app; [now apply closed_ident|].
    change (40 :: ?x) with ([40] ++ x). rewrite app_assoc. apply closed_app; [easy|]. apply closed_app; [|easy]. apply closed_items; [|discriminate]. apply Forall2_maps. exact (both_imply _ _ _ IH H3).
  - destruct H as (H1 & H2 & H3). rewrite printable_fields in H3. destruct l as [|x l]; [easy|]. apply closed_app; [now apply closed_ident|].
    change (123 :: ?x) with ([123] ++ x). rewrite app_assoc. apply closed_app; [easy|]. apply closed_app; [|easy]. apply closed_items; [|discriminate]. apply Forall2_maps.
    eapply (both_imply printable_field); [|exact H3]. eapply Forall_impl; [|exact IH]. intros [f y] HX [P1 P2]. cbn [fst snd] in *.
    apply closed_app; [now apply closed_ident|]. change (58 :: ?x) with ([58] ++ x). apply closed_app; [easy|auto].
Qed.
Lemma compact_unique d d' : printable d -> printable d' -> compact shown d = compact shown d' -> d = d'.
Proof.
  intros H H' E. destruct (compact_dense d H) as (A & _). destruct (compact_dense d' H') as (A' & _). rewrite E in A.
  apply (dense_unique []); try assumption; [now left|]. congruence.
Qed.
Lemma pretty_unique d d' : printable d -> printable d' -> pretty shown d = pretty shown d' -> d = d'.
Proof.
  intros H H' E. destruct (pretty_dense d H) as (A & _). destruct (pretty_dense d' H') as (A' & _). rewrite E in A.
  apply (dense_unique [44]); try assumption; [now right|]. congruence.
Qed.
End Text.
