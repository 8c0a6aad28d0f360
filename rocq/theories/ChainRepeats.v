(** Proofs about messages that repeat the message of their cause. *)
From Verif Require Import Base CursorModel StreamModel Strings EnumModel SupportModel LayoutModel UnrollModel
  AttributeModel TablesModel TypeTableModel RecordModel ModuleModel ExtraModel ExtraProofs MessageModel MessageSpec MessageProofs DebugModel DebugSpec DebugProofs DebugMain DebugTypes
  ChainModel ChainSpec ChainProofs.
From Coq Require Import Lia ZifyBool ZifyNat ZifyN.
Local Open Scope N_scope.

Definition ends (a b : str) : Prop := exists p, a = p ++ b.
Fixpoint adjacent (c : list str) : Prop :=
  match c with
  | a :: ((b :: _) as t) => ends a b \/ adjacent t
  | _ => False
  end.
Lemma adjacent_iff c : adjacent c <-> repeats c.
Proof.
  induction c as [|a c IH].
  - split; [easy|]. intros (x & u & v & y & p & H & _). now destruct x.
  - destruct c as [|b c].
    + split; [easy|]. intros (x & u & v & y & p & H & _). destruct x as [|? [|? x]]; discriminate H.
    + cbn [adjacent] in *. rewrite IH. split.
      * intros [[p E]|(x & u & v & y & p & E & E')]; [now exists [], a, b, c, p|]. exists (a :: x), u, v, y, p. now rewrite E.
      * intros (x & u & v & y & p & E & E'). destruct x as [|d x].
        -- injection E as -> -> ->. left. now exists p.
        -- injection E as -> E. right. now exists x, u, v, y, p.
Qed.

Lemma too_long a b : (length a < length b)%nat -> ends a b -> False.
Proof. intros L [p ->]. rewrite app_length in L. lia. Qed.
Definition last_is (P : N -> bool) (s : str) : bool := match rev s with [] => false | c :: _ => P c end.
Lemma last_app P a b : last_is P b = true -> last_is P (a ++ b) = true.
Proof. unfold last_is. rewrite rev_app_distr. now destruct (rev b). Qed.
Lemma last_decimal v : last_is digit (decimal v) = true.
Proof.
  unfold last_is. destruct (rev (decimal v)) as [|c t] eqn:E.
  - exfalso. apply (f_equal (@rev N)) in E. rewrite rev_involutive in E. destruct (decimal_loop_head (N.to_nat (N.log2 v)) v) as (c & s & D & _). unfold decimal in E. rewrite D in E. discriminate E.
  - pose proof (decimal_digits v) as H. rewrite forallb_forall in H. apply H. apply in_rev. rewrite E. now left.
Qed.
Lemma other_last P a b : last_is P b = true -> last_is P a = false -> ends a b -> False.
Proof. intros B A [p ->]. rewrite last_app in A by assumption. discriminate. Qed.

Ltac never :=
  let H := fresh in
  intros H; exfalso; revert H;
  first [ refine (other_last digit _ _ _ _); [repeat apply last_app; apply last_decimal|reflexivity]
        | let E := fresh in intros [? E]; apply (f_equal (@rev N)) in E; rewrite !rev_app_distr in E; discriminate E
        | apply too_long; unfold cons_text, primitive_text; rewrite ?app_length; cbn; lia ].
Ltac nowhere := let H := fresh in intros H; cbn [adjacent] in H; repeat destruct H as [H|H]; exfalso; first [exact H|revert H; never|idtac].
Lemma stream_calm x : adjacent (lit "error while parsing the bitstream" :: stream_chain x) -> False.
Proof.
  destruct x as [|x|[|x]|v|v|x|x|i|x]; unfold stream_chain; try (destruct x); nowhere.
Qed.
Lemma joined p b : ends (p ++ b) b.
Proof. now exists p. Qed.
Lemma skip a c : adjacent c -> adjacent (a :: c).
Proof. destruct c; [easy|]. now right. Qed.
Lemma first_two a b c : ends a b -> adjacent (a :: b :: c).
Proof. now left. Qed.
Lemma table_twice_repeats x : table_twice x -> adjacent (strtab_chain x).
Proof. destruct 1; unfold strtab_chain, blob_chain; apply first_two, joined. Qed.
Lemma module_repeats shown x : adjacent (lit "error while mapping the bitsteam" :: lit "error while mapping module" :: module_chain shown x) <-> module_twice x.
Proof.
  split.
  - destruct x as [|x|x|x|x|x|x|x|x|x|x]; unfold module_chain.
    + nowhere.
    + intros _. constructor.
    + destruct x as [x|x|c| | |x|x|x]; try (intros _; constructor); unfold layout_chain; try destruct x; nowhere.
    + destruct x as [a b|i|v| |x|x| |x]; try (intros _; constructor); unfold tt_chain; try destruct x; nowhere.
    + destruct x as [v|v|c| | |v|x i|i|g|c n|n m]; unfold attr_chain; try destruct c; nowhere.
    + destruct x as [|n|x|v]; try (intros _; constructor); unfold comdat_chain; nowhere.
    + destruct x as [n| |x|v|v| |v|x|i|v|i|v]; unfold fn_chain; try destruct x; try (intros _; now repeat constructor); nowhere.
    + destruct x as [|v|x|v|x|x]; unfold fb_chain, unary_op_chain, binary_op_chain, inconsistent_chain; try destruct x; nowhere.
    + destruct x as [n| |x|v|v|v]; unfold alias_chain; try destruct x; try (intros _; now repeat constructor); nowhere.
    + unfold inconsistent_chain; destruct x; nowhere.
    + intros _. constructor.
  - intros H. do 2 apply skip. destruct H as [x|x|x|x|x|x|v|x H|x H|x]; unfold module_chain; apply skip.
    + apply first_two. apply joined.
    + apply first_two. apply joined.
    + apply first_two. apply joined.
    + apply first_two. apply joined.
    + unfold tt_chain. apply skip. apply first_two. apply joined.
    + unfold comdat_chain, strtab_chain. apply first_two. apply joined.
    + apply first_two. apply joined.
    + unfold fn_chain. apply skip. now apply table_twice_repeats.
    + unfold alias_chain. apply skip. now apply table_twice_repeats.
    + apply first_two. apply joined.
Qed.
Lemma repeats_exactly shown x : repeats (bitcode_chain shown x) <-> printed_twice x.
Proof.
  rewrite <- adjacent_iff. split.
  - destruct x as [x| | |x|x|x|x]; unfold bitcode_chain.
    + destruct x as [x| | | | |i]; [intros H; now apply stream_calm in H|nowhere..].
    + nowhere.
    + nowhere.
    + destruct x; try (intros _; now repeat constructor); unfold strtab_chain; nowhere.
    + destruct x; nowhere.
    + intros H. constructor. now apply (module_repeats shown).
    + destruct x; try (intros _; now repeat constructor); unfold symtab_chain; nowhere.
  - destruct 1 as [x H|x|x H]; unfold bitcode_chain.
    + do 2 apply skip. now apply table_twice_repeats.
    + do 2 apply skip. apply first_two. apply joined.
    + now apply module_repeats.
Qed.
