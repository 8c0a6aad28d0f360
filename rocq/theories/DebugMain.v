(** Proofs about the printed texts of types, modules and streams. *)
From Verif Require Import Base CursorModel CursorSpec CursorHist StreamModel StreamSpec StreamHist StreamBounds Strings StringsProofs EnumModel SupportModel SupportSpec LayoutModel LayoutMain
  UnrollModel UnrollSpec UnrollProofs UnrollMain UnrollApi AttributeModel AttributeSpec AttributeMain TablesModel TypeTableModel RecordModel ModuleModel PipelineSpec PipelineProofs RuleSpec OpenSpec Opens ExtraModel ExtraProofs
  MessageModel MessageSpec MessageProofs DebugModel DebugSpec DebugProofs.
From Coq Require Import Lia ZifyBool ZifyNat ZifyN.
Ltac Zify.zify_post_hook ::= Z.div_mod_to_equations.
Local Open Scope N_scope.
#[local] Arguments N.add : simpl never.
#[local] Arguments N.mul : simpl never.
#[local] Arguments N.sub : simpl never.
#[local] Arguments N.pow : simpl never.

(** ** Types *)

Fixpoint ty_ind' (P : ty -> Prop)
  (HL : forall t, In t [THalf; TBFloat; TFloat; TDouble; TMetadata; TX86Fp80; TFp128; TPpcFp128; TVoid; TLabel; TX86Mmx; TX86Amx; TToken] -> P t)
  (HI : forall w, P (TInteger w)) (HF : forall r ps va, P r -> Forall P ps -> P (TFunction r ps va)) (HP : forall p a, P p -> P (TPointer p a))
  (HO : forall a, P (TOpaquePointer a)) (HS : forall n fs b, Forall P fs -> P (TStruct n fs b)) (HA : forall n x, P x -> P (TArray n x))
  (HV : forall n x, P x -> P (TFixedVector n x)) (HW : forall n x, P x -> P (TScalableVector n x)) (t : ty) : P t.
Proof.
  pose (rec := ty_ind' P HL HI HF HP HO HS HA HV HW).
  assert (all : forall l, Forall P l -> Forall P l) by auto.
  destruct t as [| | | | | | | | | | | | |w|r ps va|p a|a|n fs b|n x|n x|n x]; try (apply HL; cbn; tauto).
  - apply HI.
  - apply HF; [apply rec|]. exact ((fix go l : Forall P l := match l with [] => Forall_nil _ | x :: l => Forall_cons x (rec x) (go l) end) ps).
  - apply HP, rec.
  - apply HO.
  - apply HS. exact ((fix go l : Forall P l := match l with [] => Forall_nil _ | x :: l => Forall_cons x (rec x) (go l) end) fs).
  - apply HA, rec.
  - apply HV, rec.
  - apply HW, rec.
Defined.

Lemma printable_types l : Forall (fun t => printable (debug_type t)) l -> fold_right (fun x P => printable x /\ P) True (map debug_type l).
Proof. intros H. rewrite printable_all, Forall_map. exact H. Qed.
Lemma bool_printable b : printable (debug_bool b).
Proof. destruct b; reflexivity. Qed.
Lemma type_printable t : printable (debug_type t).
Proof.
  induction t as [t L|w|r ps va IHr IHps|p a IHp|a|n fs b IH|n x IHx|n x IHx|n x IHx] using ty_ind'.
  - cbn [In] in L. repeat (destruct L as [<-|L]; [reflexivity|]). contradiction.
  - cbn. repeat split; discriminate.
  - apply printable_types in IHps. cbn. repeat split; try discriminate; auto. apply bool_printable.
  - cbn. repeat split; try discriminate; auto.
  - cbn. repeat split; try discriminate; auto.
  - apply printable_types in IH. cbn. repeat split; try discriminate; auto; [|apply bool_printable]. destruct n as [s|]; [|reflexivity]. cbn. repeat split; discriminate.
  - cbn. repeat split; try discriminate; auto.
  - cbn. repeat split; try discriminate; auto.
  - cbn. repeat split; try discriminate; auto.
Qed.
Lemma map_same {A B} (f : A -> B) l : Forall (fun x => forall y, f x = f y -> x = y) l -> forall l', map f l = map f l' -> l = l'.
Proof.
  induction 1 as [|x l H _ IH]; intros [|y l'] E; try discriminate; [reflexivity|]. cbn [map] in E. injection E as E1 E2. f_equal; auto.
Qed.
Lemma bool_same a b : debug_bool a = debug_bool b -> a = b.
Proof. destruct a, b; intros H; (reflexivity || discriminate H). Qed.
Lemma option_same {A} (f : A -> dbg) (a b : option A) : (forall x y, f x = f y -> x = y) -> debug_option f a = debug_option f b -> a = b.
Proof. intros F. destruct a, b; cbn [debug_option]; intros H; try discriminate H; [|reflexivity]. injection H as H. f_equal. auto. Qed.
Lemma tuple_same n n' x x' : DTuple n [x] = DTuple n' [x'] -> n = n' /\ x = x'.
Proof. intros H. injection H as -> ->. easy. Qed.
Lemma struct2_same n n' f f' g g' x x' y y' : DStruct n [(f, x); (g, y)] = DStruct n' [(f', x'); (g', y')] -> x = x' /\ y = y'.
Proof. intros H. injection H as _ _ -> _ ->. easy. Qed.
Lemma struct3_same n n' f f' g g' h h' x x' y y' z z' : DStruct n [(f, x); (g, y); (h, z)] = DStruct n' [(f', x'); (g', y'); (h', z')] -> x = x' /\ y = y' /\ z = z'.
Proof. intros H. injection H as _ _ -> _ -> _ ->. easy. Qed.
Lemma seq_same l l' : DSeq l = DSeq l' -> l = l'.
Proof. now injection 1. Qed.
Lemma num_same n n' : DNum n = DNum n' -> n = n'.
Proof. now injection 1. Qed.
Lemma str_same n n' : DStr n = DStr n' -> n = n'.
Proof. now injection 1. Qed.
Lemma space_same a b : debug_space a = debug_space b -> a = b.
Proof. intros H. now apply tuple_same in H as [_ H%num_same]. Qed.
(** The name of the variant. *)
Definition head (d : dbg) : str := match d with DUnit n | DTuple n _ => n | _ => [] end.
Definition rank (t : ty) : N :=
  match t with
  | THalf => 0 | TBFloat => 1 | TFloat => 2 | TDouble => 3 | TMetadata => 4 | TX86Fp80 => 5 | TFp128 => 6 | TPpcFp128 => 7 | TVoid => 8 | TLabel => 9 | TX86Mmx => 10
  | TX86Amx => 11 | TToken => 12 | TInteger _ => 13 | TFunction _ _ _ => 14 | TPointer _ _ => 15 | TOpaquePointer _ => 16 | TStruct _ _ _ => 17 | TArray _ _ => 18
  | TFixedVector _ _ => 19 | TScalableVector _ _ => 20
  end.
Definition rank_of (s : str) : N :=
  match find (fun x => if list_eq_dec N.eq_dec (fst x) s then true else false)
    [(lit "Half", 0); (lit "BFloat", 1); (lit "Float", 2); (lit "Double", 3); (lit "Metadata", 4); (lit "X86Fp80", 5); (lit "Fp128", 6); (lit "PpcFp128", 7); (lit "Void", 8);
     (lit "Label", 9); (lit "X86Mmx", 10); (lit "X86Amx", 11); (lit "Token", 12); (lit "Integer", 13); (lit "Function", 14); (lit "Pointer", 15); (lit "OpaquePointer", 16);
     (lit "Struct", 17); (lit "Array", 18); (lit "FixedVector", 19); (lit "ScalableVector", 20)] with
  | Some (_, n) => n
  | None => 21
  end.
Lemma rank_head t : rank_of (head (debug_type t)) = rank t.
Proof. destruct t; vm_compute; reflexivity. Qed.
Lemma type_same t : forall t', debug_type t = debug_type t' -> t = t'.
Proof.
  induction t as [t L|w|r ps va IHr IHps|p a IHp|a|n fs b IH|n x IHx|n x IHx|n x IHx] using ty_ind'; intros t' E;
    pose proof (rank_head t') as R; rewrite <- E, rank_head in R.
  - cbn [In] in L. repeat (destruct L as [<-|L]; [destruct t'; (reflexivity || discriminate R)|]). contradiction.
  - destruct t' as [| | | | | | | | | | | | |w'| | | | | | |]; try discriminate R. cbn [debug_type] in E. apply tuple_same in E as [_ E]. injection E as ->. reflexivity.
  - destruct t' as [| | | | | | | | | | | | | |r' ps' va'| | | | | |]; try discriminate R. cbn [debug_type] in E. apply tuple_same in E as [_ E].
    apply struct3_same in E as (E1 & E2%seq_same & E3%bool_same). apply (map_same debug_type _ IHps) in E2 as ->. apply IHr in E1 as ->. now subst.
  - destruct t' as [| | | | | | | | | | | | | | |p' a'| | | | |]; try discriminate R. cbn [debug_type] in E. apply tuple_same in E as [_ E].
    apply struct2_same in E as (E1 & E2%space_same). apply IHp in E1 as ->. now subst.
  - destruct t' as [| | | | | | | | | | | | | | | |a'| | | |]; try discriminate R. cbn [debug_type] in E. apply tuple_same in E as [_ E%space_same]. now subst.
  - destruct t' as [| | | | | | | | | | | | | | | | |n' fs' b'| | |]; try discriminate R. cbn [debug_type] in E. apply tuple_same in E as [_ E].
    apply struct3_same in E as (E1 & E2%seq_same & E3%bool_same). apply (map_same debug_type _ IH) in E2 as ->. apply (option_same DStr _ _ str_same) in E1 as ->. now subst.
  - destruct t' as [| | | | | | | | | | | | | | | | | |n' x'| |]; try discriminate R. cbn [debug_type] in E. apply tuple_same in E as [_ E].
    apply struct2_same in E as (E1%num_same & E2). apply IHx in E2 as ->. now subst.
  - destruct t' as [| | | | | | | | | | | | | | | | | | |n' x'|]; try discriminate R. cbn [debug_type] in E. apply tuple_same in E as [_ E].
    apply struct2_same in E as (E1%num_same & E2). apply IHx in E2 as ->. now subst.
  - destruct t' as [| | | | | | | | | | | | | | | | | | | |n' x']; try discriminate R. cbn [debug_type] in E. apply tuple_same in E as [_ E].
    apply struct2_same in E as (E1%num_same & E2). apply IHx in E2 as ->. now subst.
Qed.
Lemma type_text_unique shown t t' :
  compact shown (debug_type t) = compact shown (debug_type t') \/ pretty shown (debug_type t) = pretty shown (debug_type t') -> t = t'.
Proof.
  intros [E|E]; apply type_same.
  - exact (compact_unique shown _ _ (type_printable t) (type_printable t') E).
  - exact (pretty_unique shown _ _ (type_printable t) (type_printable t') E).
Qed.

(** ** Modules *)

Lemma texts_printable l : fold_right (fun x P => printable x /\ P) True (map DStr l).
Proof. rewrite printable_all, Forall_map. now apply Forall_forall. Qed.
Lemma bytes_printable l : fold_right (fun x P => printable x /\ P) True (map DNum l).
Proof. rewrite printable_all, Forall_map. now apply Forall_forall. Qed.
Lemma module_printable m : printable (debug_bitcode_module m).
Proof.
  cbn. repeat split; try discriminate; try apply texts_printable; try apply bytes_printable.
  destruct (bm_symtab m) as [l|]; [|reflexivity]. cbn. repeat split; try discriminate. apply bytes_printable.
Qed.
Lemma modules_printable l : printable (debug_bitcode l).
Proof. cbn. repeat split; try discriminate. rewrite printable_all, Forall_map. apply Forall_forall. intros m _. apply module_printable. Qed.
Lemma strs_same l l' : map DStr l = map DStr l' -> l = l'.
Proof. apply map_same. apply Forall_forall. intros x _ y. apply str_same. Qed.
Lemma nums_same l l' : map DNum l = map DNum l' -> l = l'.
Proof. apply map_same. apply Forall_forall. intros x _ y. apply num_same. Qed.
Lemma module_same m m' : debug_bitcode_module m = debug_bitcode_module m' -> m = m'.
Proof.
  destruct m as [[p e] [t a d] s y], m' as [[p' e'] [t' a' d'] s' y']. unfold debug_bitcode_module, debug_identification, debug_module.
  cbn [bm_identification bm_module bm_strtab bm_symtab id_producer id_epoch md_triple md_asm md_deplibs]. intros H.
  assert (K : forall n f x g y h z i w x' y' z' w', DStruct n [(f, x); (g, y); (h, z); (i, w)] = DStruct n [(f, x'); (g, y'); (h, z'); (i, w')] -> x = x' /\ y = y' /\ z = z' /\ w = w').
  { clear. intros n f x g y h z i w x' y' z' w' H. injection H as -> -> -> ->. easy. }
  apply K in H as (H1 & H2 & H3 & H4). apply struct2_same in H1 as (->%str_same & ->%num_same). apply struct3_same in H2 as (->%str_same & ->%seq_same%strs_same & ->%seq_same%strs_same).
  apply tuple_same in H3 as (_ & ->%seq_same%nums_same). apply option_same in H4 as ->; [reflexivity|]. intros u v E. now apply tuple_same in E as (_ & E%seq_same%nums_same).
Qed.
Lemma modules_same l l' : debug_bitcode l = debug_bitcode l' -> l = l'.
Proof.
  unfold debug_bitcode. intros H. assert (K : forall n f x x', DStruct n [(f, x)] = DStruct n [(f, x')] -> x = x') by (clear; intros; now injection H).
  apply K, seq_same in H. revert H. apply map_same. apply Forall_forall. intros x _ y. apply module_same.
Qed.

(** Everything that is loaded has these forms. *)
Lemma string_text e r i s : try_string e r i = Ok s -> rust_text s.
Proof.
  unfold try_string. intros H. apply obind_iff in H as (fs & _ & H). apply obind_iff in H as (raw & _ & H). apply ok_or_ok in H. apply utf8_exact in H as [H _].
  apply Forall_forall. now apply forallb_forall.
Qed.
Lemma split_text c s : rust_text s -> Forall rust_text (split_on c s).
Proof.
  induction 1 as [|x s H _ IH]; cbn [split_on]; [repeat constructor|]. destruct (x =? c); [constructor; [constructor|exact IH]|].
  destruct (split_on c s) as [|p ps]; [repeat constructor; exact H|]. inversion IH; subst. constructor; [constructor; assumption|assumption].
Qed.
Lemma collect_all {A B E} (f : A -> outcome E B) (P : B -> Prop) l l' : (forall a b, f a = Ok b -> P b) -> collect f l = Ok l' -> Forall P l'.
Proof. intros F H. apply collect_iff in H. induction H as [|a b l l' X _ IH]; constructor; eauto. Qed.
Lemma blob_bytes e r i l : try_blob e r i = Ok l -> Forall (fun b => b < 256) l.
Proof.
  unfold try_blob. intros H. apply obind_iff in H as (fs & _ & H). revert H. apply collect_all. intros a b. unfold u8_of. destruct (a <? 256) eqn:E; [|discriminate].
  intros [= <-]. lia.
Qed.
Lemma module_texts e host t b m : rust_text host -> module_of e host t b = Ok m ->
  rust_text (md_triple m) /\ Forall rust_text (md_asm m) /\ Forall rust_text (md_deplibs m).
Proof.
  intros HH H. unfold module_of in H. apply obind_iff in H as ([[[m' c] fns] als] & H & E). injection E as <-. unfold module_map in H.
  apply obind_iff in H as (c0 & _ & H). apply obind_iff in H as (r & _ & H). apply obind_iff in H as (triple & T & H). apply obind_iff in H as (r' & _ & H).
  apply obind_iff in H as (asm & A & H). apply obind_iff in H as (deplibs & D & H). apply obind_iff in H as (f0 & _ & H). apply obind_iff in H as (b0 & _ & H).
  apply obind_iff in H as (a0 & _ & H). injection H as <- <- <- <-. cbn [md_triple md_asm md_deplibs]. repeat split.
  - destruct r as [r|]; [|injection T as <-; exact HH]. apply omap_err_iff in T. exact (string_text _ _ _ _ T).
  - destruct r' as [r'|]; [|injection A as <-; constructor]. apply obind_iff in A as (s & A & E). injection E as <-. apply omap_err_iff in A.
    apply split_text. exact (string_text _ _ _ _ A).
  - unfold strings_of in D. apply omap_err_iff in D. revert D. apply collect_all. intros a s. apply string_text.
Qed.
Lemma idents_fit k l : Forall (entry_fits k) (flat_map flat l) -> Forall (fun tm => Forall (entry_fits k) (flat (tm_identification tm))) (modules_of l).
Proof.
  induction l as [|t l IH]; intros F; [constructor|]. cbn [modules_of flat_map] in *. apply Forall_app in F as [F0 F].
  destruct (is_top IDENTIFICATION t); [|exact (IH F)]. constructor; [exact F0|exact (IH F)].
Qed.
Lemma reify_rust e host k tm p m : rust_text host -> Forall (entry_fits k) (flat (tm_identification tm)) -> carries tm p -> reify_module e host p = Ok m -> rust_module m.
Proof.
  intros HH F (C & _) H. unfold reify_module in H. apply obind_iff in H as (sb & _ & H). apply obind_iff in H as (t & T & H). apply omap_err_iff in T.
  apply obind_iff in H as (i & I1 & H). apply omap_err_iff in I1. apply obind_iff in H as (mb & _ & H). apply obind_iff in H as (md & M & H). apply omap_err_iff in M.
  apply obind_iff in H as (s & Y & H). injection H as <-. destruct (module_texts e host t mb md HH M) as (M1 & M2 & M3).
  unfold strtab_of in T. apply obind_iff in T as (r & _ & T). apply omap_err_iff in T. apply blob_bytes in T.
  unfold identification_of in I1. apply obind_iff in I1 as (r1 & _ & I1). apply obind_iff in I1 as (producer & P & I1). apply omap_err_iff in P. apply string_text in P.
  apply obind_iff in I1 as (r2 & R2 & I1). apply obind_iff in I1 as (epoch & E & I1). injection I1 as <-. apply ok_or_ok in R2, E.
  constructor; cbn [bm_identification bm_module bm_strtab bm_symtab id_producer id_epoch]; try assumption.
  - pose proof (unrolled_fits k _ _ F C) as G. rewrite Forall_forall in G.
    assert (In r2 (b_records (pt_identification p))) as J.
    { unfold one in R2. unfold by_code in R2. destruct (filter _ (b_records (pt_identification p))) as [|x l] eqn:FL; [discriminate|]. injection R2 as ->. assert (K : In r2 (filter (fun r => r_code r =? identification_code_num IcEpoch) (b_records (pt_identification p)))) by (rewrite FL; now left). now apply filter_In in K. }
    destruct (G r2 J) as [G1 _]. unfold fields64 in G1. destruct (r_fields r2) as [|x l]; [discriminate|]. injection E as <-. now inversion G1.
  - destruct (pt_symtab p) as [yb|]; [|injection Y as <-; exact I]. apply obind_iff in Y as (y & Y & E'). injection E' as <-. apply omap_err_iff in Y.
    unfold symtab_of in Y. apply obind_iff in Y as (r3 & _ & Y). apply omap_err_iff in Y. exact (blob_bytes _ _ _ _ Y).
Qed.

Lemma unrolled_rust e host buf ms : rust_text host -> bitcode_of e host buf = Ok ms -> Forall rust_module ms.
Proof.
  intros HH H. unfold bitcode_of in H. apply obind_iff in H as ([w b] & F & H). apply omap_err_iff in F. pose proof (from_reachable e buf w b F) as R.
  unfold bitcode_of_stream in H. apply obind_iff in H as (parts & U & H). apply omap_err_iff in U.
  destruct (unroll_ok e _ parts R U) as (forest & HS & _ & C). pose proof (idents_fit _ _ (stream_fits e _ forest R HS)) as I0.
  apply collect_iff in H. clear U HS. revert ms H I0. induction C as [|tm p tms ps C _ IH]; intros ms H I0; inversion H as [|? m ? ms' X Y]; subst; [constructor|].
  inversion I0; subst. constructor; [|now apply IH]. eapply reify_rust; eassumption.
Qed.
Lemma ok_same {E A} (x y : A) : @Ok E A x = Ok y -> x = y.
Proof. now injection 1. Qed.
Lemma unroll_text_unique shown e e' host host' buf buf' s ms ms' :
  unroll_output shown e host buf = Ok s -> unroll_output shown e' host' buf' = Ok s ->
  bitcode_of e host buf = Ok ms -> bitcode_of e' host' buf' = Ok ms' -> ms = ms'.
Proof.
  intros H H' B B'. unfold unroll_output in *. rewrite B in H. rewrite B' in H'. cbn [obind] in *. rewrite <- H' in H. apply ok_same in H.
  apply app_inv_tail in H. apply modules_same. apply (pretty_unique shown); [| |exact H]; apply modules_printable.
Qed.

(** ** Messages *)

Lemma message_text_unique shown (p p' : str) t t' : p = p' ->
  p ++ compact shown (debug_type t) = p' ++ compact shown (debug_type t') -> t = t'.
Proof. intros <- E. apply app_inv_head in E. apply (type_text_unique shown); auto. Qed.

(** ** Lines *)

Definition other (c d : N) : bool := negb (d =? c).
Lemma other_digits c s : digit c = false -> forallb digit s = true -> forallb (other c) s = true.
Proof. intros D H. rewrite forallb_forall in *. intros x I0. specialize (H x I0). unfold other. destruct (x =? c) eqn:E; [|reflexivity]. apply N.eqb_eq in E. congruence. Qed.
Lemma pad_plain x : forall r, forallb (other 10) x = true -> pad false (x ++ r) = x ++ pad false r.
Proof.
  induction x as [|c x IH]; intros r H; [reflexivity|]. cbn [forallb] in H. apply andb_prop in H as [H1 H2]. cbn [app pad]. unfold other in H1.
  unfold nl. destruct (c =? 10); [discriminate|]. now rewrite IH.
Qed.
Lemma wrapper_text shown w : pretty shown (debug_wrapper w) =
  lit "BitcodeWrapper {" ++ 10 :: lit "    magic: " ++ decimal (wr_magic w) ++ 44 :: 10 :: lit "    version: " ++ decimal (wr_version w) ++ 44 :: 10 ::
  lit "    offset: " ++ decimal (wr_offset w) ++ 44 :: 10 :: lit "    size: " ++ decimal (wr_size w) ++ 44 :: 10 :: lit "    cpu_type: " ++ decimal (wr_cpu w) ++ 44 :: 10 :: lit "}".
Proof.
  assert (K : forall c f n, forallb (other 10) (c :: f) = true -> pad true (((c :: f) ++ lit ": " ++ decimal n) ++ lit "," ++ [nl]) = lit "    " ++ (c :: f) ++ lit ": " ++ decimal n ++ [44; 10]).
  { intros c f n H. cbn [forallb] in H. apply andb_prop in H as [H1 H2]. cbn [app pad]. unfold other in H1. unfold nl. destruct (c =? 10); [discriminate|]. f_equal.
    f_equal. f_equal. f_equal. f_equal. rewrite <- app_assoc, pad_plain by exact H2. f_equal. rewrite <- app_assoc.
    rewrite (pad_plain (lit ": ")) by reflexivity. f_equal. rewrite pad_plain; [reflexivity|]. apply other_digits; [reflexivity|apply decimal_digits]. }
  unfold debug_wrapper. cbn [pretty map flat_map].
  rewrite (K 109 (lit "agic")) by reflexivity. rewrite (K 118 (lit "ersion")) by reflexivity. rewrite (K 111 (lit "ffset")) by reflexivity.
  rewrite (K 115 (lit "ize")) by reflexivity. rewrite (K 99 (lit "pu_type")) by reflexivity. rewrite <- !app_assoc. reflexivity.
Qed.
Lemma wrapper_line_inj shown w w' r r' : pretty shown (debug_wrapper w) ++ r = pretty shown (debug_wrapper w') ++ r' -> w = w' /\ r = r'.
Proof.
  intros H. rewrite !wrapper_text in H. rewrite <- !app_assoc in H. apply app_inv_head in H. cbn [app] in H. apply cons_same in H.
  destruct w as [m v o s c], w' as [m' v' o' s' c']. cbn [wr_magic wr_version wr_offset wr_size wr_cpu] in *.
  assert (step : forall (x : str) a b q q', (x ++ decimal a ++ 44 :: 10 :: q) ++ r = (x ++ decimal b ++ 44 :: 10 :: q') ++ r' -> a = b /\ q ++ r = q' ++ r').
  { intros x a b q q' E. rewrite <- !app_assoc in E. apply app_inv_head in E. apply decimal_inj in E as [-> E]; try reflexivity.
    cbn [app] in E. do 2 apply cons_same in E. easy. }
  apply step in H as [-> H]. apply step in H as [-> H]. apply step in H as [-> H]. apply step in H as [-> H]. apply step in H as [-> H]. apply app_inv_head in H. easy.
Qed.
(** The other lines without their tabulators. *)
Definition depth (l : line) : N := match l with LBlock n _ | LEnd n | LRecord n _ _ => n | _ => 0 end.
Definition rest (shown : N -> bool) (l : line) : str :=
  match l with
  | LWrapper w => []
  | LMagic m => lit "Entered bitstream; magic: 0x" ++ hex_upper m
  | LBlock n bid => lit "BLOCK " ++ decimal bid ++ lit " {"
  | LEnd n => lit "}"
  | LRecord n code fields => lit "RECORD { code: " ++ decimal code ++ lit ", fields: " ++ compact shown (DSeq (map DNum fields)) ++ lit " }"
  end.
Definition is_wrapper (l : line) : bool := match l with LWrapper _ => true | _ => false end.
Lemma line_parts shown l : is_wrapper l = false -> line_text shown l = (tabs (depth l) ++ rest shown l) ++ [10].
Proof. destruct l; intros H; try discriminate; reflexivity. Qed.
Lemma wrapper_line shown w : line_text shown (LWrapper w) = (lit "Wrapper: " ++ pretty shown (debug_wrapper w)) ++ [10].
Proof. reflexivity. Qed.
Lemma tabs_all n : forallb (N.eqb 9) (tabs n) = true.
Proof. unfold tabs. induction (N.to_nat n); [reflexivity|exact IHn0]. Qed.
Lemma tabs_same n n' : tabs n = tabs n' -> n = n'.
Proof. intros H. apply (f_equal (@length N)) in H. unfold tabs in H. rewrite !repeat_length in H. lia. Qed.
Lemma fields_plain shown l : forallb (other 10) (compact shown (DSeq (map DNum l))) = true.
Proof.
  cbn [compact]. rewrite map_map. cbn [compact]. rewrite !forallb_app. apply andb_true_intro. split; [reflexivity|]. apply andb_true_intro. split; [|reflexivity].
  assert (D : forall n, forallb (other 10) (decimal n) = true) by (intros n; apply other_digits; [reflexivity|apply decimal_digits]).
  destruct l as [|x l]; [reflexivity|]. cbn [map commas]. rewrite forallb_app, D. induction l as [|y l IH]; [reflexivity|]. cbn [map flat_map]. rewrite !forallb_app, D. exact IH.
Qed.
Lemma line_plain shown l : forallb (other 10) (tabs (depth l) ++ rest shown l) = true.
Proof.
  rewrite forallb_app. apply andb_true_intro. split.
  - pose proof (tabs_all (depth l)) as H. rewrite forallb_forall in *. intros x I0. specialize (H x I0). unfold other. lia.
  - assert (D : forall n, forallb (other 10) (decimal n) = true) by (intros n; apply other_digits; [reflexivity|apply decimal_digits]).
    destruct l as [w|m|n bid|n|n code fields]; cbn [rest]; try reflexivity; rewrite !forallb_app.
    + apply andb_true_intro. split; [reflexivity|]. pose proof (hex_loop_all 65 (S (N.to_nat (N.log2 m))) m [] eq_refl) as H. unfold hex_upper. change (ch "A") with 65.
      rewrite forallb_forall in *. intros x I0. specialize (H x I0). unfold hex_digit, digit in H. unfold other. lia.
    + rewrite D. reflexivity.
    + rewrite D, fields_plain. reflexivity.
Qed.
Lemma rest_open shown l r : is_wrapper l = false -> opens (N.eqb 9) (rest shown l ++ r) = false.
Proof. destruct l; intros H; try discriminate; reflexivity. Qed.
Lemma line_inj shown l l' r r' : line_text shown l ++ r = line_text shown l' ++ r' -> l = l' /\ r = r'.
Proof.
  intros H. destruct (is_wrapper l) eqn:W, (is_wrapper l') eqn:W'.
  - destruct l as [w| | | |]; try discriminate. destruct l' as [w'| | | |]; try discriminate. rewrite !wrapper_line in H. rewrite <- !app_assoc in H. apply app_inv_head in H.
    apply wrapper_line_inj in H as [-> H]. cbn [app] in H. apply cons_same in H. easy.
  - exfalso. destruct l as [w| | | |]; try discriminate. rewrite wrapper_line, (line_parts shown l' W') in H. rewrite <- !app_assoc in H.
    unfold tabs in H. destruct (N.to_nat (depth l')); [|discriminate]. destruct l'; discriminate.
  - exfalso. destruct l' as [w| | | |]; try discriminate. rewrite wrapper_line, (line_parts shown l W) in H. rewrite <- !app_assoc in H.
    unfold tabs in H. destruct (N.to_nat (depth l)); [|discriminate]. destruct l; discriminate.
  - rewrite (line_parts shown l W), (line_parts shown l' W') in H. rewrite <- (app_assoc _ [10] r), <- (app_assoc _ [10] r') in H.
    apply (span_inj (other 10)) in H as [H E]; try apply line_plain; try reflexivity. cbn [app] in E. apply cons_same in E. split; [|exact E]. clear E r r'.
    apply (span_inj (N.eqb 9)) in H as [T H]; try apply tabs_all; [|rewrite <- (app_nil_r (rest shown l)); now apply rest_open|rewrite <- (app_nil_r (rest shown l')); now apply rest_open].
    apply tabs_same in T.
    destruct l as [w|m|n bid|n|n code fields]; try discriminate W; destruct l' as [w'|m'|n' bid'|n'|n' code' fields']; try discriminate W'; cbn [rest depth] in *; subst;
      try reflexivity; try (exfalso; discriminate H).
    + apply app_inv_head in H. f_equal. change (hex 65 m = hex 65 m') in H.
      rewrite <- (app_nil_r (hex 65 m)), <- (app_nil_r (hex 65 m')) in H. apply (hex_inj 65) in H as [H _]; try assumption; try reflexivity. discriminate.
    + apply app_inv_head in H. apply decimal_inj in H as [-> _]; reflexivity.
    + apply app_inv_head in H. apply decimal_inj in H as [-> H]; try reflexivity. apply app_inv_head, app_inv_tail in H.
      apply (compact_unique shown) in H; [|apply bytes_printable|apply bytes_printable]. apply seq_same, nums_same in H. now subst.
Qed.
Lemma line_nonempty shown l : line_text shown l <> [].
Proof. unfold line_text. intros H. apply app_eq_nil in H as [_ H]. discriminate. Qed.
Lemma lines_same shown l : forall l', flat_map (line_text shown) l = flat_map (line_text shown) l' -> l = l'.
Proof.
  induction l as [|x l IH]; intros [|x' l'] H; cbn [flat_map] in H; [reflexivity| | |].
  - symmetry in H. apply app_eq_nil in H as [H _]. now apply line_nonempty in H.
  - apply app_eq_nil in H as [H _]. now apply line_nonempty in H.
  - apply line_inj in H as [-> H]. f_equal. now apply IH.
Qed.
Lemma dump_text_unique shown e e' buf buf' : dump_output shown e buf = dump_output shown e' buf' -> fst (dump e buf) = fst (dump e' buf').
Proof. apply lines_same. Qed.

(** One line per entry; the wrapper has seven. *)
Definition line_count (l : line) : nat := if is_wrapper l then 7 else 1.
Lemma count_plain s : forallb (other 10) s = true -> count_occ N.eq_dec s 10 = O.
Proof.
  intros H. apply count_occ_not_In. intros I0. rewrite forallb_forall in H. specialize (H _ I0). discriminate.
Qed.
Lemma line_lines shown l : count_occ N.eq_dec (line_text shown l) 10 = line_count l.
Proof.
  assert (D : forall n, count_occ N.eq_dec (decimal n) 10 = O) by (intros n; apply count_plain, other_digits; [reflexivity|apply decimal_digits]).
  destruct (is_wrapper l) eqn:W; unfold line_count; rewrite W.
  - destruct l as [w| | | |]; try discriminate. rewrite wrapper_line, wrapper_text.
    assert (K : forall q, count_occ N.eq_dec (44 :: 10 :: q) 10 = S (count_occ N.eq_dec q 10)) by reflexivity.
    assert (K' : forall q, count_occ N.eq_dec (10 :: q) 10 = S (count_occ N.eq_dec q 10)) by reflexivity.
    repeat (rewrite count_occ_app || rewrite D || rewrite K || rewrite K'). reflexivity.
  - rewrite (line_parts shown l W), count_occ_app, (count_plain _ (line_plain shown l)). reflexivity.
Qed.
Lemma dump_lines shown e buf : count_occ N.eq_dec (dump_output shown e buf) 10 = list_sum (map line_count (fst (dump e buf))).
Proof.
  unfold dump_output. induction (fst (dump e buf)) as [|l ls IH]; [reflexivity|]. cbn [flat_map map list_sum fold_right]. now rewrite count_occ_app, line_lines, IH.
Qed.
