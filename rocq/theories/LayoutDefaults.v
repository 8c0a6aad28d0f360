(** What a data layout says where its string is silent. *)
From Verif Require Import Base Strings EnumModel SupportModel SupportSpec SupportProofs SupportMain LayoutModel LayoutSpec LayoutProofs LayoutMain.
From Coq Require Import Lia.
Local Open Scope N_scope.

(** The layout of a module: of its DATALAYOUT record if it has one ([Some]), else [DataLayout::default()]. *)
Definition layout_given (o : option str) (d : layout) : Prop :=
  match o with
  | Some v => layout_from_str v = Ok d
  | None => d = layout_default
  end.
(** No specification of the string settles something of the kind [f]. *)
Definition silent (o : option str) (f : setting -> Prop) : Prop :=
  match o with
  | Some v => forall s c, In s (specs v) -> means s c -> ~ f c
  | None => True
  end.

Definition about_type (k : aligned_type) (c : setting) : Prop := exists t, c = SType t /\ ts_type t = k.
Definition about_space (n : N) (c : setting) : Prop := exists p, c = SPointer p /\ ps_space p = n.

Lemma layout_given_settings o d : layout_given o d ->
  exists cs, holds d cs /\ forall f, silent o f -> Forall (fun c => ~ f c) cs.
Proof.
  destruct o as [v|]; cbn; intros H.
  - destruct (layout_main v d H) as (_ & cs & M & Hd). exists cs. split; [exact Hd|]. intros f Q.
    assert (Q' : forall s c, In s (specs v) -> means s c -> ~ f c) by exact Q. clear Q Hd H.
    induction M as [|s c l cs Ms M IH]; constructor; [apply (Q' s); [now left|exact Ms]|].
    apply IH. intros s' c' I. apply Q'. now right.
  - subst d. exists []. split; [exact (fold_holds [])|]. intros; constructor.
Qed.

Lemma last_of_silent A (g : setting -> option A) cs v : Forall (fun c => ~ (g c <> None)) cs -> last_of g cs v = v.
Proof.
  induction 1 as [|c cs H _ IH]; cbn; [reflexivity|]. destruct (g c) eqn:E; [|exact IH].
  destruct H. discriminate.
Qed.

Lemma spec_for_app k l l' : (forall t, In t l -> ts_type t <> k) -> spec_for k (l ++ l') = spec_for k l'.
Proof.
  induction l as [|t l IH]; cbn; intros H; [reflexivity|]. unfold spec_for. cbn.
  destruct (type_key_dec (ts_type t) k) as [E|E]; [exfalso; apply (H t); [now left|exact E]|].
  apply IH. intros t' I. apply H. now right.
Qed.

Lemma silent_types o d k : layout_given o d -> silent o (about_type k) -> spec_for k (dl_types d) = spec_for k type_specs_default.
Proof.
  intros G Q. destruct (layout_given_settings o d G) as (cs & Hd & F). specialize (F _ Q).
  rewrite (h_types d cs Hd). apply spec_for_app. intros t I. apply in_rev, in_flat_map in I.
  destruct I as (c & I & J). intros E. rewrite Forall_forall in F. apply (F c I). destruct c; cbn in J; try contradiction.
  destruct J as [<-|[]]. exists s. auto.
Qed.

Lemma silent_pointers o d n : layout_given o d -> silent o (about_space n) ->
  specs_of n (dl_pointers d) = specs_of n ptr_specs_default.
Proof.
  intros G Q. destruct (layout_given_settings o d G) as (cs & Hd & F). specialize (F _ Q).
  rewrite (h_pointers d cs Hd). unfold specs_of. rewrite filter_app.
  assert (E : filter (fun s => ps_space s =? n) (flat_map (fun s => match s with SPointer p => [p] | _ => [] end) cs) = []).
  { clear Hd. induction F as [|c cs H F IH]; [reflexivity|]. cbn [flat_map]. rewrite filter_app, IH, app_nil_r.
    destruct c; try reflexivity. cbn. destruct (ps_space s =? n) eqn:E; [|reflexivity].
    apply N.eqb_eq in E. destruct H. exists s. auto. }
  rewrite E, app_nil_r. cbn [ptr_specs_default filter ptr_spec_default ps_space]. destruct (0 =? n); reflexivity.
Qed.

(** LLVM's defaults (the language reference, "Data Layout"): the alignments in bits, ABI and preferred.
    LLVM has them in DataLayout.cpp, they are not in /repo. For aggregates LLVM says "0 bits", that is one byte. *)
Definition llvm_defaults : list (aligned_type * (N * N)) :=
  [(AtInteger 1, (8, 8)); (AtInteger 8, (8, 8)); (AtInteger 16, (16, 16)); (AtInteger 32, (32, 32)); (AtInteger 64, (32, 64));
   (AtFloat 16, (16, 16)); (AtFloat 32, (32, 32)); (AtFloat 64, (64, 64)); (AtFloat 128, (128, 128));
   (AtVector 64, (64, 64)); (AtVector 128, (128, 128)); (AtAggregate, (8, 64))].

(** The alignments of a layout for a type, in bits. *)
Definition alignments (d : layout) (k : aligned_type) (abi pref : N) : Prop :=
  exists s, spec_for k (dl_types d) = Some s /\
    @bit_align align_err debug_env (ts_abi s) = Ok abi /\ @bit_align align_err debug_env (ts_pref s) = Ok pref.

Lemma defaults_main o d k abi pref : layout_given o d -> silent o (about_type k) ->
  In (k, (abi, pref)) llvm_defaults -> ~ In k [AtInteger 64; AtVector 64; AtVector 128; AtAggregate] -> alignments d k abi pref.
Proof.
  intros G Q I X. unfold alignments. rewrite (silent_types o d k G Q).
  cbn in I. repeat (destruct I as [[= <- <- <-]|I]; [first
    [ eexists; split; [reflexivity|split; vm_compute; reflexivity] | exfalso; apply X; cbn; tauto ]|]).
  destruct I.
Qed.
Lemma others_main o d : layout_given o d ->
  (silent o (about_type (AtInteger 64)) -> alignments d (AtInteger 64) 64 64) /\
  (silent o (about_type AtAggregate) -> alignments d AtAggregate 64 64) /\
  (forall k, silent o (about_type k) -> (exists s, spec_for k (dl_types d) = Some s) ->
     In k [AtInteger 1; AtInteger 8; AtInteger 16; AtInteger 32; AtInteger 64; AtFloat 16; AtFloat 32; AtFloat 64; AtFloat 128; AtAggregate]).
Proof.
  intros G. split; [|split].
  - intros Q. unfold alignments. rewrite (silent_types o d _ G Q). eexists; split; [reflexivity|split; vm_compute; reflexivity].
  - intros Q. unfold alignments. rewrite (silent_types o d _ G Q). eexists; split; [reflexivity|split; vm_compute; reflexivity].
  - intros k Q. rewrite (silent_types o d _ G Q). intros (s & F). unfold spec_for in F. apply find_some in F. destruct F as [I K].
    destruct (type_key_dec (ts_type s) k) as [<-|]; [|discriminate].
    cbn in I. repeat (destruct I as [<-|I]; [cbn; tauto|]). destruct I.
Qed.

Lemma rest_main o d : layout_given o d ->
  (silent o (fun c => exists v, c = SEndian v) -> dl_endianness d = Big) /\
  (silent o (fun c => exists v, c = SStack v) -> dl_stack d = None) /\
  (silent o (fun c => exists v, c = SProgram v) -> dl_program_space d = 0) /\
  (silent o (fun c => exists v, c = SGlobal v) -> dl_global_space d = 0) /\
  (silent o (fun c => exists v, c = SAlloca v) -> dl_alloca_space d = 0) /\
  (silent o (fun c => exists v, c = SFn v) -> dl_fn_ptr d = None) /\
  (silent o (fun c => exists v, c = SMangling v) -> dl_mangling d = None) /\
  (silent o (fun c => exists v, c = SNative v) -> dl_native d = []) /\
  (silent o (fun c => exists v, c = SNonIntegral v) -> dl_non_integral d = []).
Proof.
  intros G. destruct (layout_given_settings o d G) as (cs & Hd & F).
  repeat split; intros Q; specialize (F _ Q);
    [rewrite (h_endian d cs Hd)|rewrite (h_stack d cs Hd)|rewrite (h_program d cs Hd)|rewrite (h_global d cs Hd)
    |rewrite (h_alloca d cs Hd)|rewrite (h_fn d cs Hd)|rewrite (h_mangling d cs Hd)|rewrite (h_native d cs Hd)|rewrite (h_non_integral d cs Hd)];
    apply last_of_silent; (eapply Forall_impl; [|exact F]); intros c N X; apply N; destruct c; try (destruct X; reflexivity); eauto.
Qed.

Lemma pointers_main o d : layout_given o d ->
  (silent o (about_space 0) -> exists p, specs_of 0 (dl_pointers d) = [p] /\ ps_size p = 64 /\ ps_index p = 64 /\
     @bit_align align_err debug_env (ps_abi p) = Ok 64 /\ @bit_align align_err debug_env (ps_pref p) = Ok 64) /\
  (forall n, n <> 0 -> silent o (about_space n) -> specs_of n (dl_pointers d) = []).
Proof.
  intros G. split.
  - intros Q. rewrite (silent_pointers o d 0 G Q). eexists. split; [reflexivity|]. repeat split; vm_compute; reflexivity.
  - intros n Hn Q. rewrite (silent_pointers o d n G Q). cbn. destruct n; [congruence|reflexivity].
Qed.
