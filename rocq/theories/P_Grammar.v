(** Property theorems C65: the parser accepts exactly the bitstream format.

    [next_text], [tells] (GrammarSpec.v): the bitstream format as a grammar of bit strings.
    [opened e gap s]: [s] was made by [from_raw] or [from_wrapped] and called any number of
    times, whatever it returned; its alignments skip [gap]: up to the next multiple of 32
    ([word_gap]) in raw data and for payloads at whole words, [block_gap] for all payloads.
    [next_stops], [story] (GrammarStopSpec.v): the inputs that are no text of the format,
    with the error or panic they are for. [unread s]: the bits it has not consumed.
    [registered (p_info s)]: what BLOCKINFO registered for each block id. *)
From Verif Require Import Base CursorModel CursorSpec CursorHist StreamModel StreamSpec StreamHist
  StreamEffect StreamMain GrammarSpec GrammarProofs GrammarStopSpec GrammarStops.
Local Open Scope N_scope.

(** *** C65 *)

(** One call of [next]: entry, remaining bits, open blocks and registered abbreviations are
    exactly those the format gives. *)
Theorem C65_next_exactly : forall e gap s x rest scs' regs', opened e gap s ->
  ((exists s', next e cursor_ops s = (Some (Ok x), s') /\ unread s' = rest /\ p_scopes s' = scs' /\
      forall k, regs' k = registered (p_info s') k) <->
   exists t, unread s = t ++ rest /\ next_text e gap (pos s) (registered (p_info s)) (p_scopes s) t x scs' regs').
Proof. exact next_exactly. Qed.
Print Assumptions C65_next_exactly.

(** A whole buffer: the entries told by any number of calls are exactly those of the text
    after the magic. *)
Theorem C65_stream_exactly : forall e buf magic xs rest,
  (exists s, from_raw buf = Ok (mkBitstream magic s) /\
     run e cursor_ops (length xs) s = map (fun x => Some (Ok x)) xs /\
     unread (after e cursor_ops (length xs) s) = rest) <->
  N.of_nat (length buf) mod 4 = 0 /\
  exists t0 t, bits_of_bytes buf = t0 ++ t ++ rest /\ fixed_text 32 magic t0 /\
    tells e word_gap 32 (fun _ => []) [ScInitial] t xs.
Proof. exact stream_exactly. Qed.
Print Assumptions C65_stream_exactly.

(** In particular every written stream is a text of the format. *)
Theorem C65_written_streams_are_texts : forall e magic l bits,
  write_stream magic l = Some bits -> forallb (item_small (alloc_limit e)) l = true ->
  exists t0 t rest, bits_of_bytes (bytes_of_bits bits) = t0 ++ t ++ rest /\ fixed_text 32 magic t0 /\
    tells e word_gap 32 (fun _ => []) [ScInitial] t (entries l).
Proof.
  intros e magic l bits HW HS. destruct (written_raw e magic l bits HW HS) as (s & E & HR).
  specialize (HR 0%nat). rewrite Nat.add_0_r, app_nil_r in HR.
  destruct (proj1 (stream_exactly e (bytes_of_bits bits) magic (entries l) _)
    (ex_intro _ s (conj E (conj HR eq_refl)))) as (_ & t0 & t & H). eauto.
Qed.
Print Assumptions C65_written_streams_are_texts.

(** One call of [next] that returns no entry: the end of the input, each error and each
    panic is for exactly the inputs the format gives. *)
Theorem C65_stops_exactly : forall e gap s x, opened e gap s ->
  (fst (next e cursor_ops s) = told x <->
   next_stops e gap (pos s) (registered (p_info s)) (p_scopes s) (unread s) x).
Proof. exact next_stops_exactly. Qed.
Print Assumptions C65_stops_exactly.

(** A whole buffer: the entries told and the first end, error or panic. *)
Theorem C65_story_exactly : forall e buf magic xs x,
  (exists s, from_raw buf = Ok (mkBitstream magic s) /\
     run e cursor_ops (S (length xs)) s = map (fun x => Some (Ok x)) xs ++ [told x]) <->
  N.of_nat (length buf) mod 4 = 0 /\
  exists t l, bits_of_bytes buf = t ++ l /\ fixed_text 32 magic t /\ story e word_gap 32 (fun _ => []) [ScInitial] l xs x.
Proof. exact story_exactly. Qed.
Print Assumptions C65_story_exactly.

(** The format is unambiguous and complete: every buffer of whole words has one story. *)
Theorem C65_one_story : forall e buf, N.of_nat (length buf) mod 4 = 0 -> (4 <= length buf)%nat ->
  exists magic t l xs x, bits_of_bytes buf = t ++ l /\ fixed_text 32 magic t /\
    story e word_gap 32 (fun _ => []) [ScInitial] l xs x /\
    forall xs' x', story e word_gap 32 (fun _ => []) [ScInitial] l xs' x' -> xs' = xs /\ x' = x.
Proof. exact story_unique. Qed.
Print Assumptions C65_one_story.

(** *** C57 *)

(** Block lengths are whole words of a 32-bit count, block id 0 is never told, and the id of an
    abbreviation is no reserved one and a number of at most 63 bits. *)
Theorem C57_headers_fit : forall e gap s, opened e gap s ->
  (forall id len, fst (next e cursor_ops s) = Some (Ok (ESubBlock id len)) ->
     id <> 0 /\ exists words, words < 2 ^ 32 /\ len = 4 * words) /\
  (forall a code fields, fst (next e cursor_ops s) = Some (Ok (ERecord (Some a) code fields)) -> 4 <= a < 2 ^ 63).
Proof. exact headers_fit. Qed.
Print Assumptions C57_headers_fit.
(** The longest block is the one of [C65_example] below. *)

(** *** C18 *)

(** The inputs on which [advance] panics, exactly. *)
Theorem C18_panics_exactly : forall e gap s p, opened e gap s ->
  (fst (advance e cursor_ops s) = Panic p <->
   next_stops e gap (pos s) (registered (p_info s)) (p_scopes s) (unread s) (Crash p)).
Proof. exact advance_panics. Qed.
Print Assumptions C18_panics_exactly.

(** A text no writer makes: a block id in two groups, padding of ones, a wrong length word,
    a record with an id and a code in redundant groups, an end with padding of ones. *)
Definition ex_enter : list bool :=
  fixed_bits 2 1 ++ (fixed_bits 7 8 ++ [true] ++ fixed_bits 7 0 ++ [false]) ++ fixed_bits 4 3 ++
  repeat true 10 ++ fixed_bits 32 4294967295.
Definition ex_record : list bool :=
  fixed_bits 3 3 ++ (fixed_bits 5 2 ++ [true] ++ fixed_bits 5 0 ++ [true] ++ fixed_bits 5 1 ++ [false]) ++
  fixed_bits 6 1 ++ fixed_bits 6 9.
Definition ex_text : list bool := ex_enter ++ ex_record ++ fixed_bits 3 0 ++ repeat true 28.
Definition ex_text_bytes : list byte := bytes_of_bits (fixed_bits 32 0xdec04342 ++ ex_text).
Definition ex_text_entries : list entry :=
  [ESubBlock 8 17179869180; ERecord None 1026 [9]; EEndBlock].

Example C65_example_enter e : next_text e word_gap 32 (fun _ => []) [ScInitial] ex_enter (ESubBlock 8 17179869180)
  [ScBlock 3 8 None []; ScInitial] (fun _ => []).
Proof.
  assert (V : forall w v ps last, (2 <=? w) && (w <=? 32) = true ->
    forallb (fun p => N.of_nat (length p) =? w - 1) (last :: ps) = true -> N.of_nat (length ps) * (w - 1) <? 64 = true ->
    vbr_value ps last mod two64 = v -> wrapped_groups w 0 (ps ++ [last]) = v -> vbr_means e w v (vbr_text ps last)).
  { intros w v ps last H1 H2 H3 H4 H5. apply andb_prop in H1. destruct H1 as [H1 H1'].
    apply N.leb_le in H1, H1'. split; [now split|]. exists ps, last. cbn [forallb] in H2. apply andb_prop in H2.
    destruct H2 as [H2 H2']. apply N.eqb_eq in H2. split; [|split; [exact H2|split; [reflexivity|]]].
    - rewrite forallb_forall in H2'. apply Forall_forall. intros p Hp. now apply N.eqb_eq, H2'.
    - destruct (overflow_checks e); [|now symmetry]. split; [now apply N.ltb_lt|now symmetry]. }
  apply NStep.
  refine (SEnter e word_gap 32 (fun _ => []) ScInitial [] (fixed_bits 2 1) 8 (vbr_text [fixed_bits 7 8] (fixed_bits 7 0))
    3 (vbr_text [] (fixed_bits 3 3)) (repeat true 10) 4294967295 (fixed_bits 32 4294967295) (fun _ => []) _ _ _ _ _ _ _).
  - repeat split; discriminate.
  - apply V; reflexivity.
  - apply V; reflexivity.
  - discriminate.
  - reflexivity.
  - repeat split; discriminate.
  - reflexivity.
Qed.

Example C65_example : exists s, from_raw ex_text_bytes = Ok (mkBitstream 0xdec04342 s) /\ opened debug_env word_gap s /\
  run debug_env cursor_ops 3 s = map (fun x => Some (Ok x)) ex_text_entries /\
  unread (after debug_env cursor_ops 3 s) = [] /\
  bits_of_bytes ex_text_bytes = fixed_bits 32 0xdec04342 ++ ex_text /\
  write_stream 0xdec04342 [IBlock 8 3 1 [IUnabbrev 1026 [9]]] <> Some (fixed_bits 32 0xdec04342 ++ ex_text).
Proof.
  destruct (from_raw ex_text_bytes) as [[m s]|x|p|] eqn:E; [|vm_compute in E; discriminate E..].
  pose proof (OpRaw debug_env _ _ E) as HO. vm_compute in E. injection E as <- <-.
  eexists. split; [reflexivity|]. split; [exact HO|]. repeat split; try (vm_compute; reflexivity). vm_compute. discriminate.
Qed.
Example C65_example_tells : exists t, tells debug_env word_gap 32 (fun _ => []) [ScInitial] t ex_text_entries /\ t = ex_text.
Proof.
  destruct C65_example as (s & E & _ & HR & HU & HB & _).
  destruct (proj1 (C65_stream_exactly debug_env ex_text_bytes _ ex_text_entries [])
    (ex_intro _ s (conj E (conj HR HU)))) as (_ & t0 & t & HB' & (_ & _ & ->) & HT).
  exists t. split; [exact HT|]. rewrite app_nil_r, HB in HB'. symmetry. exact (app_inv_head _ _ _ HB').
Qed.

(** A block, a record in an abbreviation that was never defined. *)
Definition ex_stop_bytes : list byte :=
  bytes_of_bits (fixed_bits 32 0xdec04342 ++ ex_enter ++ fixed_bits 3 5 ++ repeat false 29).
Definition ex_stop_bits : list bool := fixed_bits 3 5 ++ repeat false 29.
Example C65_stop_example : exists s, from_raw ex_stop_bytes = Ok (mkBitstream 0xdec04342 s) /\ opened debug_env word_gap s /\
  run debug_env cursor_ops 2 s = [Some (Ok (ESubBlock 8 17179869180)); told (Stop (SBadAbbrev 5))] /\
  story debug_env word_gap 32 (fun _ => []) [ScInitial] (ex_enter ++ ex_stop_bits) [ESubBlock 8 17179869180] (Stop (SBadAbbrev 5)).
Proof.
  destruct (from_raw ex_stop_bytes) as [[m s]|x|p|] eqn:E; [|vm_compute in E; discriminate E..].
  pose proof (OpRaw debug_env _ _ E) as HO. vm_compute in E. injection E as <- <-.
  eexists. split; [reflexivity|]. split; [exact HO|]. split; [vm_compute; reflexivity|].
  eapply StoryCons; [apply C65_example_enter|]. apply StoryEnd, NStops.
  apply (StUndefined debug_env word_gap _ 3 8 None [] [ScInitial] (fixed_bits 3 5) 5 (repeat false 29)); [repeat split; discriminate|discriminate..].
Qed.

(** Every way to stop, on a block with ids of three bits: the bits after its header. *)
Definition ex_told (e : env) (l : list bool) : option (outcome serr entry) :=
  match from_raw (bytes_of_bits (fixed_bits 32 0xdec04342 ++ ex_enter ++ l)) with
  | Ok b => nth 1 (run e cursor_ops 2 (bs_parser b)) None
  | _ => None
  end.
Example C65_stops_examples :
  ex_told debug_env [] = told (Stop SExhausted) /\
  ex_told debug_env (fixed_bits 3 1 ++ repeat true 29) = told (Stop (SCursor Short)) /\
  ex_told release_env (fixed_bits 3 1 ++ repeat true 29) = told (Stop (SCursor Short)) /\
  ex_told debug_env (fixed_bits 3 1 ++ repeat true 125) = told (Crash PShiftOverflow) /\
  ex_told release_env (fixed_bits 3 1 ++ repeat true 125) = told (Stop (SCursor Short)) /\
  ex_told debug_env (fixed_bits 3 1 ++ repeat false 29) = told (Stop (SBadScope (SfWidth 0))) /\
  ex_told debug_env (fixed_bits 3 1 ++ fixed_bits 8 9 ++ fixed_bits 4 3 ++ repeat true 17) = told (Stop (SCursor Eof)) /\
  ex_told debug_env (fixed_bits 3 2 ++ repeat false 29) = told (Stop (SAbbrevParse AfNoOperand)) /\
  ex_told debug_env (fixed_bits 3 2 ++ fixed_bits 5 1 ++ [false] ++ fixed_bits 3 6 ++ repeat false 20) = told (Stop (SBadAbbrevOpEnc 6)) /\
  ex_told debug_env (fixed_bits 3 2 ++ fixed_bits 5 1 ++ [false] ++ fixed_bits 3 3 ++ repeat false 20) = told (Crash PAbbrevCount) /\
  ex_told release_env (fixed_bits 3 2 ++ fixed_bits 5 1 ++ [false] ++ fixed_bits 3 3 ++ repeat false 20) = told (Stop (SAbbrevParse AfArrayPlace)) /\
  ex_told debug_env (fixed_bits 3 4 ++ repeat false 29) = told (Stop (SBadAbbrev 4)).
Proof. repeat split; vm_compute; reflexivity. Qed.
