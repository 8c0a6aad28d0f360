(** Property theorems C67 and C68: what hostile inputs can make the mapper use.

    [unroll_in e room s] (ResourceModel.v) is [unroll e s] with a stack for [room] activations of
    [enter_block], [None] is a stack overflow; [next_in e room s] is likewise [next] with a stack for
    [room] activations of [advance]; [silent_text], [nested], [deepest], [type_nodes], [type_depth],
    [table_nodes] and [records_size] are in ResourceSpec.v. *)
From Verif Require Import Base Strings EnumModel CursorModel StreamModel StreamSpec StreamHist StreamMain SupportModel
  UnrollModel UnrollSpec UnrollProofs UnrollMain UnrollApi UnrollStopSpec AttributeModel TypeTableModel ResourceModel ResourceSpec ResourceProofs
  ResourceTypes ResourceParser StreamEffect GrammarSpec CursorSpec.
From Coq Require Import Lia.
Local Open Scope N_scope.

(** *** C67: the stack *)

(** The bound has no other effect than the overflow. *)
Theorem C67_the_stack_only_overflows : forall e room s o, unroll_in e room s = Some o -> unroll e s = o.
Proof. exact unroll_in_unroll. Qed.
Print Assumptions C67_the_stack_only_overflows.

(** There is an overflow iff, behind complete blocks in order, more than [room] blocks are open in one another. *)
Theorem C67_overflows_exactly : forall e room s, parser_reachable e s ->
  (unroll_in e room s = None <->
   exists forest l, begins e s (flat_map flat forest ++ l) /\ well_grouped forest /\ nested (S room) l).
Proof. exact unroll_in_none. Qed.
Print Assumptions C67_overflows_exactly.

(** What a stream needs is the depth of its blocks. *)
Theorem C67_stack_needed_is_the_depth : forall e room s forest, parser_reachable e s -> stream_is e s forest -> well_grouped forest ->
  ((room < deepest forest)%nat -> unroll_in e room s = None) /\
  ((deepest forest <= room)%nat -> exists parts, unroll_in e room s = Some (Ok parts) /\ Forall2 carries (modules_of forest) parts).
Proof.
  intros e room s forest R ST W. split; [now apply unroll_in_depth|]. intros L. rewrite (unroll_in_fits e room s forest ST L).
  destruct (unroll_accepts e s forest R ST W) as (parts & E). exists parts. split; [now rewrite E|].
  destruct (unroll_ok e s parts R E) as (f & ST' & _ & C). now rewrite (stream_unique e s _ _ ST ST').
Qed.
Print Assumptions C67_stack_needed_is_the_depth.

(** One activation per bit is always enough. *)
Theorem C67_one_activation_per_bit_is_enough : forall e room s, parser_reachable e s -> (N.to_nat (bit_len (p_cur s)) <= room)%nat ->
  unroll_in e room s = Some (unroll e s).
Proof. exact unroll_in_bits. Qed.
Print Assumptions C67_one_activation_per_bit_is_enough.

(** The claim that some fixed stack is enough for every input fails: twelve bytes are enough for one more block. *)
Theorem C67_fixed_stack_refuted : forall e room, N.of_nat room < 2 ^ 30 ->
  exists buf b parts, N.of_nat (length buf) = 12 * N.of_nat room + 16 /\ from_raw buf = Ok b /\
    unroll e (bs_parser b) = Ok parts /\ unroll_in e room (bs_parser b) = None.
Proof. exact nest_overflows. Qed.
Print Assumptions C67_fixed_stack_refuted.

(** A module with a type block and, in a function block, a constants block: depth three. *)
Definition ex_deep : list item :=
  [IBlock 13 3 1 [IUnabbrev 2 [0]];
   IBlock 8 3 10 [IBlock 17 3 1 [IUnabbrev 1 [1]]; IBlock 12 3 4 [IBlock 11 3 1 []]]].
Definition ex_deep_bits : list bool := match write_stream 0xdec04342 ex_deep with Some b => b | None => [] end.
Definition ex_deep_parser : sparser cursor :=
  match from_raw (bytes_of_bits ex_deep_bits) with Ok b => bs_parser b | _ => parser_new (cur_new []) end.
Example C67_example :
  parser_reachable debug_env ex_deep_parser /\ stream_is debug_env ex_deep_parser (trees ex_deep) /\ well_grouped (trees ex_deep) /\
  deepest (trees ex_deep) = 3%nat /\ unroll_in debug_env 2 ex_deep_parser = None /\
  (exists parts, unroll_in debug_env 3 ex_deep_parser = Some (Ok parts) /\ length parts = 1%nat) /\
  nested 3 [ESubBlock 8 40; ESubBlock 17 4; ERecord None 1 [1]; EEndBlock; ESubBlock 12 16; ESubBlock 11 4].
Proof.
  split; [|split; [|split; [|split; [|split; [|split]]]]].
  - apply (from_raw_reachable debug_env (bytes_of_bits ex_deep_bits) (mkBitstream 0xdec04342 ex_deep_parser)). vm_compute. reflexivity.
  - exists 13%nat. vm_compute. reflexivity.
  - apply well_grouped_okay. vm_compute. intuition.
  - reflexivity.
  - vm_compute. reflexivity.
  - destruct (unroll_in debug_env 3 ex_deep_parser) as [[parts| | |]|] eqn:E; vm_compute in E; try discriminate E.
    injection E as <-. eexists. split; reflexivity.
  - exact (NsOuter 2 8 40 [TBlk 17 4 [TRec None 1 [1]]] _ (NsOuter 1 12 16 [] _ (NsLast 11 4 []))).
Qed.

(** The other recursion is the one of [advance]: the bound has no other effect here either, *)
Theorem C67_the_stack_of_a_call_only_overflows : forall e gap room s r, opened e gap s ->
  next_in e room s = Some r -> next e cursor_ops s = r.
Proof. intros e gap room s r HO. apply next_in_next. eapply opened_reachable, HO. Qed.
Print Assumptions C67_the_stack_of_a_call_only_overflows.

(** there is an overflow iff [room] constructs in a row are not told, *)
Theorem C67_a_call_overflows_exactly : forall e gap room s, opened e gap s ->
  (next_in e room s = None <->
   exists t rest, unread s = t ++ rest /\ silent_text e gap room (pos s) (registered (p_info s)) (p_scopes s) t).
Proof. exact next_in_none. Qed.
Print Assumptions C67_a_call_overflows_exactly.

(** one activation per bit, and one more, is enough, *)
Theorem C67_one_activation_per_unread_bit_is_enough : forall e gap room s, opened e gap s -> (length (unread s) < room)%nat ->
  next_in e room s = Some (next e cursor_ops s).
Proof. exact next_in_bits. Qed.
Print Assumptions C67_one_activation_per_unread_bit_is_enough.

(** and no fixed stack is: six bytes are enough for one more activation, in a stream that tells nothing and ends in order. *)
Theorem C67_fixed_stack_of_a_call_refuted : forall e room,
  exists buf b s', (length buf <= 6 * room + 16)%nat /\ from_raw buf = Ok b /\
    next e cursor_ops (bs_parser b) = (None, s') /\ next_in e room (bs_parser b) = None.
Proof. exact mute_overflows. Qed.
Print Assumptions C67_fixed_stack_of_a_call_refuted.

(** A BLOCKINFO block with an abbreviation for block 8 (SETBID, the definition, and the two ends of the block:
    four constructs that are not told), and a block. *)
Definition ex_mute : list item := [IBlock 0 2 2 [IUnabbrev 1 [8]; IDefine [OpLiteral 1; OpVbr 6]]; IBlock 8 3 1 []].
Definition ex_mute_bits : list bool := match write_stream 0xdec04342 ex_mute with Some b => b | None => [] end.
Definition ex_mute_parser : sparser cursor :=
  match from_raw (bytes_of_bits ex_mute_bits) with Ok b => bs_parser b | _ => parser_new (cur_new []) end.
Example C67_example_of_a_call :
  opened debug_env word_gap ex_mute_parser /\
  next_in debug_env 4 ex_mute_parser = None /\
  (exists s', next_in debug_env 5 ex_mute_parser = Some (Some (Ok (ESubBlock 8 4)), s') /\
              registered (p_info s') 8 = [[OpLiteral 1; OpVbr 6]]).
Proof.
  split; [|split].
  - apply (OpRaw debug_env (bytes_of_bits ex_mute_bits) (mkBitstream 0xdec04342 ex_mute_parser)). vm_compute. reflexivity.
  - vm_compute. reflexivity.
  - eexists. split; [vm_compute; reflexivity|reflexivity].
Qed.

(** *** C68: the types *)

Theorem C68_types_are_no_deeper_than_the_table_is_long : forall e b T, type_table_of e b = Ok T ->
  Forall (fun t => (type_depth t <= length T)%nat) T.
Proof. exact table_depth. Qed.
Print Assumptions C68_types_are_no_deeper_than_the_table_is_long.

Theorem C68_types_have_at_most_exponentially_many_nodes : forall e b T m, type_table_of e b = Ok T ->
  Forall (fun r => N.of_nat (length (r_fields r)) <= m) (b_records b) ->
  Forall (fun t => type_nodes t <= (m + 1) ^ N.of_nat (length T)) T.
Proof. exact table_size. Qed.
Print Assumptions C68_types_have_at_most_exponentially_many_nodes.

(** They can have that many: the table for [n + 1] entries has at least [2 ^ n] nodes. *)
Theorem C68_types_can_grow_exponentially : forall e n, N.of_nat n < alloc_limit e ->
  exists b T, records_size b = 4 * N.of_nat n + 4 /\ type_table_of e b = Ok T /\ length T = S n /\ 2 ^ N.of_nat n <= table_nodes T.
Proof. exact types_explode. Qed.
Print Assumptions C68_types_can_grow_exponentially.

(** So the claim that the table is at most so many times as large as its block fails for every factor. *)
Theorem C68_proportional_size_refuted : forall c, c < 2 ^ 64 ->
  exists b T, type_table_of debug_env b = Ok T /\ c * records_size b < table_nodes T.
Proof. exact types_disproportionate. Qed.
Print Assumptions C68_proportional_size_refuted.

(** i32, { i32, i32 } and a struct of two of these: seven nodes. *)
Example C68_example :
  type_table_of debug_env (mkBlock (BIr IbType) [mkRecord None 1 [3]; mkRecord None 7 [32]; mkRecord None 18 [0; 0; 0]; mkRecord None 18 [0; 1; 1]] [])
    = Ok [TInteger 32; TStruct None [TInteger 32; TInteger 32] false;
          TStruct None [TStruct None [TInteger 32; TInteger 32] false; TStruct None [TInteger 32; TInteger 32] false] false] /\
  type_nodes (TStruct None [TStruct None [TInteger 32; TInteger 32] false; TStruct None [TInteger 32; TInteger 32] false] false) = 7 /\
  type_depth (TStruct None [TStruct None [TInteger 32; TInteger 32] false; TStruct None [TInteger 32; TInteger 32] false] false) = 3%nat /\
  records_size (mkBlock (BIr IbType) [mkRecord None 1 [3]; mkRecord None 7 [32]; mkRecord None 18 [0; 0; 0]; mkRecord None 18 [0; 1; 1]] []) = 12.
Proof. repeat split. Qed.
