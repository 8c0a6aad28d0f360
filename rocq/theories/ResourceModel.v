(** Model of what the unrolling (llvm-mapper/src/unroll.rs) needs of the machine stack: the same code as
    in UnrollModel.v, with a bound on the number of activations of [enter_block] at one time. *)
From Verif Require Import Base Strings EnumModel CursorModel StreamModel UnrollModel.
Local Open Scope N_scope.

(** [?] on a call that may also overflow the stack ([None]). *)
Definition sbind {E A B} (m : option (outcome E A)) (k : A -> option (outcome E B)) : option (outcome E B) :=
  match m with
  | None => None
  | Some (Ok a) => k a
  | Some (Err x) => Some (Err x)
  | Some (Panic p) => Some (Panic p)
  | Some OutOfFuel => Some OutOfFuel
  end.

Section Stack.
  Context {S : Type} (nxt : S -> option (outcome serr entry) * S).

  (** unroll.rs:266-302 [enter_block] when [room] further activations fit on the stack; the recursive
      call is on line 286. Simplified: all activations are taken to be of one size, and of what else
      the code calls (the parser, the map) nothing is counted. *)
  Fixpoint enter_in (fuel room : nat) (b : block) (s : S) : option (outcome unroll_err (block * S)) :=
    match fuel with
    | O => Some OutOfFuel
    | Datatypes.S f =>
        match nxt s with
        | (None, _) => Some (Err UStreamEnd)
        | (Some r, s') =>
            sbind (Some (omap_err UParse r)) (fun x =>
            match x with
            | ERecord a c fs => enter_in f room (push_record (mkRecord a c fs) b) s'
            | ESubBlock id _ =>
                sbind (match room with O => None | Datatypes.S room' => enter_in f room' (block_new id) s' end)
                      (fun '(child, s'') => enter_in f room (push_block child b) s'')
            | EEndBlock => Some (Ok (b, s'))
            end)
        end
    end.

  (** unroll.rs:304-408: the loop over the top-level blocks; the call of [enter_block] is on line 328. *)
  Fixpoint tops_in (fuel room : nat) (rparts : list partial) (s : S) : option (outcome unroll_err (list partial)) :=
    match fuel with
    | O => Some OutOfFuel
    | Datatypes.S f =>
        match nxt s with
        | (None, _) => Some (Ok rparts)
        | (Some r, s') =>
            sbind (Some (omap_err UParse r)) (fun x =>
            match x with
            | ESubBlock id _ =>
                sbind (match room with O => None | Datatypes.S room' => enter_in f room' (block_new id) s' end)
                      (fun '(top, s'') =>
                sbind (Some (group top rparts)) (fun rparts' => tops_in f room rparts' s''))
            | _ => Some (Err UTopLevel)
            end)
        end
    end.
End Stack.

(** unroll.rs:258-408, as [unroll] in UnrollModel.v, with a stack for [room] activations of [enter_block]. *)
Definition unroll_in (e : env) (room : nat) (s : sparser cursor) : option (outcome unroll_err (list partial)) :=
  sbind (tops_in (next e cursor_ops) (N.to_nat (bit_len (p_cur s)) + 2) room [] s) (fun rparts => Some (Ok (rev rparts))).

(** parser.rs:384-431 [advance] and lib.rs:147-153 [next] with a stack for [room] activations of
    [advance]: the recursive calls (lines 410, 415, 420, 425, 429) follow a construct that is not
    told, and each costs [advance_loop] (StreamModel.v) one unit. Simplified as above; no other
    loop of the parser is recursive in the code. *)
Definition next_in (e : env) (room : nat) (s : sparser cursor) : option (option (outcome serr entry) * sparser cursor) :=
  match advance_loop e cursor_ops room s with
  | (OutOfFuel, _) => None
  | (Err SExhausted, s') => Some (None, s')
  | (r, s') => Some (Some r, s')
  end.
