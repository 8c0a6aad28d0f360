(** Specification: streams with several BLOCKINFO blocks, as LLVM writes and reads them.

    LLVM's writer starts afresh with every BLOCKINFO block ([EnterBlockInfoBlock] clears the records of the writer,
    llvm/include/llvm/Bitstream/BitstreamWriter.h), and its reader takes what the last BLOCKINFO block said
    ([BitcodeReaderBase::readBlockInfo] assigns). Each module has a BLOCKINFO block of its own, so this matters for files of
    several modules (llvm-cat -b, split LTO units). *)
From Verif Require Import Base CursorSpec StreamModel StreamSpec.
Local Open Scope N_scope.

(** As [write_item] (StreamSpec.v), but for what a BLOCKINFO block (id 0) starts with. *)
Fixpoint llvm_item (it : item) (p : place) (pos : N) (st : wstate) {struct it} : option (list bool * wstate) :=
  match it with
  | IDefine _ | IUnabbrev _ _ | IAbbrev _ _ _ => write_item it p pos st
  | IBlock bid w' words body =>
      guard! (1 <=? w') && (w' <=? 63) in
      do! i := fixed (place_width p) 1 in
      do! b := vbr 8 bid in
      do! n := vbr 4 w' in
      do! l := fixed 32 words in
      let h := i ++ b ++ n in
      let head := h ++ pad (pos + blen h) ++ l in
      let start := pos + blen head in
      do! (x, st') :=
        (fix llvm_list (l : list item) (pos : N) (st : wstate) {struct l} : option (list bool * wstate) :=
           match l with
           | [] => Some ([], st)
           | it :: l' =>
               do! (x, st1) := llvm_item it (InBlock w' bid) pos st in
               do! (y, st2) := llvm_list l' (pos + blen x) st1 in
               Some (x ++ y, st2)
           end) body start (mkW (if bid =? 0 then fun _ => [] else w_info st) None (w_info st bid)) in
      let tail := fixed_bits w' 0 in
      let y := x ++ tail ++ pad (start + blen x + blen tail) in
      guard! blen y =? 32 * words in
      Some (head ++ y, mkW (w_info st') (w_bid st) (w_abbrevs st))
  end.
Fixpoint llvm_items (p : place) (l : list item) (pos : N) (st : wstate) : option (list bool * wstate) :=
  match l with
  | [] => Some ([], st)
  | it :: l' =>
      do! (x, st1) := llvm_item it p pos st in
      do! (y, st2) := llvm_items p l' (pos + blen x) st1 in
      Some (x ++ y, st2)
  end.
Definition llvm_stream (magic : N) (l : list item) : option (list bool) :=
  do! m := fixed 32 magic in
  do! (x, _) := llvm_items AtTop l 32 (mkW (fun _ => []) None []) in
  Some (m ++ x).

(** What a BLOCKINFO block defines, with the block ids the definitions are for; [sel] is the id of the last SETBID. *)
Fixpoint info_defs (sel : option N) (body : list item) : list (N * abbrev) :=
  match body with
  | [] => []
  | IDefine a :: l => match sel with Some b => (b, a) :: info_defs sel l | None => info_defs sel l end
  | IUnabbrev 1 (b :: _) :: l => info_defs (Some b) l
  | _ :: l => info_defs sel l
  end.
Definition for_block (b : N) (d : list (N * abbrev)) : list abbrev := map snd (filter (fun x => fst x =? b) d).
(** The BLOCKINFO blocks of an item in order. *)
Fixpoint infos_of (it : item) : list (list (N * abbrev)) :=
  match it with
  | IBlock bid _ _ body => if bid =? 0 then [info_defs None body] else flat_map infos_of body
  | _ => []
  end.
Definition is_define (it : item) : bool := match it with IDefine _ => true | _ => false end.
(** BLOCKINFO blocks consist of definitions and unabbreviated records. *)
Definition plain_info (body : list item) : bool :=
  forallb (fun it => match it with IDefine _ | IUnabbrev _ _ => true | _ => false end) body.

(** Behind these BLOCKINFO blocks, a block with this id and body has the same abbreviations under the ids it uses, whether only the
    last BLOCKINFO block counts or all of them do. *)
Definition same_ids (infos : list (list (N * abbrev))) (bid : N) (body : list item) : Prop :=
  let all := for_block bid (concat infos) in
  let latest := for_block bid (last infos []) in
  all = latest \/ (exists more, all = latest ++ more) /\ forallb (fun it => negb (is_define it)) body = true.
(** All blocks of an item, behind these BLOCKINFO blocks. *)
Fixpoint item_agrees (infos : list (list (N * abbrev))) (it : item) : Prop :=
  match it with
  | IBlock bid _ _ body =>
      if bid =? 0 then plain_info body = true
      else same_ids infos bid body /\
           (fix go (infos : list (list (N * abbrev))) (l : list item) : Prop :=
              match l with [] => True | it :: l' => item_agrees infos it /\ go (infos ++ infos_of it) l' end) infos body
  | _ => True
  end.
Fixpoint items_agree (infos : list (list (N * abbrev))) (l : list item) : Prop :=
  match l with [] => True | it :: l' => item_agrees infos it /\ items_agree (infos ++ infos_of it) l' end.

(** Every BLOCKINFO block is plain. *)
Fixpoint plain_item (it : item) : bool :=
  match it with IBlock bid _ _ body => if bid =? 0 then plain_info body else forallb plain_item body | _ => true end.
(** No block with an id for which [d] defines abbreviations defines some of its own. *)
Fixpoint no_own (d : list (N * abbrev)) (it : item) : bool :=
  match it with
  | IBlock bid _ _ body =>
      if bid =? 0 then true
      else (match for_block bid d with [] => true | _ => forallb (fun it => negb (is_define it)) body end) && forallb (no_own d) body
  | _ => true
  end.
