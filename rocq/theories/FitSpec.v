(** Which values a record can have that was written with an abbreviation
    (https://llvm.org/docs/BitCodeFormat.html, "Abbreviations"). *)
From Verif Require Import Base StreamModel.
Local Open Scope N_scope.

Definition between (a b v : N) : Prop := a <= v <= b.

(** One value for one operand that is neither an array nor a blob. The widths are those the
    cursor reads. *)
Definition value_fits (op : abbrev_op) (v : N) : Prop :=
  match op with
  | OpLiteral x => v = x
  | OpFixed w => between 1 63 w /\ v < 2 ^ w
  | OpVbr w => between 2 32 w /\ v < 2 ^ 64
  | OpChar6 => between 97 122 v \/ between 65 90 v \/ between 48 57 v \/ v = 46 \/ v = 95
  | OpArray _ | OpBlob => False
  end.

(** The values of a record, code first: one for every operand; an array or a blob, which is last,
    stands for any number of them. *)
Inductive values_fit : abbrev -> list N -> Prop :=
| FitNone : values_fit [] []
| FitOne op a v l : value_fits op v -> values_fit a l -> values_fit (op :: a) (v :: l)
| FitArray elem l : match elem with OpFixed _ | OpVbr _ | OpChar6 => True | _ => False end ->
    Forall (value_fits elem) l -> values_fit [OpArray elem] l
| FitBlob l : Forall (fun v => v < 256) l -> values_fit [OpBlob] l.

(** LLVM's reader (llvm/lib/Bitstream/Reader/BitstreamReader.cpp, readRecord and skipRecord) takes
    the code from the first operand alone, and gives up on an abbreviation that starts with an
    array or a blob. *)
Definition starts_scalar (a : abbrev) : Prop :=
  match a with OpArray _ :: _ | OpBlob :: _ | [] => False | _ => True end.
