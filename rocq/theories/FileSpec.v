(** Vocabulary for C82: how LLVM's reader splits a file into modules.

    [getBitcodeFileContents] and [readBlobInRecord] (llvm/lib/Bitcode/Reader/BitcodeReader.cpp), on the top-level entries of a stream.
    LLVM's check for garbage at the end is left out (see C81). *)
From Verif Require Import Base Strings EnumModel CursorModel StreamModel StreamSpec UnrollModel UnrollSpec.
Local Open Scope N_scope.

(** A module as LLVM finds it: the identification block immediately before it if there is one, and its string table, empty if it has
    none. *)
Record found : Set := mkFound { f_identification : option tree; f_module : tree; f_strtab : list N }.

(** The blob of the last BLOB record (1) of a STRTAB or SYMTAB block, if any. LLVM takes the blob of the record and not its fields, so an
    unabbreviated record has none. Simplified: the entries of a stream do not show the abbreviation, so an abbreviated record is taken to end
    with a blob and to have nothing else after its code. *)
Fixpoint blob_in (body : list tree) (acc : list N) : list N :=
  match body with
  | [] => acc
  | TRec a code fields :: body' => blob_in body' (if code =? 1 then match a with Some _ => fields | None => [] end else acc)
  | TBlk _ _ _ :: body' => blob_in body' acc
  end.
Definition table_of (t : tree) : list N := match t with TBlk _ _ body => blob_in body [] | TRec _ _ _ => [] end.

(** A string table goes to the modules before it, the last one first, up to one that has a string table. *)
Fixpoint hand_out (table : list N) (rmods : list found) : list found :=
  match rmods with
  | m :: rest =>
      match f_strtab m with
      | [] => mkFound (f_identification m) (f_module m) table :: hand_out table rest
      | _ => rmods
      end
  | [] => []
  end.

(** The loop over the top-level entries: [rmods] the modules found so far, the last one first; [symtab] the symbol table of the file, the
    first one that is not empty. An identification block has to be followed by a module block. Everything unknown is skipped. *)
Fixpoint llvm_loop (l : list tree) (rmods : list found) (symtab : list N) : option (list found * list N) :=
  match l with
  | [] => Some (rev rmods, symtab)
  | t :: l' =>
      if is_top IDENTIFICATION t then
        match l' with
        | m :: l'' => if is_top MODULE m then llvm_loop l'' (mkFound (Some t) m [] :: rmods) symtab else None
        | [] => None
        end
      else if is_top MODULE t then llvm_loop l' (mkFound None t [] :: rmods) symtab
      else if is_top STRTAB t then llvm_loop l' (hand_out (table_of t) rmods) symtab
      else if is_top SYMTAB t then llvm_loop l' rmods (match symtab with [] => table_of t | _ => symtab end)
      else llvm_loop l' rmods symtab
  end.
Definition llvm_file (l : list tree) : option (list found * list N) := llvm_loop l [] [].

(** One of the four kinds of blocks that are known at the top level. *)
Definition known_top (t : tree) : Prop := exists v, is_top v t = true /\ In v [IDENTIFICATION; MODULE; STRTAB; SYMTAB].

(** Tables as they are written: with one BLOB record, which is abbreviated and not empty. *)
Definition one_blob (t : tree) : Prop :=
  match t with
  | TBlk _ _ body => exists a fs l1 l2, fs <> [] /\ records_in body = l1 ++ mkRecord (Some a) 1 fs :: l2 /\
                       Forall (fun r => r_code r <> 1) (l1 ++ l2)
  | TRec _ _ _ => False
  end.
Definition proper_tables (l : list tree) : Prop :=
  Forall (fun t => is_top STRTAB t = true \/ is_top SYMTAB t = true -> one_blob t) l.

(** What LLVM found is the module [tm]. *)
Definition same_module (m : found) (tm : tmodule) : Prop :=
  f_identification m = Some (tm_identification tm) /\ tm_module tm = Some (f_module m) /\
  f_strtab m = match tm_strtab tm with Some t => table_of t | None => [] end.
