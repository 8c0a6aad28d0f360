(** Specification: what LLVM's reader makes of the records of a module that hold its version, triple, layout, assembly, section
    names and collector names (llvm/lib/Bitcode/Reader/BitcodeReader.cpp of LLVM 13 and 14: [parseModule], [parseVersionRecord],
    [convertToString]; llvm/include/llvm/IR/Module.h: [setModuleInlineAsm]). The check that TRIPLE and DATALAYOUT come before the
    functions and LLVM's parser of layouts are left out: [None] is a version LLVM refuses, [Some] does not say that LLVM reads the
    module. *)
From Verif Require Import Base Strings UnrollModel.
Local Open Scope N_scope.

Record llvm_strings : Type := mkLlvmStrings {
  ls_version : N;
  ls_triple : list N;
  ls_layout : list N;
  ls_asm : list N;
  ls_sections : list (list N);
  ls_gcs : list (list N)
}.

(** Fields are cut to bytes, which need not be UTF-8. *)
Definition llvm_bytes (r : record) : list N := map (fun f => f mod 256) (r_fields r).
(** Assembly ends in a line feed unless there is none. *)
Definition terminated (l : list N) : list N :=
  match rev l with [] => [] | x :: _ => if x =? 10 then l else l ++ [10] end.

(** Of repeated records the last one counts; names of sections and collectors are collected. *)
Definition llvm_module_step (r : record) (s : llvm_strings) : option llvm_strings :=
  let '(mkLlvmStrings version triple layout asm sections gcs) := s in
  match r_code r with
  | 1 => match r_fields r with
         | v :: _ => if 2 <? v then None else Some (mkLlvmStrings v triple layout asm sections gcs)
         | [] => None
         end
  | 2 => Some (mkLlvmStrings version (llvm_bytes r) layout asm sections gcs)
  | 3 => Some (mkLlvmStrings version triple (llvm_bytes r) asm sections gcs)
  | 4 => Some (mkLlvmStrings version triple layout (terminated (llvm_bytes r)) sections gcs)
  | 5 => Some (mkLlvmStrings version triple layout asm (sections ++ [llvm_bytes r]) gcs)
  | 11 => Some (mkLlvmStrings version triple layout asm sections (gcs ++ [llvm_bytes r]))
  | _ => Some s
  end.
Fixpoint llvm_module_loop (l : list record) (s : llvm_strings) : option llvm_strings :=
  match l with
  | [] => Some s
  | r :: l => match llvm_module_step r s with Some s => llvm_module_loop l s | None => None end
  end.
(** Without a VERSION record the version is 0. *)
Definition llvm_module_strings (b : block) : option llvm_strings :=
  llvm_module_loop (b_records b) (mkLlvmStrings 0 [] [] [] [] []).

(** IDENTIFICATION blocks ([readIdentificationBlock]): the STRING records are appended to each other, the epoch is cut to 32 bits
    and has to be 0, other records and blocks are errors. LLVM reads the first field of an EPOCH record without looking
    whether there is one; here that is an error. *)
Fixpoint llvm_identification_loop (l : list record) (s : list N) : option (list N) :=
  match l with
  | [] => Some s
  | r :: l =>
      match r_code r, r_fields r with
      | 1, _ => llvm_identification_loop l (s ++ llvm_bytes r)
      | 2, v :: _ => if v mod 2 ^ 32 =? 0 then llvm_identification_loop l s else None
      | _, _ => None
      end
  end.
Definition llvm_identification (b : block) : option (list N) :=
  match b_blocks b with [] => llvm_identification_loop (b_records b) [] | _ => None end.
