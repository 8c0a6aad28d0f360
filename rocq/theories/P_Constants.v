(** C78: llvm-constants is subsumed within llvm-support. *)
From Verif Require Import Base Strings EnumModel CursorModel StreamModel MessageModel ConstantsModel ConstantsProofs.
From Coq Require Import Lia.
Local Open Scope N_scope.

(** Two enumerations say the same: a number is converted to a variant of the same name by both or refused by both, and the
    variants of either are those of the other, with the same numbers. *)
Definition same_enumeration {A : Set} (k : enumeration) (of : N -> option A) (num : A -> N) (debug : A -> str) : Prop :=
  (forall v, variant_of k v = option_map debug (of v)) /\
  (forall x, In (debug x, num x) k) /\
  (forall name v, In (name, v) k -> exists x, debug x = name /\ num x = v).

Theorem C78_enumerations_agree :
  same_enumeration k_reserved_block_id reserved_block_id_of reserved_block_id_num reserved_block_id_debug /\
  same_enumeration k_ir_block_id ir_block_id_of ir_block_id_num ir_block_id_debug /\
  same_enumeration k_calling_convention calling_convention_of calling_convention_num calling_convention_debug /\
  same_enumeration k_identification_code identification_code_of identification_code_num identification_code_debug /\
  same_enumeration k_module_code module_code_of module_code_num module_code_debug /\
  same_enumeration k_type_code type_code_of type_code_num type_code_debug /\
  same_enumeration k_strtab_code strtab_code_of strtab_code_num strtab_code_debug /\
  same_enumeration k_symtab_code symtab_code_of symtab_code_num symtab_code_debug /\
  same_enumeration k_attribute_code attribute_code_of attribute_code_num attribute_code_debug.
Proof. exact enumerations_agree. Qed.
Print Assumptions C78_enumerations_agree.
Example C78_enumerations_example :
  variant_of k_calling_convention 75 = Some (lit "SPIRFUNC") /\ option_map calling_convention_debug (calling_convention_of 75) = Some (lit "SPIRFUNC") /\
  variant_of k_calling_convention 73 = None /\ calling_convention_of 73 = None /\
  variant_of k_module_code 10 = None /\ module_code_of 10 = None.
Proof. repeat split; reflexivity. Qed.

(** The three that the parser of streams converts to only: operand encodings, BLOCKINFO codes, reserved abbreviation ids. *)
Theorem C78_stream_enumerations_agree : forall v,
  variant_of k_abbrev_enc v = option_map abbrev_enc_debug (abbrev_enc_of v) /\
  variant_of k_blockinfo_code v = option_map blockinfo_code_debug (blockinfo_code_of v) /\
  variant_of k_reserved_abbrev_id v = reserved_abbrev_id_debug (abbrev_id_of v).
Proof. exact stream_enumerations_agree. Qed.
Print Assumptions C78_stream_enumerations_agree.
Example C78_stream_example :
  variant_of k_abbrev_enc 4 = Some (lit "Char6") /\ variant_of k_abbrev_enc 0 = None /\
  variant_of k_blockinfo_code 1 = Some (lit "SetBid") /\ variant_of k_reserved_abbrev_id 3 = Some (lit "UnabbrevRecord") /\
  abbrev_id_of 4 = IdDefined 4 /\ variant_of k_reserved_abbrev_id 4 = None.
Proof. repeat split; reflexivity. Qed.

(** In none of the twelve does a name or a number stand twice (as Rust demands of the declarations). *)
Theorem C78_no_duplicates : forall k,
  In k [k_reserved_block_id; k_ir_block_id; k_reserved_abbrev_id; k_abbrev_enc; k_calling_convention; k_blockinfo_code;
        k_identification_code; k_module_code; k_type_code; k_strtab_code; k_symtab_code; k_attribute_code] ->
  (forall name a b, In (name, a) k -> In (name, b) k -> a = b) /\
  (forall v a b, In (a, v) k -> In (b, v) k -> a = b) /\
  (forall name v, In (name, v) k <-> variant_of k v = Some name).
Proof. exact no_duplicates. Qed.
Print Assumptions C78_no_duplicates.
Example C78_no_duplicates_example : In (lit "Metadata", 16) k_type_code /\ variant_of k_type_code 16 = Some (lit "Metadata").
Proof. split; [|reflexivity]. cbn [k_type_code In]. tauto. Qed.

(** The constants are the same in both crates, and are the ones the parsers go by: where reserved ids end and those of the
    application begin; the width a stream starts with; the magics. *)
Theorem C78_constants_agree :
  K_LLVM_IR_MAGIC = LLVM_IR_MAGIC /\ K_BITCODE_WRAPPER_MAGIC = BITCODE_WRAPPER_MAGIC /\
  K_INITIAL_ABBREV_ID_WIDTH = sc_width ScInitial /\
  K_FIRST_APPLICATION_ABBREV_ID = FIRST_APPLICATION_ABBREV_ID /\ K_FIRST_APPLICATION_BLOCK_ID = FIRST_APPLICATION_BLOCK_ID /\
  K_CHAR6_ALPHABET = char6_alphabet /\
  (forall v, v < K_FIRST_APPLICATION_ABBREV_ID <-> abbrev_id_of v <> IdDefined v) /\
  (forall v, v < K_FIRST_APPLICATION_ABBREV_ID <-> variant_of k_reserved_abbrev_id v <> None) /\
  (forall v, v < K_FIRST_APPLICATION_BLOCK_ID <-> reserved_block_id_of v <> None) /\
  (forall v, v < K_FIRST_APPLICATION_BLOCK_ID <-> variant_of k_reserved_block_id v <> None) /\
  (forall v name, variant_of k_ir_block_id v = Some name -> K_FIRST_APPLICATION_BLOCK_ID <= v).
Proof. exact constants_agree. Qed.
Print Assumptions C78_constants_agree.
Example C78_constants_example :
  abbrev_id_of 3 = IdUnabbrevRecord /\ abbrev_id_of 4 = IdDefined 4 /\
  reserved_block_id_of 7 <> None /\ reserved_block_id_of 8 = None /\ variant_of k_ir_block_id 8 = Some (lit "Module") /\
  nth_error K_CHAR6_ALPHABET 62 = Some (ch ".").
Proof. repeat split; easy. Qed.
