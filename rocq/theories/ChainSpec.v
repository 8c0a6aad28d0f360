(** Words for the statements about chains of messages. *)
From Verif Require Import Base Strings StreamModel SupportModel LayoutModel UnrollModel AttributeModel TablesModel TypeTableModel RecordModel ModuleModel.

(** A message of the chain ends with the message after it. *)
Definition repeats (c : list str) : Prop := exists before a b after p, c = before ++ a :: b :: after /\ a = p ++ b.

(** The errors with a cause that is printed twice, below. *)
Inductive table_twice : strtab_err -> Prop :=
| twice_blob x : table_twice (SbBadBlob x)
| twice_string u : table_twice (SbBadString u).
Inductive module_twice : module_err -> Prop :=
| twice_layout_string x : module_twice (MdLayoutString x)
| twice_layout_align x : module_twice (MdLayout (LeBadAlign x))
| twice_layout_int x : module_twice (MdLayout (LeBadInt x))
| twice_layout_spec x : module_twice (MdLayout (LeBadAlignSpec x))
| twice_type_string x : module_twice (MdTypes (TtString x))
| twice_comdat_name x : module_twice (MdComdat (CdName x))
| twice_comdat_kind v : module_twice (MdComdat (CdKind v))
| twice_function x : table_twice x -> module_twice (MdFunction (FeStrtab x))
| twice_alias x : table_twice x -> module_twice (MdAlias (AlStrtab x))
| twice_record_string x : module_twice (MdString x).
Inductive printed_twice : bitcode_err -> Prop :=
| twice_strtab x : table_twice x -> printed_twice (BcStrtab x)
| twice_symtab x : printed_twice (BcSymtab (SyInvalidBlob x))
| twice_module x : module_twice x -> printed_twice (BcModule x).
