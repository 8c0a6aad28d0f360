(** Vocabulary: values that fit into the Rust types of their fields. *)
From Verif Require Import Base Strings StreamModel SupportModel TablesModel ModuleModel.
Local Open Scope N_scope.

(** A [String]. *)
Definition rust_text (s : str) : Prop := Forall (fun c => is_scalar_value c = true) s.
(** A [Type]: widths and address spaces are u32, numbers of elements u64 and names [String]. *)
Inductive rust_type : ty -> Prop :=
| RtLeaf t : In t [THalf; TBFloat; TFloat; TDouble; TMetadata; TX86Fp80; TFp128; TPpcFp128; TVoid; TLabel; TX86Mmx; TX86Amx; TToken] -> rust_type t
| RtInteger w : w < 2 ^ 32 -> rust_type (TInteger w)
| RtFunction r ps va : rust_type r -> Forall rust_type ps -> rust_type (TFunction r ps va)
| RtPointer p a : rust_type p -> a < 2 ^ 32 -> rust_type (TPointer p a)
| RtOpaque a : a < 2 ^ 32 -> rust_type (TOpaquePointer a)
| RtStruct name fs packed : match name with Some s => rust_text s | None => True end -> Forall rust_type fs -> rust_type (TStruct name fs packed)
| RtArray n x : n < 2 ^ 64 -> rust_type x -> rust_type (TArray n x)
| RtFixed n x : n < 2 ^ 64 -> rust_type x -> rust_type (TFixedVector n x)
| RtScalable n x : n < 2 ^ 64 -> rust_type x -> rust_type (TScalableVector n x).
(** A [BitcodeModule]: texts are [String], the epoch is u64 and the tables are bytes. *)
Record rust_module (m : bitcode_module) : Prop := mkRustModule {
  rm_producer : rust_text (id_producer (bm_identification m));
  rm_epoch : id_epoch (bm_identification m) < 2 ^ 64;
  rm_triple : rust_text (md_triple (bm_module m));
  rm_asm : Forall rust_text (md_asm (bm_module m));
  rm_deplibs : Forall rust_text (md_deplibs (bm_module m));
  rm_strtab : Forall (fun b => b < 256) (bm_strtab m);
  rm_symtab : match bm_symtab m with Some l => Forall (fun b => b < 256) l | None => True end
}.
(** The errors of the constructors of types. *)
Definition rust_type_error (x : ty_err) : Prop :=
  match x with
  | TeIntWidth => True
  | TeStructElement t | TePointee t | TeArrayElement t | TeVectorElement t | TeReturn t | TeParameter t => rust_type t
  end.
