(** Model of llvm-mapper/src/block/strtab.rs, symtab.rs, identification.rs and vst.rs. *)
From Verif Require Import Base Strings EnumModel UnrollModel.
Local Open Scope N_scope.

(** strtab.rs:15-36 [StrtabError] ([Map] is never constructed). *)
Inductive strtab_err : Set := SbMissingBlob | SbBadBlob (x : blob_err) | SbBadRange | SbBadString (x : utf8_err).

(** strtab.rs:39-46 [Strtab(Vec<u8>)]: the bytes. *)
Definition strtab : Set := list N.
(** strtab.rs:48-64 [TryFrom<&Block> for Strtab]. *)
Definition strtab_of (e : env) (b : block) : outcome strtab_err strtab :=
  let? r := ok_or (one (strtab_code_num StcBlob) (b_records b)) SbMissingBlob in
  omap_err SbBadBlob (try_blob e r 0).

(** strtab.rs:82, 87: addition of two [usize]. *)
Definition usize_add {E} (e : env) (a b : N) : outcome E N :=
  if a + b <? two64 then Ok (a + b)
  else if overflow_checks e then Panic PAddOverflow
  else Ok ((a + b) mod two64).

(** strtab.rs:79-89 [try_get] of the reference [(offset, size)] (llvm-support/src/lib.rs:127-147
    [StrtabRef]; [u64 as usize] is exact). *)
Definition strtab_try_get (e : env) (t : strtab) (offset size : N) : outcome strtab_err str :=
  let len := N.of_nat (length t) in
  if size =? 0 then Err SbBadRange
  else if len <=? offset then Err SbBadRange
  else
    let? last := usize_add e offset size in
    if len <? last then Err SbBadRange
    else
      let? last := usize_add e offset size in
      match slice t offset last with
      | None => Panic PSliceRange
      | Some raw => ok_or (utf8_decode raw) (SbBadString (utf8_error 0 raw))
      end.
(** strtab.rs:71-73 [get]. *)
Definition strtab_get (e : env) (t : strtab) (offset size : N) : outcome strtab_err (option str) :=
  match strtab_try_get e t offset size with
  | Ok s => Ok (Some s)
  | Err _ => Ok None
  | Panic p => Panic p
  | OutOfFuel => OutOfFuel
  end.
(** strtab.rs:97-101 [read_name]. *)
Definition strtab_read_name (e : env) (t : strtab) (r : record) : outcome strtab_err str :=
  match r_fields r with
  | offset :: size :: _ => strtab_try_get e t offset size
  | _ => Panic PSliceRange
  end.

(** symtab.rs:13-27 [SymtabError], 30-53 [Symtab] and its [TryFrom<&Block>]. *)
Inductive symtab_err : Set := SyMissingBlob | SyInvalidBlob (x : blob_err).
(** symtab.rs:33 [Symtab(Vec<u8>)]. *)
Definition symtab : Set := list N.
(** symtab.rs:41-53 [TryFrom<&Block>]. *)
Definition symtab_of (e : env) (b : block) : outcome symtab_err symtab :=
  let? r := ok_or (one (symtab_code_num SycBlob) (b_records b)) SyMissingBlob in
  omap_err SyInvalidBlob (try_blob e r 0).

(** identification.rs:12-28 [IdentificationError], 31-39 [Identification], 41-62
    [TryFrom<&Block>]. *)
Inductive ident_err : Set := IeMissingProducer | IeBadProducer | IeMissingEpoch.
(** identification.rs:34-39 [Identification]. *)
Record identification : Set := mkIdentification { id_producer : str; id_epoch : N }.
(** identification.rs:41-62 [TryFrom<&Block>]. *)
Definition identification_of (e : env) (b : block) : outcome ident_err identification :=
  let? r := ok_or (one (identification_code_num IcProducerString) (b_records b)) IeMissingProducer in
  let? producer := omap_err (fun _ => IeBadProducer) (try_string e r 0) in
  let? r := ok_or (one (identification_code_num IcEpoch) (b_records b)) IeMissingEpoch in
  let? epoch := ok_or (hd_error (r_fields r)) IeMissingEpoch in
  Ok (mkIdentification producer epoch).

(** vst.rs:23-46 [Vst] and its two conversions, which always succeed; [VstError] has no
    variant. *)
Definition vst_of (b : block) : unit := tt.
