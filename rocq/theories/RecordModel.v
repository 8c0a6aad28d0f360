(** Model of llvm-mapper/src/map.rs (contexts) and llvm-mapper/src/record/comdat.rs, function.rs
    and alias.rs. *)
From Verif Require Import Base Strings EnumModel SupportModel LayoutModel UnrollModel AttributeModel
  TablesModel TypeTableModel.
Local Open Scope N_scope.

(** comdat.rs:42-55 [SelectionKind] and its derived [TryFromPrimitive]. *)
Inductive selection_kind : Set := SkAny | SkExactMatch | SkLargest | SkNoDeduplicate | SkSameSize.
(** comdat.rs:42: the derived [TryFromPrimitive]. *)
Definition selection_kind_of (v : N) : option selection_kind :=
  match v with
  | 0 => Some SkAny | 1 => Some SkExactMatch | 2 => Some SkLargest | 3 => Some SkNoDeduplicate
  | 4 => Some SkSameSize | _ => None
  end.
(** comdat.rs:57-65 [Comdat]. *)
Record comdat : Set := mkComdat { cd_kind : selection_kind; cd_name : str }.
(** comdat.rs:14-37 [ComdatError]; [Map] cannot occur, the version is always set (module.rs:82). *)
Inductive comdat_err : Set := CdV1 | CdTooShort (n : N) | CdName (x : strtab_err) | CdKind (v : N).

(** comdat.rs:67-92 [Comdat::try_map], in a context with this version and string table. *)
Definition comdat_of (e : env) (version : N) (t : strtab) (r : record) : outcome comdat_err comdat :=
  if negb (2 <=? version) then Err CdV1
  else
    match r_fields r with
    | [offset; size; kind] =>
        let? name := omap_err CdName (strtab_try_get e t offset size) in
        let? k := ok_or (selection_kind_of kind) (CdKind kind) in
        Ok (mkComdat k name)
    | l => Err (CdTooShort (N.of_nat (length l)))
    end.

(** map.rs:105-136 [MapCtx]. [PartialMapCtx] (58-69) is the same with an optional version and type
    table; in ModuleModel.v its fields are the local variables of the mapping. *)
Record mctx : Set := mkCtx {
  cx_version : N;
  cx_layout : layout;
  cx_sections : list str;
  cx_gcs : list str;
  cx_strtab : strtab;
  cx_groups : attr_groups;
  cx_attributes : attributes;
  cx_types : type_table;
  cx_comdats : list comdat
}.
(** map.rs:141-143 [use_strtab], 148-150 [use_relative_ids]. *)
Definition use_strtab (c : mctx) : bool := 2 <=? cx_version c.
(** map.rs:148-150 [use_relative_ids]. *)
Definition use_relative_ids (c : mctx) : bool := 1 <=? cx_version c.

(** function.rs:19-67 [FunctionError]. *)
Inductive fn_err : Set :=
| FeTooShort (n : N) | FeV1 | FeStrtab (x : strtab_err) | FeCallingConvention (v : N) | FeTypeId (v : N) | FeType
| FeAttribute (v : N) | FeAlignment (x : align_err) | FeSection (i : N) | FeVisibility (v : N) | FeGc (i : N)
| FeStorage (v : N).

(** function.rs:70-108 [Function]; the function type is the [Type] that wraps it. *)
Record fn_rec : Set := mkFn {
  fn_name : str;
  fn_ty : ty;
  fn_cc : calling_convention;
  fn_declaration : bool;
  fn_linkage : linkage;
  fn_attributes : option (list attr_group);
  fn_alignment : option align;
  fn_section : option str;
  fn_visibility : visibility;
  fn_gc : option str;
  fn_unnamed_addr : unnamed_addr;
  fn_storage : dll_storage_class
}.

(** [fields[n]] (function.rs:130-170, alias.rs:94-97, comdat.rs:82-85), used below the tested length only. *)
Definition fld (r : record) (n : nat) : N := nth n (r_fields r) 0.

(** function.rs:151-160, 168-178: a 1-based index into a table of strings; zero is none. *)
Definition table_entry {E} (bad : N -> E) (l : list str) (i : N) : outcome E (option str) :=
  if i =? 0 then Ok None
  else let? s := ok_or (nth_error l (N.to_nat (i - 1))) (bad (i - 1)) in Ok (Some s).

(** function.rs:110-220 [Function::try_map]. *)
Definition fn_of (e : env) (c : mctx) (r : record) : outcome fn_err fn_rec :=
  if negb (use_strtab c) then Err FeV1
  else if (length (r_fields r) <? 10)%nat then Err (FeTooShort (N.of_nat (length (r_fields r))))
  else
    let? name := omap_err FeStrtab (strtab_read_name e (cx_strtab c) r) in
    let? t := ok_or (types_get (cx_types c) (fld r 2)) (FeTypeId (fld r 2)) in
    let? t := match t with TFunction _ _ _ => Ok t | _ => Err FeType end in
    let? cc := ok_or (calling_convention_of (fld r 3)) (FeCallingConvention (fld r 3)) in
    let decl := negb (fld r 4 =? 0) in
    let link := linkage_of (fld r 5) in
    let? attrs :=
      if fld r 6 =? 0 then Ok None
      else let? a := ok_or (attributes_get (cx_attributes c) (fld r 6 - 1)) (FeAttribute (fld r 6)) in Ok (Some a) in
    let? al := omap_err FeAlignment (maybe_align_of (fld r 7 mod 256)) in
    let? sec := table_entry FeSection (cx_sections c) (fld r 8) in
    let? vis := ok_or (visibility_of (fld r 9)) (FeVisibility (fld r 9)) in
    let? gc := match nth_error (r_fields r) 10 with
               | None => Ok None
               | Some i => table_entry FeGc (cx_gcs c) i
               end in
    let ua := match nth_error (r_fields r) 11 with Some v => unnamed_addr_of v | None => UaNone end in
    let? dll := match nth_error (r_fields r) 13 with
                | None => Ok DllDefault
                | Some v => ok_or (dll_storage_class_of v) (FeStorage v)
                end in
    Ok (mkFn name t cc decl link attrs al sec vis gc ua dll).

(** alias.rs:16-41 [AliasError]. *)
Inductive alias_err : Set :=
| AlTooShort (n : N) | AlV1 | AlStrtab (x : strtab_err) | AlType (v : N) | AlVisibility (v : N) | AlStorage (v : N).
(** alias.rs:44-72 [Alias]. *)
Record alias_rec : Set := mkAlias {
  al_name : str;
  al_ty : ty;
  al_value : N;
  al_linkage : linkage;
  al_visibility : visibility;
  al_storage : dll_storage_class;
  al_tls : tls_mode;
  al_unnamed_addr : unnamed_addr;
  al_preemption : preemption
}.
(** alias.rs:74-138 [Alias::try_map]. *)
Definition alias_of (e : env) (c : mctx) (r : record) : outcome alias_err alias_rec :=
  if negb (use_strtab c) then Err AlV1
  else if (length (r_fields r) <? 5)%nat then Err (AlTooShort (N.of_nat (length (r_fields r))))
  else
    let? name := omap_err AlStrtab (strtab_read_name e (cx_strtab c) r) in
    let? t := ok_or (types_get (cx_types c) (fld r 2)) (AlType (fld r 2)) in
    let value := fld r 3 in
    let link := linkage_of (fld r 4) in
    let? vis := match nth_error (r_fields r) 5 with
                | None => Ok VisDefault
                | Some v => ok_or (visibility_of v) (AlVisibility v)
                end in
    let? dll := match nth_error (r_fields r) 6 with
                | None => Ok DllDefault
                | Some v => ok_or (dll_storage_class_of v) (AlStorage v)
                end in
    let tls := match nth_error (r_fields r) 7 with Some v => tls_mode_of v | None => TlsNotThreadLocal end in
    let ua := match nth_error (r_fields r) 8 with Some v => unnamed_addr_of v | None => UaNone end in
    let pre := match nth_error (r_fields r) 9 with Some v => preemption_of v | None => RpDsoPreemptable end in
    Ok (mkAlias name t value link vis dll tls ua pre).
