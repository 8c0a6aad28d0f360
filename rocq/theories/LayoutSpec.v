(** Vocabulary for the data layout properties. *)
From Verif Require Import Base Strings SupportModel SupportSpec LayoutModel.
From Coq Require Import Sorted.
Local Open Scope N_scope.

(** Decimal numerals: one or more digits, possibly with leading zeros. *)
Definition digit (c : N) : Prop := 48 <= c <= 57.
Definition numeral_value (s : str) : N := fold_left (fun acc c => acc * 10 + (c - 48)) s 0.
Definition numeral (s : str) (n : N) : Prop := s <> [] /\ Forall digit s /\ numeral_value s = n.

(** The specifications of a layout string: the pieces between the dashes. *)
Definition specs (v : str) : list str := split_on (ch "-") v.

(** *** The language of layout strings *)

(** A number as the code reads it: a numeral, possibly after a plus sign. *)
Definition number (s : str) (n : N) : Prop :=
  numeral s n \/ exists s', s = ch "+" :: s' /\ numeral s' n.

(** A number of bits denoting an alignment: eight times a power of two below 2^64. *)
Definition bits (s : str) (a : align) : Prop :=
  number s (8 * 2 ^ a_shift a) /\ a_shift a <= 60.

(** Pieces put together with a separator. *)
Fixpoint join (c : N) (l : list str) : str :=
  match l with
  | [] => []
  | [s] => s
  | s :: l' => s ++ c :: join c l'
  end.
Definition pieces (c : N) (s : str) (l : list str) : Prop :=
  l <> [] /\ s = join c l /\ Forall (fun p => ~ In c p) l.

(** The preferred alignment: the next piece, or the same as the ABI alignment. *)
Definition pref_text (abi : align) (l : list str) (pref : align) : Prop :=
  match l with
  | [] => pref = abi
  | s :: _ => bits s pref
  end.

Definition type_of_letter (c : N) (w : N) (t : aligned_type) : Prop :=
  (c = ch "i" /\ t = AtInteger w) \/ (c = ch "v" /\ t = AtVector w) \/ (c = ch "f" /\ t = AtFloat w).

(** [a:<abi>[:<pref>]] and [i|v|f<width>:<abi>[:<pref>]]; further pieces are ignored. *)
Inductive type_text : str -> type_spec -> Prop :=
| TtAggregate s abi pref a l :
    pieces (ch ":") s (a :: l) -> bits a abi -> pref_text abi l pref ->
    a_shift abi <= a_shift pref <= 15 ->
    type_text (ch "a" :: ch ":" :: s) (mkTypeSpec AtAggregate abi pref)
| TtScalar c t s w n a l abi pref :
    pieces (ch ":") s (w :: a :: l) -> number w n -> 1 <= n <= 8388607 -> type_of_letter c n t ->
    bits a abi -> pref_text abi l pref -> a_shift abi <= a_shift pref <= 15 ->
    type_text (c :: s) (mkTypeSpec t abi pref).

(** [p[<space>]:<size>:<abi>[:<pref>[:<index>]]]. *)
Inductive ptr_text : str -> ptr_spec -> Prop :=
| PtText c s p0 p1 p2 l space size abi pref index :
    pieces (ch ":") s (p0 :: p1 :: p2 :: l) ->
    (p0 = [] /\ space = 0 \/ number p0 space /\ space <= 8388607) ->
    number p1 size -> size < two64 -> bits p2 abi -> pref_text abi l pref ->
    (match l with
     | _ :: x :: _ => number x index /\ index < two64
     | _ => index = size
     end) ->
    ptr_text (c :: s) (mkPtrSpec space abi pref size index).

(** What one specification settles. *)
Inductive setting : Set :=
| SEndian (v : endian) | SStack (a : align) | SProgram (n : N) | SGlobal (n : N) | SAlloca (n : N)
| SPointer (s : ptr_spec) | SType (s : type_spec) | SFn (f : fn_ptr_align) | SMangling (m : mangling)
| SNonIntegral (l : list N) | SNative (l : list N).

Definition space (s : str) (n : N) : Prop := number s n /\ n <= 8388607.

Definition mangling_letter : list (mangling * N) :=
  [(MElf, ch "e"); (MMips, ch "m"); (MMacho, ch "o"); (MWindowsX86Coff, ch "x");
   (MWindowsCoff, ch "w"); (MXCoff, ch "a")].

(** The specifications the parser understands, and what each says. A specification without
    a meaning is an error. *)
Inductive means : str -> setting -> Prop :=
| MeLittle s : means (ch "e" :: s) (SEndian Little)
| MeBig s : means (ch "E" :: s) (SEndian Big)
| MeStack s a : bits s a -> means (ch "S" :: s) (SStack a)
| MeProgram s n : space s n -> means (ch "P" :: s) (SProgram n)
| MeGlobal s n : space s n -> means (ch "G" :: s) (SGlobal n)
| MeAlloca s n : space s n -> means (ch "A" :: s) (SAlloca n)
| MePointer s p : ptr_text (ch "p" :: s) p -> means (ch "p" :: s) (SPointer p)
| MeType c s t : In c [ch "i"; ch "v"; ch "f"; ch "a"] -> type_text (c :: s) t -> means (c :: s) (SType t)
| MeFnIndependent s a : bits s a -> means (ch "F" :: ch "i" :: s) (SFn (FpIndependent a))
| MeFnMultiple s a : bits s a -> means (ch "F" :: ch "n" :: s) (SFn (FpMultiple a))
| MeMangling m c s : In (m, c) mangling_letter -> means (ch "m" :: ch ":" :: c :: s) (SMangling m)
| MeNonIntegral x s l ns :
    pieces (ch ":") s l -> Forall2 (fun p n => space p n /\ n <> 0) l ns ->
    means (ch "n" :: ch "i" :: x :: s) (SNonIntegral ns)
| MeNative s l ns :
    (forall s', s <> ch "i" :: s') -> s <> [] ->
    pieces (ch ":") s l -> Forall2 (fun p n => number p n /\ n < two32) l ns ->
    means (ch "n" :: s) (SNative ns).

(** The value of a component after a sequence of settings: what the last setting that
    touches it says, else the default. *)
Fixpoint last_of {A} (f : setting -> option A) (l : list setting) (default : A) : A :=
  match l with
  | [] => default
  | s :: l' => last_of f l' (match f s with Some v => v | None => default end)
  end.

(** A layout holds what a sequence of settings says. *)
Record holds (d : layout) (l : list setting) : Prop := {
  h_endian : dl_endianness d = last_of (fun s => match s with SEndian v => Some v | _ => None end) l Big;
  h_stack : dl_stack d = last_of (fun s => match s with SStack a => Some (Some a) | _ => None end) l None;
  h_program : dl_program_space d = last_of (fun s => match s with SProgram n => Some n | _ => None end) l 0;
  h_global : dl_global_space d = last_of (fun s => match s with SGlobal n => Some n | _ => None end) l 0;
  h_alloca : dl_alloca_space d = last_of (fun s => match s with SAlloca n => Some n | _ => None end) l 0;
  h_fn : dl_fn_ptr d = last_of (fun s => match s with SFn f => Some (Some f) | _ => None end) l None;
  h_mangling : dl_mangling d = last_of (fun s => match s with SMangling m => Some (Some m) | _ => None end) l None;
  h_native : dl_native d = last_of (fun s => match s with SNative x => Some x | _ => None end) l [];
  h_non_integral : dl_non_integral d =
    last_of (fun s => match s with SNonIntegral x => Some x | _ => None end) l [];
  (** the type alignments: for every key the last specification, else the default *)
  h_types : forall k, spec_for k (dl_types d) =
    spec_for k (rev (flat_map (fun s => match s with SType t => [t] | _ => [] end) l) ++ type_specs_default);
  h_types_sorted : StronglySorted (fun x y => key_lt (ts_type x) (ts_type y)) (dl_types d);
  (** the pointer alignments: per address space all specifications, equal neighbours once *)
  h_pointers : forall k, specs_of k (dl_pointers d) =
    collapse (specs_of k (ptr_specs_default ++ flat_map (fun s => match s with SPointer p => [p] | _ => [] end) l));
  h_pointers_sorted : StronglySorted (fun x y => ps_space x <= ps_space y) (dl_pointers d);
  (** no specification reaches the aggregate alignment *)
  h_aggregate : dl_aggregate d = ALIGN8
}.

(** The aggregate specifications of a layout string. *)
Definition about_aggregate (s : str) : bool := match s with c :: _ => c =? ch "a" | [] => false end.
