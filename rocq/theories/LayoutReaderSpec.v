(** LLVM's reading of data layout strings ([DataLayout::parseSpecifier] of
    lib/IR/DataLayout.cpp, LLVM 14), written down from LLVM's own rules, not from /repo: which
    specifications it accepts and what each of them says. *)
From Verif Require Import Base Strings SupportModel SupportSpec LayoutModel LayoutSpec.
Local Open Scope N_scope.

(** [getInt]: decimal digits, no sign, fitting the type of the result. *)
Definition llvm_int (s : str) (n : N) : Prop := numeral s n /\ n < two32.
(** [getIntInBytes]: a number of bits that is a multiple of eight, as a number of bytes. *)
Definition llvm_bytes (s : str) (k : N) : Prop := llvm_int s (8 * k).
(** The same for the alignments held in 64 bits (of the stack and of function pointers). *)
Definition llvm_bytes64 (s : str) (k : N) : Prop := numeral s (8 * k) /\ 8 * k < two64.
Definition power_of_two (k : N) : Prop := exists j, k = 2 ^ j.
(** Zero, or a power of two. *)
Definition zero_or_power (k : N) : Prop := k = 0 \/ power_of_two k.
(** [getAddrSpace]. *)
Definition llvm_space (s : str) (n : N) : Prop := llvm_int s n /\ n < 2 ^ 24.
(** [split] refuses a separator with nothing behind it: what remains after a piece is either
    no further piece, or something that is not the empty text. *)
Definition goes_on (rest : list str) : Prop := rest <> [[]].

(** The kinds of types with an alignment. *)
Inductive llvm_kind : Set := LkInteger | LkVector | LkFloat | LkAggregate.
(** What one specification says to LLVM; sizes and alignments in bytes, 0 for an alignment
    given as 0. *)
Inductive llvm_setting : Set :=
| LsNothing
| LsEndian (v : endian)
| LsStack (bytes : N) | LsProgram (n : N) | LsGlobal (n : N) | LsAlloca (n : N)
| LsPointer (space size abi pref index : N)
| LsType (k : llvm_kind) (width abi pref : N)
| LsFnIndependent (bytes : N) | LsFnMultiple (bytes : N)
| LsMangling (letter : N)
| LsNonIntegral (l : list N) | LsNative (l : list N).

Definition kind_letter (k : llvm_kind) : N :=
  match k with LkInteger => ch "i" | LkVector => ch "v" | LkFloat => ch "f" | LkAggregate => ch "a" end.

(** The preferred alignment and the index size of pointers: both optional. *)
Inductive llvm_pointer_rest (size abi : N) : list str -> N -> N -> Prop :=
| LprNone : llvm_pointer_rest size abi [] abi size
| LprPref s pref : llvm_bytes s pref -> power_of_two pref -> llvm_pointer_rest size abi [s] pref size
| LprIndex s t rest pref index :
    llvm_bytes s pref -> power_of_two pref -> llvm_bytes t index -> index <> 0 -> goes_on rest ->
    llvm_pointer_rest size abi (s :: t :: rest) pref index.
(** The preferred alignment of types. *)
Inductive llvm_type_rest (abi : N) : list str -> N -> Prop :=
| LtrNone : llvm_type_rest abi [] abi
| LtrPref s rest pref : llvm_bytes s pref -> goes_on rest -> llvm_type_rest abi (s :: rest) pref.

(** One specification: the text up to the first colon, and the pieces behind it. *)
Inductive llvm_spec : str -> list str -> llvm_setting -> Prop :=
| LpNothing t rest : llvm_spec (ch "s" :: t) rest LsNothing
| LpLittle t rest : llvm_spec (ch "e" :: t) rest (LsEndian Little)
| LpBig t rest : llvm_spec (ch "E" :: t) rest (LsEndian Big)
| LpPointer t s1 s2 rest space size abi pref index :
    (t = [] /\ space = 0 \/ llvm_space t space) ->
    llvm_bytes s1 size -> size <> 0 -> llvm_bytes s2 abi -> power_of_two abi ->
    llvm_pointer_rest size abi rest pref index -> abi <= pref ->
    llvm_spec (ch "p" :: t) (s1 :: s2 :: rest) (LsPointer space size abi pref index)
| LpType k t s rest width abi pref :
    (t = [] /\ width = 0 \/ llvm_int t width) -> width < 2 ^ 24 ->
    (k = LkAggregate -> width = 0) -> (k <> LkAggregate -> abi <> 0) ->
    llvm_bytes s abi -> abi < 2 ^ 16 -> zero_or_power abi ->
    llvm_type_rest abi rest pref -> pref < 2 ^ 16 -> zero_or_power pref ->
    (** an alignment of 0 stands for 1 here *)
    N.max 1 abi <= N.max 1 pref ->
    llvm_spec (kind_letter k :: t) (s :: rest) (LsType k width abi pref)
| LpNonIntegral s rest ns :
    Forall2 (fun p n => llvm_int p n /\ n <> 0) (s :: rest) ns ->
    llvm_spec [ch "n"; ch "i"] (s :: rest) (LsNonIntegral ns)
| LpNative t rest ns :
    Forall2 (fun p n => llvm_int p n /\ n <> 0) (t :: rest) ns ->
    llvm_spec (ch "n" :: t) rest (LsNative ns)
| LpStack t rest k : llvm_bytes64 t k -> zero_or_power k -> llvm_spec (ch "S" :: t) rest (LsStack k)
| LpFnIndependent t rest k :
    llvm_bytes64 t k -> zero_or_power k -> llvm_spec (ch "F" :: ch "i" :: t) rest (LsFnIndependent k)
| LpFnMultiple t rest k :
    llvm_bytes64 t k -> zero_or_power k -> llvm_spec (ch "F" :: ch "n" :: t) rest (LsFnMultiple k)
| LpProgram t rest n : llvm_space t n -> llvm_spec (ch "P" :: t) rest (LsProgram n)
| LpGlobal t rest n : llvm_space t n -> llvm_spec (ch "G" :: t) rest (LsGlobal n)
| LpAlloca t rest n : llvm_space t n -> llvm_spec (ch "A" :: t) rest (LsAlloca n)
| LpMangling c : In c (lit "elomwxa") -> llvm_spec [ch "m"] [[c]] (LsMangling c).

Definition llvm_means (s : str) (y : llvm_setting) : Prop :=
  exists tok rest, pieces (ch ":") s (tok :: rest) /\ goes_on rest /\ llvm_spec tok rest y.

(** A layout string: nothing at all, or specifications between dashes. *)
Definition llvm_layout (v : str) (ys : list llvm_setting) : Prop :=
  (v = [] /\ ys = []) \/ Forall2 llvm_means (specs v) ys.

(** *** The comparison *)

Definition bytes_of (a : align) : N := 2 ^ a_shift a.
(** One specification says the same to the code and to LLVM. *)
Definition same_setting (x : setting) (y : llvm_setting) : Prop :=
  match x, y with
  | SEndian v, LsEndian w => v = w
  | SStack a, LsStack k => bytes_of a = k
  | SProgram n, LsProgram m => n = m
  | SGlobal n, LsGlobal m => n = m
  | SAlloca n, LsAlloca m => n = m
  | SPointer p, LsPointer sp size abi pref index =>
      ps_space p = sp /\ ps_size p = 8 * size /\ bytes_of (ps_abi p) = abi /\
      bytes_of (ps_pref p) = pref /\ ps_index p = 8 * index
  | SType t, LsType k width abi pref =>
      ts_type t = match k with
                  | LkInteger => AtInteger width | LkVector => AtVector width
                  | LkFloat => AtFloat width | LkAggregate => AtAggregate
                  end /\ bytes_of (ts_abi t) = abi /\ bytes_of (ts_pref t) = pref
  | SFn (FpIndependent a), LsFnIndependent k => bytes_of a = k
  | SFn (FpMultiple a), LsFnMultiple k => bytes_of a = k
  | SMangling m, LsMangling c => In (m, c) mangling_letter
  | SNonIntegral l, LsNonIntegral l' => l = l'
  | SNative l, LsNative l' => l = l'
  | _, _ => False
  end.

(** Of the specifications LLVM accepts, the ones the code has room for. LLVM ignores what
    follows a colon in the specifications of the stack, of function pointers and of the address
    spaces; it lets aggregates have a width, if that is zero. *)
Definition has_room (s : str) (y : llvm_setting) : Prop :=
  match y with
  | LsNothing => False
  | LsEndian _ | LsNative _ => True
  | LsStack k | LsFnIndependent k | LsFnMultiple k => k <> 0 /\ ~ In (ch ":") s
  | LsProgram n | LsGlobal n | LsAlloca n => n <= 8388607 /\ ~ In (ch ":") s
  | LsPointer sp _ _ _ _ => sp <= 8388607
  | LsType LkAggregate _ abi pref => abi <> 0 /\ pref <> 0 /\ exists s', s = lit "a:" ++ s'
  | LsType _ width _ pref => 1 <= width <= 8388607 /\ pref <> 0
  | LsMangling c => c <> ch "l"
  | LsNonIntegral l => Forall (fun n => n <= 8388607) l
  end.

(** How many of the pieces between the colons a specification is read from; both sides ignore the others. *)
Definition consumed (x : setting) (l : list str) : nat :=
  match x with SEndian _ => 1%nat | SPointer _ => 5%nat | SType _ => 3%nat | _ => length l end.
(** LLVM can read the text: there are no plus signs in the pieces it looks at (after [e] and [E] it does not look at the text),
    and the text does not end with a colon after them. *)
Definition readable (s : str) (x : setting) : Prop :=
  forall l, pieces (ch ":") s l ->
  goes_on (skipn (consumed x l) l) /\
  ((forall v, x <> SEndian v) -> forall p, In p (firstn (consumed x l) l) -> ~ In (ch "+") p).
(** Of the specifications the code accepts, the ones LLVM has room for: pointers and their
    indices have a positive number of whole bytes, below 2^32 bits, and do not prefer less than
    they must have; nothing follows the letter of a mangling; a colon follows [ni]; no integer
    has zero bits. *)
Definition llvm_room (s : str) (x : setting) : Prop :=
  match x with
  | SPointer p =>
      ps_size p mod 8 = 0 /\ 0 < ps_size p < two32 /\ ps_index p mod 8 = 0 /\ 0 < ps_index p < two32 /\
      a_shift (ps_abi p) <= a_shift (ps_pref p) <= 28
  | SMangling _ => length s = 3%nat
  | SNonIntegral _ => nth_error s 2 = Some (ch ":")
  | SNative l => Forall (fun n => n <> 0) l
  | _ => True
  end.

(** *** LLVM's layout *)

(** What the last setting of a kind says, else the default. *)
Fixpoint latest {A} (f : llvm_setting -> option A) (l : list llvm_setting) (default : A) : A :=
  match l with
  | [] => default
  | y :: l' => latest f l' (match f y with Some v => v | None => default end)
  end.
(** An alignment of 0 stands for no alignment. *)
Definition maybe_align (k : N) : option N := if k =? 0 then None else Some k.
(** LLVM starts little-endian ([DataLayout::reset]). *)
Definition llvm_endianness (l : list llvm_setting) : endian :=
  latest (fun y => match y with LsEndian v => Some v | _ => None end) l Little.
Definition llvm_stack (l : list llvm_setting) : option N :=
  latest (fun y => match y with LsStack k => Some (maybe_align k) | _ => None end) l None.
Definition llvm_program_space (l : list llvm_setting) : N :=
  latest (fun y => match y with LsProgram n => Some n | _ => None end) l 0.
Definition llvm_globals_space (l : list llvm_setting) : N :=
  latest (fun y => match y with LsGlobal n => Some n | _ => None end) l 0.
Definition llvm_alloca_space (l : list llvm_setting) : N :=
  latest (fun y => match y with LsAlloca n => Some n | _ => None end) l 0.
Definition llvm_mangling (l : list llvm_setting) : option N :=
  latest (fun y => match y with LsMangling c => Some (Some c) | _ => None end) l None.
(** The alignment of function pointers: independent of functions ([true]) or a multiple of theirs. *)
Definition llvm_fn_align (l : list llvm_setting) : option (bool * N) :=
  latest (fun y => match y with
                   | LsFnIndependent k => Some (option_map (pair true) (maybe_align k))
                   | LsFnMultiple k => Some (option_map (pair false) (maybe_align k))
                   | _ => None
                   end) l None.
(** These two are added to, not replaced. *)
Definition llvm_native (l : list llvm_setting) : list N :=
  flat_map (fun y => match y with LsNative ns => ns | _ => [] end) l.
Definition llvm_non_integral (l : list llvm_setting) : list N :=
  flat_map (fun y => match y with LsNonIntegral ns => ns | _ => [] end) l.

(** How often a kind of setting occurs. *)
Definition natives (l : list llvm_setting) : nat :=
  length (filter (fun y => match y with LsNative _ => true | _ => false end) l).
Definition non_integrals (l : list llvm_setting) : nat :=
  length (filter (fun y => match y with LsNonIntegral _ => true | _ => false end) l).

(** The code's components in LLVM's terms. *)
Definition fn_align (f : fn_ptr_align) : bool * N :=
  match f with FpIndependent a => (true, bytes_of a) | FpMultiple a => (false, bytes_of a) end.
Definition letter_of (m : mangling) : N :=
  match m with
  | MElf => ch "e" | MMips => ch "m" | MMacho => ch "o" | MWindowsX86Coff => ch "x" | MWindowsCoff => ch "w"
  | MXCoff => ch "a"
  end.

Definition llvm_key (k : llvm_kind) (width : N) : aligned_type :=
  match k with
  | LkInteger => AtInteger width | LkVector => AtVector width | LkFloat => AtFloat width | LkAggregate => AtAggregate
  end.
(** The ABI and preferred alignment the settings give to a type, if any. *)
Definition llvm_type_align (k : llvm_kind) (width : N) (l : list llvm_setting) : option (N * N) :=
  latest (fun y => match y with
                   | LsType k' w abi pref =>
                       if (kind_letter k =? kind_letter k') && (width =? w) then Some (Some (abi, pref)) else None
                   | _ => None
                   end) l None.

(** LLVM's entry for an address space: size, ABI alignment, preferred alignment and index size in bytes. There is one for the
    address space 0 from the start. *)
Definition llvm_pointer (sp : N) (l : list llvm_setting) : option (N * N * N * N) :=
  latest (fun y => match y with
                   | LsPointer s size abi pref index => if sp =? s then Some (Some (size, abi, pref, index)) else None
                   | _ => None
                   end) l (if sp =? 0 then Some (8, 8, 8, 8) else None).
Definition same_pointer (p : ptr_spec) (q : N * N * N * N) : Prop :=
  let '(size, abi, pref, index) := q in
  ps_size p = 8 * size /\ bytes_of (ps_abi p) = abi /\ bytes_of (ps_pref p) = pref /\ ps_index p = 8 * index.
