# Formal model of mollusc: design

The subject is the Rust workspace in `/repo` (llvm-bitcursor, llvm-bitstream,
llvm-mapper, llvm-support).  The model is Rocq/Coq 8.16.1, in
`rocq/theories/`.  The code is not run; the tie between model and code is the
citation (file and lines) carried by every definition.

## Conventions of the model

* Results are data: `outcome E A := Ok a | Err e | Panic p | OutOfFuel`.
  `Panic p` is an explicit value naming the panic site. `OutOfFuel` is the
  artefact of recursion on fuel; theorems prove that it never occurs (or say
  exactly when it does, when the Rust recursion itself diverges).
* `&mut self` functions are state passing: `state -> outcome E A * state`.
  The state after an error is part of the result, because callers can go on
  using a cursor or an iterator after an error.
* `u64`/`usize`/`u32` are `N`, `i64`/`isize` are `Z`; `usize` is 64 bits, except in
  `WordModel.v`, which has the code with any number `U` of values of `usize`.
  Wrap-around and overflow panics are written where the Rust code can overflow;
  the build profile (`overflow-checks` on or off) is a parameter `env`.
  Positions (`byte_pos * 8`) are unbounded `N`: exact for buffers < 2^61 bytes.
* `Vec::with_capacity(n)` panics/aborts when the allocation cannot be made. The
  environment has an `alloc_limit` field (elements); exceeding it is `Panic`.
  Every theorem is for all values of that field.
* Buffers are `list byte` with Coq's 256-element `byte`, so "is a byte" needs
  no side condition.
* Logging (`log::debug!`) and frame sizes are not modelled (activations of recursive
  functions are counted in `ResourceModel.v`). The `Display` texts of errors are functions of
  the errors, in `MessageModel.v`. An error that holds a text holds a value here that tells which
  text it is, with everything the text mentions (`box_fault`, `parse_fault`,
  `abbrev_fault`, `scope_fault`, `tt_fault`, `spec_fault`, `layout_fault`, `attr_fault`,
  `inst_fault`; the texts of `Error::Unroll` have a constructor each). No content of
  an error is dropped; that of `Utf8Error` is the one the standard library documents
  (`utf8_fault`).
* Hash maps are functions/association lists with the same observable content.

## Files

| file | contents |
| --- | --- |
| `Base.v` | outcomes, bits, bytes |
| `CursorModel.v` | BitCursor (llvm-bitcursor/src/lib.rs) |
| `CursorSpec.v` | bit-string specification, VBR encoders |
| `CursorHist.v` | vocabulary: cursors a caller can hold, operation histories |
| `CursorProofs.v`, `CursorSim.v`, `CursorVbr.v`, `CursorMain.v`, `CursorTwin.v`, `CursorExact.v` | lemmas |
| `P_Cursor.v` | property theorems C01-C12 |
| `StreamModel.v` | llvm-bitstream (abbrev.rs, parser.rs, record.rs, lib.rs) |
| `StreamSpec.v` | independent bitstream writer |
| `StreamHist.v` | vocabulary: parsers a caller can hold, meaning of a stream, container bytes |
| `StreamProofs.v` ... `StreamApi.v`, `StreamExact.v` | lemmas |
| `P_Stream.v` | property theorems C13-C26 |
| `GrammarSpec.v`, `CursorGap.v`, `GrammarProofs.v` | the bitstream format as a grammar of bit strings; how far alignments go for any start of the data; lemmas |
| `GrammarStopSpec.v`, `GrammarStops.v` | its complement: the inputs for each error and each panic; lemmas |
| `P_Grammar.v` | property theorems C65, and the exact panics of C18 |
| `UnrollModel.v` | llvm-mapper/src/unroll.rs (all but `reify`), block/mod.rs `BlockId` |
| `UnrollSpec.v` | vocabulary: trees of entries, unrolled blocks, grouping by position |
| `UnrollProofs.v`, `UnrollMain.v`, `UnrollApi.v`, `StringsProofs.v`, `Utf8Proofs.v` | lemmas |
| `UnrollStopSpec.v`, `UnrollStops.v` | the streams for each error and each panic of the unrolling; lemmas |
| `P_Unroll.v` | property theorems C27-C30, C32, C50 |
| `AttributeModel.v`, `TablesModel.v`, `TypeTableModel.v` | llvm-mapper/src/block: attributes.rs; strtab.rs, symtab.rs, identification.rs, vst.rs; type_table.rs |
| `RecordModel.v`, `ModuleModel.v` | llvm-mapper/src/record (comdat.rs, function.rs, alias.rs), map.rs; block/function.rs, block/module.rs, `reify` in unroll.rs |
| `AttributeSpec.v`, `TablesSpec.v`, `TypeTableSpec.v` | vocabulary: wire format of attributes; strings stored in a table; construction rules of types and meaning of the records of a TYPE block |
| `RecursionSpec.v` | vocabulary for type resolution without end |
| `AttributeProofs.v`, `AttributeMain.v`, `TablesProofs.v`, `TypeTableProofs.v`, `TypeTableMain.v`, `TypeTableExact.v` | lemmas |
| `P_Mapper.v` | property theorems C31, C33-C37, C53, C54 |
| `TypeApi.v`, `P_Types.v` | type constructors: lemmas and theorems C56 |
| `RecordSpec.v`, `ModuleSpec.v` | vocabulary: fields of function, alias and COMDAT records; contents of a module |
| `RecordProofs.v`, `ModuleProofs.v`, `ModuleBodies.v`, `StreamBounds.v` | lemmas |
| `P_Module.v` | property theorems C38, C47, C48, C55 |
| `TypeStopSpec.v`, `TypeStops.v` | all outcomes of a TYPE block: per record, per entry, per table; lemmas |
| `PipelineSpec.v` | vocabulary: what a buffer describes as a whole; causes of panics |
| `StreamSize.v`, `PipelineProofs.v`, `PipelinePanics.v`, `PipelineExact.v` | lemmas |
| `P_Pipeline.v` | property theorems C57-C61 |
| `VerdictSpec.v` | the rules of the format in the order they are checked, with the error for each |
| `Verdicts.v`, `VerdictAttributes.v`, `VerdictModules.v` | lemmas |
| `P_Verdict.v` | property theorems C66, and the exact panics of C54 and C60 |
| `OpenSpec.v`, `InputSpec.v` | vocabulary: which inputs can be opened and why the others cannot; the fate of an input from its bits alone |
| `Opens.v`, `Inputs.v` | lemmas |
| `P_Input.v` | property theorems C21 (any offset), C22 (exact opening) and C66 (from the bits) |
| `ExtraModel.v`, `ExtraSpec.v`, `ExtraProofs.v` | llvm-bitstream/examples/dump-bitstream.rs; `Ord` and `Display` in align.rs; vocabulary; lemmas |
| `P_Extra.v` | property theorems C62-C64 |
| `ResourceModel.v`, `ResourceSpec.v` | the unrolling and a call of `next` with a bounded stack; vocabulary: nesting, silent constructs, sizes of types |
| `ResourceProofs.v`, `ResourceTypes.v`, `ResourceParser.v` | lemmas; witnesses of unbounded stack use and exponential type tables |
| `P_Resource.v` | property theorems C67, C68 |
| `SourceSpec.v` | modules as LLVM has them in memory, and the records and blocks LLVM's writer makes of them; the plain encoding of a file |
| `SourceProofs.v`, `SourceWriter.v` | lemmas: the round trip; every file has an encoding |
| `P_Source.v` | property theorems C69 |
| `ProfileProofs.v` | lemmas: two builds agree unless one panics |
| `P_Profile.v` | property theorems C70 |
| `FloatModel.v`, `FloatProofs.v` | `read_as`/`read_exact` with a floating-point target; rounding and lemmas (C10) |
| `MessageModel.v` | the `Display` texts of the errors of all crates |
| `MessageSpec.v`, `MessageProofs.v` | vocabulary: the numbers in a text and whether its comparisons hold; lemmas |
| `P_Message.v` | property theorems C72 |
| `AmplifySpec.v`, `AmplifyProofs.v`, `AmplifyFiles.v` | vocabulary: numbers of operands and table bytes; bounds and the streams that reach them |
| `P_Amplify.v` | property theorems C73 |
| `WordModel.v` | the code with `U` values of `usize` (cursor, parser, unrolling, mapper); what has no `usize` is shared |
| `WordSpec.v` | vocabulary: histories and runs with `U`, blocks with small fields |
| `WordCursor.v`, `WordStream.v`, `WordMapper.v`, `WordSmall.v`, `WordReduce.v`, `WordWitness.v` | agreement of the two codes; the mapper on reduced modules; long buffers |
| `WordEqual.v` | with 64-bit words the code of `WordModel.v` is that of the other models, in every outcome |
| `P_Word.v` | property theorems C74, C75 |
| `DebugModel.v` | derived `Debug` (`{:?}`, `{:#?}`), the messages of the type errors, the output of the two examples |
| `DebugSpec.v` | vocabulary: values that fit their Rust types |
| `DebugProofs.v`, `DebugMain.v`, `DebugTypes.v` | unique readability of `Debug` texts; types, modules, messages and output |
| `P_Debug.v` | property theorems C76 |
| `ChainModel.v` | the chains of messages of the errors (`source`), the failures of the two examples |
| `ChainSpec.v` | vocabulary: messages that repeat the message of their cause |
| `ChainProofs.v`, `ChainRepeats.v` | chains identify errors; lengths; repetitions |
| `P_Chain.v` | property theorems C77 |
| `ConstantsModel.v` | llvm-constants: enumerations as tables of names and numbers, constants; names of variants in llvm-support |
| `ConstantsProofs.v` | lemmas for C78 |
| `P_Constants.v` | property theorems C78 |
| `CompatSpec.v` | the known parts of a file: which records, blocks and fields the mapper looks at |
| `CompatProofs.v` | lemmas for C79 |
| `P_Compat.v` | property theorems C79 |
| `InfoSpec.v` | LLVM's writer for streams with several BLOCKINFO blocks; when the abbreviations of all of them agree with those of the last |
| `InfoProofs.v` | lemmas for C80 |
| `P_Info.v` | property theorems C80 |
| `ToleranceSpec.v` | what LLVM's reader makes of fields of width zero |
| `ToleranceProofs.v` | lemmas for C81; loading depends on the entries of a stream only |
| `P_Tolerance.v` | property theorems C81 |
| `FileSpec.v` | how LLVM's reader splits a file into modules |
| `FileProofs.v` | lemmas for C82 |
| `P_File.v` | property theorems C82 |
| `FitSpec.v` | the values an abbreviation has room for |
| `FitProofs.v` | lemmas for C83 |
| `P_Fit.v` | property theorems C83 |
| `ReaderSpec.v` | what LLVM's reader makes of the record of a function |
| `ReaderProofs.v` | lemmas for C84 |
| `P_Reader.v` | property theorems C84 |
| `TypeReaderSpec.v` | what LLVM's reader makes of a TYPE block |
| `TypeReaderProofs.v` | lemmas for C85 |
| `P_TypeReader.v` | property theorems C85 |
| `AttributeReaderSpec.v` | what LLVM's reader makes of attribute groups and lists |
| `AttributeReaderProofs.v` | lemmas for C86 |
| `P_AttributeReader.v` | property theorems C86 |
| `AliasReaderSpec.v` | what LLVM's reader makes of alias and COMDAT records |
| `AliasReaderProofs.v` | lemmas for C87 |
| `P_AliasReader.v` | property theorems C87 |
| `ModuleReaderSpec.v` | what LLVM's reader makes of the version and the strings of a module, and of IDENTIFICATION blocks |
| `ModuleReaderProofs.v` | lemmas for C88 and C89 |
| `P_ModuleReader.v` | property theorems C88 and C89 |
| `LayoutReaderSpec.v` | what LLVM's parser makes of data layout strings |
| `LayoutReaderProofs.v` | lemmas for C90 |
| `P_LayoutReader.v` | property theorems C90 |
| `P_ModuleLayout.v` | property theorems C91 |
| `P_Whole.v` | property theorems C92 |
| `LayoutDefaults.v` | vocabulary and lemmas for C71: what a layout says where its string is silent |
| `UnitTests.v` | the unit tests of /repo, restated on the models (tests of the models, not proofs) |
| `EnumModel.v`, `Strings.v` | wire enumerations (llvm-support); Rust strings and std functions on them |
| `SupportModel.v`, `LayoutModel.v` | align.rs, ty.rs, opcode.rs, lib.rs of llvm-support; record/datalayout.rs |
| `SupportSpec.v`, `LayoutSpec.v` | vocabulary: numbering tables, keys, grammar of layout strings and its meaning |
| `SupportProofs.v`, `SupportMain.v`, `LayoutProofs.v`, `LayoutMain.v`, `SupportApi.v` | lemmas |
| `RuleSpec.v`, `Rules.v` | verdicts and rules in sequence; combinators |
| `LayoutStopSpec.v`, `LayoutStops.v` | the error of every rejected layout string; lemmas |
| `P_Support.v` | property theorems C39-C46, C49, C51, C52, C71 |

`P_*.v` contain nothing but theorems closed by `exact`, their examples and
`Print Assumptions`.

## Plan per property

* C01, C02, C03, C11, C12: invariant `inv c` (the loaded block holds exactly the
  `bit_index` data bits before `byte_pos`), abstraction `rem c : list bool` = the
  data bits from `tell_bit` on; `read` refines list splitting. Lifted to every
  operation history by `fold_left`. C03's full claim is expected to be false
  (`_refuted`), the weaker one proved.
* C04, C05: direct case analysis on top of the invariant; C05's no-panic part
  expected refuted for `Current` with overflow checks.
* C06, C07, C08: encoders written in the spec as recursive chunking of numbers;
  induction on chunk count. C07 fails for `i64::MIN`; C08's full claim fails.
* C09: true when the length limit and the load offset are multiples of 4
  (which holds for everything the bitstream parser does); refuted in general.
* C10: by C01; `read_exact::<u64>` refuted.
* C13, C16, C19, C23, C25, C26: the parser model is parametric in the cursor
  operations; it is instantiated with the real cursor model and with the
  list-of-bits cursor; a simulation theorem relates the two; the round trip is
  an induction over abstract bitstreams on the list-of-bits instance.
* C14, C15, C17, C18: invariants of the parser for every cursor history.
* C20, C22, C24: from the simulation theorem. C21 expected refuted (end is
  computed as size+20 instead of offset+size). For offsets that are no multiple of 4 the
  list cursor gets the alignments of blocks of 64 bits counted from the offset, the last
  one shorter (`gap_ops`, `CursorGap.v`); after a failed read the two may differ, so the
  simulation is per call (each starts with a read) and not per operation.
* C27, C28, C50: model of the unroller over any entry source, instantiated with the
  parser; tree/flatten round trip with a unique reading; invariant "modules lacking
  a table form a suffix". Composed with C13 for written streams.
* C29, C30: direct, with the UTF-8 decoder proved exact against the encoder
  (`StringsProofs.v`), and the positions in its errors determined by `utf8_fault`
  (`Utf8Proofs.v`). C29 is refuted for one-character strings and empty records.
* C31: direct; overflow panic refutes the no-panic part.
* C32, C46, C49: finite case analysis plus default branches.
* C33-C35, C53, C54: model of the type table with fuelled `resolve`; specification by
  the relations `describes` (record and table to type) and `lists`/`type_turns`; a
  table is accepted iff it describes itself (induction on types one way, fuel
  monotonicity the other). Fuel: the set of entries resolved with f units grows
  until stable, so one unit per entry decides divergence. Rank function for acyclic
  graphs; refutation by a linked-list type.
* C36, C37: model function by function; encoders in the spec.
* C38, C47: the specification says for every field of the result at which position
  of the record (or in which record or sub-block of the module) it stands; proved as
  an iff with success, plus the exact set of panics. C48, C55 are refuted (no module
  with a function block maps; the selection kinds are off by one).
* C57: invariant of reachable parsers: every non-literal operand of an abbreviation
  costs at least one bit, so a record cannot have more operands than the stream bits.
* C58, C59: composition of C24, C27, C28, C38 and the tables; the specification
  (`bitcode_described`) is over the tree of entries of the stream.
* C60, C61: panics and divergence of every part traced upward; the causes are listed
  as an inductive predicate; the full claims are refuted by concrete buffers.
* C62: the lines are those of the entries before the first non-entry, by induction on
  the fuel; balance from C15, termination from C14. C63: kinds and widths as pairs in
  lexicographic order; agreement with equality refuted for `PointerAlignSpec`. C64:
  division by ten inverts the digit loop.
* C65: every decoder on the list cursor is shown to succeed exactly on the texts of a
  predicate (`dec`), closed under sequencing; then one construct, one call (induction on
  fuel / on the text), and transport to the real cursor by the simulation of C13. The same
  for what stops a decoder (`fails`): sequencing needs the texts of the first decoder only.
* C66: a `rule` is a predicate on verdicts (fine, error, panic, endless); rules are put in
  sequence (`in_order`), so that the first broken one decides. Every function of the mapper is
  shown to end exactly as its rule says (`decided`), closed under `?`, loops and error
  conversion. Type tables are described with their results (`table_outcome`).
* C67: fuel is the stack; monotonicity, then overflow iff a chain of open blocks (the
  parsed prefix as a tree), or iff a chain of silent constructs (transport to the list cursor).
  C68: depth and size of a resolved type by induction on the fuel of resolution.
* C69: from the exact descriptions of C33, C36, C38, C41 to C47 and C59: the records of LLVM's writer are described by the
  source they were written from; uniqueness of descriptions gives equality. The plain encoding shows that the
  hypotheses can be met for every file. LLVM's writer is specified from LLVM's sources as remembered, it is not in /repo.
* C71: from `holds` of C39, settings that are absent leave the default.
* C73: at most one entry per bit (C14) of at most as many operands as bits (C57); a module of the unrolled input holds trees of the stream,
  the tables being shared. Refuted with a family of streams written by the writer of C13, and files written by that of C69.
* C72: each message with numbers is computed word by word; a numeral reads back as the number printed.
* C74, C75: step by step, `follows` (a success with 64 bits is the same success with `U`) is closed under `?`, loops and
  `collect`; the positions of a stream of less than 2^29 bytes fit (`G`). Equality in every outcome for small fields. The
  refutations are concrete inputs, but for long buffers the length is a variable.
* C76: `Debug` texts are trees of numbers, quoted texts and named parts; a text is read from the left, each part ends
  where the next character cannot continue it. The indented form is reduced to the other by leaving out what is between tokens.
* C77: each kind of error is told by the fixed start of its message, its contents by reading numerals and names up to a
  character that they do not contain. Repetitions are excluded by the last character or the length.
* C80: `llvm_stream` is `write_stream` but for BLOCKINFO blocks, which start afresh. Where the two give a block the same
  abbreviations under the ids used (`items_agree`) they write the same bits, and C13 applies. Refuted by files of two modules.
* C82: LLVM's loop over the top-level entries is a function of the trees of C27 (FileSpec.v, not part of /repo: the specification the
  grouping of C28 is compared with); by induction, an identification and its module at a time.
* C83: from C65: inversion of the grammar of abbreviated records, with C25 for the shape of the definition. That exactly the
  fitting values are written is about the writer of the format (StreamSpec.v).
* C84: from C38: `function_described` against `llvm_function` field by field, and each of LLVM's checks against what C38 demands.
* C85: LLVM's table of slots grows: a filled slot stays, a slot referred to is filled by a named struct. So the checks made along the way
  hold in the finished graph. C33 gives the types of llvm-mapper; equal counts exclude merged structs. Conversely the types of a graph
  without cycles are unrolled by rank and listed by the records. LLVM's loop is also characterised exactly: it succeeds on the records of a
  graph whose references point back or ahead to named structs.
* C86: from C36: the fields of a described group are read by LLVM's loop attribute by attribute, and conversely what LLVM reads is written
  as a group if every attribute is one llvm-mapper knows.
* C87: from C38 (`alias_exact`, `comdat_exact`), for the record as it is and for the record without its address space; for modules from
  the list of aliases that `module_map` returns.
* C88: from C47: LLVM's loop over the records is characterised by the records of each code; in a mapped module there is at most one
  where the last one would count. C89: the same for the IDENTIFICATION block, from C58.
* C90: from C39: the grammar of the code and LLVM's are compared specification by specification, then `holds` with LLVM's last setting.
* C91: C88 and C90 together; a module without the record has the default layout on both sides.
* C92: C82, C88 and C89 together, with the descriptions of C59 in place of the mapping functions.
* C81: fields of width zero by the grammar of C65 (`next_exactly`, `next_stops_exactly`). Trailing bytes by reading the list of
  bits on behind a written stream: the last step cannot succeed in 32 bits. Two parsers with the same entries up to the first that
  is none unroll alike (`same_unroll`, from the exact stops of C66), hence the magic does not matter and wrapped files load like
  their payload.
* C79: `same_top` relates two top-level blocks that agree in the known parts; each step of the mapper (type table, attributes,
  records, module) gives the same for related blocks, then the order of the blocks at top level gives the result. Adding, leaving
  out or exchanging parts are instances of `same_module`. The refusals are proved per table, and shown with whole files.
* C78: numbers from 128 on are refused by both crates, the ones below are compared by computation.
* C70: agreement up to a panic is closed under `?`, loops and `collect`; any two builds are compared with a third that
  has the checks of neither and the memory of both.
* C56: rules as predicates on types, iff for every constructor.
* C39, C40, C44, C52: parsing of layout strings as functions on lists of code
  points. The specification is a grammar with meanings (`means`, `holds` in
  `LayoutSpec.v`) and the parser is proved to accept exactly this language.
* C41-C43, C46: direct; sorted-list invariants by induction over update sequences.
* C51: refuted by a one-character string; proved for an ASCII first character.
* C45: expected refuted (the guard rejects every type).

No property is considered inexpressible so far. What the models cannot show
(memory use in bytes, sizes of stack frames, allocator behaviour other than failure) is
named at the theorem concerned.

## Trusted base

* Coq kernel 8.16.1 (and its VM for `vm_compute`).
* `Print Assumptions`: "Closed under the global context" (no axioms) for every property theorem, in all files `P_*.v`.
* What LLVM does (`SourceSpec.v`, `InfoSpec.v`, `ToleranceSpec.v`, `FileSpec.v`, `ReaderSpec.v`, `TypeReaderSpec.v`,
  `AttributeReaderSpec.v`, `AliasReaderSpec.v`, `ModuleReaderSpec.v`, `LayoutReaderSpec.v`, the rules for types
  in `TypeTableSpec.v`) is written down from its sources as remembered; LLVM is not in the sandbox. The statements that compare with
  LLVM (C52, C53, C56, C69, C71, C80 to C92) depend on it, the others do not.
* Rust's standard library (`str::split`, `parse`, `from_utf8`, slicing) is
  modelled from its documentation in `Strings.v`; num_enum's derive is modelled
  as the table of discriminants in `EnumModel.v`.
* The reading of the Rust code, per the citations.

## What is modelled, what is not

* llvm-bitcursor: all of `BitCursor`'s public functions; `read_as` for the integer types and for f32 and f64
  (`num::cast` is modelled from its documentation, not for other implementations of `NumCast`). Not modelled: the
  `Debug` output; the `tell_byte`-style accessors are modelled.
* llvm-bitstream: all of `Abbrev`, `AbbrevOp`, `Scope`, `StreamParser`,
  `Bitstream`. Not modelled: log calls, native stack use of
  the recursion in `advance` (one frame per abbreviation definition and per
  BLOCKINFO record in a row; the frames are counted in `ResourceModel.v`), `Fields`' type alias.
* llvm-support: bitcodes.rs, attribute.rs, lib.rs enumerations and conversions,
  align.rs, ty.rs (types, predicates, constructors), opcode.rs; `Display`. Derived
  `Debug` of what occurs in messages and output. Not modelled: build.rs (`TARGET_TRIPLE`).
* llvm-constants (no longer part of the workspace): enums.rs, constants.rs but for `TARGET_TRIPLE`.
* llvm-bitstream/examples/dump-bitstream.rs: `main` from the contents of the file on, its lines in `ExtraModel.v`
  and their texts in `DebugModel.v`. llvm-mapper/examples/unroll-bitstream.rs: `main` likewise. Which characters outside of
  ASCII `Debug` prints as they are is a parameter (`shown`) of the models.
* `Error::source` of all errors: thiserror derives it for the fields marked `#[from]`; `ChainModel.v`. Not modelled: how anyhow lays
  out the chain on the terminal.
* llvm-mapper/src/record/datalayout.rs: `DataLayout::from_str` and the struct.
* llvm-mapper/src/unroll.rs: everything (`IndexMap` is the list of its entries in
  insertion order); `reify` is modelled with the mapper. Not modelled: the size of a frame of
  `enter_block` (one per open block; they are counted in `ResourceModel.v`).
* llvm-mapper/src/block: attributes.rs, strtab.rs, symtab.rs, identification.rs,
  vst.rs (a stub in the code), type_table.rs, module.rs, function/mod.rs (which never
  succeeds in the code; its checks and panics are modelled); llvm-mapper/src/record:
  comdat.rs, function.rs, alias.rs; map.rs: the contexts; error.rs. Not modelled:
  log calls, the function basicblock/instruction data types that no
  code constructs.
