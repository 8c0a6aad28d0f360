{"id": "C01", "title": "Bit reads return exactly the bits of the buffer, in order", "statement": "Reading n bits (1 <= n <= 63) from a cursor positioned at bit p of its data, when at least n bits remain, succeeds, returns the integer whose binary digits (least significant first) are bits p..p+n of the data (bit i of the data being bit i mod 8 of byte i/8), and leaves the cursor at bit p+n. Any sequence of such reads therefore slices the data's bit string.", "quantifier": "every buffer (any length, any bytes), every cursor length limit, every cursor state reachable by any history of API calls, every width 1..63, every sequence of widths", "why_tests_cant": "The cursor buffers up to 64 bits and stitches two blocks together; the interesting cases depend on the combination of position, width, tail length and history, which is an unbounded set.", "anchors": ["llvm-bitcursor/src/lib.rs: BitCursor::read, load_current_block, tell_bit"]}
{"id": "C02", "title": "Read failures are exactly the out-of-range requests, and data past the limit is never seen", "statement": "read(n) fails with InvalidReadSize exactly when n = 0 or n >= 64 (cursor unchanged); otherwise it fails exactly when fewer than n bits remain: with Eof when no bit remains (cursor unchanged), with Short when some but not enough remain. No result ever depends on bytes of the buffer at or beyond the cursor's byte length.", "quantifier": "every buffer, length limit, reachable state and n", "why_tests_cant": "A universally quantified iff over all states; tests can only show single failing and single succeeding cases.", "anchors": ["llvm-bitcursor/src/lib.rs: BitCursor::read, load_current_block, new_with_len"]}
{"id": "C03", "title": "A failed read does not corrupt the cursor", "statement": "Full claim: a read that returns an error leaves the cursor's position unchanged, so the caller may retry with a smaller width. (Weaker claim: after a failed read the position never moves backwards and never passes the end, and later reads still return the bits at the reported position.)", "quantifier": "every buffer, reachable state and width", "why_tests_cant": "Requires looking at every state from which a read can fail, not at sample states.", "anchors": ["llvm-bitcursor/src/lib.rs: BitCursor::read (lines 231-246)"]}
{"id": "C04", "title": "seek_bit goes exactly where asked, and succeeds exactly inside the data", "statement": "seek_bit(p) succeeds if and only if p <= bit_len(); after success tell_bit() = p and subsequent reads return the bits starting at p, independently of the cursor's previous state.", "quantifier": "every buffer, length limit, prior state and target p", "why_tests_cant": "The target space and the set of prior states are unbounded; the implementation seeks to a 64-bit block and consumes bits, so residue classes matter.", "anchors": ["llvm-bitcursor/src/lib.rs: BitCursor::seek_bit"]}
{"id": "C05", "title": "io::Seek contract", "statement": "seek(Start(o)), seek(End(d)), seek(Current(d)) compute the absolute byte offset o, byte_len+d, tell_byte+d; when that offset lies in 0..=byte_len (and, for End, d < 0) the seek succeeds, returns the offset, and the cursor is at bit 8*offset; otherwise an error is returned and the cursor is unchanged. Full claim also asks that no request panics.", "quantifier": "every buffer, prior state and SeekFrom value (all u64/i64)", "why_tests_cant": "Signed/unsigned round trips and i64 overflow only show on extreme values; the claim is over all of them.", "anchors": ["llvm-bitcursor/src/lib.rs: impl io::Seek for BitCursor"]}
{"id": "C06", "title": "Unsigned VBR round trip", "statement": "For every u64 value v and every width w in 2..=32, reading a VBR of width w from a cursor positioned at the LLVM VBR-w encoding of v returns v and leaves the cursor just after the encoding; every other width is rejected with InvalidVbrWidth without moving the cursor.", "quantifier": "every v < 2^64, every width, every surrounding data and reachable cursor state", "why_tests_cant": "2^64 values x 31 widths x alignments.", "anchors": ["llvm-bitcursor/src/lib.rs: BitCursor::read_vbr"]}
{"id": "C07", "title": "Signed VBR round trip", "statement": "For every i64 value v and width 2..=32, read_svbr applied to LLVM's signed VBR encoding of v (magnitude shifted left by one with the sign in bit 0; i64::MIN encoded as 1) returns v.", "quantifier": "every i64 value, every width, every cursor state", "why_tests_cant": "The exceptional value is one in 2^64.", "anchors": ["llvm-bitcursor/src/lib.rs: BitCursor::read_svbr"]}
{"id": "C08", "title": "VBR reads on arbitrary data: termination and overlong encodings", "statement": "read_vbr terminates on every input. If the data holds a chunk sequence whose payload fits in 64 bits the exact value is returned. Full claim: no input makes read_vbr panic or return a value other than the encoded one (overlong sequences should be an error).", "quantifier": "every buffer, state and width", "why_tests_cant": "The loop has no bound in the source; the offending inputs are longer than any natural test vector.", "anchors": ["llvm-bitcursor/src/lib.rs: BitCursor::read_vbr (loop, lines 295-311)"]}
{"id": "C09", "title": "align32 moves to the next 32-bit boundary", "statement": "After align32 the cursor is at the least multiple of 32 bits that is >= its previous position, and subsequent reads return the data there.", "quantifier": "every buffer, length limit and reachable cursor state", "why_tests_cant": "Depends on how the internal block was loaded (start offset, tail length), i.e. on the history.", "anchors": ["llvm-bitcursor/src/lib.rs: BitCursor::align32"]}
{"id": "C10", "title": "Typed reads are faithful", "statement": "read_as::<T>(n) returns the same number as read(n) when it fits in T and BadCast otherwise; read_exact::<T>() reads exactly the size of T (u8, u16, u32, u64 and signed) and fails only when read would, as documented.", "quantifier": "every scalar type, width, buffer and state", "why_tests_cant": "Quantifies over all values for every type; the failing cases are whole types / half of the value range.", "anchors": ["llvm-bitcursor/src/lib.rs: BitCursor::read_as, read_exact"]}
{"id": "C11", "title": "exhausted() means exactly that no further bit can be read", "statement": "exhausted() is true if and only if the cursor is at the end of its data, if and only if read(1) would fail.", "quantifier": "every buffer, limit and reachable state", "why_tests_cant": "Needs all reachable states, including those left behind by failed operations.", "anchors": ["llvm-bitcursor/src/lib.rs: BitCursor::exhausted"]}
{"id": "C12", "title": "The cursor behaves like a position in a bit string under every history of operations", "statement": "After any finite sequence of read/read_vbr/read_svbr/read_as/align32/seek_bit/seek operations, successful or failing, the cursor is coherent: its position is between 0 and bit_len(), and any further read of available bits returns the data's bits at tell_bit().", "quantifier": "every operation sequence over every buffer and limit", "why_tests_cant": "Unbounded histories mixing failing and succeeding operations.", "anchors": ["llvm-bitcursor/src/lib.rs: BitCursor (all methods), io::Seek"]}
{"id": "C13", "title": "Bitstream writer/parser round trip", "statement": "For every well-formed abstract bitstream (arbitrarily nested blocks with any abbreviation width, abbreviation definitions, unabbreviated and abbreviated records, BLOCKINFO blocks), iterating over the bitstream encoded per the LLVM bitstream format yields exactly the sequence of block-start, record and block-end entries it describes (block ids, lengths, record codes, fields, abbreviation ids), and then ends.", "quantifier": "every well-formed abstract bitstream of any size and nesting depth", "why_tests_cant": "The set of streams is infinite and the parser is stateful (scopes, abbreviations, alignment).", "anchors": ["llvm-bitstream/src/parser.rs: StreamParser::advance, enter_block, exit_block, define_abbrev, parse_unabbrev, parse_with_abbrev", "llvm-bitstream/src/abbrev.rs: Abbrev::new, Abbrev::parse"]}
{"id": "C14", "title": "Parsing terminates and makes progress", "statement": "advance() terminates on every input and in every state; every call that returns an entry moves the position strictly forward, so an input of b bits yields at most b entries before the first error or the end.", "quantifier": "every byte string and parser state", "why_tests_cant": "Non-termination cannot be observed by a finite test; recursion depth is data dependent.", "anchors": ["llvm-bitstream/src/parser.rs: StreamParser::advance"]}
{"id": "C15", "title": "Block entries are well nested and records only occur inside blocks", "statement": "In the sequence of entries produced from any input (even across intervening errors), no prefix contains more block ends than block starts, and every record entry occurs at block depth >= 1.", "quantifier": "every byte string (malformed included) and every number of advance calls", "why_tests_cant": "Consumers keep a scope counter (the dump example does `scope -= 1`); safety must hold for all adversarial inputs.", "anchors": ["llvm-bitstream/src/parser.rs: enter_block, exit_block, advance", "llvm-bitstream/examples/dump-bitstream.rs"]}
{"id": "C16", "title": "BLOCKINFO is transparent", "statement": "No entry for a BLOCKINFO block (block id 0), its end, or a record directly inside it is ever produced; the abbreviations it defines for block id b are exactly the ones prepended to every block with id b that is entered later.", "quantifier": "every input", "why_tests_cant": "Negative property over all inputs.", "anchors": ["llvm-bitstream/src/parser.rs: enter_block, exit_block, define_abbrev, parse_unabbrev"]}
{"id": "C17", "title": "Iteration over a finite input ends", "statement": "Once the iterator returns None it returns None forever. Full claim: iterating any finite input produces finitely many items.", "quantifier": "every input", "why_tests_cant": "An infinite iteration is not observable by a finite test.", "anchors": ["llvm-bitstream/src/lib.rs: impl Iterator for Bitstream", "llvm-bitstream/src/parser.rs: advance"]}
{"id": "C18", "title": "Parsing never panics", "statement": "advance() returns an entry or an error on every input in every build profile. (Weaker: the only panics are the specific operand-shape ones; the `unwrap`s justified by comments and all array indexings other than these never fire.)", "quantifier": "every input, both overflow-check settings", "why_tests_cant": "Adversarial inputs: universally quantified absence of panics.", "anchors": ["llvm-bitstream/src/parser.rs", "llvm-bitstream/src/abbrev.rs", "llvm-bitcursor/src/lib.rs"]}
{"id": "C19", "title": "Abbreviation definitions are scoped to their block", "statement": "A DEFINE_ABBREV inside an ordinary block affects only that block instance: entering and leaving a nested block restores exactly the enclosing block's abbreviation list and width, and a later block with the same id does not see it.", "quantifier": "every input and nesting", "why_tests_cant": "Scope bugs show only with particular nesting combinations.", "anchors": ["llvm-bitstream/src/parser.rs: Scope, enter_block, exit_block, define_abbrev"]}
{"id": "C20", "title": "Wrapped and raw inputs parse identically", "statement": "Parsing a standard bitcode wrapper (20-byte header, offset 20, size = payload size, possibly followed by padding) yields the header fields and then exactly the magic and entries that parsing the payload on its own yields, up to and including the first error.", "quantifier": "every payload, every cpu type/version, every trailing padding", "why_tests_cant": "The two parses use different internal block boundaries; equality must hold for all payloads.", "anchors": ["llvm-bitstream/src/lib.rs: Bitstream::from_wrapped, from_raw, from"]}
{"id": "C21", "title": "The wrapper's offset and size fields delimit the payload", "statement": "For every wrapper whose offset/size fields denote a slice inside the input, from_wrapped parses exactly the slice [offset, offset+size).", "quantifier": "every wrapper header", "why_tests_cant": "Depends on unusual header values.", "anchors": ["llvm-bitstream/src/lib.rs: Bitstream::from_wrapped"]}
{"id": "C22", "title": "Container checks", "statement": "from_raw fails (BadContainer) exactly when the input length is not a multiple of 4 or is 0; otherwise it succeeds with magic equal to the little-endian value of the first four bytes and a parser positioned right after. from() chooses the wrapper parser exactly when the first four bytes are the wrapper magic. Every input that cannot be opened gets the error of the first check it fails (empty; less than a word; a cut header; a size beyond the input; an offset beyond the end; not whole words; no room for the magic), and an opened one starts exactly at its offset.", "quantifier": "every byte string", "why_tests_cant": "Iff over all inputs.", "anchors": ["llvm-bitstream/src/lib.rs: Bitstream::from_cursor, from_raw, from"]}
{"id": "C23", "title": "Record meaning is independent of how it was encoded", "statement": "The code and fields reported for a record do not depend on whether it was written unabbreviated or with any abbreviation (literal, fixed, VBR, char6, array, blob) able to represent it.", "quantifier": "every record and every abbreviation able to encode it", "why_tests_cant": "Infinite family of encodings.", "anchors": ["llvm-bitstream/src/abbrev.rs: AbbrevOp::parse, Abbrev::parse", "llvm-bitstream/src/parser.rs: parse_unabbrev, parse_with_abbrev"]}
{"id": "C24", "title": "Entries depend only on the bytes consumed", "statement": "If parsing an input produces some sequence of entries, then parsing that input followed by any further 4-byte-multiple of bytes produces the same entries first.", "quantifier": "every input, every suffix", "why_tests_cant": "Relates two runs over unbounded inputs; block buffering reads ahead.", "anchors": ["llvm-bitstream/src/parser.rs", "llvm-bitcursor/src/lib.rs: load_current_block"]}
{"id": "C25", "title": "Abbreviation definitions: decoding is faithful and malformed shapes are rejected", "statement": "Decoding the encoding of an abbreviation definition returns it; and in every accepted definition there is at least one operand, arrays and blobs occur only as the last operand and array elements are fixed, VBR or char6.", "quantifier": "every definition; every input", "why_tests_cant": "Both directions are universally quantified.", "anchors": ["llvm-bitstream/src/abbrev.rs: Abbrev::new"]}
{"id": "C26", "title": "Char6 decoding is the documented bijection", "statement": "Char6 values 0..63 decode to a-z A-Z 0-9 . _ in this order; no stream content can index outside the alphabet.", "quantifier": "every char6 field in every input", "why_tests_cant": "Panic freedom over all inputs.", "anchors": ["llvm-bitstream/src/abbrev.rs: AbbrevOp::decode_char6", "llvm-support/src/lib.rs: CHAR6_ALPHABET"]}
{"id": "C27", "title": "Unrolling preserves the block structure", "statement": "Unrolling the entries of a well-formed bitcode stream yields, for each top-level block, a tree whose blocks, sub-blocks and records are exactly those of the stream, in order; nothing is lost, duplicated or moved to another block.", "quantifier": "every finite well-nested entry sequence", "why_tests_cant": "Arbitrary depth and width of nesting.", "anchors": ["llvm-mapper/src/unroll.rs: TryFrom<Bitstream> for Bitcode"]}
{"id": "C28", "title": "Modules, string tables and symbol tables are associated by position", "statement": "In an unrolled bitcode every module carries the identification block that immediately precedes it, the first STRTAB that follows its identification block, and the first SYMTAB that follows it (if any).", "quantifier": "every sequence of top-level blocks", "why_tests_cant": "Any number of modules / tables in any order.", "anchors": ["llvm-mapper/src/unroll.rs: TryFrom<Bitstream> for Bitcode (250-418)"]}
{"id": "C29", "title": "String and blob extraction", "statement": "try_string(i)/try_blob(i) return the bytes of fields i.. of the record (UTF-8 decoded for strings), for every record and every in-range i, including one-character strings; out-of-range i or a non-byte field yields an error, never a panic.", "quantifier": "every record and index", "why_tests_cant": "Edge cases on empty and one-element records.", "anchors": ["llvm-mapper/src/unroll.rs: Record::try_string, try_blob"]}
{"id": "C30", "title": "Cardinality accessors", "statement": "exactly_one / one_or_none / by_code / by_id return exactly the elements with the requested code/id in order: exactly_one succeeds iff there is precisely one, one_or_none iff at most one.", "quantifier": "every list of records/blocks and every code", "why_tests_cant": "All lists.", "anchors": ["llvm-mapper/src/unroll.rs: Records, Blocks"]}
{"id": "C31", "title": "String table lookups return exactly the referenced bytes", "statement": "For every string table and every (offset,size), lookup returns the UTF-8 string stored at bytes offset..offset+size when this is a non-empty range inside the table, and an error otherwise; it never panics.", "quantifier": "every table contents, every u64 offset and size", "why_tests_cant": "Overflowing offset+size combinations.", "anchors": ["llvm-mapper/src/block/strtab.rs: Strtab::get, try_get"]}
{"id": "C32", "title": "Block ids are decoded injectively", "statement": "BlockId::from(u64) is injective and total: 0..7 reserved, 8..26 IR blocks, everything else Unknown carrying the id.", "quantifier": "every u64", "why_tests_cant": "2^64 inputs.", "anchors": ["llvm-mapper/src/block/mod.rs: BlockId"]}
{"id": "C33", "title": "Type tables have the announced size and resolve references by index", "statement": "A type table is accepted only if it has exactly the announced number of entries, and entry i of the result is the type described by the i-th type record with all type references replaced by the types at the referenced indices.", "quantifier": "every TYPE block", "why_tests_cant": "Arbitrary reference graphs, forward references included.", "anchors": ["llvm-mapper/src/block/type_table.rs"]}
{"id": "C34", "title": "Type resolution terminates", "statement": "Mapping a TYPE block terminates on every input (full claim). It does for all acyclic reference graphs.", "quantifier": "every TYPE block", "why_tests_cant": "Non-termination/stack overflow on cyclic graphs.", "anchors": ["llvm-mapper/src/block/type_table.rs: PartialType::resolve"]}
{"id": "C35", "title": "Mapped types satisfy the IR's construction rules", "statement": "Every type in an accepted table satisfies LLVM's constraints: integer widths 1..2^24-1, vector elements/array elements/pointees/struct fields/params/returns from the permitted classes, vectors non-empty, no opaque structs as parameters. (Not so for the last two.)", "quantifier": "every accepted TYPE block", "why_tests_cant": "All inputs, any nesting depth of types.", "anchors": ["llvm-mapper/src/block/type_table.rs", "llvm-support/src/ty.rs"]}
{"id": "C36", "title": "Attribute groups are decoded faithfully", "statement": "Mapping the wire encoding of an attribute group (group id, parameter index, attributes of enum/int/string kinds) returns exactly those attributes in order, and an attribute list maps to the groups it names.", "quantifier": "every group of attributes", "why_tests_cant": "Arbitrary sequences with embedded NUL-terminated strings.", "anchors": ["llvm-mapper/src/block/attributes.rs"]}
{"id": "C37", "title": "Attribute mapping never panics and terminates", "statement": "Mapping PARAMATTR and PARAMATTR_GROUP blocks returns a result or an error on every input.", "quantifier": "every block", "why_tests_cant": "Adversarial field sequences.", "anchors": ["llvm-mapper/src/block/attributes.rs: Attribute::from_record, Attributes::try_from, AttributeGroups::try_from"]}
{"id": "C38", "title": "Function, alias and comdat records are decoded field by field", "statement": "A mapped function/alias/comdat record carries the fields at the documented positions; section, gc and comdat references are resolved by 1-based index with 0 meaning none; too short records are rejected.", "quantifier": "every record", "why_tests_cant": "All field values.", "anchors": ["llvm-mapper/src/record/function.rs", "llvm-mapper/src/record/alias.rs", "llvm-mapper/src/record/comdat.rs"]}
{"id": "C39", "title": "Data layout strings: totality and last-spec-wins", "statement": "Parsing a data layout string never panics; specifications are applied left to right, the last one for a component wins and components not mentioned keep their defaults.", "quantifier": "every string", "why_tests_cant": "Infinite strings, arbitrary unicode.", "anchors": ["llvm-mapper/src/record/datalayout.rs", "llvm-support/src/align.rs"]}
{"id": "C40", "title": "Data layout aggregate specification takes effect", "statement": "An 'a:<abi>[:<pref>]' specification in a data layout string sets the layout's aggregate alignment.", "quantifier": "every layout string with an aggregate spec", "why_tests_cant": "The consequence concerns every such string.", "anchors": ["llvm-mapper/src/record/datalayout.rs"]}
{"id": "C41", "title": "Alignments round-trip and reject non powers of two", "statement": "from_byte_align accepts exactly the powers of two 2^0..2^63 and byte_align returns the same number; from_bit_align and bit_align are mutually inverse; ordering of alignments is ordering of their byte values.", "quantifier": "every u64", "why_tests_cant": "2^64 inputs; overflow at the top.", "anchors": ["llvm-support/src/align.rs: Align"]}
{"id": "C42", "title": "Type alignment specification list behaves as a map", "statement": "After any sequence of updates the list has at most one entry per (kind,width), is sorted, and looking up a key yields the last update for it (or the default).", "quantifier": "every sequence of updates", "why_tests_cant": "Unbounded histories.", "anchors": ["llvm-support/src/align.rs: TypeAlignSpecs::update"]}
{"id": "C43", "title": "Pointer alignment specification list behaves as a map", "statement": "After any sequence of updates there is at most one entry per address space, holding the last update for it.", "quantifier": "every sequence of updates", "why_tests_cant": "Unbounded histories.", "anchors": ["llvm-support/src/align.rs: PointerAlignSpecs::update"]}
{"id": "C44", "title": "Alignment specification parsing enforces pref >= abi", "statement": "A type or pointer alignment specification that is accepted has preferred alignment at least its ABI alignment.", "quantifier": "every string", "why_tests_cant": "All strings.", "anchors": ["llvm-support/src/align.rs: TypeAlignSpec::from_str, PointerAlignSpec::from_str"]}
{"id": "C45", "title": "Binary opcodes are decoded by operand type", "statement": "BinaryOp::try_from(opcode, type) succeeds for integer (vector) types with the integer operation and for floating (vector) types with the floating operation when the opcode admits it, and fails otherwise.", "quantifier": "every opcode, every type", "why_tests_cant": "All types (recursive).", "anchors": ["llvm-support/src/opcode.rs: BinaryOp::try_from"]}
{"id": "C46", "title": "Aligned type ordering is a total order compatible with equality", "statement": "The ordering on (kind,width) keys used to keep specifications sorted is total, antisymmetric with respect to equality, and transitive.", "quantifier": "all keys", "why_tests_cant": "Universally quantified triples.", "anchors": ["llvm-support/src/align.rs: Ord for AlignedType"]}
{"id": "C47", "title": "Module mapping cardinalities", "statement": "A module maps successfully only if it has exactly one version record, one type block, one value symbol table, at most one each of triple, data layout, asm and attribute blocks; the mapped module carries the values of exactly these.", "quantifier": "every unrolled module block", "why_tests_cant": "All block contents.", "anchors": ["llvm-mapper/src/block/module.rs"]}
{"id": "C48", "title": "Modules containing function bodies can be mapped", "statement": "Mapping succeeds for well-formed modules with function definitions.", "quantifier": "every module block with at least one function block", "why_tests_cant": "A claim about all such modules (the code rejects or panics on all of them).", "anchors": ["llvm-mapper/src/block/function/mod.rs", "llvm-mapper/src/block/module.rs"]}
{"id": "C49", "title": "Numeric codes decode to the enumeration values with the same number, and nothing else", "statement": "For each wire enumeration, decoding a u64 succeeds exactly for the listed discriminants and re-encoding gives back the number; linkage/TLS/unnamed_addr/preemption decoding is total with the documented default.", "quantifier": "every u64, every enumeration", "why_tests_cant": "2^64 inputs.", "anchors": ["llvm-support/src/bitcodes.rs", "llvm-support/src/lib.rs", "llvm-support/src/attribute.rs"]}
{"id": "C50", "title": "An input with any stream error is rejected as a whole", "statement": "If iterating the bitstream yields an error before the end, unrolling fails; no partially filled bitcode is ever returned. Every error and panic of unrolling happens exactly on the streams given for it: a misplaced block, a record or block end outside of all blocks, an error or panic of the parser, or the end of the stream in an unclosed block, behind complete blocks in order.", "quantifier": "every input", "why_tests_cant": "Negative property over all inputs.", "anchors": ["llvm-mapper/src/unroll.rs: TryFrom<Bitstream> for Bitcode"]}
{"id": "C51", "title": "Alignment specification parsing never panics", "statement": "TypeAlignSpec::from_str and PointerAlignSpec::from_str return a value or an error on every string.", "quantifier": "every string", "why_tests_cant": "All Unicode strings; the failure needs a first character of more than one byte.", "anchors": ["llvm-support/src/align.rs: FromStr for TypeAlignSpec", "llvm-support/src/align.rs: FromStr for PointerAlignSpec"]}
{"id": "C52", "title": "Layout strings written by LLVM are accepted", "statement": "Data layout strings that LLVM itself emits for its targets (which include an aggregate ABI alignment of zero, 'a:0:64') are accepted.", "quantifier": "every layout string LLVM emits", "why_tests_cant": "Acceptance is a claim about a language, not about sample strings.", "anchors": ["llvm-support/src/align.rs", "llvm-mapper/src/record/datalayout.rs"]}
{"id": "C53", "title": "Type tables that LLVM writes are accepted", "statement": "A TYPE block that describes types valid in LLVM is accepted; in particular several named structs in a row, and vectors of opaque pointers.", "quantifier": "every TYPE block LLVM emits", "why_tests_cant": "Acceptance is a claim about all tables; the code rejects whole families of them.", "anchors": ["llvm-mapper/src/block/type_table.rs", "llvm-support/src/ty.rs"]}
{"id": "C54", "title": "Mapping a TYPE block does not panic", "statement": "Mapping a TYPE block returns a table or an error on every input (full claim). Every panic is an allocation for an announced number of entries that exceeds the memory, or (with overflow checks) an empty STRUCT_NAME record.", "quantifier": "every TYPE block, both build profiles, every memory limit", "why_tests_cant": "The panicking inputs are single points; absence of others is a claim about all blocks.", "anchors": ["llvm-mapper/src/block/type_table.rs"]}
{"id": "C55", "title": "COMDAT selection kinds follow LLVM's numbering", "statement": "A COMDAT record with LLVM's number of a selection kind (any 1, exactmatch 2, largest 3, nodeduplicate 4, samesize 5) is mapped to a COMDAT of that kind.", "quantifier": "every COMDAT record, every string table", "why_tests_cant": "A claim about all records; any single test would have to know the numbers.", "anchors": ["llvm-mapper/src/record/comdat.rs: SelectionKind, Comdat::try_map"]}
{"id": "C56", "title": "Type constructors accept exactly the well-formed types", "statement": "Each constructor of ty.rs succeeds exactly when its parts obey LLVM's rules for pointees, elements, fields, parameters, return types and widths, and then returns the type with exactly these parts; otherwise the error names the first offending part. The scalar type, the type predicates and the byte width are exact. LLVM's rules are those of its IR library; they are met but for vectors: those of opaque pointers are refused and empty ones accepted.", "quantifier": "every tuple of types (of any depth), every width, every count", "why_tests_cant": "Types are recursive and unbounded.", "anchors": ["llvm-support/src/ty.rs"]}
{"id": "C57", "title": "Parsed numbers fit their types and records fit the stream", "statement": "Every record code, operand and block id the parser reports is a 64-bit number, and no record has more operands than the stream has bits. Block lengths are four times a 32-bit count, and ids of abbreviations lie between 4 and 2^63.", "quantifier": "every reachable parser, every input", "why_tests_cant": "Values come from VBR loops, literals and casts over all inputs; the size bound must hold for abbreviations defined anywhere before.", "anchors": ["llvm-bitstream/src/parser.rs: advance", "llvm-bitstream/src/abbrev.rs: AbbrevOp::parse, Abbrev::parse"]}
{"id": "C58", "title": "Identification, string table and symbol table blocks are mapped exactly", "statement": "An IDENTIFICATION block maps to the text of its first STRING record and the first operand of its first EPOCH record; a STRTAB or SYMTAB block maps to the bytes of its first BLOB record; both exactly when these records exist and are well formed.", "quantifier": "every block, both build profiles", "why_tests_cant": "All blocks with any records in any order.", "anchors": ["llvm-mapper/src/block/identification.rs", "llvm-mapper/src/block/strtab.rs", "llvm-mapper/src/block/symtab.rs"]}
{"id": "C59", "title": "Bitcode::try_from returns exactly the modules of the buffer", "statement": "Mapping a buffer succeeds exactly if it is a container whose stream is a well-nested, well-grouped sequence of blocks and every module of it is well formed; the result lists, in stream order, for each identification block the identification, the string and symbol table and the module (triple, inline assembly, dependent libraries) its blocks describe. In particular for every stream written by LLVM's writer.", "quantifier": "every buffer below 2^61 bytes, both build profiles", "why_tests_cant": "An equivalence between all buffers and all results, through wrapper, abbreviations, nesting and grouping.", "anchors": ["llvm-mapper/src/unroll.rs: TryFrom<&[u8]> for Bitcode", "llvm-mapper/src/unroll.rs: PartialBitcodeModule::reify", "llvm-mapper/src/block/module.rs"]}
{"id": "C60", "title": "Bitcode::try_from does not panic", "statement": "Mapping a buffer returns modules or an error on every input (full claim). Every panic has one of the listed causes: a panic of the parser, an empty text or blob record (overflow checks), an announced count beyond the memory, an attribute cut behind its key, an old-style attribute list, a name reference beyond 2^64, or a function body.", "quantifier": "every buffer, both build profiles, every memory limit", "why_tests_cant": "The absence of further panics is a claim about all inputs.", "anchors": ["llvm-mapper/src/unroll.rs", "llvm-mapper/src/block/module.rs", "llvm-mapper/src/block/function/mod.rs", "llvm-mapper/src/block/type_table.rs", "llvm-mapper/src/block/attributes.rs"]}
{"id": "C61", "title": "Bitcode::try_from terminates", "statement": "Mapping a buffer ends on every input (full claim). It ends unless a module has a TYPE block that refers to itself.", "quantifier": "every buffer", "why_tests_cant": "Termination is a claim about all inputs.", "anchors": ["llvm-mapper/src/unroll.rs", "llvm-mapper/src/block/type_table.rs"]}
{"id": "C62", "title": "dump-bitstream prints the stream", "statement": "The example program prints the wrapper (if any), the magic and then one line per entry, indented by the number of blocks around the entry, and ends with the first error or the end; it ends on every input and its scope counter never underflows. For a written stream it prints the tree of blocks and records.", "quantifier": "every buffer, both build profiles; every written stream", "why_tests_cant": "Nesting and length are unbounded; an underflow needs an unbalanced stream that the parser would have to let through.", "anchors": ["llvm-bitstream/examples/dump-bitstream.rs: main", "llvm-bitstream/src/parser.rs: advance"]}
{"id": "C63", "title": "Orders of alignments and specifications are total orders agreeing with equality", "statement": "cmp on Align, AlignedType, TypeAlignSpec and PointerAlignSpec is a total order, and returns Equal exactly for values that are == (std::cmp::Ord). Kinds of types are ordered aggregate < float < integer < vector, then by width.", "quantifier": "every pair and triple of values", "why_tests_cant": "Transitivity and agreement are claims about all triples and pairs.", "anchors": ["llvm-support/src/align.rs: Ord for AlignedType, TypeAlignSpec, PointerAlignSpec"]}
{"id": "C64", "title": "Display of an alignment round-trips", "statement": "Formatting an alignment gives the decimal numeral of its byte alignment without leading zero; parsing it back and calling from_byte_align gives the same alignment.", "quantifier": "every alignment, both build profiles", "why_tests_cant": "A claim about formatting and parsing together.", "anchors": ["llvm-support/src/align.rs: Display for Align", "llvm-support/src/align.rs: from_byte_align"]}
{"id": "C65", "title": "The parser accepts exactly the bitstream format", "statement": "A call of next returns an entry exactly if the unread bits start with a text of the format for that entry (bitstream grammar: fixed fields, VBR texts with any number of groups, padding of any bits, block headers with any length word, definitions, records in the encoding of their abbreviation, BLOCKINFO constructs that are not told), given the open blocks and the registered abbreviations; the remaining bits, open blocks and registered abbreviations are those the format gives. Hence n calls on a buffer tell exactly the entries of the text behind the magic. A call returns None, a given error or a given panic exactly on the inputs the format gives for it; every buffer of whole words tells exactly one sequence of entries followed by one end, error or panic.", "quantifier": "every input that can be opened (raw, or wrapped with any offset), every number of calls, both build profiles, every memory limit", "why_tests_cant": "Round-trip tests only cover what a writer emits; acceptance of exactly the format is a claim about all bit strings.", "anchors": ["llvm-bitstream/src/parser.rs: advance, enter_block, exit_block, define_abbrev, parse_unabbrev, parse_with_abbrev", "llvm-bitstream/src/abbrev.rs: parse", "llvm-bitstream/src/lib.rs: from_raw"]}
{"id": "C66", "title": "Every rejected input is rejected for the reason the format gives, and no other way of ending exists", "statement": "For every buffer exactly one of four fates holds, and it is the one given by the rules of the format checked in a fixed order: accepted; rejected with the error of the first rule that is broken (missing, repeated or short records and blocks, names outside the string table, unknown codes, ids, kinds and types, counts that do not match, references without a type); one of the listed panics; or a type table without an end. The same for every part: text, blob, name, comdat, function, alias, attribute group, attribute list, type table, string table, symbol table, identification and module. For a buffer the fate follows from its bits alone: the grammar of the format gives the entries and the stop, these the blocks, these the fate.", "quantifier": "every buffer below 2^61 bytes, every block and record with any fields, both build profiles, every memory limit", "why_tests_cant": "Which of several faults is reported, and that no input falls between the rules, are claims about all inputs; tests sample single faults.", "anchors": ["llvm-mapper/src/unroll.rs", "llvm-mapper/src/block/module.rs", "llvm-mapper/src/block/type_table.rs", "llvm-mapper/src/block/attributes.rs", "llvm-mapper/src/block/strtab.rs", "llvm-mapper/src/block/symtab.rs", "llvm-mapper/src/block/identification.rs", "llvm-mapper/src/record/function.rs", "llvm-mapper/src/record/alias.rs", "llvm-mapper/src/record/comdat.rs"]}
{"id": "C67", "title": "A fixed stack is enough for every input", "statement": "enter_block of the unrolling and advance of the parser recurse. Each overflows a stack for r activations exactly if the input asks for it: the unrolling iff, behind complete blocks in order, more than r blocks are open in one another (for a complete stream: iff its blocks are deeper than r); a call of next iff r constructs in a row are not told (definitions, BLOCKINFO). A stack that does not overflow has no effect on results, and one activation per bit of input always suffices. The claim that some fixed r is enough for every input is false for both.", "quantifier": "every parser state reachable from any buffer, every r, both build profiles", "why_tests_cant": "Needs inputs nested or silent without bound; tests are shallow.", "anchors": ["llvm-mapper/src/unroll.rs: enter_block", "llvm-bitstream/src/parser.rs: advance"]}
{"id": "C68", "title": "Types are proportional to their table", "statement": "No type of a parsed type table is deeper than the table is long, and none has more nodes than (m + 1) ^ entries, where m is the number of fields of the longest record. The claim that a table is at most a constant factor larger than its block is false: a type is copied wherever it is referred to, so n records of three fields give 2^n nodes.", "quantifier": "every TYPE block, every number of entries, both build profiles", "why_tests_cant": "Growth is a claim about all sizes; exponential growth shows only on tables no test has.", "anchors": ["llvm-mapper/src/block/type_table.rs: resolve, TypeTable::try_from"]}
{"id": "C69", "title": "What LLVM's writer writes comes back", "statement": "Take modules as LLVM has them in memory (producer and epoch, triple, data layout, inline assembly, dependent libraries, sections, collectors, a table of types, attribute groups and lists, function declarations) and write them the way LLVM's bitcode writer does: one IDENTIFICATION and one MODULE block each, then an optional SYMTAB and the STRTAB, in any encoding (abbreviations, id widths, BLOCKINFO as long as all of it together means the same as the last one, see C80) and with any records and blocks llvm-mapper does not look at in between. Then Bitcode::try_from returns exactly these modules in order, and mapping each MODULE block finds exactly the types, attribute groups and lists, layout, sections, collectors and functions it was written from. Every such file of less than 2^36 bits (by a crude estimate) can be written. Left out, because llvm-mapper misreads or rejects them: recursive types, a named struct directly behind another struct, alignment, stack alignment and vscale_range attributes, COMDATs, aliases, function bodies and strings of one byte.", "quantifier": "all modules in the class, all encodings, both build profiles, every allocation limit", "why_tests_cant": "A round trip over all modules and all encodings of them is a claim about an infinite set; tests have a handful of files made by one version of LLVM.", "anchors": ["llvm-mapper/src/unroll.rs: TryFrom<Bitstream> for Bitcode", "llvm-mapper/src/block/module.rs: Module::try_map", "llvm-mapper/src/block/type_table.rs", "llvm-mapper/src/block/attributes.rs"]}
{"id": "C70", "title": "The build changes nothing but panics", "statement": "Of two builds of the crates (with and without overflow checks) on machines with different amounts of memory, run on the same input: if neither panics, both give the same result, be it modules or an error. This holds for whole inputs, for every single entry and read (with the same parser and cursor afterwards), for every conversion of a block or record, and for the output of the example program. Dropping overflow checks or adding memory removes overflow or allocation panics and changes nothing else. Opening a buffer does not depend on the build at all. That the build changes nothing at all is false: an empty target triple is a panic in a debug build and an empty string in a release build.", "quantifier": "every buffer, parser state, block and record; every pair of build profiles and allocation limits", "why_tests_cant": "Tests run in one profile on one machine; a value that wraps silently in release builds is exactly what a test in the debug profile does not see.", "anchors": ["llvm-mapper/src/unroll.rs: TryFrom<&[u8]> for Bitcode", "llvm-bitstream/src/parser.rs: advance", "llvm-bitcursor/src/lib.rs: read_vbr, seek", "llvm-mapper/src/block/strtab.rs: try_get"]}
{"id": "C71", "title": "Defaults of a data layout are LLVM's", "statement": "A module without a DATALAYOUT record, and a data layout string where it says nothing about a type, an address space or another component, give LLVM's defaults: big endian (so LLVM's language reference; its parser starts little endian, see C90), no stack alignment, address spaces zero, 64 bit pointers in address space zero, i1:8 i8:8 i16:16 i32:32 f16:16 f32:32 f64:64 f128:128. Exceptions, which refute the claim in full: i64 is aligned to 64 bits instead of 32, aggregates to 64 bits instead of 8, and vectors have no alignment.", "quantifier": "every layout string, every type and address space not mentioned in it, every module without a layout", "why_tests_cant": "A claim about all strings that are silent about something; a test reads one string.", "anchors": ["llvm-support/src/align.rs: Default for TypeAlignSpecs, Default for PointerAlignSpecs", "llvm-mapper/src/record/datalayout.rs: Default for DataLayout, FromStr"]}
{"id": "C72", "title": "Error messages are true", "statement": "Where an error prints numbers, they are those of the rejected input and the comparison it prints between them holds: shifts, alignments, widths, address spaces; preferred against ABI alignment; parts of an alignment specification; index and number of fields of a record; lengths of COMDAT, function, alias and attribute group records; announced against actual size of a type table; fields of an instruction; and what it says about the blocks of a stream is so. This holds for shifts, byte alignments, address spaces, pointer alignments, parts of type specifications, function, alias and group lengths, table sizes and instructions. It is false, exactly as characterised, for: from_bit_align (names an eighth of the value), width 0 ('0 > 8388607'), preferred alignments above the limit ('ABI alignment 1 > 32768'), parts of pointer specifications ('at least 4', 3 suffice), index of the last field ('0 >= 1'), COMDAT records with too many fields ('4 < 3'), unconsumed group records (one field more than there are), symbol and type tables ('string table') and modules apart from each other ('adjacent').", "quantifier": "every input of the operations named that is rejected with such a message", "why_tests_cant": "Tests check that an input is rejected, at most with which variant; no test reads the numbers in a message, and wrong ones need particular values.", "anchors": ["llvm-support/src/align.rs: AlignError, AlignedTypeWidthError, AddressSpaceError, AlignSpecError", "llvm-mapper/src/record/mod.rs: RecordStringError, RecordBlobError", "llvm-mapper/src/record/comdat.rs: ComdatError", "llvm-mapper/src/record/function.rs: FunctionError", "llvm-mapper/src/record/alias.rs: AliasError", "llvm-mapper/src/block/attributes.rs: AttributeError", "llvm-mapper/src/block/type_table.rs: TypeTableError", "llvm-mapper/src/block/symtab.rs: SymtabError", "llvm-mapper/src/block/function/mod.rs: unpack_fields", "llvm-mapper/src/unroll.rs: TryFrom<Bitstream> for Bitcode"]}
{"id": "C73", "title": "What is made of an input is proportional to it", "statement": "There is a factor such that for every input the operands of all records, the operands held by the unrolled modules, and the bytes of the string and symbol tables of the mapped modules are at most that many times the bits of the input. This is false: an abbreviation of literals costs nine bits per operand once and three bits per record, and every module gets its own copy of the tables it shares. What holds: the operands of all records are at most the square of the number of bits; the unrolled modules hold at most (1 + number of modules) times the operands of the stream, hence at most the cube of the number of bits, and this is reached up to a constant factor; the tables of the mapped modules have at most the square of the number of bits.", "quantifier": "every environment, reachable parser and buffer below 2^61 bytes; the refutations for factors up to 10000 operands and 3000 bytes per bit and an allocator that can hold the larger record", "why_tests_cant": "Amplification needs inputs made for it; the sample files of the tests are written by LLVM, with one module and few literals, and no test measures sizes.", "anchors": ["llvm-bitstream/src/parser.rs: StreamParser::parse_with_abbrev", "llvm-mapper/src/unroll.rs: TryFrom<Bitstream> for Bitcode (strtab.clone(), symtab.clone())", "llvm-bitstream/src/abbrev.rs: AbbrevOp::Literal, Abbrev::parse"]}
{"id": "C74", "title": "What loads with 64-bit words loads to the same with 32-bit words", "statement": "If a buffer of less than 2^29 bytes is loaded by Bitcode::try_from on a target with 64-bit usize, it is loaded on a target with 32-bit usize, to the same modules; so are the wrapper and the entries of the stream up to its first error, and its end. A history of requests to a BitCursor over less than 2^29 bytes gives the same results, positions and ends, errors included, if the widths and offsets asked for fit 32 bits; so do signed numbers that fit.", "quantifier": "every build, every buffer below 2^29 bytes, every history of cursor requests that both targets can express", "why_tests_cant": "The tests run on the developer's machine, which has 64-bit words; no test runs the code twice.", "anchors": ["llvm-bitcursor/src/lib.rs: BitCursor", "llvm-bitstream/src/parser.rs: StreamParser", "llvm-mapper/src/unroll.rs: TryFrom<&[u8]> for Bitcode", "llvm-mapper/src/block/module.rs, type_table.rs, attributes.rs, strtab.rs"]}
{"id": "C75", "title": "32-bit words refuse what they cannot hold", "statement": "What a target with 64-bit usize rejects, a target with 32-bit usize rejects too, with the same error; and positions past its range are refused. This holds for modules all of whose fields are below 2^31; in general a module is mapped to exactly what 64-bit words map the module to whose positions in tables are reduced modulo 2^32. The claim is false in general, as `as usize` drops the upper half: a file whose function name lies at 2^32 of a two byte string table is loaded, an operand of 2^32 + 8 bits is read as one of 8, ids of 2^32 + 3 bits as ids of 3, the abbreviation id 2^32 leads to a panic, references to types are taken modulo 2^32, seeking to 2^32 goes to the beginning, signed numbers are cut to 32 bits, and past 512 MiB the beginning is read again (or the multiplication by 8 panics).", "quantifier": "every build, every module; the refutations by particular inputs", "why_tests_cant": "No test runs on a 32-bit target, and the values concerned are those that no writer produces.", "anchors": ["llvm-bitcursor/src/lib.rs: BitCursor", "llvm-bitstream/src/parser.rs: StreamParser", "llvm-mapper/src/unroll.rs: TryFrom<&[u8]> for Bitcode", "llvm-mapper/src/record/function.rs", "llvm-mapper/src/block/strtab.rs: Strtab::try_get"]}
{"id": "C76", "title": "What is printed identifies what it is printed of", "statement": "Two different types never have the same Debug text, in one line ({:?}) or pretty ({:#?}), whatever their names and however deep they are. So the message of a type error, of an array, struct, vector, pointer or function type or of a binary operator, identifies the error. Two inputs for which unroll-bitstream prints the same are loaded to the same modules; two inputs for which dump-bitstream prints the same have the same wrapper, magic, blocks, records and nesting, and it prints one line for the magic and for each entry (seven for the wrapper). The numbers and texts of every loaded type table and module fit into their Rust types. The message about an unknown opcode does not identify the opcode: this part is false.", "quantifier": "every type and every pair of buffers, every build and set of characters that Debug prints as they are", "why_tests_cant": "Tests compare Debug texts of a few values, if at all; that texts are unambiguous is a statement about pairs of values of any size, with names that contain quotation marks, braces and line feeds.", "anchors": ["llvm-support/src/ty.rs: Type, StructTypeError, ArrayTypeError, VectorTypeError, PointerError, FunctionTypeError", "llvm-support/src/opcode.rs: BinaryOpError", "llvm-bitstream/examples/dump-bitstream.rs: main", "llvm-mapper/examples/unroll-bitstream.rs: main", "llvm-mapper/src/unroll.rs: Bitcode, BitcodeModule"]}
{"id": "C77", "title": "What an error and its causes say identifies the error", "statement": "The chain of an error is its message, the message of its source, and so on. Two errors of loading bitcode have the same chain exactly if they are the same error, but for the bytes of a text that is not UTF-8 (in the data layout, another string of the module or a name in the type table): where and why loading stopped, with every number, kind and type, can be read from the chain. A chain has one to seven messages. What unroll-bitstream and dump-bitstream report when they fail is such a chain; it tells whether the container, the stream or the contents were the cause, and unroll-bitstream fails exactly if the library does. That the bytes can be told too is false, and so is that no message repeats the message of its cause; the errors for which one does are exactly the listed ones.", "quantifier": "every pair of errors of any part, every pair of buffers, every build and set of characters that Debug prints as they are", "why_tests_cant": "Tests look at single messages; that chains are unambiguous is a statement about pairs of errors with any numbers, names and types in them.", "anchors": ["llvm-mapper/src/error.rs: Error", "llvm-mapper/src/block/mod.rs: BlockMapError", "llvm-mapper/src/map.rs: MapError", "llvm-bitstream/src/error.rs: Error", "llvm-mapper/examples/unroll-bitstream.rs: main", "llvm-bitstream/examples/dump-bitstream.rs: main"]}
{"id": "C78", "title": "llvm-constants is subsumed within llvm-support", "statement": "The crate llvm-constants that was taken out of the workspace says the same as llvm-support: each of its twelve enumerations has the variants of the same name with the same numbers, and a number converts to the variant of the same name in both crates or is refused by both; no name and no number stands twice. The constants are the same too, and agree with what the parsers do: the ids of abbreviations below FIRST_APPLICATION_ABBREV_ID are exactly the reserved ones, the ids of blocks below FIRST_APPLICATION_BLOCK_ID are exactly the reserved ones and no IR block has one of them, the initial width is that of the outermost scope, and the char6 alphabet is the one values are decoded with.", "quantifier": "every number, every variant of every enumeration", "why_tests_cant": "There are no tests in llvm-constants and none that compares the crates; agreement is about all numbers, also the unused ones.", "anchors": ["llvm-constants/src/enums.rs", "llvm-constants/src/constants.rs", "llvm-support/src/bitcodes.rs", "llvm-support/src/lib.rs: FIRST_APPLICATION_BLOCK_ID, FIRST_APPLICATION_ABBREV_ID, CHAR6_ALPHABET, CallingConvention", "Cargo.toml"]}
{"id": "C79", "title": "What the mapper does not know is skipped", "statement": "What a buffer is loaded to, or how loading fails, depends on nothing but what the mapper knows: of a module the records of ten kinds (each kind by itself, so that the order among different kinds does not matter) and the blocks of five kinds, wherever they stand; of a FUNCTION record the first 14 fields, of an ALIAS record 10, of VERSION one; of a TYPE record the fields it is defined to have; of the string and symbol table and the identification the first records. Other records and blocks in a module, blocks in the blocks of a module, additional fields, lengths and abbreviations may be added, taken away or changed. That newer files with unknown parts always load is false: an unknown record in a TYPE block or among the attributes, a fourth field of a COMDAT and an unknown block at the top level are refused.", "quantifier": "every build, host and pair of buffers whose blocks agree in the known parts; every module, place and unknown part", "why_tests_cant": "Tests load a few files of particular versions of LLVM; none puts records of unknown kinds, further fields or other orders into them.", "anchors": ["llvm-mapper/src/unroll.rs: TryFrom<&[u8]> for Bitcode", "llvm-mapper/src/block/module.rs: Module::try_map", "llvm-mapper/src/block/type_table.rs", "llvm-mapper/src/block/attributes.rs", "llvm-mapper/src/record/comdat.rs", "llvm-mapper/src/record/function.rs", "llvm-mapper/src/record/alias.rs"]}
{"id": "C80", "title": "Every module of a file is read with its own BLOCKINFO", "statement": "LLVM starts afresh with every BLOCKINFO block: what a block finds is what the last BLOCKINFO block defined for its id. Full claim: a stream written this way, with any number of modules that have a BLOCKINFO block each, is parsed to the entries it was written from, and a file of several modules loads if each of its modules loads on its own. This is false: the parser adds the definitions of all BLOCKINFO blocks of the stream, so that from the second module on abbreviation ids mean other abbreviations; files are rejected, or records silently read as others. It is true where the definitions of all BLOCKINFO blocks agree with those of the last under the ids that are used: for one BLOCKINFO block, and for BLOCKINFO blocks that say the same if the blocks concerned do not define abbreviations of their own.", "quantifier": "every stream of any size and nesting that LLVM's writer may write; the refutations by particular files of two modules", "why_tests_cant": "All test inputs have one module and one BLOCKINFO block.", "anchors": ["llvm-bitstream/src/parser.rs: StreamParser::define_abbrev, enter_block", "llvm-mapper/src/unroll.rs: TryFrom<&[u8]> for Bitcode"]}
{"id": "C81", "title": "Tolerances of LLVM's reader", "statement": "Full claim: where LLVM's own reader is tolerant, so is mollusc, and where it insists, so does mollusc: (a) a field of width zero in an abbreviation (Fixed(0), VBR(0)) takes no bits and is 0; (b) a few bytes (fewer than eight) behind the last block of a raw file are ignored; (c) only files with the magic of LLVM IR are loaded. All three are false. (a) Such a definition is accepted, but every record that uses it is refused, with the error of its first such field, and no record is ever returned for such an abbreviation. (b) A raw file followed by a word of anything gives its entries and then an error or panic (for zeros: that there is no block to end), and one followed by one to seven bytes is not loaded; in a wrapper anything may follow the payload, and the file loads exactly like its payload. (c) The magic of a raw file does not matter: two files that differ in their first four bytes only load to the same modules or fail alike, unless one has the magic of the wrapper.", "quantifier": "(a) every parser state and abbreviation; (b) every written stream and everything that may follow; (c) every input and every magic", "why_tests_cant": "Test inputs come from LLVM's own tools, which write no such fields, no padding and always the same magic.", "anchors": ["llvm-bitstream/src/abbrev.rs: AbbrevOp::parse", "llvm-bitstream/src/parser.rs: exit_block", "llvm-bitstream/src/lib.rs: Bitstream::from_cursor", "llvm-mapper/src/unroll.rs: TryFrom<&[u8]> for Bitcode"]}
{"id": "C82", "title": "A file is split into modules as LLVM's reader splits it", "statement": "Full claim: the modules of a file, and the identification, string table and symbol table that belong to each, are those that LLVM's reader (getBitcodeFileContents) finds: an identification block has to be followed by a module block, a module may come without one, a string table belongs to the modules before it that have none yet, the symbol table of the file is the first one, and other top-level entries are skipped. False both ways: modules without an identification and unknown top-level blocks are refused, and other blocks between an identification and its module are tolerated. String tables differ also if they have several BLOB records, of which LLVM takes the last, or an unabbreviated one, of which it takes nothing. Of the files in which LLVM finds modules exactly those are unrolled that have only the four known kinds of blocks at the top level and an identification before each module; then the modules, their identifications and string tables are LLVM's, and the symbol table of a file that begins with an identification is that of its first module.", "quantifier": "every sequence of top-level blocks; for loading, every buffer below 2^61 bytes whose tables have one BLOB record that is abbreviated and not empty", "why_tests_cant": "Test files are single modules in the order LLVM's tools write; concatenations, missing and additional blocks do not occur.", "anchors": ["llvm-mapper/src/unroll.rs: TryFrom<Bitstream<T>> for Bitcode"]}
{"id": "C83", "title": "Records fit their abbreviations", "statement": "A record told with an abbreviation id was written with an abbreviation of the block it is in, and has one value for each operand, in its range: the literal itself, less than 2^w for Fixed(w), less than 2^64 for VBR, one of the 64 characters for Char6, any number of values of the element type for a last array, of bytes for a last blob. Conversely exactly these values can be written with the abbreviation. Full claim: the code is the value of the first operand, which is no array and no blob, as LLVM's reader demands. That is false: with an abbreviation of a single array or blob the first element becomes the code.", "quantifier": "every input that can be opened, every call of next, every abbreviation and list of values", "why_tests_cant": "Abbreviations in test files are the ones LLVM's writer defines; definitions beginning with an array do not occur.", "anchors": ["llvm-bitstream/src/parser.rs: StreamParser::parse_with_abbrev", "llvm-bitstream/src/abbrev.rs: AbbrevOp::parse"]}
{"id": "C84", "title": "Function records mean what LLVM's reader takes them for", "statement": "Full claim: a function record is accepted exactly if LLVM's reader accepts it, and both then agree on the function. That is false in both directions. What holds: a function read by both has the same name, type, calling convention, declaration flag, linkage, attributes, alignment, section, collector and unnamed_addr. The visibility is LLVM's unless an internal or private function is not of default visibility. The storage class is LLVM's unless the record has none and the linkage is the old dllimport or dllexport. Of the records LLVM reads, exactly those are accepted that have a non-empty name in UTF-8, a function type instead of a pointer to one, a calling convention of the table (18 to 20 and 97 to 101 of LLVM 14 are missing), a known list of attributes, a known visibility and storage class. Of the records accepted, LLVM reads exactly those with an alignment it supports and a known COMDAT or none.", "quantifier": "every function record, every context of a module with version 2", "why_tests_cant": "A test needs a second reader to compare with; the differences are in records that one version of one compiler does not write.", "anchors": ["llvm-mapper/src/record/function.rs: Function::try_map", "llvm-support/src/lib.rs: CallingConvention, Linkage, Visibility, DllStorageClass, UnnamedAddr"]}
{"id": "C85", "title": "Type tables mean what LLVM's reader takes them for", "statement": "Full claim: a TYPE block is accepted exactly if LLVM's reader accepts it, and both then have the same types under the same ids. That is false in both directions. What holds, for blocks with one NUMENTRY record and POINTER records of at most two fields: a table read by both has the same number of entries, and every entry is the type LLVM has there, references looked up by id. Of the tables LLVM reads, exactly those are accepted that have names in UTF-8 of at least two bytes, no named struct directly behind a struct, an address space below 2^23 for every pointer, no FUNCTION_OLD, no opaque struct without name, no vectors of opaque pointers, no fields or results the IR forbids, no recursive types, and no more entries than memory can be reserved for. With a third field of a POINTER record or a second NUMENTRY record both can read different types. Of the accepted tables LLVM reads exactly those with the NUMENTRY record before the entries, no named struct directly behind a struct, integer widths up to LLVM's largest, OPAQUE and OPAQUE_POINTER records of one field, no empty vectors, references to later entries only to named structs and not from vectors or parameters, and no opaque structs as parameters.", "quantifier": "every TYPE block without empty STRUCT_NAME records, every limit of memory, every largest integer width of LLVM below 2^24", "why_tests_cant": "A test needs a second reader to compare with; the differences are in tables that one version of one compiler does not write.", "anchors": ["llvm-mapper/src/block/type_table.rs: TryFrom<&Block> for TypeTable, PartialTypeTable::reify, PartialType::resolve", "llvm-support/src/ty.rs"]}
{"id": "C86", "title": "Attributes mean what LLVM's reader takes them for", "statement": "Full claim: blocks of attribute groups and lists are accepted exactly if LLVM's reader accepts them, and both then have the same attributes. That is false in both directions. What holds: a group read by both has the same id, applies to the same place and has the same attributes in the same order; integer values are LLVM's but for alignments of more than two bytes and for vscale_range whose two numbers differ, which are never LLVM's. Both find the same group for an id, and a list has LLVM's groups in order. Of the groups LLVM reads, exactly those are accepted that have no types (byval, sret), only keys that are known and of the right kind, alignments of at most 64, an allocsize other than 0, a uwtable of at most 2, and strings in UTF-8 that are not empty; of the lists, those that name no unknown group. Of the groups accepted, a version of LLVM reads exactly those whose keys it knows.", "quantifier": "every record of 64-bit fields, every block, every set of keys that a version of LLVM knows", "why_tests_cant": "A test needs a second reader to compare with, for each of its versions; the readers differ in values that are rare in samples (a second alignment, an empty string).", "anchors": ["llvm-mapper/src/block/attributes.rs: Attribute::from_record, TryFrom<&Block> for AttributeGroups, TryFrom<(&Block, &PartialMapCtx)> for Attributes, AttributeGroups::get"]}
{"id": "C87", "title": "Alias and COMDAT records mean what LLVM's reader takes them for", "statement": "Full claim: an alias or COMDAT record is accepted exactly if LLVM's reader accepts it, and both then agree on the alias or COMDAT. That is false in both directions. What holds: an alias read by both has the same name and type, but LLVM's address space is taken for the aliasee, its aliasee for the linkage and its linkage for the visibility. Of the alias records LLVM reads, exactly those are accepted that have a non-empty name in UTF-8, a linkage number of at most 2 and a visibility of at most 2 or none; so a module with an internal or private alias is never mapped. Of the alias records accepted, LLVM reads those of six fields or more. Without its address space, a record gives the name, type, aliasee, linkage, tls mode and unnamed_addr that LLVM reads, and visibility, storage class and preemption but for the exceptions LLVM makes for local linkage, old dllimport and dllexport, and implied dso_local. LLVM reads every COMDAT record accepted, under the same name; the kinds agree for the number 0 only, which LLVM does not write. Of the COMDATs LLVM reads exactly those are accepted that have three fields, a non-empty name in UTF-8 and a number of at most 4.", "quantifier": "every alias record in every context of a module with version 2, every COMDAT record, every string table", "why_tests_cant": "A test needs a second reader to compare with; the shifted fields of an alias to a low-numbered value with external linkage look plausible.", "anchors": ["llvm-mapper/src/record/alias.rs: CtxMappable<Record> for Alias (try_map)", "llvm-mapper/src/record/comdat.rs: PartialCtxMappable<Record> for Comdat (try_map)", "llvm-mapper/src/block/module.rs: Module (mapping of aliases)"]}
{"id": "C88", "title": "The version and strings of a module are those LLVM reads", "statement": "Full claim: of the records that hold version, triple, layout, assembly, section names and collector names, a module is accepted exactly if LLVM accepts them, and both have the same values. That is false in both directions. What holds: a mapped module has LLVM's version, section names and collector names in LLVM's order, and LLVM's triple, layout text and assembly (split into lines) where there is a record for them; without a TRIPLE record LLVM has the empty triple and llvm-mapper the triple of the machine it was built for. LLVM accepts the version of a mapped module exactly if it is at most 2. LLVM takes any record for a string; llvm-mapper takes exactly those of at least two fields that are bytes of UTF-8 and, without overflow checks, empty ones.", "quantifier": "every module block, every string table, every triple of the build machine, with and without overflow checks", "why_tests_cant": "A test needs a second reader to compare with; modules without a triple, with one-letter names or of later versions are not written by the compiler at hand.", "anchors": ["llvm-mapper/src/block/module.rs: TryFrom<(&Block, &mut PartialMapCtx)> for Module", "llvm-mapper/src/unroll.rs: Record::try_string"]}
{"id": "C89", "title": "IDENTIFICATION blocks mean what LLVM's reader takes them for", "statement": "Full claim: an IDENTIFICATION block is accepted exactly if LLVM's reader accepts it, with the same producer. That is false in both directions. What holds: in a block read by both the epoch is 0 (LLVM looks at 32 bits of it), and LLVM's producer is llvm-mapper's followed by the further STRING records, if there are any. Of the blocks LLVM reads, exactly those are accepted whose first STRING record is a text (at least two bytes of UTF-8, or, without overflow checks, none) and that have an EPOCH record. LLVM reads exactly the blocks with no blocks in them and with no records but STRING and EPOCH 0; llvm-mapper does not check the epoch and skips other records.", "quantifier": "every IDENTIFICATION block, with and without overflow checks", "why_tests_cant": "A test needs a second reader to compare with; blocks with another epoch or without one are not written by the compiler at hand.", "anchors": ["llvm-mapper/src/block/identification.rs: TryFrom<&Block> for Identification", "llvm-mapper/src/unroll.rs: Record::try_string"]}
{"id": "C90", "title": "Data layout strings mean what LLVM's parser takes them for", "statement": "Full claim: a data layout string is accepted exactly if LLVM's parser (DataLayout::parseSpecifier) accepts it, with the same layout. That is false in both directions. What holds: in a string accepted by both, every specification says the same; stack alignment, address spaces, mangling and function pointer alignment of the layout are LLVM's, so are the byte order if the string settles it, the native integers and the non-integral address spaces if there is at most one specification of them, and the alignments of the types the string mentions; for every address space the last pointer entry is LLVM's. Of the strings LLVM accepts, exactly those are accepted that are in ASCII, are not empty and have no s specification, no alignment of zero, no address space and no type width above 2^23-1, no width of zero for integers, vectors or floats, no width for aggregates, no mangling l, and nothing after a colon for S, F, P, G and A. Of the strings accepted, LLVM accepts exactly those without a plus sign in the pieces read and without a colon at the end of these, where the pointers and their indices have a positive multiple of eight bits below 2^32 and alignments of at most 2^28 bytes, the preferred not below the ABI one, where nothing follows the mangling letter, where a colon follows ni, and where no native integer has width zero.", "quantifier": "every string", "why_tests_cant": "A test needs a second parser to compare with; the layout strings of common targets have none of the differences but for aggregates.", "anchors": ["llvm-mapper/src/record/datalayout.rs: FromStr for DataLayout", "llvm-support/src/align.rs: FromStr for TypeAlignSpec, FromStr for PointerAlignSpec"]}
{"id": "C91", "title": "A mapped module has LLVM's data layout", "statement": "Full claim: the data layout of a mapped module is the one LLVM has for it, and LLVM accepts it. That is false: without a DATALAYOUT record LLVM is little-endian and aligns 64-bit integers to 4 bytes, llvm-mapper is big-endian and aligns them to 8; and each of the two accepts modules with layouts the other refuses. What holds, with or without a DATALAYOUT record, if LLVM reads the module and its layout: stack alignment, address spaces, mangling and function pointer alignment are LLVM's; so are the byte order if the string settles it, the native integers and non-integral address spaces if there is at most one specification of them, and the alignments of the types the string mentions; the last pointer entry of every address space is LLVM's, that of address space 0 also if the string has none. LLVM reads the layout of a mapped module if there is no record for it, and otherwise exactly if the string meets the conditions of C90.", "quantifier": "every module block, every string table, every triple of the build machine, with and without overflow checks", "why_tests_cant": "A test needs a second reader to compare with, and the modules of a compiler have few of the possible layouts.", "anchors": ["llvm-mapper/src/block/module.rs: TryFrom<(&Block, &mut PartialMapCtx)> for Module", "llvm-mapper/src/record/datalayout.rs: FromStr for DataLayout"]}
{"id": "C92", "title": "What is loaded from a file is what LLVM loads from it", "statement": "Full claim: the modules that Bitcode::try_from returns have the contents LLVM has for them. That is false: a module without a TRIPLE record has the triple of the build machine. What holds of every file that is loaded and in which LLVM finds modules: they are as many, in the same order; each has LLVM's string table; LLVM's producer, if LLVM accepts the identification, is the one loaded, followed by the further STRING records if there are any, and the epoch is 0 modulo 2^32; the target triple is LLVM's if there is a TRIPLE record, and the assembly, joined with newlines and ended by one, is LLVM's. LLVM reads the version and the strings of a loaded module exactly if the version is at most 2.", "quantifier": "every buffer below 2^61 bytes whose tables have one BLOB record that is abbreviated and not empty, every triple of the build machine, with and without overflow checks", "why_tests_cant": "A test needs a second reader to compare with, and has only the files at hand.", "anchors": ["llvm-mapper/src/unroll.rs: TryFrom<&[u8]> for Bitcode, PartialBitcodeModule::reify", "llvm-mapper/src/block/module.rs: TryFrom<(&Block, &mut PartialMapCtx)> for Module", "llvm-mapper/src/block/identification.rs: TryFrom<&Block> for Identification"]}
