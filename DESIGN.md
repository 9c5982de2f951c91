# Formal model of EverCrawl/packetc in Rocq (Coq 8.16.1)

packetc compiles a schema text to TypeScript read/write code, and in an earlier version to Rust. The model follows the pipeline:

    text --Parser--> AST --Check--> resolved types --TsGen--> TypeScript text --TsSem--> bytes / objects

plus the error report (lib.rs) and the command line driver (main.rs).

## Files (rocq/theories)

| file | models |
|---|---|
| `Base.v` | strings, decimal printing, results with explicit panic and out-of-fuel values |
| `Ast.v` | src/lib/ast.rs |
| `Peg.v`, `Parser.v` | rust-peg combinators (with furthest-failure positions) and src/lib/parser.rs |
| `Check.v` | src/lib/check.rs, HashMap iteration order as an explicit oracle |
| `TsGen.v` | src/lib/gen/gen_ctx.rs, mod.rs, ts.rs: the text generator, string for string |
| `TsAst.v`, `TsPlan.v` | a small TypeScript syntax, its printer, and the generator at that level; proved to print to the text of `TsGen.v` |
| `TsText.v` | a reader for the subset of TypeScript that occurs: lexer, parser (specification; knows nothing of the generator) |
| `TsTextProofs.v`, `TsTextParse.v`, `TsTextGen.v` | the reader inverts the printer, and reads every emitted text |
| `TsStatic.v` | early errors: duplicate declarations in a block |
| `TsTests.v`, `ParserTests.v`, `CheckTests.v` | the unit tests of ts.rs, parser.rs and check.rs, and the schemas of the documentation and of resource/, replayed on the model |
| `GenSpec.v` | bracket scanner and declaration vocabulary for C19, C20, C50 |
| `TsSem.v` | what the emitted TypeScript does: block scopes with temporal dead zones, a heap, prototypes, exceptions; the packet runtime is a parameter |
| `TsNew.v` | what callers of the emitted class do: `new K(...)`, `x.write()` |
| `TsTypes.v` | a type checker for the emitted code (specification), for TypeScript's option strict |
| `TypedSpec.v` | the names of a schema that are free of type errors (C62) |
| `IsolatedSpec.v` | the same with TypeScript's options preserveConstEnums or isolatedModules (C104; proofs in `IsolatedProofs.v`) |
| `CliOneSpec.v` | the name of the output of a single file, and what is in its way (C55, C106; proofs in `CliOne.v`) |
| `CliPrint.v`, `CliPrintSpec.v` | the command with its standard output; vocabulary for the lines it prints (C107, C108; proofs in `CliPrintProofs.v`) |
| `CliReportSpec.v` | the errors that the command reports (C109; proofs in `CliReport.v`) |
| `CliLinks.v`, `CliLinksSpec.v` | main.rs:47-60 in a file system with symbolic links; what the walk finds there (C110; proofs in `CliLinksProofs.v`) |
| `CliLinkRun.v`, `CliLinkRunSpec.v` | main.rs:68-140 in such a file system; what a run changes there (C111; proofs in `CliLinkRunProofs.v`, agreement with `Cli.v` in `CliLinkSame.v`) |
| `CliShared.v`, `CliSharedSpec.v` | main.rs:47-140 while other processes change the file system; what the command does then (C112; proofs in `CliSharedProofs.v`, `CliSharedKeep.v`, `CliSharedEnds.v`; agreement with `Cli.v` in `CliSharedAlone.v`) |
| `CliCalls.v`, `CliCallsSpec.v` | main.rs:47-140 as calls to a system that may answer anything; what can be said of the calls (C113; proofs in `CliCallsProofs.v`; the runs of `CliShared.v` are such runs: `CliCallsCover.v`; when the command ends: C114, `CliCallsEnds.v`) |
| `PartsSpec.v` | the places inside a JavaScript value, and sharing between them (C105; proofs in `PartsProofs.v`) |
| `RepeatSpec.v` | repeated field names that the checker passes over (C12; proofs in `RepeatProofs.v`) |
| `FloatSpec.v` | one encoding per value (the criterion for C34; proofs in `FloatProofs.v`) |
| `ThrowSpec.v` | vocabulary for C76: names for which read can give its result every field |
| `Wire.v`, `WireSpec.v` | values, the documented wire format, representation of values by JavaScript objects, the contract of the runtime library (specification) |
| `Codec*.v` | a reference decoder and its properties; used in proofs only |
| `Runtimes.v` | two concrete runtime libraries that meet the contract |
| `Report.v`, `Compile.v` | lib.rs: pretty_error; compile with its error types |
| `*Witness.v` | concrete schemas, values and packets for refutations and Examples |
| `Cli.v`, `CliSpec.v` | main.rs over a file system; its vocabulary |
| `LayoutSpec.v` | texts that are laid out differently, a tokeniser, and where white space and comments fit (specification for C48, C72-C75 and C77; proofs in `LayoutProofs.v`, `TokenProofs.v`, `TrailExact.v`, `LineEnds.v`) |
| `ParserCost.v`, `CheckCost.v` | parser.rs and check.rs with counters for steps and recursion depth (C78-C80) |
| `OrderSpec.v` | the orders of fields that a run can choose (specification for C90) |
| `Fuzz.v` | scripts/gen_random_pkt.py, each random choice an argument |
| `EvolveSpec.v` | vocabulary for two versions of a schema: moved, added, renamed declarations, added fields and variants (C64's sets of possible results: `NeededProofs.v`) |
| `Accept.v` | which byte sequences are packets of a type, and of which value (specification for C68) |
| `RsGen.v` | src/lib/gen/rust.rs: the text generator of the Rust back-end, string for string |
| `RsAst.v`, `RsPlan.v`, `RsText.v`, `RsText*.v` | a small Rust syntax, its printer, a reader for the emitted subset of Rust; the reader reads every emitted text |
| `RsSem.v` | what the emitted Rust does; the crate packet is a parameter |
| `RsSpec.v` | the contract of that crate, which Rust values stand for which values, packets of a type (specification for C81-C88) |
| `RsLib.v` | a concrete crate packet (little-endian, UTF-8) that meets the contract |
| `RsTests.v` | the unit tests of rust.rs, replayed on the model |
| `RsEvolveSpec.v` | emitted Rust of two schemas; TypeScript and Rust of two runs (specification for C91-C96) |
| `RsSizeSpec.v` | the size of a schema with every struct written out where it is used, names of types included (specification for C97; proofs in `RsSize.v`) |
| `VoidSpec.v` | types and fields that take no bytes (specification for C52, C88 and the rejections of C65, C91, C95; proofs in `Void.v`, `RsVoid.v`) |
| `MessageSpec.v` | the messages that the checker can give for a schema over all hash orders (specification for C103; proofs in `MessageFront.v`, `MessageProofs.v`, `MessageResults.v`) |
| `RunsSpec.v` | when the code of two runs can exchange packets (vocabulary for C35; proofs in `RunsCore.v`, `RunsAccept.v`, `RunsTypes.v`, `RunsProofs.v`) |
| `RsRunsSpec.v` | the same for the TypeScript of one run and the Rust of another (vocabulary for C94; proofs in `RsRuns.v`) |
| `RsStringsSpec.v` | strings that cross the languages: what decodes, what is refused (vocabulary for C86 and C87; proofs in `RsStrings.v`) |
| `NeedsSpec.v` | what an export needs: enums with many variants, fields that are arrays, optional, strings, floats (specification for the criteria in `PropNeeds.v`; proofs in `Needs.v`, `RsNeeds.v`) |
| `ProtoSpec.v` | values that get through write and read, heaps without own properties called `__proto__`, names whose effect is modelled (specification for `PropProto.v`; proofs in `ProtoProofs.v`) |
| `OmitSpec.v` | optional fields that may be left out, and schemas that need fields with inherited names (specification for C51 in `PropProto.v`; proofs in `OmitProofs.v`) |
| `RsOneSpec.v` | packets that differ in the flags of optional fields only, in Rust (specification for C98; proofs in `RsOne.v`) |
| `RsCheck.v` | the rules of rustc that emitted code can break; which schemas obey them (specification for C89) |
| `RsCheckProofs.v`, `RsCheckWitness.v`, `RsRun*.v`, `RsResults.v`, `RsClaims*.v`, `RsInterop.v`, `RsBrackets.v` | proofs about the Rust back-end |
| `*Proofs.v`, `ReadWork.v` | proofs; `Prop*.v` | the property theorems only, each closed by `exact`, with `Print Assumptions` |

## Per property: model and proof method

* C01-C04 parser: PEG combinators over byte lists, repetition on fuel with an explicit out-of-fuel result shown
  unreachable; a declarative layout relation; `parse text = Ok ast <-> layout ast text` by induction in both directions.
* C05 error report: model of `pretty_error` on bytes with UTF-8 character boundaries; direct proof where the text before
  the error is ASCII, refutation otherwise (`chars().nth(byte offset)`).
* C69 place of parse errors: for each rule of the grammar a set of tails that complete the text read so far (a residual
  language); every remembered failure is at a point with a non-empty one. Second part: a run that remembers no failure in
  the last six bytes of a prefix does the same on every text with that prefix.
* C72-C75, C77 layout: a relation between texts with other line ends, blanks and comments, shown to be respected by each
  clause of the layout relation; a tokeniser (specification), of which the schema's own token list is computed and shown
  to be a prefix code.
* C06-C17, C47, C90 checker: functions over finite maps (std++ `gmap`), iteration order an arbitrary permutation of the entries;
  second pass is a fuelled depth-first search; invariants on cache/visited/unresolved; acceptance iff by soundness
  (height argument) and completeness (stack argument). C11, C12, C14 are expected to be false of the code: refutations
  with witnesses plus the largest part that holds. C70 (messages) follows the same invariants for the runs that fail.
  C90: the map at the time a struct is visited is closed under references; conversely the order that visits such a set first.
* C18-C23, C60 generator: text generator in state-passing style; equality with the printer of a statement syntax tree;
  bracket balance by induction on that tree; declared/referenced names from the checker's closure theorem; size lower
  bound by two families of schemas (C22 refuted), upper bound by the size of the unfolded export, and polynomial bounds for a fixed depth of nesting (`SizeSpec.nested`), of the smallest degree; local names: refuted in general, with an exact criterion in terms of the schema (locals described by the suffixes they add to the name of a field; no two in a block spell the same).
* C24-C38, C61, C68 generated code: fuelled interpreter for the statement syntax; reference encoder/decoder; simulation lemma by
  induction on the resolved type; all others are consequences of the reference codec. C29-C36 contain expected
  refutations.
* C76 throwing names: the same simulation, with a second outcome for the code of a field that cannot be assigned: it
  throws at the assignment, or the reader has failed before it. A throwing input is the packet of any value.
* Statements about emitted code (C20, C23, C24-C38, C45, C46, C50-C52, C60, C61, C65-C68, C76) are about the emitted text: the text of every
  run is read by `read_ts`, and the statement is about the declarations and the class that are read (`for_text`,
  `for_code`). Hypotheses: the schema is one that a text can denote, version and time are printable ASCII.
* C62: a type checker over the syntax that `read_ts` gives; induction on the resolved type, with the types that the
  declarations give to members. It accepts less than TypeScript, so refutations name the offending declaration as well.
* C63-C67 two versions of a schema: C63 from the first pass, which depends on the set of declarations only; the others
  from the uniqueness of the type that a schema gives its export, and the reference codec at two related types.
* C39 composition of the above.
* C40-C44, C54-C59, C106 CLI: a file system is a finite map from locations to files and directories. An environment gives the
  working directory, the listing order, which inspections and reads fail (`fault`), where is_dir fails (`blind`), where
  a write or mkdir fails and after how many bytes (`torn`), and the hash orders and clock of each compile. Unix paths are
  strings with std::path's components, push, with_extension, strip_prefix. One job per schema; induction on the jobs.
* C107, C108: the functions of main.rs that print, again, with the list of lines printed so far and an oracle for lines that cannot be
  printed (`mute`); shown to follow the model without output until such a line. C56 leaves these panics aside; they are C108.
* C109: an error of the walk is traced to the file it comes from; texts by C05 and C103.
* C110: paths are resolved with a budget of links to follow (a parameter; Linux has 40), as in path_resolution(7); the walk is modelled
  again, without faults, and records the paths it would compile. The specification has its own relation for path resolution (`arrives`),
  not the functions of the model. The walk ends because a step goes down or uses up a link.
* C111: the rest of main.rs on such file systems, again without faults: mkdir(2) does not follow the last link of a path, open(2) does.
  The compiler is any function. Without links this is the command of Cli.v: both end in the same file system, and succeed together
  (error texts aside). Two relations between the file systems before and after are kept by each step.
* C112: the command is modelled once more; before each operation any function is applied to the file system, and reads, new directories
  and writes are recorded. fs::create_dir_all is modelled as in std (the last component first, then upwards). Operations are atomic; a write
  may be cut short. The theorems are about the record; of what is there afterwards only C112_outputs tells, for others that leave
  the outputs alone. If the others do nothing
  this is the command of Cli.v, which makes directories from the top down; both ways lead to the same result.
* C113: the command is modelled once more, now without a file system: a call is answered by any function of the calls so far, and is recorded
  with its answer. The statements are about this record only. create_dir_all is that of std, mkdir from the bottom up.
  Each run of C112 is one of these: the system computes its state from the record. C114: the walk makes its path longer at each step down.
* C71 random schemas: the script's text is a layout of an explicit AST, which is shown to be valid (types refer to earlier
  ones only); runs that go wrong as witnesses.
* C45, C46 static facts on emitted names, with witnesses.
* C78-C80 work: the rules and functions again, with counters, shown to compute the same outcomes. Parser: the cost of a rule
  that succeeds is charged to what it consumes, that of one that fails to what is left, and what is tried before
  another alternative fails after the leading blanks. Checker: what has not been visited is the potential that pays.
* C81-C88 Rust back-end: rust.rs is commented out of the build at the pinned commit (gen/mod.rs:2) and the traits it implements
  are gone, so its functions are modelled and called in the order of the output in README.md:33-46 (common part, types,
  write, read). The emitted text is read by `read_rs`; an interpreter over owned trees; simulation of `read` by a decoder
  that takes the value to be filled, by induction on the resolved type; local variables never clash since each is longer
  than its root. Decoder and `packet` relation are shown equivalent; C86 and C87 compare it with `accepts` of C68.
* C89: a type checker for the fragment, shown to succeed on the emitted code exactly for the schemas that `rust_ready`
  describes in terms of declarations; by induction on the resolved type.
* C91-C94: as C65-C67 and C35, with the decoder of C84; a run emits one language, so C94 compares two runs.
* C95, C96: C65/C66 and C91/C92 joined by the equality of the bytes that both languages write.
* C97: as C22, by induction on the resolved type, with a measure that counts the names of types at each use (`RsSizeSpec.v`).
* C98, C99: C98 from C84 (what read takes is a packet of the format) and the round trip; how a packet relates to the one that write gives is an induction on the type with the relation as a parameter. C99 by induction on the type.
* Criteria for C29, C30, C32-C34, C85, C87, C98 (`PropNeeds.v`): a field of the kind in question at some depth of the export is found from the schema; a packet with a special part for this field and ordinary values for all others is built by induction on the depth. The converse from the absence of such fields, by induction on the type.
* C34 with floats (`PropFloat.v`): there are fewer floats than patterns of four bytes, so two patterns are read as one float, whatever the library (counting; `FloatProofs.v`).
* Criterion for C35 (`PropRuns.v`): two arrangements of one declaration whose packets are accepted as each other's are equal, by induction on the type and on the two lists of fields. Where the first fields differ, each has two values; a packet part that is read as two values must be longer than the other field's part, for both fields, which is impossible. The declared order of one struct is always possible (C90), so equal results mean kept orders (C47).
* C100-C102: from the printed tree (`RsPlan.v`). C101 with the scan of C19, line by line: what a line opens and closes is computed for its literal parts.
* C103 (`MessageSpec.v`): the second pass, started at a struct with a set of resolved types, goes to the first field whose type cannot be resolved, resolving the types of the fields before it; only the test for optional arrays depends on the set. Soundness by induction on the fuel with the invariant that resolved types have no defect below them; completeness because a walk with a given start has one message and every set that is `ready` is what some order has resolved when it comes to the struct.

## Trusted base

* Coq's kernel (and coqchk). `Print Assumptions` under each property theorem must say "Closed under the global context".
* The reading of /repo into Gallina; each definition cites the lines it models.
* rust-peg 0.6.3, fstrings, HashMap, Rc/RefCell (no `borrow_mut` occurs, so shared pointers are modelled as values).
* TypeScript: that the reader `read_ts` (TsText.v) gives a text the structure that TypeScript gives it, and the
  interpreter's reading of ECMAScript. The printer of TsAst.v is not trusted. The runtime library `packet` (packet-ts) is not in /repo: theorems quantify over every runtime that meets
  a stated contract, and a concrete one is shown to meet it. All NaNs are one value (`Wire.one_nan`), as in JavaScript; the other
  floats are their bit patterns.
* Rust: likewise the reader `read_rs` (RsText.v), the interpreter RsSem.v (usize has at least 32 bits, allocation succeeds, errors
  carry no information), the rules in RsCheck.v for C89, and the contract `rs_lib_ok` for the crate `packet` (packet-rs), which is not in /repo either.
  The NaNs of f32 are one value in the model, and one pattern is written for it; Rust would keep the pattern that was read.

## Not modelled

Stack size, memory, time (except the counts of C22, C33 and C78-C80), the TypeScript type checker beyond `TsTypes.v`,
calls of read and write in a module whose export is called undefined (no result in the model),
clap argument parsing beyond the language name, symbolic links (except in C110 and C111), the limit on the length of a path, permissions beyond failing operations, other
processes that change the files meanwhile (except in C112), the driver of the Rust back-end (it does not exist at the pinned commit), the contents of a Rust value after an
error, the benchmarks.
