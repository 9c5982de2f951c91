#!/usr/bin/env python3
"""Writes /verif/properties.jsonl. Kept as a script so that the list can grow without hand-quoting JSON."""
import json, os
P = []
def p(title, statement, quantifier, why, anchors):
    P.append(dict(id="C%02d" % (len(P) + 1), title=title, statement=statement, quantifier=quantifier,
                  why_tests_cant=why, anchors=anchors))
PAR, CHK, TS, MAIN, LIB, GEN = "src/lib/parser.rs", "src/lib/check.rs", "src/lib/gen/ts.rs", "src/main.rs", "src/lib/lib.rs", "src/lib/gen/mod.rs"
CTX, RS = "src/lib/gen/gen_ctx.rs", "src/lib/gen/rust.rs"

# --- parser -----------------------------------------------------------------------------------------------------
p("Parsing always terminates with an AST or an in-range error",
  "For every text, pkt::schema returns either Ok(ast) or an error; it never loops, and the error's byte offset is at most the text's length.",
  "all texts (arbitrary byte sequences that form a &str)", "an infinite set of texts; non-termination cannot be observed by a finite test",
  [PAR + ":pkt::schema"])
p("Names in a parsed schema are identifiers",
  "Whenever pkt::schema(text) = Ok(ast), every declared type name, field name and enum variant is non-empty, starts with a letter or underscore, continues with letters, digits or underscores, and does not begin with a reserved word; declared type names moreover never begin with 'export'; type references and the export name are made only of letters, digits and underscores.",
  "all texts", "ranges over all texts", [PAR + ":ident", PAR + ":reserved", PAR + ":string", PAR + ":line"])
p("Every legal layout of a schema parses to that schema",
  "If a text is a legal layout of an AST (declarations, enum and struct bodies, optional commas, arbitrary blanks, newlines and # comments where the grammar allows them), pkt::schema(text) = Ok of exactly that AST, in that order.",
  "all ASTs with legal names, all layouts of each", "infinitely many ASTs and layouts", [PAR + ":pkt::schema"])
p("A successful parse accounts for the whole text",
  "If pkt::schema(text) = Ok(ast) then text is a legal layout of ast: each character belongs to a declaration or export of ast in order, or to blank space, an optional comma or a comment. Hence a text that is not a layout of any AST is rejected.",
  "all texts", "ranges over all texts, including rejected ones", [PAR + ":pkt::schema"])
p("The reported parse error names the right place in the text",
  "compile's parse error message shows the character at the error position, its line number, its column and the text of that line, with the marker under that column; producing it never fails.",
  "all texts and all error positions", "the message depends on every prefix of the text", [LIB + ":pretty_error"])
# --- checker ----------------------------------------------------------------------------------------------------
p("type_check is total",
  "For every AST and every hash-map iteration order, type_check returns Ok or Err: it never panics, never unwraps None and its recursion always ends.",
  "all ASTs, all HashMap iteration orders", "iteration order is randomised per process; ASTs are unbounded", [CHK + ":type_check", CHK + ":resolve_one_second_pass"])
p("type_check accepts exactly the valid schemas",
  "type_check(ast) is Ok if and only if: there is exactly one export; declared names are distinct; every enum has 1 to 32 variants, all distinct; every field's type is a builtin or a declared name; no field is both optional and array; no declared struct refers to itself through any chain of fields; the field names that the checker compares are distinct; and the export is a declared struct.",
  "all ASTs that declare no builtin name, all iteration orders", "an iff over all schemas and all iteration orders", [CHK + ":type_check"])
p("The verdict does not depend on hash order",
  "For the same AST, type_check under any two HashMap iteration orders either succeeds under both or fails under both.",
  "all ASTs, all pairs of iteration orders", "the order is random and not controllable from a test", [CHK + ":resolve_second_pass"])
p("The checked result holds exactly the types the export needs",
  "On success the returned type map contains exactly the names reachable from the export through field types (builtins included), and the exported struct is the map's entry for the export name.",
  "all accepted ASTs, all iteration orders", "reachability over unbounded type graphs", [CHK + ":resolve_export", CHK + ":collect_used_types", CHK + ":remove_unused"])
p("Resolution is faithful to the declarations",
  "On success every struct in the result has exactly the declared fields (name, type name, array flag, optional flag), each bound to the definition that its type name has in the result; every enum has the declared variants in order, numbered 0,1,2,...",
  "all accepted ASTs, all iteration orders", "unbounded schemas and all orders", [CHK + ":resolve_one_second_pass", CHK + ":resolve_one_first_pass", CHK + ":resolve_enum"])
p("Fields keep their declared order",
  "On success every struct in the result lists its fields in the order of the declaration, so that the wire layout of a packet is fixed by the schema text.",
  "all accepted ASTs, all iteration orders", "depends on the random iteration order", [CHK + ":resolve_one_second_pass"])
p("Duplicate field names are rejected",
  "If a struct declares two fields with one name, type_check fails.",
  "all ASTs", "depends on the position of the duplicates among arbitrary other fields", [CHK + ":resolve_one_first_pass", CHK + ":resolve_one_second_pass"])
p("Enum numbering and representation",
  "Every accepted enum gets the smallest of u8/u16/u32 whose bit width is at least its number of variants; each variant is a distinct single bit and its value fits the representation.",
  "all accepted ASTs", "all variant counts and all positions", [CHK + ":resolve_enum", TS + ":gen_enum_decl"])
p("The error message is a function of the schema",
  "type_check of one AST fails with the same message whatever the hash order.",
  "all rejected ASTs, all pairs of iteration orders", "the order is random", [CHK + ":resolve_second_pass", CHK + ":resolve_one_second_pass"])
p("Recursive types are rejected",
  "A schema in which some declared struct reaches itself through fields, directly or through other structs, arrays or optional fields, used by the export or not, is rejected under every iteration order.",
  "all ASTs with a cycle of any length, all orders", "cycles of every length and position", [CHK + ":resolve_one_second_pass"])
p("Optional arrays are rejected",
  "A schema with a field that is both optional and an array is rejected, wherever the field is.",
  "all ASTs", "any position in any declaration", [CHK + ":resolve_struct_field"])
p("Unknown type names are rejected",
  "A schema with a field whose type is neither a builtin nor declared is rejected, even in a type that the export does not use.",
  "all ASTs, all orders", "any position in any declaration, all orders", [CHK + ":resolve_one_second_pass"])
# --- generator --------------------------------------------------------------------------------------------------
p("Code generation cannot fail on a checked schema",
  "For every schema that type_check accepts, generate returns text: no index, shift or subtraction in the generator panics.",
  "all accepted schemas, all iteration orders", "unbounded schemas", [TS + ":gen_read_impl_enum", GEN + ":generate"])
p("Generated text has balanced brackets and restored indentation",
  "In the text generated for any accepted schema, curly, round and square brackets are properly nested and closed, and every block is closed at the indentation at which it was opened.",
  "all accepted schemas", "nesting depth is unbounded", [TS + ":gen_impl", TS + ":gen_decls", CTX + ":GenCtx"])
p("Every referenced type is declared, once",
  "Every user type that the generated constructor or an interface mentions is declared exactly once in the export's namespace, nothing else is declared there, and the export itself is not declared there.",
  "all accepted schemas, all iteration orders", "unbounded type graphs and all orders", [TS + ":gen_decls", TS + ":field_ctor_type", TS + ":gen_struct_decl"])
p("What may vary between two compilations",
  "For a fixed checked result, two runs of generate differ at most in the timestamp of the first line and in the order of the declarations inside the namespace.",
  "all checked results, all timestamps, all iteration orders", "orders and clocks are not controllable", [GEN + ":generate", TS + ":gen_decls"])
p("Generated code size is proportional to the schema",
  "The length of the generated text is bounded by a fixed multiple of the length of the schema text.",
  "all accepted schemas", "an asymptotic claim", [TS + ":gen_read_impl_struct", TS + ":gen_write_impl_struct"])
p("Generated code declares no local twice",
  "In the generated read and write functions no block declares the same local variable twice (which would make the module a syntax error).",
  "all accepted schemas", "depends on all combinations of field names along all paths", [TS + ":gen_read_impl_struct", TS + ":gen_write_impl_optional", TS + ":varname", TS + ":bindname"])
# --- generated code ---------------------------------------------------------------------------------------------
p("write produces the documented wire format",
  "For every accepted schema and every value of the exported struct, the generated write() returns the concatenation, in field order, of: each number in its declared width; a string as a uint32 length then its bytes; an enum as its bit in the enum's representation; an array as a uint32 count then its items; an optional as 0, or 1 then the value; a struct as its fields.",
  "all accepted schemas whose module loads (names: C45), all values", "unbounded schemas and values", [TS + ":gen_write_impl_struct"])
p("read inverts write",
  "For every accepted schema and every value v of the exported struct, the generated read() applied to the bytes of the generated write() of v returns an object equal to v.",
  "all accepted schemas with harmless names (C31, C45) and enums of at most 31 variants (C30), all values that the runtime library encodes faithfully (C32)", "unbounded schemas and values", [TS + ":gen_read_impl_struct", TS + ":gen_write_impl_struct", TS + ":gen_impl"])
p("Packets are self-delimiting",
  "read() applied to write(v) followed by any bytes returns v and leaves exactly those bytes unread; so the encodings of two different values of one schema are never prefixes of one another.",
  "as in C25, all trailing bytes", "unbounded", [TS + ":gen_read_impl_struct"])
p("Truncated packets are reported",
  "read() applied to any strict prefix of write(v) returns null.",
  "as in C25, all cut points", "every cut point of every packet", [TS + ":gen_read_impl_struct", TS + ":gen_impl"])
p("read never throws",
  "For every accepted schema, read() of any byte sequence terminates and returns null or an object; it never throws.",
  "all accepted schemas, all byte sequences", "malicious packets are unbounded", [TS + ":gen_read_impl_struct", TS + ":gen_impl"])
p("read only returns declared enum values",
  "If read() returns an object, every enum field in it holds the value of a declared variant.",
  "all accepted schemas, all byte sequences", "all byte sequences", [TS + ":gen_read_impl_enum"])
p("Every permitted enum can be transmitted",
  "For every enum that type_check accepts, including the largest, each variant written by the generated writer is accepted by the generated reader.",
  "all accepted enums, all variants", "boundary of a family of programs", [TS + ":gen_read_impl_enum", CHK + ":resolve_enum"])
p("Any field name that the compiler accepts works at run time",
  "Whatever names the fields of the exported struct have, read() stores every field on its result.",
  "all accepted field names", "infinitely many names, some of them special to JavaScript objects", [TS + ":gen_impl"])
p("Strings survive a round trip",
  "For every JavaScript string s (of less than 2^32 units), writing and reading a string field gives s back.",
  "all strings", "infinitely many strings", [TS + ":gen_write_impl_builtin", TS + ":gen_read_impl_builtin"])
p("Work done by read is bounded by the packet",
  "The number of primitive reads that read() performs on a packet is at most the number of primitive fields of the exported type (structs inlined) times the packet's length plus one.",
  "all accepted schemas, all byte sequences", "worst case over all packets", [TS + ":gen_read_impl_array"])
p("A packet has one encoding",
  "If read(b) returns v having consumed all of b, then b = write(v).",
  "all accepted schemas, all byte sequences", "all byte sequences", [TS + ":gen_read_impl_optional", TS + ":gen_read_impl_enum"])
p("Two builds of one schema interoperate",
  "Code generated from one schema text by two separate runs of the compiler agrees on the wire: what one writes, the other reads back.",
  "all accepted schemas, all values, all pairs of iteration orders", "the runs differ in random hash order", [CHK + ":resolve_one_second_pass", TS + ":gen_impl"])
p("A packet that was read can be written again",
  "The object that the generated read() returns has the generated write() method.",
  "all accepted schemas, all byte sequences that are accepted", "all schemas", [TS + ":gen_impl"])
p("The encoded size is determined by type and content",
  "The number of bytes of write(v) is the sum of the widths of its numbers and enums, 4 plus the byte length per string, 4 per array and 1 per optional: no padding, tags or names.",
  "all accepted schemas, all values", "unbounded", [TS + ":gen_write_impl_struct"])
p("Reading has no effect on data outside the result",
  "read() and write() change no object that existed before the call; write() leaves its packet unchanged.",
  "all accepted schemas, values, byte sequences and heaps", "all program states", [TS + ":gen_read_impl_struct", TS + ":gen_write_impl_struct"])
# --- compile and CLI --------------------------------------------------------------------------------------------
p("compile is the composition of its stages",
  "compile(text) fails with a Parse error iff text does not parse, with a Check error iff it parses to an invalid schema, and otherwise returns code for exactly the schema that the text denotes; it never panics.",
  "all texts, all iteration orders", "all texts", [LIB + ":compile"])
p("Directory mode writes nothing unless everything compiles",
  "If some .pkt file under the input directory cannot be read or compiled, the command fails and no file is created or changed.",
  "all directory trees, all contents, all directory listing orders", "unbounded trees and orders", [MAIN + ":main", MAIN + ":run_all", MAIN + ":visit_files"])
p("Directory mode writes exactly one output per schema",
  "If everything compiles and no write fails, exactly one file is written per .pkt file, at the mirrored path under the output directory with extension ts, holding the code for that schema; files without extension pkt are ignored.",
  "all directory trees, all listing orders", "unbounded trees and orders", [MAIN + ":run_all", MAIN + ":format_path", MAIN + ":save_one"])
p("Different schemas never share an output file",
  "Two different .pkt files under the input directory are written to different output paths.",
  "all pairs of paths with extension pkt", "all file names, including several dots", [MAIN + ":format_path"])
p("A failing write leaves earlier outputs complete and later ones untouched",
  "If the k-th write fails, the first k-1 outputs hold complete code, no file is created or changed at a later output, and the command reports failure.",
  "all trees, all failure points", "every crash point", [MAIN + ":main", MAIN + ":save_one"])
p("A missing input is reported",
  "If the input path does not exist the command fails.",
  "all paths and file systems", "all file systems", [MAIN + ":main"])
p("Every accepted export name yields a usable module",
  "The generated module loads, and read() can set up its result, whatever the export is called.",
  "all accepted export names", "all names", [TS + ":gen_common", TS + ":gen_impl"])
p("Any accepted field or type name is legal TypeScript where it is used",
  "Every field name of the export is a legal constructor parameter name and every declared type name is a legal type name in the generated code.",
  "all accepted names", "all names, including words reserved in TypeScript but not in schemas", [TS + ":gen_impl", TS + ":gen_struct_decl", PAR + ":reserved"])
# --- added later ------------------------------------------------------------------------------------------------
p("Which structs have a layout that every run agrees on",
  "The declared field order of a struct survives every hash order if and only if, of any two of its fields, the earlier one has a builtin type, an enum type or the type of a struct of builtins only, or a type that the later field's type contains or is.",
  "all valid schemas, all structs the export needs, all iteration orders", "all schemas and orders", [CHK + ":resolve_one_second_pass"])
p("Blank space at the end of a schema does not matter",
  "Adding blanks and line ends at the end of a text that parses does not change the result.",
  "all texts that parse, all blank suffixes", "all texts", [PAR + ":schema", PAR + ":line", PAR + ":export"])
p("Which schemas can be written down",
  "An AST is the result of parsing some text if and only if its names are legal (as in C02).",
  "all ASTs", "all ASTs", [PAR + ":pkt::schema"])
p("Declarations mirror the schema",
  "Each generated enum lists the declared variants in order with values 1<<0, 1<<1, ...; each interface and the constructor list exactly the declared fields with their types, array and optional marks.",
  "all accepted schemas, all iteration orders", "all schemas", [TS + ":gen_struct_decl", TS + ":gen_enum_decl", TS + ":gen_impl"])
p("Optional fields may be left out",
  "If optional fields are missing from the objects given to write(), the packet is the one for absent values.",
  "all accepted schemas, all values", "all schemas and field names", [TS + ":gen_write_impl_optional"])
p("The result of read is no larger than the packet",
  "If read() accepts a packet, the result has fewer array items than the packet has bytes.",
  "all accepted schemas, all byte sequences", "all packets", [TS + ":gen_read_impl_array"])
p("Any identifier but the reserved words can name a declaration",
  "An identifier that is not a reserved word can be used as the name of a struct or enum.",
  "all identifiers", "all words", [PAR + ":ident", PAR + ":reserved"])
p("Only files with extension ts are written",
  "Whatever the outcome, a run changes no file but those with extension ts, removes nothing and creates nothing but such files and directories.",
  "all file systems, arguments and failures", "all trees and failure points", [MAIN + ":main", MAIN + ":save_one", MAIN + ":format_path"])
p("A directory of good schemas is compiled",
  "If every schema in the directory compiles, no operation fails and the output directory does not exist yet, the command succeeds.",
  "all directory trees", "all layouts", [MAIN + ":main", MAIN + ":save_one"])
p("The command ends without a panic",
  "For all arguments and file systems the command ends with success or an error.",
  "all file systems, arguments and failures", "all names and trees", [MAIN + ":visit_files", MAIN + ":format_path"])
p("A successful run can be repeated",
  "After a successful run the same command succeeds again, even if outputs were put among the inputs and all iteration orders differ.",
  "all file systems, arguments, orders", "all layouts and orders", [MAIN + ":main", MAIN + ":save_one"])
p("A single file and a directory give the same output names",
  "Compiling the single file s.pkt puts the code into s.ts in the output directory, as compiling its directory does.",
  "all file names", "all file names, including several dots", [MAIN + ":format_path", MAIN + ":run_one"])
p("The language argument",
  "The language argument is accepted if and only if it is ts in any case.",
  "all strings", "all strings", [MAIN + ":Lang::from_str"])
p("The emitted text is a well-formed module",
  "The text that the compiler emits consists, apart from layout and a comment, of an import, a namespace and a class of the exported name, all well-formed.",
  "all accepted schemas, all iteration orders, versions and times", "all schemas", [TS + ":gen", TS + ":gen_common", TS + ":gen_impl"])
p("Constructed objects can be written",
  "new K(...) with the values of the export's fields in declared order gives an object with these fields, and calling its write method returns their packet.",
  "all accepted schemas, all values, all iteration orders", "all schemas, field names and orders", [TS + ":gen_impl", CHK + ":resolve_one_second_pass"])
p("The emitted module type checks",
  "The TypeScript compiler, with strict checks, finds no type error in the emitted module: all names are declared once, types of members and parameters exist, every expression has the type that its use requires, no variable is used before it is declared.",
  "all accepted schemas, all iteration orders", "all schemas and names", [TS + ":gen_common", TS + ":gen_impl", TS + ":gen_decls", TS + ":gen_read_impl_struct", TS + ":gen_write_impl_struct"])
p("Order of declarations does not matter",
  "Moving the declarations and the export of a schema to other places in the text does not change the result of type_check.",
  "all schemas, all permutations, all iteration orders", "all permutations", [CHK + ":type_check", CHK + ":resolve_one_first_pass"])
p("Only the declarations that the export needs matter",
  "Two accepted schemas with the same export that declare alike all that it needs give the same result, and a well-formed declaration of a new name can be added to an accepted schema without effect, if the checker keeps the order of the fields (C11). Where it need not keep it, the sets of possible results are the same.",
  "all schemas and declarations, all iteration orders", "all pairs of schemas", [CHK + ":type_check", CHK + ":resolve_one_second_pass"])
p("Fields added at the end of the export",
  "If fields are added at the end of the exported struct, the code for the old schema reads packets of the new one as if the new fields were absent, and the code for the new schema returns null for packets of the old one if some new field takes a byte, and otherwise reads them with the new fields filled in.",
  "all pairs of accepted schemas whose field order is kept, all values, all iteration orders", "all pairs of schemas and all values", [TS + ":gen_read_impl_struct", TS + ":gen_write_impl_struct", CHK + ":resolve_one_second_pass"])
p("Variants added at the end of enums",
  "If variants are added at the end of enums without a change of their representation (and none has 32), the new code reads every packet of the old code as the same value; the old code reads a packet of the new code as the same value if it uses old variants only, and returns null otherwise.",
  "all pairs of accepted schemas whose field order is kept, all values, all iteration orders", "all pairs of schemas and all values", [TS + ":gen_read_impl_enum", CHK + ":resolve_one_first_pass"])
p("Names are not transmitted",
  "If types and fields are renamed without making different names equal, the schema is still accepted, and values that differ in the names of fields only are written as the same bytes.",
  "all accepted schemas whose field order is kept, all renamings, all values, all iteration orders", "all renamings and values", [TS + ":gen_write_impl_struct", CHK + ":type_check"])
p("Exactly the packets of the format are accepted",
  "read returns an object if and only if the bytes start with a packet of the documented format: each integer in its encoding, each enum a number from its first to its last variant, each optional field a flag that is 0 or followed by a value, each array a count and that many items. The object stands for that value, which is unique, and the reader stops behind the packet. For all other bytes it returns null.",
  "all accepted schemas, all byte sequences, all runtime libraries that meet the contract, all iteration orders", "all byte sequences", [TS + ":gen_read_impl_struct", TS + ":gen_read_impl_enum", TS + ":gen_read_impl_optional", TS + ":gen_read_impl_array"])
p("Parse errors are where the text goes wrong",
  "The text before the reported offset can be completed to a schema, and the error is settled by the six bytes that follow the offset (the length of the longest keyword): every text with the same beginning is rejected with the same offset.",
  "all texts", "all texts and all continuations", ["src/lib/parser.rs:schema", "src/lib/parser.rs:line", "src/lib/parser.rs:ident"])
p("Check errors name a defect of the schema",
  "When a schema is rejected, the message describes a defect that the schema has: the named type is missing, recursive, declared twice, has no variants, too many (with the right number), a repeated variant or field, the named field is an optional array, the export is missing, repeated or not a struct.",
  "all schemas, all iteration orders", "all schemas and all hash orders", [CHK + ":type_check", CHK + ":resolve_one_second_pass", CHK + ":resolve_one_first_pass", CHK + ":get_export", CHK + ":collect_types"])
p("Random schemas of the fuzzing script are accepted",
  "Whatever the random choices are, scripts/gen_random_pkt.py ends without an exception and writes a schema that parses and that the checker accepts.",
  "all sequences of random choices, all iteration orders", "the script draws one file per run out of astronomically many", ["scripts/gen_random_pkt.py:generate_type", "scripts/gen_random_pkt.py:generate_definition", "src/lib/parser.rs:schema", CHK + ":type_check"])
p("Line ends, the width of blanks and comment texts do not matter",
  "If two texts differ only in line ends (lf, cr lf, any number of empty lines), in the width of non-empty blanks and in what the comments say, one parses if and only if the other does, to the same schema. In particular a text with Windows line ends is read as the same text with Unix ones.",
  "all texts, all such changes at any number of places", "all texts and places", ["src/lib/parser.rs:_", "src/lib/parser.rs:__", "src/lib/parser.rs:___", "src/lib/parser.rs:comment", "src/lib/parser.rs:schema"])
p("Schemas can be put one after the other",
  "If two texts parse, the text that consists of both with a line end between them parses, and its schema is the first followed by the second.",
  "all pairs of texts that parse", "all pairs of texts", ["src/lib/parser.rs:schema", "src/lib/parser.rs:line", "src/lib/parser.rs:comment"])
p("Layout never changes the meaning",
  "Two texts with the same words and signs, whatever their white space, commas and comments are, denote the same schema if both parse and one of the schemas is accepted by the checker.",
  "all pairs of texts, all iteration orders", "all texts and all ways to lay them out", ["src/lib/parser.rs:schema", "src/lib/parser.rs:string", "src/lib/parser.rs:ident", "src/lib/parser.rs:export", CHK + ":type_check"])
p("Blanks and comments can be added at the end of a line",
  "Adding blanks, or blanks and a comment, before any line end of an accepted schema gives a text of the same schema.",
  "all texts of accepted schemas, all line ends, blanks and comments", "all texts and places", ["src/lib/parser.rs:line", "src/lib/parser.rs:export", "src/lib/parser.rs:enum_variant", "src/lib/parser.rs:struct_field"])
p("Exactly these names make read throw",
  "A call of read never throws, whatever the bytes are, if and only if the generated module loads, read can create its result, and no field of the exported struct is called prototype, length, name, arguments or caller. With such a field no packet can be read at all: read throws, or returns null, the latter only if the field is a single enum.",
  "all accepted schemas without a field __proto__ whose enums have at most 31 variants and whose export has a name that the model covers, all byte sequences, all runtime libraries that meet the contract, all iteration orders", "all schemas and byte sequences", [TS + ":gen_read_impl", TS + ":gen_read_impl_struct", TS + ":gen_read_impl_enum", TS + ":gen_read_impl_optional", TS + ":gen_read_impl_array"])
p("Other characters occur in comments only",
  "In a text that parses, every character that is not part of a name, white space or one of ? : [ ] { } , # lies in a comment. So a byte order mark, quotes or letters outside of ASCII are never taken as part of a schema.",
  "all texts", "all texts and places", ["src/lib/parser.rs:schema", "src/lib/parser.rs:comment", "src/lib/parser.rs:ident", "src/lib/parser.rs:string"])
p("Parsing takes linear time",
  "The parser compares a number of characters that is at most a constant times the length of the text, whether the text parses or not: no schema text makes it backtrack for long.",
  "all texts", "all texts", ["src/lib/parser.rs:schema", "src/lib/parser.rs:line", "src/lib/parser.rs:struct_field", "src/lib/parser.rs:enum_variant"])
p("Checking takes quadratic time",
  "The number of steps of type_check is at most a constant times the square of the number of lines, fields and variants (hence of the length of the text), although the result can describe exponentially large values. No linear bound holds.",
  "all schemas, accepted or not, all hash orders", "all schemas and orders", [CHK + ":type_check", CHK + ":resolve_one_second_pass", CHK + ":collect_used_types", CHK + ":resolve_export"])
p("The checker recurses to a bounded depth",
  "There is a depth that the recursion of the checker never exceeds, so that no schema makes it run out of stack.",
  "all schemas and hash orders", "all schemas and orders", [CHK + ":resolve_one_second_pass", CHK + ":collect_used_types"])
# --- the Rust back-end ------------------------------------------------------------------------------------------
p("Rust: the module declares what the export needs, as the schema says",
  "The emitted Rust module declares each user type that the export needs exactly once and nothing else; structs with the fields and types of the schema, enums with the smallest representation, variant i as 1 << i, the first variant as the default and the same numbers in TryFrom.",
  "all accepted schemas, all hash orders", "infinitely many schemas", [RS + ":gen_def", RS + ":gen_def_enum_default_impl", RS + ":gen_def_enum_tryfrom_impl"])
p("Rust: write appends the documented format",
  "For every value of the exported Rust type, the emitted write function appends exactly the bytes of the documented wire format of that value.",
  "all accepted schemas, all values", "infinitely many schemas and values", [RS + ":gen_write_impl"])
p("Rust: read inverts write, leaves what follows, refuses what is cut off",
  "Reading what write appended, followed by any bytes, into a default value returns Ok with the written value and leaves the reader at those bytes; every proper prefix of a written packet is an error.",
  "all accepted schemas, all values, all continuations", "infinitely many schemas and values", [RS + ":gen_read_impl", RS + ":gen_write_impl"])
p("Rust: read accepts exactly the packets of the format",
  "For any bytes, read into a default value returns Ok with a value of the exported type if and only if the bytes start with a packet of that value; otherwise an error. It never yields an enum outside its variants.",
  "all accepted schemas, all byte sequences", "infinitely many byte sequences", [RS + ":gen_read_impl", RS + ":gen_def_enum_tryfrom_impl"])
p("Rust: what read leaves depends on the packet only",
  "Whatever the value that read is given to fill, after Ok it holds the value of the packet.",
  "all accepted schemas, all old values, all packets", "depends on pairs of values", [RS + ":gen_read_impl_array", RS + ":gen_read_impl_optional"])
p("Packets of either back-end are read by the other",
  "For one run of the compiler on both languages, the TypeScript class and the Rust functions write the same bytes for the same value, and each reads what the other writes as that value.",
  "all accepted schemas, all values", "infinitely many schemas and values; needs two compilers and two libraries", [RS + ":gen_write_impl", TS + ":gen_write_impl"])
p("Both back-ends accept the same packets",
  "A byte sequence is accepted by the emitted TypeScript if and only if it is accepted by the emitted Rust, as the same value.",
  "all accepted schemas, all byte sequences", "infinitely many byte sequences", [RS + ":gen_read_impl_enum", TS + ":gen_read_impl_enum"])
p("Rust: the work and memory of read are bounded by the packet",
  "read makes at most one call of the reader per byte of the packet, plus one; it reserves room for at most as many elements as the packet has bytes.",
  "all accepted schemas, all byte sequences, accepted or not", "hostile packets are not in a test suite; infinitely many", [RS + ":gen_read_impl_array"])
p("Rust: the emitted module compiles",
  "For every schema that the checker accepts, the emitted Rust obeys the rules of Rust: names are no keywords and hide no name that the code uses, types are known and finite, enum patterns are numbers of the enum's type, arguments have the types of the methods they are given to, nothing is moved out of a borrow.",
  "all accepted schemas, all hash orders", "infinitely many schemas; needs a compiler", [RS + ":gen_def", RS + ":gen_def_enum_tryfrom_impl", RS + ":gen_read_impl", RS + ":gen_write_impl", RS + ":gen_write_impl_enum", RS + ":gen_write_impl_optional"])
p("Which orders of fields a run can choose",
  "The orders in which a run of the checker can list the fields of a struct that the export needs are exactly these: for a set of types that contains all that is resolved in the first pass, contains whatever its members refer to, and does not contain the struct, the fields of types in the set as declared, followed by the others as declared.",
  "all valid schemas, all needed structs, all hash orders", "hash orders are random; a test sees one per run", [CHK + ":resolve_one_second_pass", CHK + ":resolve_second_pass", CHK + ":resolve_first_pass"])
p("Rust: fields added at the end",
  "If fields are appended to the exported struct, code of the old schema reads every packet of the new code as the value without the new fields, and code of the new schema refuses every packet of the old code if some new field takes a byte, and otherwise reads it with the new fields filled in.",
  "all pairs of accepted schemas that differ in this way, whose order of fields is the same in all runs, all values", "needs two versions of a schema; infinitely many pairs and values", [RS + ":gen_read_impl_struct", RS + ":gen_write_impl_struct", CHK + ":resolve_one_second_pass"])
p("Rust: variants added at the end",
  "If variants are appended to enums whose representation stays the same, values of the old type are written as the same bytes and read back by the new code; a packet of the new code is read by the old code as the same value if that value belongs to the old type and refused otherwise.",
  "all pairs of accepted schemas that differ in this way and whose order of fields is the same in all runs, all values", "needs two versions of a schema; infinitely many pairs and values", [RS + ":gen_read_impl_enum", RS + ":gen_write_impl_enum", RS + ":gen_def_enum_tryfrom_impl"])
p("Rust: names are not transmitted",
  "Renaming types and fields does not change the bytes that the emitted code writes for a value.",
  "all accepted schemas whose order of fields is the same in all runs, all injective renamings that keep the builtins, all values", "infinitely many schemas, renamings and values", [RS + ":gen_write_impl", RS + ":gen_write_impl_struct"])
p("TypeScript and Rust of separate runs understand each other",
  "The TypeScript that one run of the compiler emits and the Rust that another run emits for the same schema write the same bytes for the same value, and each reads what the other writes. Likewise the Rust of two runs.",
  "all accepted schemas, all pairs of hash orders, all values", "hash orders are random; a test sees one pair per build", [RS + ":gen_write_impl", TS + ":gen_write_impl", CHK + ":resolve_one_second_pass", MAIN + ":run_one"])
p("Fields added at the end, between the languages",
  "If fields are appended to the exported struct, the new TypeScript and the new Rust write the same packet for a value, the old TypeScript and the old Rust both read it as the value without the new fields, and whatever the old code of either language writes the new code of both refuses if some new field takes a byte, and otherwise reads with the new fields filled in.",
  "all pairs of accepted schemas that differ in this way, whose order of fields is the same in all runs, four separate runs, all values whose strings both libraries transmit alike", "needs two versions of a schema in two languages; infinitely many pairs and values", [RS + ":gen_read_impl_struct", TS + ":gen_read_impl_struct", RS + ":gen_write_impl_struct", TS + ":gen_write_impl_struct", MAIN + ":run_one"])
p("Variants added at the end, between the languages",
  "If variants are appended to enums whose representation stays the same, the new code of both languages reads what the old code of either writes; and a packet of the new code of either language is read by the old code of both if the value belongs to the old type, and refused by both otherwise.",
  "all pairs of accepted schemas that differ in this way and whose order of fields is the same in all runs, four separate runs, all values whose strings both libraries transmit alike", "needs two versions of a schema in two languages; infinitely many pairs and values", [RS + ":gen_read_impl_enum", TS + ":gen_read_impl_enum", RS + ":gen_write_impl_enum", TS + ":gen_write_impl_enum", RS + ":gen_def_enum_tryfrom_impl"])
p("Rust: size of the emitted code",
  "The length of the emitted Rust is bounded by a fixed multiple of the length of the schema text.",
  "all accepted schemas, all hash orders", "asymptotic statement about infinitely many schemas", [RS + ":gen_read_impl_struct", RS + ":gen_write_impl_struct", RS + ":gen_def_enum_tryfrom_impl", RS + ":gen_def"])
p("Rust: what was read can be written again, to the same bytes",
  "If the generated Rust read takes a packet, write succeeds on the value that it gives, and the packet that write gives is the bytes that were read; reading it gives the value again.",
  "all accepted schemas, all byte strings", "all packets, including those that write never emits", [RS + ":gen_read_impl_struct", RS + ":gen_read_impl_optional", RS + ":gen_write_impl_struct", RS + ":gen_write_impl_optional"])
p("Rust: the size of a packet",
  "A packet written by the generated Rust has as many bytes as its parts: the widths of its numbers, four bytes for each string and each array, one for each optional field, and the bytes of the strings.",
  "all accepted schemas, all values", "all values, strings and arrays of all lengths", [RS + ":gen_write_impl_struct", RS + ":gen_write_impl_array", RS + ":gen_write_impl_optional", RS + ":gen_write_impl_enum"])
p("Rust: code generation cannot fail on a checked schema",
  "For every schema that type_check accepts, the Rust generator returns text: no index and no shift in it panics.",
  "all accepted schemas, all iteration orders", "unbounded schemas", [RS + ":gen_def_enum_default_impl", RS + ":gen_def_enum_tryfrom_impl", RS + ":gen_def"])
p("Rust: balanced brackets and restored indentation",
  "In the Rust generated for any accepted schema, curly, round and square brackets are properly nested and closed, and every block is closed at the indentation at which it was opened.",
  "all accepted schemas", "nesting depth is unbounded", [RS + ":gen_read_impl", RS + ":gen_write_impl", RS + ":gen_def", CTX + ":GenCtx"])
p("Rust: what may vary between two compilations",
  "For a fixed checked result, two runs of the Rust generator differ at most in the timestamp of the first line and in the order of the items that declare types.",
  "all checked results, all timestamps, all iteration orders", "orders and clocks are not controllable", [GEN + ":generate", RS + ":gen_def"])
p("Which messages the checker can give",
  "The messages with which some run of the checker rejects a schema are exactly these: the wrong number of exports; otherwise the first name declared twice; otherwise the fault of the first declaration that is faulty in itself (an enum with no, too many or repeated variants, a struct with a repeated field or optional array before its first field of a type that is not built in); otherwise, for each unresolved struct and each set of structs that can have been resolved before it, the message at the end of the walk that goes from a struct to the type of its first field of a type that cannot be resolved: an optional array met on the way, a type that does not exist or is being resolved already, a return to the struct at which the walk began; and if there is none of all this, an export that is not a struct or not declared.",
  "all schemas, all hash orders", "one run of a test sees one hash order; the set of messages over all orders is not observable", [CHK + ":type_check", CHK + ":resolve_first_pass", CHK + ":resolve_second_pass", CHK + ":resolve_one"])

p("The emitted module type checks if const enums are preserved",
  "With TypeScript's options preserveConstEnums or isolatedModules the emitted module has no type errors either; a namespace that contains an enum may then not stand before the class with which it merges.",
  "all accepted schemas, all hash orders", "tests compare text and do not run a TypeScript compiler; the error depends on what else the schema declares", [GEN + ":generate", TS + ":gen_decls", TS + ":gen_enum_decl"])

p("The parts of a read value are separate objects",
  "In the result of a successful read no object or array is found in two places, and none existed before the call; so changing one part of the result leaves the value of every other part as it is.",
  "all accepted schemas with harmless names, all byte strings, all heaps", "equal parts look the same whether or not they are shared; only a later change shows it", [TS + ":gen_read_impl_struct", TS + ":gen_read_impl_array"])

p("The code of a single file goes to the file that is named",
  "The command packetc <lang> <input> <output> of README.md puts the code for a single schema file into the file <output>, whether or not it exists.",
  "all schema files, all file systems, all output paths", "file systems and paths are unbounded; the project has no test of the command", ["src/main.rs:format_path", "src/main.rs:main", "README.md"])

p("The command announces each output",
  "A run that succeeds on a directory prints one line Writing to <path> for each schema, with a path to its output, and no other line; every announcement comes before the write, so that at the end of any run only announced outputs and new directories can have changed, and all of them are complete but possibly the last if the run ends with an error. For a single file the output directory is printed before the announcement.",
  "all inputs, all file systems, all faults, all points at which printing fails", "which lines were printed at a fault depends on where it occurs; file systems are unbounded", ["src/main.rs:save_one", "src/main.rs:format_path", "src/main.rs:main"])

p("The outcome does not depend on standard output",
  "A run of the command has the same outcome and effect whether or not its lines can be printed.",
  "all inputs, all file systems, all points at which printing fails", "closed pipes and full disks at every line are not set up in tests", ["src/main.rs:save_one", "src/main.rs:format_path", "src/main.rs:main"])

p("The report tells which schema cannot be compiled",
  "If a schema cannot be compiled, the command writes nothing and ends with the error of the library for that schema: the place of the parse error with its line, or a message of the checker. For a directory the report tells which of the schemas it is.",
  "all inputs, all file systems, all hash orders", "file systems and texts are unbounded; which schema is found first depends on the listing order", ["src/main.rs:run_one", "src/main.rs:run_all", "src/lib/lib.rs:Error", "src/lib/lib.rs:compile"])

p("Each schema is found once, whatever links there are",
  "The walk through the input directory ends, and finds each schema file below it once, also if there are symbolic links.",
  "all file systems with symbolic links, all bounds on the number of links followed, all listing orders", "file systems are unbounded; the project has no test of the command", ["src/main.rs:visit_files", "src/main.rs:run_all"])

p("Links in the output directory do no harm",
  "Whatever symbolic links there are, a run of the command removes nothing, leaves links, directories and schemas as they are, and if it succeeds there is code for each schema.",
  "all file systems with symbolic links, all inputs, all outputs", "file systems are unbounded; the project has no test of the command", ["src/main.rs:main", "src/main.rs:save_one", "src/main.rs:format_path"])

p("Other processes do not make the command do harm",
  "Whatever other processes do to the file system meanwhile, the command ends, reads before it writes, writes only if every text that it read compiles, and writes nothing but the code of such a text to the output of its file, and directories above one; if it succeeds there was an output for each file that it read, and it is still there unless the others changed it.",
  "all file systems, all inputs, all changes by others between any two operations, all faults, all hash and listing orders", "interleavings are unbounded; the project has no test of the command", ["src/main.rs:main", "src/main.rs:visit_files", "src/main.rs:run_one", "src/main.rs:save_one"])

p("The calls of the command, whatever the system answers",
  "Whatever the operating system answers to each call (links, other processes, permissions and faults included), if the first question about the input path is answered, the command first looks for schemas, only at paths below the input path, and then writes. It begins to write only when everything that it was told of was pursued (each directory listed, each name looked at, each file with extension pkt read) and all texts that it read compile. It writes the codes of the texts in the order in which they were read, all of them if it succeeds, each to the output of its file; it makes only directories above these. Each write was announced, and its directory was made or found there before. An error other than one of making a directory ends the command without success, and no call follows.",
  "all systems whose answers depend in any way on all calls made so far, all inputs, all outputs, all hash orders", "the answers of a system are unbounded, and most errors cannot be provoked in a test; the project has no test of the command", ["src/main.rs:main", "src/main.rs:visit_files", "src/main.rs:run_all", "src/main.rs:run_one", "src/main.rs:save_one", "src/main.rs:format_path"])

p("The command ends, whatever the system answers",
  "Whatever the operating system answers to each call, the command ends.",
  "all systems whose answers depend in any way on all calls made so far, all inputs, all outputs, all hash orders", "no test shows that something ends on all systems; the project has no test of the command", ["src/main.rs:main", "src/main.rs:visit_files", "src/main.rs:save_one"])

here = os.path.dirname(os.path.dirname(os.path.abspath(__file__)))
with open(os.path.join(here, "properties.jsonl"), "w") as f:
    for r in P:
        f.write(json.dumps(r) + "\n")
for r in P: print(r["id"], r["title"])
