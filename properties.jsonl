{"id": "C01", "title": "Parsing always terminates with an AST or an in-range error", "statement": "For every text, pkt::schema returns either Ok(ast) or an error; it never loops, and the error's byte offset is at most the text's length.", "quantifier": "all texts (arbitrary byte sequences that form a &str)", "why_tests_cant": "an infinite set of texts; non-termination cannot be observed by a finite test", "anchors": ["src/lib/parser.rs:pkt::schema"]}
{"id": "C02", "title": "Names in a parsed schema are identifiers", "statement": "Whenever pkt::schema(text) = Ok(ast), every declared type name, field name and enum variant is non-empty, starts with a letter or underscore, continues with letters, digits or underscores, and does not begin with a reserved word; declared type names moreover never begin with 'export'; type references and the export name are made only of letters, digits and underscores.", "quantifier": "all texts", "why_tests_cant": "ranges over all texts", "anchors": ["src/lib/parser.rs:ident", "src/lib/parser.rs:reserved", "src/lib/parser.rs:string", "src/lib/parser.rs:line"]}
{"id": "C03", "title": "Every legal layout of a schema parses to that schema", "statement": "If a text is a legal layout of an AST (declarations, enum and struct bodies, optional commas, arbitrary blanks, newlines and # comments where the grammar allows them), pkt::schema(text) = Ok of exactly that AST, in that order.", "quantifier": "all ASTs with legal names, all layouts of each", "why_tests_cant": "infinitely many ASTs and layouts", "anchors": ["src/lib/parser.rs:pkt::schema"]}
{"id": "C04", "title": "A successful parse accounts for the whole text", "statement": "If pkt::schema(text) = Ok(ast) then text is a legal layout of ast: each character belongs to a declaration or export of ast in order, or to blank space, an optional comma or a comment. Hence a text that is not a layout of any AST is rejected.", "quantifier": "all texts", "why_tests_cant": "ranges over all texts, including rejected ones", "anchors": ["src/lib/parser.rs:pkt::schema"]}
{"id": "C05", "title": "The reported parse error names the right place in the text", "statement": "compile's parse error message shows the character at the error position, its line number, its column and the text of that line, with the marker under that column; producing it never fails.", "quantifier": "all texts and all error positions", "why_tests_cant": "the message depends on every prefix of the text", "anchors": ["src/lib/lib.rs:pretty_error"]}
{"id": "C06", "title": "type_check is total", "statement": "For every AST and every hash-map iteration order, type_check returns Ok or Err: it never panics, never unwraps None and its recursion always ends.", "quantifier": "all ASTs, all HashMap iteration orders", "why_tests_cant": "iteration order is randomised per process; ASTs are unbounded", "anchors": ["src/lib/check.rs:type_check", "src/lib/check.rs:resolve_one_second_pass"]}
{"id": "C07", "title": "type_check accepts exactly the valid schemas", "statement": "type_check(ast) is Ok if and only if: there is exactly one export; declared names are distinct; every enum has 1 to 32 variants, all distinct; every field's type is a builtin or a declared name; no field is both optional and array; no declared struct refers to itself through any chain of fields; the field names that the checker compares are distinct; and the export is a declared struct.", "quantifier": "all ASTs that declare no builtin name, all iteration orders", "why_tests_cant": "an iff over all schemas and all iteration orders", "anchors": ["src/lib/check.rs:type_check"]}
{"id": "C08", "title": "The verdict does not depend on hash order", "statement": "For the same AST, type_check under any two HashMap iteration orders either succeeds under both or fails under both.", "quantifier": "all ASTs, all pairs of iteration orders", "why_tests_cant": "the order is random and not controllable from a test", "anchors": ["src/lib/check.rs:resolve_second_pass"]}
{"id": "C09", "title": "The checked result holds exactly the types the export needs", "statement": "On success the returned type map contains exactly the names reachable from the export through field types (builtins included), and the exported struct is the map's entry for the export name.", "quantifier": "all accepted ASTs, all iteration orders", "why_tests_cant": "reachability over unbounded type graphs", "anchors": ["src/lib/check.rs:resolve_export", "src/lib/check.rs:collect_used_types", "src/lib/check.rs:remove_unused"]}
{"id": "C10", "title": "Resolution is faithful to the declarations", "statement": "On success every struct in the result has exactly the declared fields (name, type name, array flag, optional flag), each bound to the definition that its type name has in the result; every enum has the declared variants in order, numbered 0,1,2,...", "quantifier": "all accepted ASTs, all iteration orders", "why_tests_cant": "unbounded schemas and all orders", "anchors": ["src/lib/check.rs:resolve_one_second_pass", "src/lib/check.rs:resolve_one_first_pass", "src/lib/check.rs:resolve_enum"]}
{"id": "C11", "title": "Fields keep their declared order", "statement": "On success every struct in the result lists its fields in the order of the declaration, so that the wire layout of a packet is fixed by the schema text.", "quantifier": "all accepted ASTs, all iteration orders", "why_tests_cant": "depends on the random iteration order", "anchors": ["src/lib/check.rs:resolve_one_second_pass"]}
{"id": "C12", "title": "Duplicate field names are rejected", "statement": "If a struct declares two fields with one name, type_check fails.", "quantifier": "all ASTs", "why_tests_cant": "depends on the position of the duplicates among arbitrary other fields", "anchors": ["src/lib/check.rs:resolve_one_first_pass", "src/lib/check.rs:resolve_one_second_pass"]}
{"id": "C13", "title": "Enum numbering and representation", "statement": "Every accepted enum gets the smallest of u8/u16/u32 whose bit width is at least its number of variants; each variant is a distinct single bit and its value fits the representation.", "quantifier": "all accepted ASTs", "why_tests_cant": "all variant counts and all positions", "anchors": ["src/lib/check.rs:resolve_enum", "src/lib/gen/ts.rs:gen_enum_decl"]}
{"id": "C14", "title": "The error message is a function of the schema", "statement": "type_check of one AST fails with the same message whatever the hash order.", "quantifier": "all rejected ASTs, all pairs of iteration orders", "why_tests_cant": "the order is random", "anchors": ["src/lib/check.rs:resolve_second_pass", "src/lib/check.rs:resolve_one_second_pass"]}
{"id": "C15", "title": "Recursive types are rejected", "statement": "A schema in which some declared struct reaches itself through fields, directly or through other structs, arrays or optional fields, used by the export or not, is rejected under every iteration order.", "quantifier": "all ASTs with a cycle of any length, all orders", "why_tests_cant": "cycles of every length and position", "anchors": ["src/lib/check.rs:resolve_one_second_pass"]}
{"id": "C16", "title": "Optional arrays are rejected", "statement": "A schema with a field that is both optional and an array is rejected, wherever the field is.", "quantifier": "all ASTs", "why_tests_cant": "any position in any declaration", "anchors": ["src/lib/check.rs:resolve_struct_field"]}
{"id": "C17", "title": "Unknown type names are rejected", "statement": "A schema with a field whose type is neither a builtin nor declared is rejected, even in a type that the export does not use.", "quantifier": "all ASTs, all orders", "why_tests_cant": "any position in any declaration, all orders", "anchors": ["src/lib/check.rs:resolve_one_second_pass"]}
{"id": "C18", "title": "Code generation cannot fail on a checked schema", "statement": "For every schema that type_check accepts, generate returns text: no index, shift or subtraction in the generator panics.", "quantifier": "all accepted schemas, all iteration orders", "why_tests_cant": "unbounded schemas", "anchors": ["src/lib/gen/ts.rs:gen_read_impl_enum", "src/lib/gen/mod.rs:generate"]}
{"id": "C19", "title": "Generated text has balanced brackets and restored indentation", "statement": "In the text generated for any accepted schema, curly, round and square brackets are properly nested and closed, and every block is closed at the indentation at which it was opened.", "quantifier": "all accepted schemas", "why_tests_cant": "nesting depth is unbounded", "anchors": ["src/lib/gen/ts.rs:gen_impl", "src/lib/gen/ts.rs:gen_decls", "src/lib/gen/gen_ctx.rs:GenCtx"]}
{"id": "C20", "title": "Every referenced type is declared, once", "statement": "Every user type that the generated constructor or an interface mentions is declared exactly once in the export's namespace, nothing else is declared there, and the export itself is not declared there.", "quantifier": "all accepted schemas, all iteration orders", "why_tests_cant": "unbounded type graphs and all orders", "anchors": ["src/lib/gen/ts.rs:gen_decls", "src/lib/gen/ts.rs:field_ctor_type", "src/lib/gen/ts.rs:gen_struct_decl"]}
{"id": "C21", "title": "What may vary between two compilations", "statement": "For a fixed checked result, two runs of generate differ at most in the timestamp of the first line and in the order of the declarations inside the namespace.", "quantifier": "all checked results, all timestamps, all iteration orders", "why_tests_cant": "orders and clocks are not controllable", "anchors": ["src/lib/gen/mod.rs:generate", "src/lib/gen/ts.rs:gen_decls"]}
{"id": "C22", "title": "Generated code size is proportional to the schema", "statement": "The length of the generated text is bounded by a fixed multiple of the length of the schema text.", "quantifier": "all accepted schemas", "why_tests_cant": "an asymptotic claim", "anchors": ["src/lib/gen/ts.rs:gen_read_impl_struct", "src/lib/gen/ts.rs:gen_write_impl_struct"]}
{"id": "C23", "title": "Generated code declares no local twice", "statement": "In the generated read and write functions no block declares the same local variable twice (which would make the module a syntax error).", "quantifier": "all accepted schemas", "why_tests_cant": "depends on all combinations of field names along all paths", "anchors": ["src/lib/gen/ts.rs:gen_read_impl_struct", "src/lib/gen/ts.rs:gen_write_impl_optional", "src/lib/gen/ts.rs:varname", "src/lib/gen/ts.rs:bindname"]}
{"id": "C24", "title": "write produces the documented wire format", "statement": "For every accepted schema and every value of the exported struct, the generated write() returns the concatenation, in field order, of: each number in its declared width; a string as a uint32 length then its bytes; an enum as its bit in the enum's representation; an array as a uint32 count then its items; an optional as 0, or 1 then the value; a struct as its fields.", "quantifier": "all accepted schemas whose module loads (names: C45), all values", "why_tests_cant": "unbounded schemas and values", "anchors": ["src/lib/gen/ts.rs:gen_write_impl_struct"]}
{"id": "C25", "title": "read inverts write", "statement": "For every accepted schema and every value v of the exported struct, the generated read() applied to the bytes of the generated write() of v returns an object equal to v.", "quantifier": "all accepted schemas with harmless names (C31, C45) and enums of at most 31 variants (C30), all values that the runtime library encodes faithfully (C32)", "why_tests_cant": "unbounded schemas and values", "anchors": ["src/lib/gen/ts.rs:gen_read_impl_struct", "src/lib/gen/ts.rs:gen_write_impl_struct", "src/lib/gen/ts.rs:gen_impl"]}
{"id": "C26", "title": "Packets are self-delimiting", "statement": "read() applied to write(v) followed by any bytes returns v and leaves exactly those bytes unread; so the encodings of two different values of one schema are never prefixes of one another.", "quantifier": "as in C25, all trailing bytes", "why_tests_cant": "unbounded", "anchors": ["src/lib/gen/ts.rs:gen_read_impl_struct"]}
{"id": "C27", "title": "Truncated packets are reported", "statement": "read() applied to any strict prefix of write(v) returns null.", "quantifier": "as in C25, all cut points", "why_tests_cant": "every cut point of every packet", "anchors": ["src/lib/gen/ts.rs:gen_read_impl_struct", "src/lib/gen/ts.rs:gen_impl"]}
{"id": "C28", "title": "read never throws", "statement": "For every accepted schema, read() of any byte sequence terminates and returns null or an object; it never throws.", "quantifier": "all accepted schemas, all byte sequences", "why_tests_cant": "malicious packets are unbounded", "anchors": ["src/lib/gen/ts.rs:gen_read_impl_struct", "src/lib/gen/ts.rs:gen_impl"]}
{"id": "C29", "title": "read only returns declared enum values", "statement": "If read() returns an object, every enum field in it holds the value of a declared variant.", "quantifier": "all accepted schemas, all byte sequences", "why_tests_cant": "all byte sequences", "anchors": ["src/lib/gen/ts.rs:gen_read_impl_enum"]}
{"id": "C30", "title": "Every permitted enum can be transmitted", "statement": "For every enum that type_check accepts, including the largest, each variant written by the generated writer is accepted by the generated reader.", "quantifier": "all accepted enums, all variants", "why_tests_cant": "boundary of a family of programs", "anchors": ["src/lib/gen/ts.rs:gen_read_impl_enum", "src/lib/check.rs:resolve_enum"]}
{"id": "C31", "title": "Any field name that the compiler accepts works at run time", "statement": "Whatever names the fields of the exported struct have, read() stores every field on its result.", "quantifier": "all accepted field names", "why_tests_cant": "infinitely many names, some of them special to JavaScript objects", "anchors": ["src/lib/gen/ts.rs:gen_impl"]}
{"id": "C32", "title": "Strings survive a round trip", "statement": "For every JavaScript string s (of less than 2^32 units), writing and reading a string field gives s back.", "quantifier": "all strings", "why_tests_cant": "infinitely many strings", "anchors": ["src/lib/gen/ts.rs:gen_write_impl_builtin", "src/lib/gen/ts.rs:gen_read_impl_builtin"]}
{"id": "C33", "title": "Work done by read is bounded by the packet", "statement": "The number of primitive reads that read() performs on a packet is at most the number of primitive fields of the exported type (structs inlined) times the packet's length plus one.", "quantifier": "all accepted schemas, all byte sequences", "why_tests_cant": "worst case over all packets", "anchors": ["src/lib/gen/ts.rs:gen_read_impl_array"]}
{"id": "C34", "title": "A packet has one encoding", "statement": "If read(b) returns v having consumed all of b, then b = write(v).", "quantifier": "all accepted schemas, all byte sequences", "why_tests_cant": "all byte sequences", "anchors": ["src/lib/gen/ts.rs:gen_read_impl_optional", "src/lib/gen/ts.rs:gen_read_impl_enum"]}
{"id": "C35", "title": "Two builds of one schema interoperate", "statement": "Code generated from one schema text by two separate runs of the compiler agrees on the wire: what one writes, the other reads back.", "quantifier": "all accepted schemas, all values, all pairs of iteration orders", "why_tests_cant": "the runs differ in random hash order", "anchors": ["src/lib/check.rs:resolve_one_second_pass", "src/lib/gen/ts.rs:gen_impl"]}
{"id": "C36", "title": "A packet that was read can be written again", "statement": "The object that the generated read() returns has the generated write() method.", "quantifier": "all accepted schemas, all byte sequences that are accepted", "why_tests_cant": "all schemas", "anchors": ["src/lib/gen/ts.rs:gen_impl"]}
{"id": "C37", "title": "The encoded size is determined by type and content", "statement": "The number of bytes of write(v) is the sum of the widths of its numbers and enums, 4 plus the byte length per string, 4 per array and 1 per optional: no padding, tags or names.", "quantifier": "all accepted schemas, all values", "why_tests_cant": "unbounded", "anchors": ["src/lib/gen/ts.rs:gen_write_impl_struct"]}
{"id": "C38", "title": "Reading has no effect on data outside the result", "statement": "read() and write() change no object that existed before the call; write() leaves its packet unchanged.", "quantifier": "all accepted schemas, values, byte sequences and heaps", "why_tests_cant": "all program states", "anchors": ["src/lib/gen/ts.rs:gen_read_impl_struct", "src/lib/gen/ts.rs:gen_write_impl_struct"]}
{"id": "C39", "title": "compile is the composition of its stages", "statement": "compile(text) fails with a Parse error iff text does not parse, with a Check error iff it parses to an invalid schema, and otherwise returns code for exactly the schema that the text denotes; it never panics.", "quantifier": "all texts, all iteration orders", "why_tests_cant": "all texts", "anchors": ["src/lib/lib.rs:compile"]}
{"id": "C40", "title": "Directory mode writes nothing unless everything compiles", "statement": "If some .pkt file under the input directory cannot be read or compiled, the command fails and no file is created or changed.", "quantifier": "all directory trees, all contents, all directory listing orders", "why_tests_cant": "unbounded trees and orders", "anchors": ["src/main.rs:main", "src/main.rs:run_all", "src/main.rs:visit_files"]}
{"id": "C41", "title": "Directory mode writes exactly one output per schema", "statement": "If everything compiles and no write fails, exactly one file is written per .pkt file, at the mirrored path under the output directory with extension ts, holding the code for that schema; files without extension pkt are ignored.", "quantifier": "all directory trees, all listing orders", "why_tests_cant": "unbounded trees and orders", "anchors": ["src/main.rs:run_all", "src/main.rs:format_path", "src/main.rs:save_one"]}
{"id": "C42", "title": "Different schemas never share an output file", "statement": "Two different .pkt files under the input directory are written to different output paths.", "quantifier": "all pairs of paths with extension pkt", "why_tests_cant": "all file names, including several dots", "anchors": ["src/main.rs:format_path"]}
{"id": "C43", "title": "A failing write leaves earlier outputs complete and later ones untouched", "statement": "If the k-th write fails, the first k-1 outputs hold complete code, no file is created or changed at a later output, and the command reports failure.", "quantifier": "all trees, all failure points", "why_tests_cant": "every crash point", "anchors": ["src/main.rs:main", "src/main.rs:save_one"]}
{"id": "C44", "title": "A missing input is reported", "statement": "If the input path does not exist the command fails.", "quantifier": "all paths and file systems", "why_tests_cant": "all file systems", "anchors": ["src/main.rs:main"]}
{"id": "C45", "title": "Every accepted export name yields a usable module", "statement": "The generated module loads, and read() can set up its result, whatever the export is called.", "quantifier": "all accepted export names", "why_tests_cant": "all names", "anchors": ["src/lib/gen/ts.rs:gen_common", "src/lib/gen/ts.rs:gen_impl"]}
{"id": "C46", "title": "Any accepted field or type name is legal TypeScript where it is used", "statement": "Every field name of the export is a legal constructor parameter name and every declared type name is a legal type name in the generated code.", "quantifier": "all accepted names", "why_tests_cant": "all names, including words reserved in TypeScript but not in schemas", "anchors": ["src/lib/gen/ts.rs:gen_impl", "src/lib/gen/ts.rs:gen_struct_decl", "src/lib/parser.rs:reserved"]}
{"id": "C47", "title": "Which structs have a layout that every run agrees on", "statement": "The declared field order of a struct survives every hash order if and only if, of any two of its fields, the earlier one has a builtin type, an enum type or the type of a struct of builtins only, or a type that the later field's type contains or is.", "quantifier": "all valid schemas, all structs the export needs, all iteration orders", "why_tests_cant": "all schemas and orders", "anchors": ["src/lib/check.rs:resolve_one_second_pass"]}
{"id": "C48", "title": "Blank space at the end of a schema does not matter", "statement": "Adding blanks and line ends at the end of a text that parses does not change the result.", "quantifier": "all texts that parse, all blank suffixes", "why_tests_cant": "all texts", "anchors": ["src/lib/parser.rs:schema", "src/lib/parser.rs:line", "src/lib/parser.rs:export"]}
{"id": "C49", "title": "Which schemas can be written down", "statement": "An AST is the result of parsing some text if and only if its names are legal (as in C02).", "quantifier": "all ASTs", "why_tests_cant": "all ASTs", "anchors": ["src/lib/parser.rs:pkt::schema"]}
{"id": "C50", "title": "Declarations mirror the schema", "statement": "Each generated enum lists the declared variants in order with values 1<<0, 1<<1, ...; each interface and the constructor list exactly the declared fields with their types, array and optional marks.", "quantifier": "all accepted schemas, all iteration orders", "why_tests_cant": "all schemas", "anchors": ["src/lib/gen/ts.rs:gen_struct_decl", "src/lib/gen/ts.rs:gen_enum_decl", "src/lib/gen/ts.rs:gen_impl"]}
{"id": "C51", "title": "Optional fields may be left out", "statement": "If optional fields are missing from the objects given to write(), the packet is the one for absent values.", "quantifier": "all accepted schemas, all values", "why_tests_cant": "all schemas and field names", "anchors": ["src/lib/gen/ts.rs:gen_write_impl_optional"]}
{"id": "C52", "title": "The result of read is no larger than the packet", "statement": "If read() accepts a packet, the result has fewer array items than the packet has bytes.", "quantifier": "all accepted schemas, all byte sequences", "why_tests_cant": "all packets", "anchors": ["src/lib/gen/ts.rs:gen_read_impl_array"]}
{"id": "C53", "title": "Any identifier but the reserved words can name a declaration", "statement": "An identifier that is not a reserved word can be used as the name of a struct or enum.", "quantifier": "all identifiers", "why_tests_cant": "all words", "anchors": ["src/lib/parser.rs:ident", "src/lib/parser.rs:reserved"]}
{"id": "C54", "title": "Only files with extension ts are written", "statement": "Whatever the outcome, a run changes no file but those with extension ts, removes nothing and creates nothing but such files and directories.", "quantifier": "all file systems, arguments and failures", "why_tests_cant": "all trees and failure points", "anchors": ["src/main.rs:main", "src/main.rs:save_one", "src/main.rs:format_path"]}
{"id": "C55", "title": "A directory of good schemas is compiled", "statement": "If every schema in the directory compiles, no operation fails and the output directory does not exist yet, the command succeeds.", "quantifier": "all directory trees", "why_tests_cant": "all layouts", "anchors": ["src/main.rs:main", "src/main.rs:save_one"]}
{"id": "C56", "title": "The command ends without a panic", "statement": "For all arguments and file systems the command ends with success or an error.", "quantifier": "all file systems, arguments and failures", "why_tests_cant": "all names and trees", "anchors": ["src/main.rs:visit_files", "src/main.rs:format_path"]}
{"id": "C57", "title": "A successful run can be repeated", "statement": "After a successful run the same command succeeds again, even if outputs were put among the inputs and all iteration orders differ.", "quantifier": "all file systems, arguments, orders", "why_tests_cant": "all layouts and orders", "anchors": ["src/main.rs:main", "src/main.rs:save_one"]}
{"id": "C58", "title": "A single file and a directory give the same output names", "statement": "Compiling the single file s.pkt puts the code into s.ts in the output directory, as compiling its directory does.", "quantifier": "all file names", "why_tests_cant": "all file names, including several dots", "anchors": ["src/main.rs:format_path", "src/main.rs:run_one"]}
{"id": "C59", "title": "The language argument", "statement": "The language argument is accepted if and only if it is ts in any case.", "quantifier": "all strings", "why_tests_cant": "all strings", "anchors": ["src/main.rs:Lang::from_str"]}
{"id": "C60", "title": "The emitted text is a well-formed module", "statement": "The text that the compiler emits consists, apart from layout and a comment, of an import, a namespace and a class of the exported name, all well-formed.", "quantifier": "all accepted schemas, all iteration orders, versions and times", "why_tests_cant": "all schemas", "anchors": ["src/lib/gen/ts.rs:gen", "src/lib/gen/ts.rs:gen_common", "src/lib/gen/ts.rs:gen_impl"]}
{"id": "C61", "title": "Constructed objects can be written", "statement": "new K(...) with the values of the export's fields in declared order gives an object with these fields, and calling its write method returns their packet.", "quantifier": "all accepted schemas, all values, all iteration orders", "why_tests_cant": "all schemas, field names and orders", "anchors": ["src/lib/gen/ts.rs:gen_impl", "src/lib/check.rs:resolve_one_second_pass"]}
{"id": "C62", "title": "The emitted module type checks", "statement": "The TypeScript compiler, with strict checks, finds no type error in the emitted module: all names are declared once, types of members and parameters exist, every expression has the type that its use requires, no variable is used before it is declared.", "quantifier": "all accepted schemas, all iteration orders", "why_tests_cant": "all schemas and names", "anchors": ["src/lib/gen/ts.rs:gen_common", "src/lib/gen/ts.rs:gen_impl", "src/lib/gen/ts.rs:gen_decls", "src/lib/gen/ts.rs:gen_read_impl_struct", "src/lib/gen/ts.rs:gen_write_impl_struct"]}
{"id": "C63", "title": "Order of declarations does not matter", "statement": "Moving the declarations and the export of a schema to other places in the text does not change the result of type_check.", "quantifier": "all schemas, all permutations, all iteration orders", "why_tests_cant": "all permutations", "anchors": ["src/lib/check.rs:type_check", "src/lib/check.rs:resolve_one_first_pass"]}
{"id": "C64", "title": "Only the declarations that the export needs matter", "statement": "Two accepted schemas with the same export that declare alike all that it needs give the same result, and a well-formed declaration of a new name can be added to an accepted schema without effect, if the checker keeps the order of the fields (C11). Where it need not keep it, the sets of possible results are the same.", "quantifier": "all schemas and declarations, all iteration orders", "why_tests_cant": "all pairs of schemas", "anchors": ["src/lib/check.rs:type_check", "src/lib/check.rs:resolve_one_second_pass"]}
{"id": "C65", "title": "Fields added at the end of the export", "statement": "If fields are added at the end of the exported struct, the code for the old schema reads packets of the new one as if the new fields were absent, and the code for the new schema returns null for packets of the old one if some new field takes a byte, and otherwise reads them with the new fields filled in.", "quantifier": "all pairs of accepted schemas whose field order is kept, all values, all iteration orders", "why_tests_cant": "all pairs of schemas and all values", "anchors": ["src/lib/gen/ts.rs:gen_read_impl_struct", "src/lib/gen/ts.rs:gen_write_impl_struct", "src/lib/check.rs:resolve_one_second_pass"]}
{"id": "C66", "title": "Variants added at the end of enums", "statement": "If variants are added at the end of enums without a change of their representation (and none has 32), the new code reads every packet of the old code as the same value; the old code reads a packet of the new code as the same value if it uses old variants only, and returns null otherwise.", "quantifier": "all pairs of accepted schemas whose field order is kept, all values, all iteration orders", "why_tests_cant": "all pairs of schemas and all values", "anchors": ["src/lib/gen/ts.rs:gen_read_impl_enum", "src/lib/check.rs:resolve_one_first_pass"]}
{"id": "C67", "title": "Names are not transmitted", "statement": "If types and fields are renamed without making different names equal, the schema is still accepted, and values that differ in the names of fields only are written as the same bytes.", "quantifier": "all accepted schemas whose field order is kept, all renamings, all values, all iteration orders", "why_tests_cant": "all renamings and values", "anchors": ["src/lib/gen/ts.rs:gen_write_impl_struct", "src/lib/check.rs:type_check"]}
{"id": "C68", "title": "Exactly the packets of the format are accepted", "statement": "read returns an object if and only if the bytes start with a packet of the documented format: each integer in its encoding, each enum a number from its first to its last variant, each optional field a flag that is 0 or followed by a value, each array a count and that many items. The object stands for that value, which is unique, and the reader stops behind the packet. For all other bytes it returns null.", "quantifier": "all accepted schemas, all byte sequences, all runtime libraries that meet the contract, all iteration orders", "why_tests_cant": "all byte sequences", "anchors": ["src/lib/gen/ts.rs:gen_read_impl_struct", "src/lib/gen/ts.rs:gen_read_impl_enum", "src/lib/gen/ts.rs:gen_read_impl_optional", "src/lib/gen/ts.rs:gen_read_impl_array"]}
{"id": "C69", "title": "Parse errors are where the text goes wrong", "statement": "The text before the reported offset can be completed to a schema, and the error is settled by the six bytes that follow the offset (the length of the longest keyword): every text with the same beginning is rejected with the same offset.", "quantifier": "all texts", "why_tests_cant": "all texts and all continuations", "anchors": ["src/lib/parser.rs:schema", "src/lib/parser.rs:line", "src/lib/parser.rs:ident"]}
{"id": "C70", "title": "Check errors name a defect of the schema", "statement": "When a schema is rejected, the message describes a defect that the schema has: the named type is missing, recursive, declared twice, has no variants, too many (with the right number), a repeated variant or field, the named field is an optional array, the export is missing, repeated or not a struct.", "quantifier": "all schemas, all iteration orders", "why_tests_cant": "all schemas and all hash orders", "anchors": ["src/lib/check.rs:type_check", "src/lib/check.rs:resolve_one_second_pass", "src/lib/check.rs:resolve_one_first_pass", "src/lib/check.rs:get_export", "src/lib/check.rs:collect_types"]}
{"id": "C71", "title": "Random schemas of the fuzzing script are accepted", "statement": "Whatever the random choices are, scripts/gen_random_pkt.py ends without an exception and writes a schema that parses and that the checker accepts.", "quantifier": "all sequences of random choices, all iteration orders", "why_tests_cant": "the script draws one file per run out of astronomically many", "anchors": ["scripts/gen_random_pkt.py:generate_type", "scripts/gen_random_pkt.py:generate_definition", "src/lib/parser.rs:schema", "src/lib/check.rs:type_check"]}
{"id": "C72", "title": "Line ends, the width of blanks and comment texts do not matter", "statement": "If two texts differ only in line ends (lf, cr lf, any number of empty lines), in the width of non-empty blanks and in what the comments say, one parses if and only if the other does, to the same schema. In particular a text with Windows line ends is read as the same text with Unix ones.", "quantifier": "all texts, all such changes at any number of places", "why_tests_cant": "all texts and places", "anchors": ["src/lib/parser.rs:_", "src/lib/parser.rs:__", "src/lib/parser.rs:___", "src/lib/parser.rs:comment", "src/lib/parser.rs:schema"]}
{"id": "C73", "title": "Schemas can be put one after the other", "statement": "If two texts parse, the text that consists of both with a line end between them parses, and its schema is the first followed by the second.", "quantifier": "all pairs of texts that parse", "why_tests_cant": "all pairs of texts", "anchors": ["src/lib/parser.rs:schema", "src/lib/parser.rs:line", "src/lib/parser.rs:comment"]}
{"id": "C74", "title": "Layout never changes the meaning", "statement": "Two texts with the same words and signs, whatever their white space, commas and comments are, denote the same schema if both parse and one of the schemas is accepted by the checker.", "quantifier": "all pairs of texts, all iteration orders", "why_tests_cant": "all texts and all ways to lay them out", "anchors": ["src/lib/parser.rs:schema", "src/lib/parser.rs:string", "src/lib/parser.rs:ident", "src/lib/parser.rs:export", "src/lib/check.rs:type_check"]}
{"id": "C75", "title": "Blanks and comments can be added at the end of a line", "statement": "Adding blanks, or blanks and a comment, before any line end of an accepted schema gives a text of the same schema.", "quantifier": "all texts of accepted schemas, all line ends, blanks and comments", "why_tests_cant": "all texts and places", "anchors": ["src/lib/parser.rs:line", "src/lib/parser.rs:export", "src/lib/parser.rs:enum_variant", "src/lib/parser.rs:struct_field"]}
{"id": "C76", "title": "Exactly these names make read throw", "statement": "A call of read never throws, whatever the bytes are, if and only if the generated module loads, read can create its result, and no field of the exported struct is called prototype, length, name, arguments or caller. With such a field no packet can be read at all: read throws, or returns null, the latter only if the field is a single enum.", "quantifier": "all accepted schemas without a field __proto__ whose enums have at most 31 variants and whose export has a name that the model covers, all byte sequences, all runtime libraries that meet the contract, all iteration orders", "why_tests_cant": "all schemas and byte sequences", "anchors": ["src/lib/gen/ts.rs:gen_read_impl", "src/lib/gen/ts.rs:gen_read_impl_struct", "src/lib/gen/ts.rs:gen_read_impl_enum", "src/lib/gen/ts.rs:gen_read_impl_optional", "src/lib/gen/ts.rs:gen_read_impl_array"]}
{"id": "C77", "title": "Other characters occur in comments only", "statement": "In a text that parses, every character that is not part of a name, white space or one of ? : [ ] { } , # lies in a comment. So a byte order mark, quotes or letters outside of ASCII are never taken as part of a schema.", "quantifier": "all texts", "why_tests_cant": "all texts and places", "anchors": ["src/lib/parser.rs:schema", "src/lib/parser.rs:comment", "src/lib/parser.rs:ident", "src/lib/parser.rs:string"]}
{"id": "C78", "title": "Parsing takes linear time", "statement": "The parser compares a number of characters that is at most a constant times the length of the text, whether the text parses or not: no schema text makes it backtrack for long.", "quantifier": "all texts", "why_tests_cant": "all texts", "anchors": ["src/lib/parser.rs:schema", "src/lib/parser.rs:line", "src/lib/parser.rs:struct_field", "src/lib/parser.rs:enum_variant"]}
{"id": "C79", "title": "Checking takes quadratic time", "statement": "The number of steps of type_check is at most a constant times the square of the number of lines, fields and variants (hence of the length of the text), although the result can describe exponentially large values. No linear bound holds.", "quantifier": "all schemas, accepted or not, all hash orders", "why_tests_cant": "all schemas and orders", "anchors": ["src/lib/check.rs:type_check", "src/lib/check.rs:resolve_one_second_pass", "src/lib/check.rs:collect_used_types", "src/lib/check.rs:resolve_export"]}
{"id": "C80", "title": "The checker recurses to a bounded depth", "statement": "There is a depth that the recursion of the checker never exceeds, so that no schema makes it run out of stack.", "quantifier": "all schemas and hash orders", "why_tests_cant": "all schemas and orders", "anchors": ["src/lib/check.rs:resolve_one_second_pass", "src/lib/check.rs:collect_used_types"]}
{"id": "C81", "title": "Rust: the module declares what the export needs, as the schema says", "statement": "The emitted Rust module declares each user type that the export needs exactly once and nothing else; structs with the fields and types of the schema, enums with the smallest representation, variant i as 1 << i, the first variant as the default and the same numbers in TryFrom.", "quantifier": "all accepted schemas, all hash orders", "why_tests_cant": "infinitely many schemas", "anchors": ["src/lib/gen/rust.rs:gen_def", "src/lib/gen/rust.rs:gen_def_enum_default_impl", "src/lib/gen/rust.rs:gen_def_enum_tryfrom_impl"]}
{"id": "C82", "title": "Rust: write appends the documented format", "statement": "For every value of the exported Rust type, the emitted write function appends exactly the bytes of the documented wire format of that value.", "quantifier": "all accepted schemas, all values", "why_tests_cant": "infinitely many schemas and values", "anchors": ["src/lib/gen/rust.rs:gen_write_impl"]}
{"id": "C83", "title": "Rust: read inverts write, leaves what follows, refuses what is cut off", "statement": "Reading what write appended, followed by any bytes, into a default value returns Ok with the written value and leaves the reader at those bytes; every proper prefix of a written packet is an error.", "quantifier": "all accepted schemas, all values, all continuations", "why_tests_cant": "infinitely many schemas and values", "anchors": ["src/lib/gen/rust.rs:gen_read_impl", "src/lib/gen/rust.rs:gen_write_impl"]}
{"id": "C84", "title": "Rust: read accepts exactly the packets of the format", "statement": "For any bytes, read into a default value returns Ok with a value of the exported type if and only if the bytes start with a packet of that value; otherwise an error. It never yields an enum outside its variants.", "quantifier": "all accepted schemas, all byte sequences", "why_tests_cant": "infinitely many byte sequences", "anchors": ["src/lib/gen/rust.rs:gen_read_impl", "src/lib/gen/rust.rs:gen_def_enum_tryfrom_impl"]}
{"id": "C85", "title": "Rust: what read leaves depends on the packet only", "statement": "Whatever the value that read is given to fill, after Ok it holds the value of the packet.", "quantifier": "all accepted schemas, all old values, all packets", "why_tests_cant": "depends on pairs of values", "anchors": ["src/lib/gen/rust.rs:gen_read_impl_array", "src/lib/gen/rust.rs:gen_read_impl_optional"]}
{"id": "C86", "title": "Packets of either back-end are read by the other", "statement": "For one run of the compiler on both languages, the TypeScript class and the Rust functions write the same bytes for the same value, and each reads what the other writes as that value.", "quantifier": "all accepted schemas, all values", "why_tests_cant": "infinitely many schemas and values; needs two compilers and two libraries", "anchors": ["src/lib/gen/rust.rs:gen_write_impl", "src/lib/gen/ts.rs:gen_write_impl"]}
{"id": "C87", "title": "Both back-ends accept the same packets", "statement": "A byte sequence is accepted by the emitted TypeScript if and only if it is accepted by the emitted Rust, as the same value.", "quantifier": "all accepted schemas, all byte sequences", "why_tests_cant": "infinitely many byte sequences", "anchors": ["src/lib/gen/rust.rs:gen_read_impl_enum", "src/lib/gen/ts.rs:gen_read_impl_enum"]}
{"id": "C88", "title": "Rust: the work and memory of read are bounded by the packet", "statement": "read makes at most one call of the reader per byte of the packet, plus one; it reserves room for at most as many elements as the packet has bytes.", "quantifier": "all accepted schemas, all byte sequences, accepted or not", "why_tests_cant": "hostile packets are not in a test suite; infinitely many", "anchors": ["src/lib/gen/rust.rs:gen_read_impl_array"]}
{"id": "C89", "title": "Rust: the emitted module compiles", "statement": "For every schema that the checker accepts, the emitted Rust obeys the rules of Rust: names are no keywords and hide no name that the code uses, types are known and finite, enum patterns are numbers of the enum's type, arguments have the types of the methods they are given to, nothing is moved out of a borrow.", "quantifier": "all accepted schemas, all hash orders", "why_tests_cant": "infinitely many schemas; needs a compiler", "anchors": ["src/lib/gen/rust.rs:gen_def", "src/lib/gen/rust.rs:gen_def_enum_tryfrom_impl", "src/lib/gen/rust.rs:gen_read_impl", "src/lib/gen/rust.rs:gen_write_impl", "src/lib/gen/rust.rs:gen_write_impl_enum", "src/lib/gen/rust.rs:gen_write_impl_optional"]}
{"id": "C90", "title": "Which orders of fields a run can choose", "statement": "The orders in which a run of the checker can list the fields of a struct that the export needs are exactly these: for a set of types that contains all that is resolved in the first pass, contains whatever its members refer to, and does not contain the struct, the fields of types in the set as declared, followed by the others as declared.", "quantifier": "all valid schemas, all needed structs, all hash orders", "why_tests_cant": "hash orders are random; a test sees one per run", "anchors": ["src/lib/check.rs:resolve_one_second_pass", "src/lib/check.rs:resolve_second_pass", "src/lib/check.rs:resolve_first_pass"]}
{"id": "C91", "title": "Rust: fields added at the end", "statement": "If fields are appended to the exported struct, code of the old schema reads every packet of the new code as the value without the new fields, and code of the new schema refuses every packet of the old code if some new field takes a byte, and otherwise reads it with the new fields filled in.", "quantifier": "all pairs of accepted schemas that differ in this way, whose order of fields is the same in all runs, all values", "why_tests_cant": "needs two versions of a schema; infinitely many pairs and values", "anchors": ["src/lib/gen/rust.rs:gen_read_impl_struct", "src/lib/gen/rust.rs:gen_write_impl_struct", "src/lib/check.rs:resolve_one_second_pass"]}
{"id": "C92", "title": "Rust: variants added at the end", "statement": "If variants are appended to enums whose representation stays the same, values of the old type are written as the same bytes and read back by the new code; a packet of the new code is read by the old code as the same value if that value belongs to the old type and refused otherwise.", "quantifier": "all pairs of accepted schemas that differ in this way and whose order of fields is the same in all runs, all values", "why_tests_cant": "needs two versions of a schema; infinitely many pairs and values", "anchors": ["src/lib/gen/rust.rs:gen_read_impl_enum", "src/lib/gen/rust.rs:gen_write_impl_enum", "src/lib/gen/rust.rs:gen_def_enum_tryfrom_impl"]}
{"id": "C93", "title": "Rust: names are not transmitted", "statement": "Renaming types and fields does not change the bytes that the emitted code writes for a value.", "quantifier": "all accepted schemas whose order of fields is the same in all runs, all injective renamings that keep the builtins, all values", "why_tests_cant": "infinitely many schemas, renamings and values", "anchors": ["src/lib/gen/rust.rs:gen_write_impl", "src/lib/gen/rust.rs:gen_write_impl_struct"]}
{"id": "C94", "title": "TypeScript and Rust of separate runs understand each other", "statement": "The TypeScript that one run of the compiler emits and the Rust that another run emits for the same schema write the same bytes for the same value, and each reads what the other writes. Likewise the Rust of two runs.", "quantifier": "all accepted schemas, all pairs of hash orders, all values", "why_tests_cant": "hash orders are random; a test sees one pair per build", "anchors": ["src/lib/gen/rust.rs:gen_write_impl", "src/lib/gen/ts.rs:gen_write_impl", "src/lib/check.rs:resolve_one_second_pass", "src/main.rs:run_one"]}
{"id": "C95", "title": "Fields added at the end, between the languages", "statement": "If fields are appended to the exported struct, the new TypeScript and the new Rust write the same packet for a value, the old TypeScript and the old Rust both read it as the value without the new fields, and whatever the old code of either language writes the new code of both refuses if some new field takes a byte, and otherwise reads with the new fields filled in.", "quantifier": "all pairs of accepted schemas that differ in this way, whose order of fields is the same in all runs, four separate runs, all values whose strings both libraries transmit alike", "why_tests_cant": "needs two versions of a schema in two languages; infinitely many pairs and values", "anchors": ["src/lib/gen/rust.rs:gen_read_impl_struct", "src/lib/gen/ts.rs:gen_read_impl_struct", "src/lib/gen/rust.rs:gen_write_impl_struct", "src/lib/gen/ts.rs:gen_write_impl_struct", "src/main.rs:run_one"]}
{"id": "C96", "title": "Variants added at the end, between the languages", "statement": "If variants are appended to enums whose representation stays the same, the new code of both languages reads what the old code of either writes; and a packet of the new code of either language is read by the old code of both if the value belongs to the old type, and refused by both otherwise.", "quantifier": "all pairs of accepted schemas that differ in this way and whose order of fields is the same in all runs, four separate runs, all values whose strings both libraries transmit alike", "why_tests_cant": "needs two versions of a schema in two languages; infinitely many pairs and values", "anchors": ["src/lib/gen/rust.rs:gen_read_impl_enum", "src/lib/gen/ts.rs:gen_read_impl_enum", "src/lib/gen/rust.rs:gen_write_impl_enum", "src/lib/gen/ts.rs:gen_write_impl_enum", "src/lib/gen/rust.rs:gen_def_enum_tryfrom_impl"]}
{"id": "C97", "title": "Rust: size of the emitted code", "statement": "The length of the emitted Rust is bounded by a fixed multiple of the length of the schema text.", "quantifier": "all accepted schemas, all hash orders", "why_tests_cant": "asymptotic statement about infinitely many schemas", "anchors": ["src/lib/gen/rust.rs:gen_read_impl_struct", "src/lib/gen/rust.rs:gen_write_impl_struct", "src/lib/gen/rust.rs:gen_def_enum_tryfrom_impl", "src/lib/gen/rust.rs:gen_def"]}
{"id": "C98", "title": "Rust: what was read can be written again, to the same bytes", "statement": "If the generated Rust read takes a packet, write succeeds on the value that it gives, and the packet that write gives is the bytes that were read; reading it gives the value again.", "quantifier": "all accepted schemas, all byte strings", "why_tests_cant": "all packets, including those that write never emits", "anchors": ["src/lib/gen/rust.rs:gen_read_impl_struct", "src/lib/gen/rust.rs:gen_read_impl_optional", "src/lib/gen/rust.rs:gen_write_impl_struct", "src/lib/gen/rust.rs:gen_write_impl_optional"]}
{"id": "C99", "title": "Rust: the size of a packet", "statement": "A packet written by the generated Rust has as many bytes as its parts: the widths of its numbers, four bytes for each string and each array, one for each optional field, and the bytes of the strings.", "quantifier": "all accepted schemas, all values", "why_tests_cant": "all values, strings and arrays of all lengths", "anchors": ["src/lib/gen/rust.rs:gen_write_impl_struct", "src/lib/gen/rust.rs:gen_write_impl_array", "src/lib/gen/rust.rs:gen_write_impl_optional", "src/lib/gen/rust.rs:gen_write_impl_enum"]}
{"id": "C100", "title": "Rust: code generation cannot fail on a checked schema", "statement": "For every schema that type_check accepts, the Rust generator returns text: no index and no shift in it panics.", "quantifier": "all accepted schemas, all iteration orders", "why_tests_cant": "unbounded schemas", "anchors": ["src/lib/gen/rust.rs:gen_def_enum_default_impl", "src/lib/gen/rust.rs:gen_def_enum_tryfrom_impl", "src/lib/gen/rust.rs:gen_def"]}
{"id": "C101", "title": "Rust: balanced brackets and restored indentation", "statement": "In the Rust generated for any accepted schema, curly, round and square brackets are properly nested and closed, and every block is closed at the indentation at which it was opened.", "quantifier": "all accepted schemas", "why_tests_cant": "nesting depth is unbounded", "anchors": ["src/lib/gen/rust.rs:gen_read_impl", "src/lib/gen/rust.rs:gen_write_impl", "src/lib/gen/rust.rs:gen_def", "src/lib/gen/gen_ctx.rs:GenCtx"]}
{"id": "C102", "title": "Rust: what may vary between two compilations", "statement": "For a fixed checked result, two runs of the Rust generator differ at most in the timestamp of the first line and in the order of the items that declare types.", "quantifier": "all checked results, all timestamps, all iteration orders", "why_tests_cant": "orders and clocks are not controllable", "anchors": ["src/lib/gen/mod.rs:generate", "src/lib/gen/rust.rs:gen_def"]}
{"id": "C103", "title": "Which messages the checker can give", "statement": "The messages with which some run of the checker rejects a schema are exactly these: the wrong number of exports; otherwise the first name declared twice; otherwise the fault of the first declaration that is faulty in itself (an enum with no, too many or repeated variants, a struct with a repeated field or optional array before its first field of a type that is not built in); otherwise, for each unresolved struct and each set of structs that can have been resolved before it, the message at the end of the walk that goes from a struct to the type of its first field of a type that cannot be resolved: an optional array met on the way, a type that does not exist or is being resolved already, a return to the struct at which the walk began; and if there is none of all this, an export that is not a struct or not declared.", "quantifier": "all schemas, all hash orders", "why_tests_cant": "one run of a test sees one hash order; the set of messages over all orders is not observable", "anchors": ["src/lib/check.rs:type_check", "src/lib/check.rs:resolve_first_pass", "src/lib/check.rs:resolve_second_pass", "src/lib/check.rs:resolve_one"]}
{"id": "C104", "title": "The emitted module type checks if const enums are preserved", "statement": "With TypeScript's options preserveConstEnums or isolatedModules the emitted module has no type errors either; a namespace that contains an enum may then not stand before the class with which it merges.", "quantifier": "all accepted schemas, all hash orders", "why_tests_cant": "tests compare text and do not run a TypeScript compiler; the error depends on what else the schema declares", "anchors": ["src/lib/gen/mod.rs:generate", "src/lib/gen/ts.rs:gen_decls", "src/lib/gen/ts.rs:gen_enum_decl"]}
{"id": "C105", "title": "The parts of a read value are separate objects", "statement": "In the result of a successful read no object or array is found in two places, and none existed before the call; so changing one part of the result leaves the value of every other part as it is.", "quantifier": "all accepted schemas with harmless names, all byte strings, all heaps", "why_tests_cant": "equal parts look the same whether or not they are shared; only a later change shows it", "anchors": ["src/lib/gen/ts.rs:gen_read_impl_struct", "src/lib/gen/ts.rs:gen_read_impl_array"]}
{"id": "C106", "title": "The code of a single file goes to the file that is named", "statement": "The command packetc <lang> <input> <output> of README.md puts the code for a single schema file into the file <output>, whether or not it exists.", "quantifier": "all schema files, all file systems, all output paths", "why_tests_cant": "file systems and paths are unbounded; the project has no test of the command", "anchors": ["src/main.rs:format_path", "src/main.rs:main", "README.md"]}
{"id": "C107", "title": "The command announces each output", "statement": "A run that succeeds on a directory prints one line Writing to <path> for each schema, with a path to its output, and no other line; every announcement comes before the write, so that at the end of any run only announced outputs and new directories can have changed, and all of them are complete but possibly the last if the run ends with an error. For a single file the output directory is printed before the announcement.", "quantifier": "all inputs, all file systems, all faults, all points at which printing fails", "why_tests_cant": "which lines were printed at a fault depends on where it occurs; file systems are unbounded", "anchors": ["src/main.rs:save_one", "src/main.rs:format_path", "src/main.rs:main"]}
{"id": "C108", "title": "The outcome does not depend on standard output", "statement": "A run of the command has the same outcome and effect whether or not its lines can be printed.", "quantifier": "all inputs, all file systems, all points at which printing fails", "why_tests_cant": "closed pipes and full disks at every line are not set up in tests", "anchors": ["src/main.rs:save_one", "src/main.rs:format_path", "src/main.rs:main"]}
{"id": "C109", "title": "The report tells which schema cannot be compiled", "statement": "If a schema cannot be compiled, the command writes nothing and ends with the error of the library for that schema: the place of the parse error with its line, or a message of the checker. For a directory the report tells which of the schemas it is.", "quantifier": "all inputs, all file systems, all hash orders", "why_tests_cant": "file systems and texts are unbounded; which schema is found first depends on the listing order", "anchors": ["src/main.rs:run_one", "src/main.rs:run_all", "src/lib/lib.rs:Error", "src/lib/lib.rs:compile"]}
{"id": "C110", "title": "Each schema is found once, whatever links there are", "statement": "The walk through the input directory ends, and finds each schema file below it once, also if there are symbolic links.", "quantifier": "all file systems with symbolic links, all bounds on the number of links followed, all listing orders", "why_tests_cant": "file systems are unbounded; the project has no test of the command", "anchors": ["src/main.rs:visit_files", "src/main.rs:run_all"]}
{"id": "C111", "title": "Links in the output directory do no harm", "statement": "Whatever symbolic links there are, a run of the command removes nothing, leaves links, directories and schemas as they are, and if it succeeds there is code for each schema.", "quantifier": "all file systems with symbolic links, all inputs, all outputs", "why_tests_cant": "file systems are unbounded; the project has no test of the command", "anchors": ["src/main.rs:main", "src/main.rs:save_one", "src/main.rs:format_path"]}
{"id": "C112", "title": "Other processes do not make the command do harm", "statement": "Whatever other processes do to the file system meanwhile, the command ends, reads before it writes, writes only if every text that it read compiles, and writes nothing but the code of such a text to the output of its file, and directories above one; if it succeeds there was an output for each file that it read, and it is still there unless the others changed it.", "quantifier": "all file systems, all inputs, all changes by others between any two operations, all faults, all hash and listing orders", "why_tests_cant": "interleavings are unbounded; the project has no test of the command", "anchors": ["src/main.rs:main", "src/main.rs:visit_files", "src/main.rs:run_one", "src/main.rs:save_one"]}
{"id": "C113", "title": "The calls of the command, whatever the system answers", "statement": "Whatever the operating system answers to each call (links, other processes, permissions and faults included), if the first question about the input path is answered, the command first looks for schemas, only at paths below the input path, and then writes. It begins to write only when everything that it was told of was pursued (each directory listed, each name looked at, each file with extension pkt read) and all texts that it read compile. It writes the codes of the texts in the order in which they were read, all of them if it succeeds, each to the output of its file; it makes only directories above these. Each write was announced, and its directory was made or found there before. An error other than one of making a directory ends the command without success, and no call follows.", "quantifier": "all systems whose answers depend in any way on all calls made so far, all inputs, all outputs, all hash orders", "why_tests_cant": "the answers of a system are unbounded, and most errors cannot be provoked in a test; the project has no test of the command", "anchors": ["src/main.rs:main", "src/main.rs:visit_files", "src/main.rs:run_all", "src/main.rs:run_one", "src/main.rs:save_one", "src/main.rs:format_path"]}
{"id": "C114", "title": "The command ends, whatever the system answers", "statement": "Whatever the operating system answers to each call, the command ends.", "quantifier": "all systems whose answers depend in any way on all calls made so far, all inputs, all outputs, all hash orders", "why_tests_cant": "no test shows that something ends on all systems; the project has no test of the command", "anchors": ["src/main.rs:main", "src/main.rs:visit_files", "src/main.rs:save_one"]}
