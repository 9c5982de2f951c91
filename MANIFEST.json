{
 "claims": [
  {
   "property": "C01",
   "status": "proved",
   "theorems": [
    "C01_parser_total"
   ],
   "note": "All byte sequences, valid UTF-8 or not."
  },
  {
   "property": "C02",
   "status": "proved",
   "theorems": [
    "C02_names_legal"
   ],
   "note": ""
  },
  {
   "property": "C03",
   "status": "proved",
   "theorems": [
    "C03_layouts_parse"
   ],
   "note": ""
  },
  {
   "property": "C04",
   "status": "proved",
   "theorems": [
    "C04_parse_is_layout",
    "C04_layout_unique"
   ],
   "note": ""
  },
  {
   "property": "C05",
   "status": "partial",
   "theorems": [
    "C05_report_partial",
    "C05_report_token_refuted",
    "C05_token_partial"
   ],
   "note": "Line, column, quoted line and marker are right for every UTF-8 text, and building the report never panics; the quoted character is right if the text before the error is ASCII. In general it is wrong (lib.rs:29 uses a byte offset as a character index); refuted with a witness. C05_token_partial says for every text which character is quoted, and when that is the right one."
  },
  {
   "property": "C06",
   "status": "proved",
   "theorems": [
    "C06_type_check_total"
   ],
   "note": "All ASTs, all hash orders."
  },
  {
   "property": "C07",
   "status": "proved",
   "theorems": [
    "C07_accepts_exactly_valid"
   ],
   "note": "ASTs that declare no builtin name (every parsed AST)."
  },
  {
   "property": "C08",
   "status": "proved",
   "theorems": [
    "C08_verdict_order_independent"
   ],
   "note": "All ASTs, all pairs of hash orders."
  },
  {
   "property": "C09",
   "status": "proved",
   "theorems": [
    "C09_result_is_what_export_needs"
   ],
   "note": ""
  },
  {
   "property": "C10",
   "status": "proved",
   "theorems": [
    "C10_resolution_faithful"
   ],
   "note": "Fields as a multiset; their order is C11."
  },
  {
   "property": "C11",
   "status": "partial",
   "theorems": [
    "C11_field_order_refuted",
    "C11_two_layouts_refuted",
    "C11_field_order_partial"
   ],
   "note": "The full claim is false of the code (check.rs:325 appends late-resolved fields); refuted with a witness. The partial theorem covers structs that meet order_fixed."
  },
  {
   "property": "C12",
   "status": "partial",
   "theorems": [
    "C12_duplicate_fields_refuted",
    "C12_duplicate_fields_partial",
    "C12_criterion_partial"
   ],
   "note": "The full claim is false of the code (the loop of check.rs:224-234 breaks at the first field with a non-builtin type); refuted with a witness. The first partial theorem covers duplicates that the loop reaches; C12_criterion_partial decides it for every schema in which nothing else is wrong."
  },
  {
   "property": "C13",
   "status": "proved",
   "theorems": [
    "C13_enum_numbering"
   ],
   "note": ""
  },
  {
   "property": "C14",
   "status": "partial",
   "theorems": [
    "C14_message_refuted",
    "C14_message_wrong_refuted",
    "C14_message_partial",
    "C14_single_defect_partial",
    "C14_criterion_partial"
   ],
   "note": "The full claim is false of the code; refuted with a witness. The partial theorems cover defects found before the second pass, acyclic schemas whose defects all have one message, and, for all schemas, that the message is the same in all runs iff C103 allows only one."
  },
  {
   "property": "C15",
   "status": "proved",
   "theorems": [
    "C15_cycles_rejected"
   ],
   "note": ""
  },
  {
   "property": "C16",
   "status": "proved",
   "theorems": [
    "C16_optional_arrays_rejected"
   ],
   "note": ""
  },
  {
   "property": "C17",
   "status": "proved",
   "theorems": [
    "C17_unknown_types_rejected"
   ],
   "note": ""
  },
  {
   "property": "C47",
   "status": "proved",
   "theorems": [
    "C11_field_order_partial",
    "C47_order_criterion_necessary"
   ],
   "note": "Both directions of the criterion."
  },
  {
   "property": "C48",
   "status": "partial",
   "theorems": [
    "C48_outer_newlines_partial",
    "C48_after_declaration_partial",
    "C48_same_or_error_partial",
    "C48_criterion_partial",
    "C48_trailing_blanks_refuted"
   ],
   "note": "The full claim is false of the code (no blanks are allowed after an export line); refuted with a witness. The partial theorems cover line ends before and after the schema, and any white space after a closing brace that ends the schema; and in all cases white space at the end leaves the schema as it is or gives an error inside that white space, never another schema. The criterion says exactly which white space may follow which text."
  },
  {
   "property": "C49",
   "status": "proved",
   "theorems": [
    "C49_legal_schemas_expressible",
    "C49_show_parses"
   ],
   "note": ""
  },
  {
   "property": "C18",
   "status": "proved",
   "theorems": [
    "C18_generation_total"
   ],
   "note": ""
  },
  {
   "property": "C19",
   "status": "proved",
   "theorems": [
    "C19_well_bracketed"
   ],
   "note": "Version and timestamp must not contain brackets or line ends; schemas as the parser produces them."
  },
  {
   "property": "C20",
   "status": "proved",
   "theorems": [
    "C20_declared_types",
    "C20_mentioned_types"
   ],
   "note": ""
  },
  {
   "property": "C21",
   "status": "proved",
   "theorems": [
    "C21_two_runs"
   ],
   "note": ""
  },
  {
   "property": "C22",
   "status": "partial",
   "theorems": [
    "C22_linear_size_refuted",
    "C22_flat_refuted",
    "C22_unfolded_partial",
    "C22_flat_partial",
    "C22_nested_partial",
    "C22_degree_refuted"
   ],
   "note": "False of the code: structs are inlined at every use, so the code can be exponentially longer than the schema; and the name of the export is repeated, so it can be quadratic even without nested structs. Both refuted for every factor K. Partial: a bound by the size of the export with all structs written out, for exports without structs by the length of the schema times that of the export's name, and for exports whose structs are nested at most d deep by the power d of the length of the schema, but for the name of the export; and not by a smaller power, for any d."
  },
  {
   "property": "C23",
   "status": "partial",
   "theorems": [
    "C23_locals_criterion_partial",
    "C23_locals_distinct_partial",
    "C23_read_locals_refuted",
    "C23_write_locals_refuted"
   ],
   "note": "False of the code: a.b and a_b give the same local. Refuted for read and for write, with distinct field names. The criterion says for every schema exactly when it holds, in terms of the schema; the second partial theorem gives a simple sufficient condition, which covers all schemas with distinct field names and no underscores in them."
  },
  {
   "property": "C50",
   "status": "proved",
   "theorems": [
    "C50_declarations_mirror"
   ],
   "note": "Fields as a multiset; their order is C11."
  },
  {
   "property": "C24",
   "status": "proved",
   "theorems": [
    "C24_wire_format",
    "C24_wire_format_declared"
   ],
   "note": "In the field order chosen by the run, and in declared order where C11 keeps it. The class is what the emitted text reads as; the module must load (C45) and must not be called undefined."
  },
  {
   "property": "C25",
   "status": "proved",
   "theorems": [
    "C25_round_trip",
    "plain_names_suffice",
    "plain_names_exact",
    "C25_criterion_partial"
   ],
   "note": "For every runtime library that meets rt_ok (two examples in Runtimes.v). Names as in names_fine; plain_names says the same in terms of the schema. C25_criterion_partial: these names and enums of at most 31 variants are exactly what it takes; it leaves out names whose effect is not modelled and repeated field names."
  },
  {
   "property": "C26",
   "status": "proved",
   "theorems": [
    "C26_self_delimiting",
    "C26_prefix_free"
   ],
   "note": "For every runtime library that meets rt_ok (two examples in Runtimes.v). "
  },
  {
   "property": "C27",
   "status": "proved",
   "theorems": [
    "C27_truncated"
   ],
   "note": "For every runtime library that meets rt_ok (two examples in Runtimes.v). "
  },
  {
   "property": "C28",
   "status": "partial",
   "theorems": [
    "C28_never_throws_partial",
    "C28_never_throws_refuted"
   ],
   "note": "False of the code: the result is a function object, and assigning its name, length, ... throws. Refuted for each such field name. The partial theorem covers schemas with harmless names."
  },
  {
   "property": "C29",
   "status": "partial",
   "theorems": [
    "C29_enum_values_refuted",
    "C29_enum_range_partial",
    "C29_enum_declared_partial",
    "C29_three_variants_refuted",
    "C29_two_variants_partial"
   ],
   "note": "False of the code: read only checks the range, so 3 passes for an enum {1, 2, 4}. Refuted with a witness. Partial: the range, and enums of at most two variants. C68 has the converse: everything in the range is accepted. For every schema: it is false if the export needs an enum of three variants (C29_three_variants_refuted) and true if it does not (C29_two_variants_partial)."
  },
  {
   "property": "C30",
   "status": "partial",
   "theorems": [
    "C30_variants_partial",
    "C30_variants_refuted",
    "C30_many_variants_refuted",
    "C30_few_variants_partial"
   ],
   "note": "False of the code: 1 << 31 is negative, so with 32 variants every value is rejected. Refuted for every such enum. Partial: up to 31 variants. For every schema: some value is lost if the export needs an enum of 32 variants, and none otherwise."
  },
  {
   "property": "C31",
   "status": "partial",
   "theorems": [
    "C31_field_names_partial",
    "C31_field_names_refuted",
    "C31_proto_refuted"
   ],
   "note": "False of the code: a field __proto__ is not stored. Refuted, and for every schema that has such a field in the message. The partial theorem covers harmless names."
  },
  {
   "property": "C32",
   "status": "partial",
   "theorems": [
    "C32_strings_partial",
    "C32_strings_refuted",
    "C32_any_schema_refuted",
    "C32_no_strings_partial"
   ],
   "note": "Depends on the runtime library, which is not in the repository. Proved for the strings that the library transmits with as many bytes as units; refuted for a library that encodes as UTF-8, with a witness. For every schema: a string that the library does not give back is lost if the export needs a string, and without strings every value survives."
  },
  {
   "property": "C33",
   "status": "partial",
   "theorems": [
    "C33_work_partial",
    "C33_no_arrays_partial",
    "C33_any_packet_partial",
    "C33_failed_zero_partial",
    "C33_work_refuted",
    "C33_heavy_arrays_refuted",
    "C33_light_arrays_partial"
   ],
   "note": "False of the code: the loop over an array runs to the announced length although the reader has failed, 2^32 reads for a packet of four bytes. Refuted. The partial theorems bound the work by the length for packets that are accepted, and for all packets by the schema: without arrays by the number of leaves, with arrays by the product of the largest lengths; the last bound is reached. If a failed reader answers 0, the work is at most the length plus 2^32 for each place of the code that reads. For every schema: packets of one length cause any number of reads if the export needs an array whose items take bytes; otherwise the reads are at most the places of the code that read, whatever the packet."
  },
  {
   "property": "C34",
   "status": "partial",
   "theorems": [
    "C34_one_encoding_partial",
    "C34_flags_only_partial",
    "C34_same_length_partial",
    "C34_one_encoding_refuted",
    "C34_optional_refuted",
    "C34_no_optional_partial",
    "C34_encodings_partial"
   ],
   "note": "False of the code: any flag but 0 means present. Refuted. Partial: one encoding without optional fields and floats; with optional fields only flags differ; with floats as well the length is the same. All of them assume that strings are decoded exactly. For every schema: refuted if the export needs an optional field; with neither optional fields nor floats among what it needs there is one encoding. C34_encodings_partial makes this exact: a float that is needed has two encodings as well, since NaN has many patterns."
  },
  {
   "property": "C35",
   "status": "partial",
   "theorems": [
    "C35_interoperate_partial",
    "C35_interoperate_refuted",
    "C35_same_class_partial",
    "C35_criterion_partial"
   ],
   "note": "False of the code because of C11. Refuted with two hash orders for one schema. The partial theorem covers schemas whose order is kept. C35_criterion_partial: for schemas whose needed enums have two variants and whose needed structs have a field, the order criterion of C47 is exact: all runs can exchange packets if and only if every needed struct keeps its declared order. C35_same_class_partial: two runs can exchange packets in both directions only if their classes are equal. Missing: schemas with types that have one value only."
  },
  {
   "property": "C36",
   "status": "partial",
   "theorems": [
    "C36_rewrite_refuted",
    "C36_rewrite_partial"
   ],
   "note": "False of the code: read returns Object.create(<class>), not an instance. Refuted for every schema. Partial: calling the method on the result with an explicit this works."
  },
  {
   "property": "C37",
   "status": "proved",
   "theorems": [
    "C37_size"
   ],
   "note": ""
  },
  {
   "property": "C38",
   "status": "proved",
   "theorems": [
    "C38_no_effect"
   ],
   "note": ""
  },
  {
   "property": "C51",
   "status": "partial",
   "theorems": [
    "C51_left_out_partial",
    "C51_left_out_refuted",
    "C51_criterion_partial"
   ],
   "note": "False of the code: presence is tested by reading the property, so a missing field toString counts as present. Refuted for each of the names that objects inherit. The partial theorem covers all schemas without optional fields of these names. C51_criterion_partial decides it for every schema with distinct field names: fields may be left out exactly if no optional field that the export needs has such a name."
  },
  {
   "property": "C52",
   "status": "partial",
   "theorems": [
    "C52_items_partial",
    "C52_items_refuted",
    "C52_four_bytes_refuted"
   ],
   "note": "For every runtime library that meets rt_ok (two examples in Runtimes.v). False of the code for arrays whose items take no bytes. Decided for every schema: refuted whenever the export contains such an array, and the bound holds for all others (up to equality if the export itself takes no bytes). Four bytes can stand for an array of 4294967295 items."
  },
  {
   "property": "C39",
   "status": "proved",
   "theorems": [
    "C39_total",
    "C39_parse_error",
    "C39_check_error",
    "C39_code",
    "C39_text_of_schema",
    "C39_code_of_schema"
   ],
   "note": "The text is any UTF-8 string; what it denotes is the layout relation of C01."
  },
  {
   "property": "C45",
   "status": "partial",
   "theorems": [
    "C45_export_names_refuted",
    "C45_export_names_read_refuted",
    "C45_export_names_partial"
   ],
   "note": "False of the code: exports called like a word of JavaScript, Reader, Writer (the module does not load), Object, output (read throws). Refuted for each such name. The partial theorem says for every schema exactly when the module loads and read gets started (exports called Array, data, reader, undefined are outside the model's read)."
  },
  {
   "property": "C46",
   "status": "partial",
   "theorems": [
    "C46_field_names_refuted",
    "C46_type_names_refuted",
    "C46_field_names_partial"
   ],
   "note": "False of the code: field names that are words of JavaScript, type names such as number. Refuted for each such name. The partial theorem says exactly which schemas have usable field names; type names are part of C62."
  },
  {
   "property": "C53",
   "status": "partial",
   "theorems": [
    "C53_identifiers_refuted",
    "C53_identifiers_excluded",
    "C53_identifiers_partial"
   ],
   "note": "False of the code: the grammar refuses identifiers that merely begin with a reserved word. Refuted; the other two theorems say exactly which identifiers are refused."
  },
  {
   "property": "C40",
   "status": "partial",
   "theorems": [
    "C40_all_or_nothing_refuted",
    "C40_all_or_nothing_partial",
    "C40_single_file"
   ],
   "note": "False of the code: an entry for which is_dir fails is taken for a file and skipped. Refuted with a witness. The partial theorem covers all runs in which is_dir does not fail; the third theorem is for a single file."
  },
  {
   "property": "C41",
   "status": "proved",
   "theorems": [
    "C41_one_output_each"
   ],
   "note": "The input can be inspected and is_dir does not fail; success of the run replaces 'everything compiles and no write fails' (C55 says when it succeeds)."
  },
  {
   "property": "C42",
   "status": "proved",
   "theorems": [
    "C42_mirrored",
    "C42_outputs_differ"
   ],
   "note": ""
  },
  {
   "property": "C43",
   "status": "proved",
   "theorems": [
    "C43_failing_write"
   ],
   "note": "In a layout where two outputs clash, a directory may have been made at the place of a later output."
  },
  {
   "property": "C44",
   "status": "partial",
   "theorems": [
    "C44_missing_input_refuted",
    "C44_unreadable_input_refuted"
   ],
   "note": "False of the code: a missing input is ignored and the command succeeds. Refuted for every file system and missing path."
  },
  {
   "property": "C54",
   "status": "proved",
   "theorems": [
    "C54_only_ts"
   ],
   "note": ""
  },
  {
   "property": "C55",
   "status": "partial",
   "theorems": [
    "C55_succeeds_refuted",
    "C55_clash_refuted",
    "C55_succeeds_partial",
    "C55_single_file"
   ],
   "note": "False of the code: a.pkt next to a directory a.ts with schemas can never be compiled. Refuted. The partial theorem says exactly when a run without failures succeeds (nothing in the way, UTF-8 names, every schema compiles), and C55_single_file the same for a single file."
  },
  {
   "property": "C56",
   "status": "partial",
   "theorems": [
    "C56_no_panic_refuted",
    "C56_no_panic_partial",
    "C56_criterion",
    "C56_single_file"
   ],
   "note": "False of the code: a directory name that is not UTF-8 makes visit_files panic. Refuted. The criterion is exact: some run on a directory panics if and only if a directory below it has such a name; single files never do."
  },
  {
   "property": "C57",
   "status": "proved",
   "theorems": [
    "C57_rerun"
   ],
   "note": ""
  },
  {
   "property": "C58",
   "status": "partial",
   "theorems": [
    "C58_single_file_refuted",
    "C58_dots_refuted",
    "C58_single_file_partial",
    "C58_place_partial"
   ],
   "note": "False of the code: a.b.pkt goes to a.ts. Refuted for all such names. The first partial theorem covers names without further dots; C58_place_partial says for every name where the code goes and that it is the right place exactly if there is no dot but at the start."
  },
  {
   "property": "C59",
   "status": "proved",
   "theorems": [
    "C59_language"
   ],
   "note": ""
  },
  {
   "property": "C60",
   "status": "proved",
   "theorems": [
    "C60_emits_a_module"
   ],
   "note": "Well-formed: accepted by the reader of TsText.v. Version and time are printable ASCII."
  },
  {
   "property": "C61",
   "status": "partial",
   "theorems": [
    "C61_construct_partial",
    "C61_construct_run_partial",
    "C61_parameter_order_refuted",
    "C61_write_field_refuted",
    "C61_criterion_partial"
   ],
   "note": "For every runtime library that meets rt_ok (two examples in Runtimes.v). False of the code: the order of the parameters can differ between runs (C11), and a field called write hides the method. Refuted for both. Partial: schemas whose order is kept, without a field called __proto__ (C31) or write. The criterion says for every schema with distinct field names, with the parameters in the order of the run, that these two names and whether the module loads decide it."
  },
  {
   "property": "C62",
   "status": "partial",
   "theorems": [
    "C62_types_refuted",
    "C62_types_criterion_partial",
    "C62_types_partial"
   ],
   "note": "False of the code: an export called ArrayBuffer, fields write and constructor, enums read and prototype, types called like TypeScript's own. Refuted for each. The criterion says for every schema, in terms of its names, whether its module has type errors. The type checker is that of TsTypes.v, which accepts a subset of TypeScript."
  },
  {
   "property": "C63",
   "status": "proved",
   "theorems": [
    "C63_declaration_order"
   ],
   "note": ""
  },
  {
   "property": "C64",
   "status": "proved",
   "theorems": [
    "C64_needed_only",
    "C64_added_declaration",
    "C64_same_possibilities",
    "C64_added_possibilities"
   ],
   "note": "The last two hold also where the order of fields is up to the hash map: the sets of possible results are equal."
  },
  {
   "property": "C65",
   "status": "proved",
   "theorems": [
    "C65_old_reads_new",
    "C65_new_rejects_old",
    "C65_new_reads_old"
   ],
   "note": "For every runtime library that meets rt_ok (two examples in Runtimes.v). New packets are read by old code under the hypotheses of C25; for the rejection the empty string can be transmitted."
  },
  {
   "property": "C66",
   "status": "proved",
   "theorems": [
    "C66_new_reads_old",
    "C66_old_reads_new",
    "C66_ninth_variant"
   ],
   "note": "For every runtime library that meets rt_ok (two examples in Runtimes.v). The third theorem shows that the condition on the representation is needed."
  },
  {
   "property": "C67",
   "status": "proved",
   "theorems": [
    "C67_renamed_accepted",
    "C67_renamed_bytes"
   ],
   "note": "For every runtime library that meets rt_ok (two examples in Runtimes.v). "
  },
  {
   "property": "C68",
   "status": "proved",
   "theorems": [
    "C68_accepted_packets"
   ],
   "note": "For every runtime library that meets rt_ok (two examples in Runtimes.v). Enums of at most 31 variants (C30). How floats and the bytes of strings are decoded is up to the runtime library."
  },
  {
   "property": "C69",
   "status": "proved",
   "theorems": [
    "C69_before_error_completes",
    "C69_error_settled"
   ],
   "note": ""
  },
  {
   "property": "C104",
   "status": "partial",
   "theorems": [
    "C104_enums_refuted",
    "C104_criterion_partial"
   ],
   "note": "False of the code: the namespace is emitted before the class (gen/mod.rs:14-24). Refuted for every schema whose export needs an enum; the criterion says that these and the schemas of C62 are the only ones. The rule (error 2434) is part of the specification, IsolatedSpec.v."
  },
  {
   "property": "C70",
   "status": "partial",
   "theorems": [
    "C70_messages_refuted",
    "C70_messages_partial"
   ],
   "note": "The full claim is false of the code: for a type that refers to itself the checker may say that its declaration does not exist. The partial theorem shows that this is the only exception."
  },
  {
   "property": "C71",
   "status": "partial",
   "theorems": [
    "C71_random_schemas_refuted",
    "C71_ways_to_fail_refuted",
    "C71_random_schemas_partial"
   ],
   "note": "False of the script: it raises if there is no struct, a variant may begin with a reserved word, an enum whose text contains the word struct is exported, names may be equal after the change of case. Refuted with a run for each. The partial theorem covers all other runs. Strings are ASCII; random.sample and the like may return anything of their range."
  },
  {
   "property": "C72",
   "status": "proved",
   "theorems": [
    "C72_layout_irrelevant",
    "C72_windows_line_ends"
   ],
   "note": ""
  },
  {
   "property": "C73",
   "status": "proved",
   "theorems": [
    "C73_concatenation"
   ],
   "note": ""
  },
  {
   "property": "C74",
   "status": "proved",
   "theorems": [
    "C74_tokens_determine"
   ],
   "note": "An Example shows that acceptance is needed: for names that are missing it matters where the line ends."
  },
  {
   "property": "C75",
   "status": "partial",
   "theorems": [
    "C75_blanks_refuted",
    "C75_comments_refuted",
    "C75_same_or_error_partial",
    "C75_blanks_criterion_partial",
    "C75_comments_criterion_partial"
   ],
   "note": "The full claim is false of the code: blanks after an export (parser.rs:72-80, only line ends may follow) and comments between the variants of an enum (parser.rs:40-44) are parse errors; refuted with witnesses. The partial theorems show that such a text is never read as another schema, and say exactly at which line ends blanks and at which a comment can be added: a comment is also an error before a line that starts with a comma, and outside of braces if a line of blanks follows. Left out of the criteria: an export without a name, which no accepted schema has."
  },
  {
   "property": "C76",
   "status": "proved",
   "theorems": [
    "C76_throwing_names",
    "C76_refused_fields"
   ],
   "note": "Together with C28 this says exactly when a call of read can throw. A second theorem says what becomes of packets with a field that cannot be assigned. Exports called data, reader, Array or undefined are left out: the model does not say what read does for them."
  },
  {
   "property": "C77",
   "status": "proved",
   "theorems": [
    "C77_foreign_chars"
   ],
   "note": "Example with a letter outside of ASCII in a comment, and with a byte order mark, which is rejected at offset 0."
  },
  {
   "property": "C78",
   "status": "proved",
   "theorems": [
    "C78_linear_parse"
   ],
   "note": "The parser with a counter computes the outcome of the parser; one step per character compared, the second run of rust-peg on errors included. Constant: 742."
  },
  {
   "property": "C79",
   "status": "proved",
   "theorems": [
    "C79_quadratic_check",
    "C79_quadratic_text",
    "C79_quadratic_tight"
   ],
   "note": "The checker with a counter computes the outcome of the checker; a step is a round of a loop, a call, or an element copied. The last theorem shows that no linear bound holds: the type of each field of the export is searched again."
  },
  {
   "property": "C80",
   "status": "partial",
   "theorems": [
    "C80_bounded_depth_refuted",
    "C80_depth_partial"
   ],
   "note": "Refuted: structs nested d deep make the checker recurse d deep under every hash order, so a long enough chain of structs exhausts the stack. What holds: at most the number of lines plus nine."
  },
  {
   "property": "C81",
   "status": "partial",
   "theorems": [
    "C81_declarations",
    "C81_last_arm_refuted"
   ],
   "note": "rust.rs is not compiled at the pinned commit; its functions are called in the order of README.md:33-46. C81_declarations says for every schema what is declared; the number of a 32nd variant in TryFrom is -2^31 instead of 2^31, so that part of the property is refuted."
  },
  {
   "property": "C82",
   "status": "proved",
   "theorems": [
    "C82_wire_format"
   ],
   "note": "rust.rs is not compiled at the pinned commit; its functions are called in the order of README.md:33-46. The crate packet is any library that meets rs_lib_ok. Field names of a struct are distinct, no type is called like a type of Rust."
  },
  {
   "property": "C83",
   "status": "proved",
   "theorems": [
    "C83_round_trip",
    "C83_truncated"
   ],
   "note": "rust.rs is not compiled at the pinned commit; its functions are called in the order of README.md:33-46. The crate packet is any library that meets rs_lib_ok. Enums of at most 31 variants."
  },
  {
   "property": "C84",
   "status": "proved",
   "theorems": [
    "C84_decides",
    "C84_takes"
   ],
   "note": "rust.rs is not compiled at the pinned commit; its functions are called in the order of README.md:33-46. The crate packet is any library that meets rs_lib_ok. Enums of at most 31 variants: for a 32nd the emitted pattern is a negative number."
  },
  {
   "property": "C85",
   "status": "partial",
   "theorems": [
    "C85_appended_refuted",
    "C85_kept_refuted",
    "C85_onto",
    "C85_packet_only_partial",
    "C85_packet_only"
   ],
   "note": "rust.rs is not compiled at the pinned commit; its functions are called in the order of README.md:33-46. The crate packet is any library that meets rs_lib_ok. False of the code: arrays are appended to, and an absent optional field keeps its old value. Refuted for both; C85_onto says exactly what is left for every schema; the partial theorem covers schemas without arrays and optional fields. C85_packet_only: for every schema it holds exactly if the export needs no array and no optional field."
  },
  {
   "property": "C86",
   "status": "partial",
   "theorems": [
    "C86_interoperate_partial",
    "C86_accents_refuted",
    "C86_rust_to_ts_partial",
    "C86_any_schema_refuted",
    "C86_no_strings_partial"
   ],
   "note": "rust.rs is not compiled at the pinned commit; its functions are called in the order of README.md:33-46. The crate packet is any library that meets rs_lib_ok. For every runtime library that meets rt_ok (two examples in Runtimes.v). False for strings outside of ASCII: TypeScript writes the number of UTF-16 units where Rust expects bytes; refuted for a library that encodes in UTF-8. The partial theorem covers strings that both libraries encode alike with one byte per unit. For every schema: Rust to TypeScript all strings arrive if the TypeScript library decodes them; TypeScript to Rust there is a refused object exactly if the export needs a string (given one string that the Rust library refuses); without strings everything arrives."
  },
  {
   "property": "C87",
   "status": "partial",
   "theorems": [
    "C87_included_partial",
    "C87_decided_partial",
    "C87_sums_refuted",
    "C87_three_variants_refuted",
    "C87_two_variants_partial",
    "C87_any_string_partial"
   ],
   "note": "rust.rs is not compiled at the pinned commit; its functions are called in the order of README.md:33-46. The crate packet is any library that meets rs_lib_ok. For every runtime library that meets rt_ok (two examples in Runtimes.v). False: TypeScript takes sums of variants, Rust does not. The partial theorems show that this is the only difference, for strings on which the libraries agree. For every schema: they differ if the export needs an enum of three variants, and otherwise Rust takes what TypeScript takes. The inclusion also holds without a condition on strings, if the TypeScript library decodes those of Rust."
  },
  {
   "property": "C88",
   "status": "partial",
   "theorems": [
    "C88_calls",
    "C88_room_partial",
    "C88_room_refuted",
    "C88_items_refuted",
    "C88_empty_structs_refuted"
   ],
   "note": "rust.rs is not compiled at the pinned commit; its functions are called in the order of README.md:33-46. The crate packet is any library that meets rs_lib_ok. The bound on calls holds for all packets. The bound on memory is false: read reserves for the announced number of elements before it reads them, and items of arrays may take no bytes. It holds for accepted packets if no array that the export contains has such items, and is refuted for every schema with such an array."
  },
  {
   "property": "C89",
   "status": "partial",
   "theorems": [
    "C89_exactly",
    "C89_enum_arrays_refuted",
    "C89_optional_strings_refuted",
    "C89_large_enums_refuted",
    "C89_names_refuted"
   ],
   "note": "False of the code: arrays of enums, optional strings, enums of 32 variants, and names that Rust reserves or the code uses give modules that do not compile. C89_exactly decides it for every schema. Whether the writer's methods take numbers by reference is a parameter, since the crate packet is not in the repository. The rules of Rust that are checked are those of RsCheck.v."
  },
  {
   "property": "C90",
   "status": "proved",
   "theorems": [
    "C90_field_orders"
   ],
   "note": "Both directions: each run chooses one of these orders, and for each of them there is a hash order under which a run chooses it. One struct at a time."
  },
  {
   "property": "C91",
   "status": "proved",
   "theorems": [
    "C91_old_reads_new",
    "C91_new_rejects_old",
    "C91_new_reads_old"
   ],
   "note": "rust.rs is not compiled at the pinned commit; its functions are called in the order of README.md:33-46. The crate packet is any library that meets rs_lib_ok. Names that Rust does not use (rust_names); for the rejection the empty string can be transmitted."
  },
  {
   "property": "C92",
   "status": "proved",
   "theorems": [
    "C92_new_reads_old",
    "C92_old_reads_new",
    "C92_ninth_variant"
   ],
   "note": "rust.rs is not compiled at the pinned commit; its functions are called in the order of README.md:33-46. The crate packet is any library that meets rs_lib_ok. The third theorem shows that the condition on the representation is needed."
  },
  {
   "property": "C93",
   "status": "proved",
   "theorems": [
    "C93_renamed_bytes"
   ],
   "note": "rust.rs is not compiled at the pinned commit; its functions are called in the order of README.md:33-46. The crate packet is any library that meets rs_lib_ok. That the renamed schema is accepted too is C67."
  },
  {
   "property": "C94",
   "status": "partial",
   "theorems": [
    "C94_rust_partial",
    "C94_languages_partial",
    "C94_languages_refuted",
    "C94_criterion_partial"
   ],
   "note": "rust.rs is not compiled at the pinned commit; its functions are called in the order of README.md:33-46. The crate packet is any library that meets rs_lib_ok. For every runtime library that meets rt_ok (two examples in Runtimes.v). False of the code: the order of fields depends on the hash order of the run (C90), and code that expects another order reads the values of other fields without an error. The partial theorems cover the schemas whose order is the same in all runs. C94_criterion_partial: for schemas whose needed enums have two variants and whose needed structs have a field, these are exactly the schemas for which the TypeScript of any run and the Rust of any run can exchange packets. Missing: schemas with types that have one value only."
  },
  {
   "property": "C95",
   "status": "proved",
   "theorems": [
    "C95_old_reads_new",
    "C95_new_rejects_old",
    "C95_new_reads_old"
   ],
   "note": "rust.rs is not compiled at the pinned commit; its functions are called in the order of README.md:33-46. The crate packet is any library that meets rs_lib_ok. For every runtime library that meets rt_ok (two examples in Runtimes.v). The two libraries agree on numbers and on the strings in both (same_format)."
  },
  {
   "property": "C96",
   "status": "proved",
   "theorems": [
    "C96_new_reads_old",
    "C96_old_reads_new"
   ],
   "note": "rust.rs is not compiled at the pinned commit; its functions are called in the order of README.md:33-46. The crate packet is any library that meets rs_lib_ok. For every runtime library that meets rt_ok (two examples in Runtimes.v). The two libraries agree on numbers and on the strings in both (same_format)."
  },
  {
   "property": "C97",
   "status": "partial",
   "theorems": [
    "C97_linear_size_refuted",
    "C97_written_out_partial",
    "C97_flat_partial",
    "C97_nested_partial",
    "C97_degree_refuted"
   ],
   "note": "False of the code: structs are inlined at every use, so the code can be exponentially longer than the schema. Refuted for every factor K. Partial: a bound by the size of the export with all structs and type names written out, a bound linear in the schema for exports without structs (false for TypeScript, see C22), and for exports whose structs are nested at most d deep by the power d of the length of the schema; and not by a smaller power, for any d."
  },
  {
   "property": "C98",
   "status": "partial",
   "theorems": [
    "C98_rewrite",
    "C98_one_encoding_refuted",
    "C98_flags_only_partial",
    "C98_one_encoding_partial",
    "C98_optional_refuted",
    "C98_no_optional_partial"
   ],
   "note": "The part about the bytes is false of the code: any flag but 0 says that an optional field is there, so a value has several packets (C98_one_encoding_refuted). C98_rewrite: write succeeds, gives as many bytes as were read, and reading them gives the value again. Partial: without floats only these flags can differ, without optional fields too nothing (what is missing: floats, where it depends on the library whether two byte strings are read alike). For every schema: refuted if the export needs an optional field; with neither optional fields nor floats among what it needs there is one packet."
  },
  {
   "property": "C99",
   "status": "proved",
   "theorems": [
    "C99_size"
   ],
   "note": ""
  },
  {
   "property": "C100",
   "status": "proved",
   "theorems": [
    "C100_generation_total"
   ],
   "note": "Rejected enums would make it panic (C100_needs_check): the default is variant 0, the values are shifted in 32 bits."
  },
  {
   "property": "C101",
   "status": "proved",
   "theorems": [
    "C101_well_bracketed"
   ],
   "note": "Version and timestamp without brackets and line ends, as in C19."
  },
  {
   "property": "C102",
   "status": "proved",
   "theorems": [
    "C102_two_runs"
   ],
   "note": "For one checked result; that the result can differ between runs is C11 and C94."
  },
  {
   "property": "C103",
   "status": "proved",
   "theorems": [
    "C103_possible_messages"
   ],
   "note": "Both directions, for schemas that do not declare a built-in name."
  },
  {
   "property": "C105",
   "status": "proved",
   "theorems": [
    "C105_unshared",
    "C105_local_changes"
   ],
   "note": "Names as in C25 (names_fine). On the heap of the model, in which the library returns numbers and strings only."
  },
  {
   "property": "C106",
   "status": "partial",
   "theorems": [
    "C106_named_file_refuted",
    "C106_directory_refuted",
    "C106_file_there_refuted"
   ],
   "note": "False of the code: the last argument is taken for a directory (main.rs:104-120), although README.md shows a file. Refuted for every run on a file s.pkt where s is a proper name; the Example shows the file ..pkt, for which the code does go to the place that is named."
  },
  {
   "property": "C107",
   "status": "proved",
   "theorems": [
    "C107_every_run",
    "C107_announced",
    "C107_single_file"
   ],
   "note": "With the lines of main.rs:96 and 112; a failing flush is not modelled. That paths are shown as they are needs UTF-8 names, which a run that gets as far has."
  },
  {
   "property": "C108",
   "status": "partial",
   "theorems": [
    "C108_closed_stdout_refuted",
    "C108_only_panics"
   ],
   "note": "False of the code: println! panics if the line cannot be printed. Refuted for every run on a directory with a schema: with standard output closed nothing is written. C108_only_panics: the only other outcome is this panic, at the first line that cannot be printed."
  },
  {
   "property": "C109",
   "status": "partial",
   "theorems": [
    "C109_single_file",
    "C109_directory",
    "C109_which_schema_refuted",
    "C109_same_report"
   ],
   "note": "That the report tells which schema it is about is false of the code: nothing in it depends on the name of the file (C109_same_report), so the schema cannot be found from it. Proved: nothing is written, and the error is that of the library for one of the schemas that do not compile, with the place of the error or a possible message of the checker (C103). What anyhow prints around the text is not modelled."
  },
  {
   "property": "C110",
   "status": "partial",
   "theorems": [
    "C110_found",
    "C110_without_links_partial",
    "C110_once_refuted"
   ],
   "note": "That each schema is found once is false of the code: visit_files follows links and remembers no directory. In a directory with one schema and two links to itself the schema is compiled 2^(L+1)-1 times, where L is the number of links the system follows in a path (40 on Linux). Proved: the walk ends for every file system and every L, with exactly what is found (C110_found); without links each schema file is found once. All names are UTF-8 and no operation fails; the length of a path is not limited."
  },
  {
   "property": "C111",
   "status": "partial",
   "theorems": [
    "C111_links_stay",
    "C111_only_ts_partial",
    "C111_nothing_partial",
    "C111_outputs_partial",
    "C111_without_links_partial",
    "C111_schemas_refuted",
    "C111_outputs_refuted"
   ],
   "note": "False of the code: fs::write follows a link at the end of the path, so an output that is a link to a schema replaces the schema; and a link from one output directory to another gives two schemas one output. Refuted for both. Proved for every file system with links: links and directories stay, nothing is removed, and what is written is the code of a file, at the place where its output path leads; if no link has extension ts, only files with that extension are written; if a schema found cannot be read or compiled nothing changes; after success the output path of each schema found leads to code, of this or of another schema whose output path leads there. Without links and failing operations a run ends as a run of the model without links does (C111_without_links_partial). No operation fails by itself."
  },
  {
   "property": "C112",
   "status": "partial",
   "theorems": [
    "C112_own_actions",
    "C112_outputs",
    "C112_ends_partial",
    "C112_limit_partial",
    "C112_ends_refuted",
    "C112_alone"
   ],
   "note": "The others act before each operation of the command (any function that leaves a file system behind); an operation by itself is atomic, and the names in a directory are those when it was opened. Proved: what the command reads and writes, for all of these; and if the others leave what has extension ts alone, what is in the outputs after success. That it ends is false of the model, in which paths may have any length: a process that keeps adding a directory below the one visited keeps the walk going. Proved if the others keep the depth of the file system within a bound, and if nothing below some depth can be opened, which is the effect of a limit on the length of paths. If the others do nothing and no operation fails, the run ends as in Cli.v (C112_alone). No symbolic links."
  },
  {
   "property": "C113",
   "status": "proved",
   "theorems": [
    "C113_calls",
    "C113_errors",
    "C113_prepared",
    "C113_covers"
   ],
   "note": "Each call is a function of the calls made so far with their answers, so that nothing is assumed about the file system. Path::is_dir has no error: the program cannot see one (see C40). That the command succeeds if the first question fails is C44, and stated here as a case. The run may be cut off at any depth of the walk (Diverge); what is said holds for the calls until then. Paths are strings: what they lead to is left to the system. fs::write is one call; what it leaves behind when it fails is in C43 and C112. C113_covers: each run of C112 is such a run, for a system that answers from the file system; the same texts are read, and the same directories and files made and written."
  },
  {
   "property": "C114",
   "status": "partial",
   "theorems": [
    "C114_ends_partial",
    "C114_ends_refuted"
   ],
   "note": "False without a limit on the length of paths: a system in which each directory has another one keeps the walk going. Proved if no path longer than some length is said to be a directory, as on all usual systems (4096 bytes on Linux), and names that are listed are not empty and have no slash. That each single call returns is assumed."
  }
 ]
}