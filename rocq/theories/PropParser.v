(** Property theorems C01-C05, C48, C49, C69: the parser and the parse error report. *)
From Verif Require Import LocalProofs ParserWitness LayoutSpec ParserTrail TrailExact.

(** C01. Parsing returns an AST or an error inside the text. *)
Theorem C01_parser_total : forall s, (exists a, parse_schema s = POk a) \/
  (exists off, parse_schema s = PErr off /\ off <= length s).
Proof. exact parse_total. Qed.
Print Assumptions C01_parser_total.
Example C01_nonvacuous : parse_schema complex_text = POk complex_ast /\
  parse_schema (txt "export A" ++ txt " ") = PErr 9.
Proof. exact (conj parse_complex (proj2 trailing_blank)). Qed.

(** C02. Names in a parsed schema are identifiers. *)
Theorem C02_names_legal : forall s a, parse_schema s = POk a -> legal_ast a.
Proof. exact (fun s a => parse_legal a s). Qed.
Print Assumptions C02_names_legal.
Example C02_nonvacuous : legal_ast complex_ast /\ ~ legal_ast [NDecl "uint8" (AEnum [])] /\
  ~ legal_ast [NDecl "exporter" (AEnum [])] /\ ~ legal_ast [NDecl "x" (AEnum ["9a"])].
Proof. exact legal_examples. Qed.

(** C03. Every legal layout parses to its schema. *)
Theorem C03_layouts_parse : forall a s, layout a s -> parse_schema s = POk a.
Proof. exact (fun a s => proj2 (parse_schema_ok a s)). Qed.
Print Assumptions C03_layouts_parse.
Example C03_nonvacuous : layout complex_ast complex_text.
Proof. exact (proj1 (parse_schema_ok _ _) parse_complex). Qed.

(** C04. A successful parse accounts for the whole text. *)
Theorem C04_parse_is_layout : forall a s, parse_schema s = POk a -> layout a s.
Proof. exact (fun a s => proj1 (parse_schema_ok a s)). Qed.
Print Assumptions C04_parse_is_layout.
Theorem C04_layout_unique : forall a a' s, layout a s -> layout a' s -> a = a'.
Proof. exact layout_unique. Qed.
Print Assumptions C04_layout_unique.
Example C04_nonvacuous : (exists a, parse_schema complex_text = POk a) /\
  ~ exists a, layout a (txt "a: struct { v: uint8 [] }").
Proof. exact layout_examples. Qed.

(** C05. The report names the right line and column, quotes the right line and puts the marker
    under the error; the quoted character is right if the text before the error is ASCII. *)
Theorem C05_report_partial : forall s off, utf8 s -> parse_schema s = PErr off ->
  exists before after lines cur rest token, s = before ++ after /\ length before = off /\
    place before after lines cur rest /\ parse_message s off = Ok (report token lines cur rest) /\
    (ascii_only before -> first_char after token).
Proof. exact parse_report. Qed.
Print Assumptions C05_report_partial.
Example C05_nonvacuous : utf8 accent_text /\ parse_schema accent_text = PErr 5 /\
  parse_message accent_text 5 = Ok (report [ascii_of_nat 0] 1 [] (txt "$")).
Proof. exact (conj accent_utf8 (conj accent_error accent_message)). Qed.
(** The quoted character is wrong after non-ASCII text: lib.rs:29 takes the byte offset as an index
    of characters. *)
Theorem C05_report_token_refuted : ~ forall s, utf8 s -> report_right s.
Proof. exact (fun H => proj2 report_not_right (H _ (proj1 report_not_right))). Qed.
Print Assumptions C05_report_token_refuted.

(** Exactly which character is quoted: as many characters too far to the right as the text before the error has bytes beyond one per character, so that it is
    right only if the character there is the same (or both are the end). *)
Theorem C05_token_partial : forall s off, utf8 s -> parse_schema s = PErr off ->
  exists before after gs hs lines cur rest token, s = before ++ after /\ length before = off /\ spells gs before /\ spells hs after /\
    place before after lines cur rest /\ parse_message s off = Ok (report token lines cur rest) /\
    token = nth (off - length gs) hs [ascii_of_nat 0] /\
    (first_char after token <-> nth (off - length gs) hs [ascii_of_nat 0] = nth 0 hs [ascii_of_nat 0]).
Proof. exact token_place. Qed.
Print Assumptions C05_token_partial.
Example C05_token_nonvacuous : parse_schema (accent_text ++ txt "%&") = PErr 5 /\
  parse_message (accent_text ++ txt "%&") 5 = Ok (report (txt "%") 1 [] (txt "$%&")).
Proof. split; by vm_compute. Qed.

(** C48. Line ends around a schema do not matter; blanks at the end do. *)
Theorem C48_outer_newlines_partial : forall a s w1 w2, Forall newline_char w1 -> Forall newline_char w2 ->
  parse_schema s = POk a -> parse_schema (w1 ++ s ++ w2) = POk a.
Proof. exact parse_newlines. Qed.
Print Assumptions C48_outer_newlines_partial.
Example C48_nonvacuous : Forall newline_char [lf; lf] /\ parse_schema complex_text = POk complex_ast.
Proof. split; [repeat constructor|exact parse_complex]. Qed.
Theorem C48_trailing_blanks_refuted :
  ~ forall a s w, Forall space_char w -> parse_schema s = POk a -> parse_schema (s ++ w) = POk a.
Proof. exact trailing_blanks_matter. Qed.
Print Assumptions C48_trailing_blanks_refuted.

(** Where the text ends in a declaration: its closing brace is not in a comment, because every [#] before it is followed
    by a line end before it. *)
Theorem C48_after_declaration_partial : forall a s w0 w,
  (forall p q, s = p ++ "#"%char :: q -> lf ∈ q) -> Forall space_char w0 -> Forall space_char w ->
  parse_schema (s ++ txt "}" ++ w0) = POk a -> parse_schema (s ++ txt "}" ++ w0 ++ w) = POk a.
Proof. exact parse_trail. Qed.
Print Assumptions C48_after_declaration_partial.
Example C48_after_nonvacuous : exists a s,
  (forall p q, s = p ++ "#"%char :: q -> lf ∈ q) /\ "#"%char ∈ s /\ parse_schema (s ++ txt "}" ++ [lf]) = POk a.
Proof. exact trail_example. Qed.

(** White space at the end is never read as something else: the schema stays the same or the error is in the white space. *)
Theorem C48_same_or_error_partial : forall a s w, Forall space_char w -> parse_schema s = POk a ->
  parse_schema (s ++ w) = POk a \/
  exists off, parse_schema (s ++ w) = PErr off /\ length s <= off <= length (s ++ w).
Proof. exact parse_tail. Qed.
Print Assumptions C48_same_or_error_partial.
Example C48_same_or_error_nonvacuous : exists a, parse_schema (txt "export A") = POk a /\
  parse_schema (txt "export A" ++ [lf]) = POk a /\ parse_schema (txt "export A" ++ txt " ") = PErr 9.
Proof. exact trail_cases. Qed.

(** Exactly when: [may_end s w] allows line ends anywhere, any white space after the closing brace of a declaration, and in
    the comment at the end of a text what finishes the comment and goes on with line ends. (The name in an export may be
    missing as far as the parser is concerned, and then blanks may follow; no such schema is accepted by the checker.) *)
Theorem C48_criterion_partial : forall a s w, NExport "" ∉ a -> Forall space_char w -> parse_schema s = POk a ->
  (parse_schema (s ++ w) = POk a <-> may_end s w).
Proof. exact trail_exact. Qed.
Print Assumptions C48_criterion_partial.
Example C48_criterion_nonvacuous : (exists a, NExport "" ∉ a /\ parse_schema (txt "export A # end") = POk a /\ in_comment (txt "export A # end") /\
    parse_schema (txt "export A # end" ++ txt " " ++ [lf]) = POk a /\ parse_schema (txt "export A # end" ++ [lf] ++ txt " ") = PErr 16) /\
  (exists a, NExport "" ∉ a /\ parse_schema (txt "A: enum { X }") = POk a /\ at_brace (txt "A: enum { X }") /\ parse_schema (txt "A: enum { X }" ++ txt " " ++ [lf] ++ txt " ") = POk a).
Proof. exact exact_example. Qed.

(** C49. The ASTs that some text denotes are exactly the legal ones. *)
Theorem C49_legal_schemas_expressible : forall a, legal_ast a <-> exists s, parse_schema s = POk a.
Proof. exact expressible. Qed.
Print Assumptions C49_legal_schemas_expressible.
Theorem C49_show_parses : forall a, legal_ast a -> parse_schema (show_ast a) = POk a.
Proof. exact parse_show. Qed.
Print Assumptions C49_show_parses.
Example C49_nonvacuous : legal_ast complex_ast.
Proof. exact (proj1 legal_examples). Qed.

(** C69. A parse error is where the text goes wrong: what comes before it can be completed to a schema, and the six
    bytes after it settle that there is no schema: every text with the same beginning has the same error. *)
Theorem C69_before_error_completes : forall s off, parse_schema s = PErr off ->
  off <= length s /\ exists w a, ascii_only w /\ parse_schema (take off s ++ w) = POk a.
Proof. exact error_completes. Qed.
Print Assumptions C69_before_error_completes.
Theorem C69_error_settled : forall s off s', parse_schema s = PErr off ->
  take (off + 6) s' = take (off + 6) s -> parse_schema s' = PErr off.
Proof. exact error_settled. Qed.
Print Assumptions C69_error_settled.
(** Five bytes would not do: [struc] may become [struct]. *)
Example C69_nonvacuous : parse_schema (txt "a: strucx {}") = PErr 3 /\
  take (3 + 5) (txt "a: struct {}") = take (3 + 5) (txt "a: strucx {}") /\
  parse_schema (txt "a: struct {}") = POk [NDecl "a" (AStruct [])] /\
  parse_schema (txt "b: enum { X, 9 }") = PErr 13.
Proof. exact late_examples. Qed.
