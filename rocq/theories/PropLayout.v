(** Property theorems C72-C75, C77: what the layout of a schema text means. *)
From Verif Require Import CheckSpec Check ParserProofs LayoutWitness TokenProofs LayoutProofs LineEnds ParserTests.

(** C72. Line ends, empty lines, the width of blanks and the contents of comments do not matter. *)
Theorem C72_layout_irrelevant : forall s s' a, alike s s' -> parse_schema s = POk a <-> parse_schema s' = POk a.
Proof. exact parse_alike. Qed.
Print Assumptions C72_layout_irrelevant.
Example C72_nonvacuous : alike narrow wide /\
  parse_schema narrow = POk [NDecl "A" (AStruct [("x", Unresolved "uint8" false false)]); NExport "A"].
Proof. exact narrow_facts. Qed.
Theorem C72_windows_line_ends : forall s a, parse_schema (crlf s) = POk a <-> parse_schema s = POk a.
Proof. exact parse_crlf. Qed.
Print Assumptions C72_windows_line_ends.
Example C72_windows_nonvacuous : crlf narrow ≠ narrow /\ exists a, parse_schema narrow = POk a.
Proof. exact crlf_fact. Qed.

(** C73. A text that consists of two schemas, one after the other, has the lines of both. *)
Theorem C73_concatenation : forall a1 a2 s1 s2, parse_schema s1 = POk a1 -> parse_schema s2 = POk a2 ->
  parse_schema (s1 ++ [lf] ++ s2) = POk (a1 ++ a2).
Proof. exact parse_cat. Qed.
Print Assumptions C73_concatenation.
(** Not without the line end: the second schema would become part of the comment. *)
Example C73_nonvacuous : parse_schema (txt "A: struct { x: B } # why") = POk [NDecl "A" (AStruct [("x", Unresolved "B" false false)])] /\
  parse_schema (txt "  export A") = POk [NExport "A"].
Proof. exact cat_fact. Qed.

(** C74. The words and signs of a text determine the schema: an accepted text that is laid out in another way, with or
    without commas, is the same schema or does not parse. *)
Theorem C74_tokens_determine : forall iter a a' s s', fair_order iter -> is_ok (type_check iter a) ->
  tokens_of s = tokens_of s' -> parse_schema s = POk a -> parse_schema s' = POk a' -> a' = a.
Proof. exact tokens_determine. Qed.
Print Assumptions C74_tokens_determine.
Example C74_nonvacuous : tokens_of complex_text = tokens_of compact /\ parse_schema complex_text = POk complex_ast /\
  parse_schema compact = POk complex_ast /\ is_ok (type_check map_to_list complex_ast).
Proof. exact compact_facts. Qed.
(** It does not hold of schemas that are not accepted. *)
Example C74_accepted_needed : tokens_of (txt "export export") = tokens_of (txt "export" ++ [lf] ++ txt "export") /\
  parse_schema (txt "export export") = POk [NExport "export"] /\
  parse_schema (txt "export" ++ [lf] ++ txt "export") = POk [NExport ""; NExport ""].
Proof. exact export_twice. Qed.

(** C75. Blanks and comments can be added at the end of every line of an accepted schema. False: after an export there may be
    no blanks, and between the variants of an enum no comments. *)
Theorem C75_blanks_refuted : ~ forall iter a p n q, fair_order iter -> is_ok (type_check iter a) -> Forall blank_char n ->
  parse_schema (p ++ [lf] ++ q) = POk a -> parse_schema (p ++ n ++ [lf] ++ q) = POk a.
Proof. exact blanks_matter. Qed.
Print Assumptions C75_blanks_refuted.
Theorem C75_comments_refuted : ~ forall iter a p b q, fair_order iter -> is_ok (type_check iter a) -> one_line b ->
  parse_schema (p ++ [lf] ++ q) = POk a -> parse_schema (p ++ txt " #" ++ b ++ [lf] ++ q) = POk a.
Proof. exact comments_matter. Qed.
Print Assumptions C75_comments_refuted.
(** If the text still parses, the schema is the same. *)
Theorem C75_same_or_error_partial : forall iter a a' p x q, fair_order iter -> is_ok (type_check iter a) -> line_rest x ->
  parse_schema (p ++ [lf] ++ q) = POk a -> parse_schema (p ++ x ++ [lf] ++ q) = POk a' -> a' = a.
Proof. exact parse_line_rest. Qed.
Print Assumptions C75_same_or_error_partial.
Example C75_nonvacuous : (parse_schema plain_text = POk plain_ast /\ forall iter, fair_order iter -> is_ok (type_check iter plain_ast)) /\
  exists p x q, line_rest x /\ x ≠ [] /\ parse_schema (p ++ [lf] ++ q) = POk plain_ast /\
  parse_schema (p ++ x ++ [lf] ++ q) = POk plain_ast.
Proof. exact (conj plain_facts line_rest_example). Qed.

(** Exactly where blanks can be added: in a comment, between braces, and after a closing brace. *)
Theorem C75_blanks_criterion_partial : forall p q n a, parse_schema (p ++ [lf] ++ q) = POk a -> NExport "" ∉ a -> blanks n ->
  parse_schema (p ++ n ++ [lf] ++ q) = POk a <-> blanks_fit p.
Proof. exact blanks_criterion. Qed.
Print Assumptions C75_blanks_criterion_partial.
(** Exactly where a comment can be added: in a comment, between the braces of a struct if no comma follows on a later line, and
    outside of braces if no line ends in blanks before the next word. *)
Theorem C75_comments_criterion_partial : forall p q n b a, parse_schema (p ++ [lf] ++ q) = POk a -> NExport "" ∉ a ->
  Forall blank_char n -> one_line b -> parse_schema (p ++ n ++ txt "#" ++ b ++ [lf] ++ q) = POk a <-> comment_fits p q.
Proof. exact comments_criterion. Qed.
Print Assumptions C75_comments_criterion_partial.
(** The ends of lines in the list, with blanks and with a comment: where it parses, and where it does not. *)
Example C75_criteria_nonvacuous : Forall (fun c => line_case (txt "  ") c c.1.2 /\ line_case (txt " # why") c c.2) line_cases.
Proof. exact line_cases_facts. Qed.

(** C77. Other characters than those of names, white space and the signs ? : [ ] { } , occur in comments only. *)
Theorem C77_foreign_chars : forall s a, parse_schema s = POk a ->
  forall p c q, s = p ++ c :: q -> ~ schema_char c -> c ≠ "#"%char -> in_comment p.
Proof. exact foreign_chars. Qed.
Print Assumptions C77_foreign_chars.
(** With a comment between letters outside of ASCII, and what a byte order mark at the start does. *)
Example C77_nonvacuous : parse_schema umlaut = POk [NExport "A"] /\ ~ schema_char (ascii_of_nat 195) /\
  parse_schema (map ascii_of_nat [239; 187; 191] ++ txt "export A") = PErr 0.
Proof. exact umlaut_facts. Qed.
