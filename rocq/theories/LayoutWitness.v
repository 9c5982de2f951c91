(** Concrete texts for the layout properties. *)
From Verif Require Import ParserWitness LayoutProofs TokenProofs ParserTests CheckProofs3.

Definition compact : text := txt "Flag:enum{A,B}Position:struct{x:float y:float}Value:struct{a:uint32 b:int32 c:uint8 d:uint8}ComplexType:struct{flag:Flag pos:Position,names:string[]values:Value[]}exportComplexType".
Lemma compact_facts : tokens_of complex_text = tokens_of compact /\ parse_schema complex_text = POk complex_ast /\
  parse_schema compact = POk complex_ast /\ is_ok (type_check map_to_list complex_ast).
Proof. split_and!; [by vm_compute..|]. eexists. vm_compute. reflexivity. Qed.
(** With a name that is missing, it matters where the line ends. *)
Lemma export_twice : tokens_of (txt "export export") = tokens_of (txt "export" ++ [lf] ++ txt "export") /\
  parse_schema (txt "export export") = POk [NExport "export"] /\
  parse_schema (txt "export" ++ [lf] ++ txt "export") = POk [NExport ""; NExport ""].
Proof. by vm_compute. Qed.

Definition narrow : text := txt "# one" ++ [lf] ++ txt "A: struct {" ++ [lf] ++ txt " x: uint8" ++ [lf] ++ txt "}" ++ [lf] ++ txt "export A # last".
Definition wide : text := txt "# some other" ++ [cr; lf; cr; lf] ++ txt "A: struct {" ++ [cr; lf] ++ txt "     x:  uint8" ++ [lf; lf] ++ txt "}" ++ [lf] ++ txt "export   A #".
Lemma narrow_wide : alike narrow wide.
Proof.
  assert (forall n, forallb (fun c => bool_decide (newline_char c)) n && bool_decide (lf ∈ n) = true -> line_end n) as L.
  { intros n [H1 H2%bool_decide_eq_true]%andb_true_iff. split; [|done]. apply Forall_forall. intros c Hc.
    apply (bool_decide_eq_true (newline_char c)). rewrite forallb_forall in H1. by apply H1, elem_of_list_In. }
  assert (forall n, bool_decide (Forall blank_char n /\ n ≠ []) = true -> blanks n) as B by (intros n H; by apply bool_decide_eq_true in H).
  assert (forall n, bool_decide (one_line n) = true -> one_line n) as O by (intros n H; by apply bool_decide_eq_true in H).
  assert (forall l t t', alike t t' -> alike (l ++ t) (l ++ t')) as C by (intros l t t' Ht; induction l; [done|by constructor]).
  apply (alike_remark (txt " one") (txt " some other") [lf] [cr; lf; cr; lf]); [by apply O; vm_compute|by apply O; vm_compute|by apply L; vm_compute|by apply L; vm_compute|].
  apply (C (txt "A: struct {")). apply (alike_line [lf] [cr; lf]); [by apply L; vm_compute|by apply L; vm_compute|].
  apply (alike_blank (txt " ") (txt "     ")); [by apply B; vm_compute|by apply B; vm_compute|].
  apply (C (txt "x:")). apply (alike_blank (txt " ") (txt "  ")); [by apply B; vm_compute|by apply B; vm_compute|].
  apply (C (txt "uint8")). apply (alike_line [lf] [lf; lf]); [by apply L; vm_compute|by apply L; vm_compute|].
  apply (C (txt "}" ++ [lf] ++ txt "export")). apply (alike_blank (txt " ") (txt "   ")); [by apply B; vm_compute|by apply B; vm_compute|].
  apply (C (txt "A ")). apply (alike_last (txt " last") []); by apply O; vm_compute.
Qed.
Lemma narrow_facts : alike narrow wide /\ parse_schema narrow = POk [NDecl "A" (AStruct [("x", Unresolved "uint8" false false)]); NExport "A"].
Proof. split; [exact narrow_wide|by vm_compute]. Qed.
Lemma crlf_fact : crlf narrow ≠ narrow /\ exists a, parse_schema narrow = POk a.
Proof. split; [by vm_compute|]. eexists. apply narrow_facts. Qed.
Lemma cat_fact : parse_schema (txt "A: struct { x: B } # why") = POk [NDecl "A" (AStruct [("x", Unresolved "B" false false)])] /\
  parse_schema (txt "  export A") = POk [NExport "A"].
Proof. by vm_compute. Qed.

(** Blanks after an export and comments between variants. *)
Definition plain_text : text := txt "export A" ++ [lf] ++ txt "A: struct { x: uint8, y: B }" ++ [lf] ++ txt "B: enum { X," ++ [lf] ++ txt "Y }".
Definition plain_ast : ast := [NExport "A"; NDecl "A" (AStruct [("x", Unresolved "uint8" false false); ("y", Unresolved "B" false false)]);
  NDecl "B" (AEnum ["X"; "Y"])].
Lemma plain_facts : parse_schema plain_text = POk plain_ast /\ forall iter, fair_order iter -> is_ok (type_check iter plain_ast).
Proof.
  split; [by vm_compute|]. intros iter Hf. refine (proj1 (verdict_order_independent map_to_list iter plain_ast _ Hf) _); [by intros m|].
  eexists. vm_compute. reflexivity.
Qed.
Lemma line_rest_fails : exists p x q, (forall iter, fair_order iter -> is_ok (type_check iter plain_ast)) /\ line_rest x /\
  parse_schema (p ++ [lf] ++ q) = POk plain_ast /\ parse_schema (p ++ x ++ [lf] ++ q) = PErr 9 /\ x = txt " ".
Proof.
  exists (txt "export A"), (txt " "), (txt "A: struct { x: uint8, y: B }" ++ [lf] ++ txt "B: enum { X," ++ [lf] ++ txt "Y }").
  split; [apply plain_facts|]. split; [apply rest_blanks; repeat constructor|]. by vm_compute.
Qed.
Lemma comment_fails : exists p x q, (forall iter, fair_order iter -> is_ok (type_check iter plain_ast)) /\ line_rest x /\
  parse_schema (p ++ [lf] ++ q) = POk plain_ast /\ parse_schema (p ++ x ++ [lf] ++ q) = PErr 51 /\ x = txt " # first".
Proof.
  exists (txt "export A" ++ [lf] ++ txt "A: struct { x: uint8, y: B }" ++ [lf] ++ txt "B: enum { X,"), (txt " # first"), (txt "Y }").
  split; [apply plain_facts|]. split; [|by vm_compute]. apply (rest_comment (txt " ") (txt " first")); [repeat constructor|].
  apply (bool_decide_unpack _). vm_compute. exact I.
Qed.
Lemma blanks_matter : ~ forall iter a p n q, fair_order iter -> is_ok (type_check iter a) -> Forall blank_char n ->
  parse_schema (p ++ [lf] ++ q) = POk a -> parse_schema (p ++ n ++ [lf] ++ q) = POk a.
Proof.
  intros H. destruct line_rest_fails as (p & x & q & H1 & _ & H3 & H4 & ->).
  assert (fair_order map_to_list) as Hf by by intros m. assert (Forall blank_char (txt " ")) as Hb by repeat constructor.
  pose proof (H map_to_list plain_ast p (txt " ") q Hf (H1 _ Hf) Hb H3) as E. by rewrite E in H4.
Qed.
Lemma comments_matter : ~ forall iter a p b q, fair_order iter -> is_ok (type_check iter a) -> one_line b ->
  parse_schema (p ++ [lf] ++ q) = POk a -> parse_schema (p ++ txt " #" ++ b ++ [lf] ++ q) = POk a.
Proof.
  intros H. destruct comment_fails as (p & x & q & H1 & _ & H3 & H4 & ->).
  change (txt " # first" ++ [lf] ++ q) with (txt " #" ++ txt " first" ++ [lf] ++ q) in H4.
  assert (fair_order map_to_list) as Hf by by intros m.
  assert (one_line (txt " first")) as Hb by (apply (bool_decide_unpack _); vm_compute; exact I).
  pose proof (H map_to_list plain_ast p (txt " first") q Hf (H1 _ Hf) Hb H3) as E. by rewrite E in H4.
Qed.
Lemma line_rest_example : exists p x q, line_rest x /\ x ≠ [] /\ parse_schema (p ++ [lf] ++ q) = POk plain_ast /\
  parse_schema (p ++ x ++ [lf] ++ q) = POk plain_ast.
Proof.
  exists (txt "export A" ++ [lf] ++ txt "A: struct { x: uint8, y: B }"), (txt "  # }"), (txt "B: enum { X," ++ [lf] ++ txt "Y }").
  split; [|by vm_compute]. apply (rest_comment (txt "  ") (txt " }")); [repeat constructor|].
  apply (bool_decide_unpack _). vm_compute. exact I.
Qed.
(** A letter outside of ASCII in a comment. *)
Definition umlaut : text := txt "export A # f" ++ map ascii_of_nat [195; 188] ++ txt "r".
Lemma umlaut_facts : parse_schema umlaut = POk [NExport "A"] /\ ~ schema_char (ascii_of_nat 195) /\
  parse_schema (map ascii_of_nat [239; 187; 191] ++ txt "export A") = PErr 0.
Proof.
  split; [by vm_compute|]. split; [|by vm_compute]. unfold schema_char, name_char, space_char, blank_char, newline_char.
  apply (bool_decide_unpack _). vm_compute. exact I.
Qed.
(** Ends of lines, each with whether blanks and whether a comment can be put there: at the end of an export, within an enum,
    within a struct, before a comma, after a closing brace, the same with blanks on the next line, and in a comment. *)
Definition line_cases : list (text * text * bool * bool) :=
  [ (txt "export A", txt "A: enum { X }", false, true); (txt "A: enum { X,", txt "Y }", true, false);
    (txt "A: struct { x: uint8,", txt "y: uint8 }", true, true); (txt "A: struct { x: uint8", txt ", y: uint8 }", true, false);
    (txt "A: enum { X }", [lf] ++ txt "  B: enum { Y }", true, true); (txt "A: enum { X }", txt "  " ++ [lf] ++ txt "B: enum { Y }", true, false);
    (txt "A: enum { X } # {", txt "B: enum { Y }", true, true) ].
Definition line_case (x : text) (c : text * text * bool * bool) (ok : bool) : Prop := let '(p, q, _, _) := c in
  exists a, parse_schema (p ++ [lf] ++ q) = POk a /\ NExport "" ∉ a /\
    if ok then parse_schema (p ++ x ++ [lf] ++ q) = POk a else exists k, parse_schema (p ++ x ++ [lf] ++ q) = PErr k.
Lemma line_cases_facts : Forall (fun c => line_case (txt "  ") c c.1.2 /\ line_case (txt " # why") c c.2) line_cases.
Proof.
  repeat (constructor; [split; (eexists; split; [by vm_compute|split; [apply (bool_decide_unpack _); by vm_compute|first [by vm_compute|eexists; by vm_compute]]])|]). constructor.
Qed.
