(** Specification of the layouts of a schema that should make no difference: line ends, blanks, comments. *)
From Verif Require Export ParserSpec.

Definition cr : ascii := ascii_of_nat 13.
(** A line end, with any number of empty lines: lf, cr lf, lf lf, ... *)
Definition line_end (n : text) : Prop := Forall newline_char n /\ lf ∈ n.
Definition blanks (n : text) : Prop := Forall blank_char n /\ n ≠ [].
Definition one_line (b : text) : Prop := Forall (fun c => c ≠ lf) b.

(** Two texts that differ in line ends, empty lines, the width of blanks and what the comments say. *)
Inductive alike : text -> text -> Prop :=
| alike_nil : alike [] []
| alike_char c s s' : alike s s' -> alike (c :: s) (c :: s')
| alike_line n n' s s' : line_end n -> line_end n' -> alike s s' -> alike (n ++ s) (n' ++ s')
| alike_blank n n' s s' : blanks n -> blanks n' -> alike s s' -> alike (n ++ s) (n' ++ s')
| alike_remark b b' n n' s s' : one_line b -> one_line b' -> line_end n -> line_end n' -> alike s s' ->
    alike (txt "#" ++ b ++ n ++ s) (txt "#" ++ b' ++ n' ++ s')
| alike_last b b' : one_line b -> one_line b' -> alike (txt "#" ++ b) (txt "#" ++ b').

(** The line ends of Windows. *)
Definition crlf (s : text) : text := concat (map (fun c => if decide (c = lf) then [cr; lf] else [c]) s).

(** The words and signs of a text, without white space, commas and comments. A word ends where a character follows that
    cannot be part of a name; outside of braces, the keyword [export] is a word by itself. *)
Definition flush (w : text) : list text := if decide (w = []) then [] else [w].
Definition depth (d : nat) (c : ascii) : nat :=
  if decide (c = "{"%char) then S d else if decide (c = "}"%char) then pred d else d.
Fixpoint tokens (d : nat) (comment : bool) (w s : text) : list text :=
  match s with
  | [] => flush w
  | c :: s =>
      if comment then tokens d (bool_decide (c ≠ lf)) [] s
      else if bool_decide (name_char c) then
        if bool_decide (d = 0 /\ w ++ [c] = txt "export") then txt "export" :: tokens d false [] s
        else tokens d false (w ++ [c]) s
      else flush w ++
        (if bool_decide (space_char c \/ c = ","%char) then tokens d false [] s
         else if bool_decide (c = "#"%char) then tokens d true [] s
         else [c] :: tokens (depth d c) false [] s)
  end.
Definition tokens_of (s : text) : list text := tokens 0 false [] s.

(** What may be added at the end of a line: blanks, and a comment. *)
Inductive line_rest : text -> Prop :=
| rest_blanks n : Forall blank_char n -> line_rest n
| rest_comment n b : Forall blank_char n -> one_line b -> line_rest (n ++ txt "#" ++ b).

(** The characters of schemas, outside of comments. *)
Definition schema_char (c : ascii) : Prop := name_char c \/ space_char c \/ c ∈ txt "?:[]{},".
(** The position after [p] is in a comment. *)
Definition in_comment (p : text) : Prop := exists p1 p2, p = p1 ++ txt "#" ++ p2 /\ one_line p2.

(** The text ends in a closing brace and white space. *)
Definition at_brace (s : text) : Prop := exists s1 w, s = s1 ++ txt "}" ++ w /\ Forall space_char w /\ ~ in_comment s1.
(** The white space [w] may be put at the end of [s]: line ends anywhere, any white space after a closing brace, and at the
    end of a comment anything that finishes the comment and goes on with line ends. *)
Definition may_end (s w : text) : Prop :=
  Forall newline_char w \/ at_brace s \/ (in_comment s /\ exists b n, w = b ++ n /\ one_line b /\ Forall newline_char n).

(** The last brace of the text, outside of comments, is an opening one; and it is that of an enum, of a struct. *)
Definition brace (c : ascii) : Prop := c = "{"%char \/ c = "}"%char.
Definition no_brace (s : text) : Prop := forall x c y, s = x ++ c :: y -> brace c -> in_comment x.
Definition opened (p : text) : Prop := exists p1 p2, p = p1 ++ txt "{" ++ p2 /\ ~ in_comment p1 /\ no_brace p2.
Definition inside (k : string) (p : text) : Prop :=
  exists p1 v p2, p = p1 ++ txt k ++ v ++ txt "{" ++ p2 /\ Forall blank_char v /\ ~ in_comment p1 /\ no_brace p2.
(** The next character that is not white space is a comma. *)
Definition comma_next (q : text) : Prop := exists w q', q = w ++ txt "," ++ q' /\ Forall space_char w.
(** The white space at the start of [q] has a blank at the end of a line. *)
Definition ragged (q : text) : Prop := exists w c q', q = w ++ c :: q' /\ Forall space_char w /\ blank_char c /\
  match q' with z :: _ => newline_char z | [] => True end.
(** Where blanks, and where blanks and a comment, can be put at the end of a line, between [p] and the line feed before [q]. *)
Definition blanks_fit (p : text) : Prop := in_comment p \/ opened p \/ at_brace p.
Definition comment_fits (p q : text) : Prop :=
  in_comment p \/ (inside "struct" p /\ ~ comma_next q) \/ (~ opened p /\ ~ ragged q).
