(** Specification of schema texts, independent of the parser: which texts denote which AST.
    Written from format.md and the grammar's intent; every clause relates the text that is left
    before ([s]) to the text that is left after ([r]). Blank space always belongs to the earliest
    place where it is allowed ([skip] takes all of it). *)
From Verif Require Export Ast.

Notation text := (list ascii).
Definition txt (s : string) : text := list_ascii_of_string s.
Definition str (t : text) : string := string_of_list_ascii t.

Definition lf : ascii := ascii_of_nat 10.
Definition blank_char (c : ascii) : Prop := c = " "%char \/ c = ascii_of_nat 9.
Definition newline_char (c : ascii) : Prop := c = lf \/ c = ascii_of_nat 13.
Definition space_char (c : ascii) : Prop := blank_char c \/ newline_char c.
Definition letters : text := txt "abcdefghijklmnopqrstuvwxyzABCDEFGHIJKLMNOPQRSTUVWXYZ_".
Definition digits : text := txt "0123456789".
Definition start_char (c : ascii) : Prop := c ∈ letters.
Definition name_char (c : ascii) : Prop := c ∈ letters \/ c ∈ digits.

Definition reserved_list : list string :=
  ["uint8"; "uint16"; "uint32"; "int8"; "int16"; "int32"; "float"; "string"; "enum"; "struct"].

(** [s] does not begin with a character of class [f]. *)
Definition stops (f : ascii -> Prop) (s : text) : Prop :=
  match s with c :: _ => ~ f c | [] => True end.
(** A maximal run of characters of class [f]. *)
Definition skip (f : ascii -> Prop) (s r : text) : Prop :=
  exists w, s = w ++ r /\ Forall f w /\ stops f r.
Definition lit (l : string) (s r : text) : Prop := s = txt l ++ r.
Definition perhaps (l : string) (b : bool) (s r : text) : Prop :=
  if b then lit l s r else r = s /\ forall r', ~ lit l s r'.
(** A maximal run of name characters, possibly empty. *)
Definition word (w s r : text) : Prop := s = w ++ r /\ Forall name_char w /\ stops name_char r.

(** A legal name: a non-empty word that starts with a letter or underscore and does not begin with
    a reserved word. *)
Definition legal_name (w : text) : Prop :=
  Forall name_char w /\ (exists c w', w = c :: w' /\ start_char c) /\
  (forall k, k ∈ reserved_list -> ~ txt k `prefix_of` w).
Definition name (w s r : text) : Prop := s = w ++ r /\ legal_name w /\ stops name_char r.

(** A comment reaches up to the end of the line or of the text. *)
Definition remark (s r : text) : Prop :=
  exists body, s = txt "#" ++ body ++ r /\ Forall (fun c => c ≠ lf) body /\
    (r = [] \/ exists r', r = lf :: r').

(** Variants of an enum: names with an optional comma after each. *)
Inductive variants : list string -> text -> text -> Prop :=
| variants_end r : variants [] r r
| variants_more v c vs s r1 r2 r3 r4 r :
    name v s r1 -> skip space_char r1 r2 -> perhaps "," c r2 r3 -> skip space_char r3 r4 ->
    variants vs r4 r -> variants (str v :: vs) s r.

(** Fields of a struct: comments, and [name?: type[]] with an optional comma after each. *)
Inductive fields : list (string * unresolved) -> text -> text -> Prop :=
| fields_end r : fields [] r r
| fields_comment fs s r1 r2 r :
    remark s r1 -> skip space_char r1 r2 -> fields fs r2 r -> fields fs s r
| fields_more n o t a c fs s r1 r2 r3 r4 r5 r6 r7 r8 r9 r10 r :
    name n s r1 -> skip blank_char r1 r2 -> perhaps "?" o r2 r3 -> lit ":" r3 r4 ->
    skip blank_char r4 r5 -> word t r5 r6 -> perhaps "[]" a r6 r7 ->
    skip space_char r7 r8 -> perhaps "," c r8 r9 -> skip space_char r9 r10 ->
    fields fs r10 r -> fields ((str n, Unresolved (str t) a o) :: fs) s r.

Inductive body : atype -> text -> text -> Prop :=
| body_enum vs s r1 r2 r3 r4 r5 r :
    lit "enum" s r1 -> skip blank_char r1 r2 -> lit "{" r2 r3 -> skip space_char r3 r4 ->
    variants vs r4 r5 -> lit "}" r5 r -> body (AEnum vs) s r
| body_struct fs s r1 r2 r3 r4 r5 r :
    lit "struct" s r1 -> skip blank_char r1 r2 -> lit "{" r2 r3 -> skip space_char r3 r4 ->
    fields fs r4 r5 -> lit "}" r5 r -> body (AStruct fs) s r.

(** The lines of a schema: comments, exports, declarations. *)
Inductive lines : ast -> text -> Prop :=
| lines_end : lines [] []
| lines_comment a s r1 r2 r :
    skip blank_char s r1 -> remark r1 r2 -> skip newline_char r2 r -> lines a r -> lines a s
| lines_export e a s r1 r2 r3 r4 r :
    skip blank_char s r1 -> lit "export" r1 r2 -> skip blank_char r2 r3 -> word e r3 r4 ->
    skip newline_char r4 r -> lines a r -> lines (NExport (str e) :: a) s
| lines_decl n t a s r1 r2 r3 r4 r5 r6 r :
    skip blank_char s r1 -> name n r1 r2 -> ~ txt "export" `prefix_of` n -> skip blank_char r2 r3 ->
    lit ":" r3 r4 -> skip blank_char r4 r5 -> body t r5 r6 -> skip space_char r6 r ->
    lines a r -> lines (NDecl (str n) t :: a) s.

(** [s] is a legal layout of the schema [a]. *)
Definition layout (a : ast) (s : text) : Prop := exists r, skip newline_char s r /\ lines a r.

(** ASTs that a text can denote. *)
Definition legal_type (t : atype) : Prop :=
  match t with
  | AEnum vs => Forall (fun v => legal_name (txt v)) vs
  | AStruct fs => Forall (fun f => legal_name (txt f.1) /\ Forall name_char (txt (u_name f.2))) fs
  end.
Definition legal_node (n : node) : Prop :=
  match n with
  | NExport e => Forall name_char (txt e)
  | NDecl d t => legal_name (txt d) /\ ~ txt "export" `prefix_of` txt d /\ legal_type t
  end.
Definition legal_ast (a : ast) : Prop := Forall legal_node a.

(** One text for every AST. *)
Definition show_variant (v : string) : text := txt v ++ txt ", ".
Definition show_field (f : string * unresolved) : text :=
  txt f.1 ++ (if u_opt f.2 then txt "?" else []) ++ txt ":" ++ txt (u_name f.2) ++
  (if u_array f.2 then txt "[]" else []) ++ txt ", ".
Definition show_type (t : atype) : text :=
  match t with
  | AEnum vs => txt "enum { " ++ concat (map show_variant vs) ++ txt "}"
  | AStruct fs => txt "struct { " ++ concat (map show_field fs) ++ txt "}"
  end.
Definition show_node (n : node) : text :=
  match n with
  | NExport e => txt "export " ++ txt e ++ [lf]
  | NDecl d t => txt d ++ txt ": " ++ show_type t ++ [lf]
  end.
Definition show_ast (a : ast) : text := concat (map show_node a).
