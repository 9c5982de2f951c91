(** The work that the parser of src/lib/parser.rs does: the combinators of Peg.v and the rules of Parser.v, each with a
    counter. A step is the comparison of one character of the text: a class (such as [' ' | '\t']) costs one, a literal
    as many as it has characters. Everything else that the generated parser does per call of a rule is constant, and every
    repetition compares at least one character. *)
From Verif Require Export Parser.

Definition cparser (A : Type) : Type := text -> nat -> pres A * nat.

Definition cret {A} (a : A) : cparser A := fun s m => (pret a s m, 0).
Definition cbind {A B} (p : cparser A) (k : A -> cparser B) : cparser B := fun s m =>
  match p s m with
  | (PSucc a s' m', c) => let '(r, c') := k a s' m' in (r, c + c')
  | (PFail m', c) => (PFail m', c)
  | (PDiv, c) => (PDiv, c)
  end.
Notation "x <~c p ; k" := (cbind p (fun x => k)) (at level 100, p at next level, k at level 200, right associativity).
Notation "p ~>c k" := (cbind p (fun _ => k)) (at level 100, k at level 200, right associativity).
Definition cclass (f : ascii -> bool) : cparser ascii := fun s m => (pclass f s m, 1).
Definition clit (l : text) : cparser unit := fun s m => (plit l s m, length l).
Definition calt {A} (p q : cparser A) : cparser A := fun s m =>
  match p s m with
  | (PFail m', c) => let '(r, c') := q s m' in (r, c + c')
  | r => r
  end.
Definition copt {A} (p : cparser A) : cparser (option A) := fun s m =>
  match p s m with
  | (PSucc a s' m', c) => (PSucc (Some a) s' m', c)
  | (PFail m', c) => (PSucc None s m', c)
  | (PDiv, c) => (PDiv, c)
  end.
Definition cnot {A} (p : cparser A) : cparser unit := fun s m =>
  match p s m with
  | (PSucc _ _ _, c) => (PFail m, c)
  | (PFail _, c) => (PSucc () s m, c)
  | (PDiv, c) => (PDiv, c)
  end.
Definition cquiet {A} (p : cparser A) : cparser A := fun s m =>
  match p s m with
  | (PSucc a s' _, c) => (PSucc a s' m, c)
  | (PFail _, c) => (PFail m, c)
  | (PDiv, c) => (PDiv, c)
  end.
Definition cslice {A} (p : cparser A) : cparser text := fun s m =>
  match p s m with
  | (PSucc _ s' m', c) => (PSucc (take (length s - length s') s) s' m', c)
  | (PFail m', c) => (PFail m', c)
  | (PDiv, c) => (PDiv, c)
  end.
Fixpoint cstar_loop {A} (fuel : nat) (p : cparser A) (s : text) (m : nat) : pres (list A) * nat :=
  match fuel with
  | O => (PDiv, 0)
  | S fuel' =>
      match p s m with
      | (PSucc a s' m', c) =>
          match cstar_loop fuel' p s' m' with
          | (PSucc l s'' m'', c') => (PSucc (a :: l) s'' m'', c + c')
          | (r, c') => (r, c + c')
          end
      | (PFail m', c) => (PSucc [] s m', c)
      | (PDiv, c) => (PDiv, c)
      end
  end.
Definition cstar {A} (p : cparser A) : cparser (list A) := fun s m => cstar_loop (S (length s)) p s m.
Definition cmap {A B} (f : A -> B) (p : cparser A) : cparser B := x <~c p; cret (f x).
Definition crun {A} (p : cparser A) (s : text) : parse_result A * nat :=
  match p s (length s) with
  | (PSucc a [] _, c) => (POk a, c)
  | (PSucc _ rest m, c) => (PErr (length s - Nat.min m (length rest)), c)
  | (PFail m, c) => (PErr (length s - m), c)
  | (PDiv, c) => (PLoop, c)
  end.

(** parser.rs:7, 9, 11 *)
Definition c_blanks : cparser unit := cmap (fun _ => ()) (cstar (cclass is_blank)).
Definition c_newlines : cparser unit := cmap (fun _ => ()) (cstar (cclass is_newline)).
Definition c_spaces : cparser unit := cmap (fun _ => ()) (cstar (cclass is_white)).
(** parser.rs:14-15 *)
Definition c_comment : cparser unit :=
  clit (T "#") ~>c cstar (cclass (fun c => negb (Ascii.eqb c LF))) ~>c c_newlines.
(** parser.rs:17-18 *)
Definition c_string : cparser text := cslice (cstar (cclass is_name)).
(** parser.rs:21-31 *)
Definition c_reserved : cparser unit :=
  calt (clit (T "uint8")) (calt (clit (T "uint16")) (calt (clit (T "uint32")) (calt (clit (T "int8"))
  (calt (clit (T "int16")) (calt (clit (T "int32")) (calt (clit (T "float")) (calt (clit (T "string"))
  (calt (clit (T "enum")) (clit (T "struct")))))))))).
(** parser.rs:33, 35, 37-38 *)
Definition c_ident_start : cparser text := cslice (cclass is_start).
Definition c_ident_chars : cparser text := cslice (cclass is_name).
Definition c_ident : cparser text :=
  cquiet (cslice (cnot c_reserved ~>c c_ident_start ~>c cstar c_ident_chars)).
(** parser.rs:40-44 *)
Definition c_enum_variant : cparser text :=
  s <~c c_ident; c_spaces ~>c copt (clit (T ",")) ~>c c_spaces ~>c cret s.
Definition c_enum_type : cparser (list text) :=
  c_blanks ~>c clit (T "enum") ~>c c_blanks ~>c clit (T "{") ~>c c_spaces ~>c
  variants <~c cstar c_enum_variant; c_spaces ~>c clit (T "}") ~>c cret variants.
(** parser.rs:46-51 *)
Definition c_is_optional : cparser bool :=
  cmap (fun o => match o with Some _ => true | None => false end) (copt (clit (T "?"))).
Definition c_struct_field : cparser (option (string * unresolved)) :=
  calt (c_comment ~>c c_spaces ~>c cret None)
       (i <~c c_ident; c_blanks ~>c opt <~c c_is_optional; clit (T ":") ~>c c_blanks ~>c t <~c c_string;
        a <~c copt (clit (T "[]")); c_spaces ~>c copt (clit (T ",")) ~>c c_spaces ~>c
        cret (Some (name_of i, Unresolved (name_of t) (match a with Some _ => true | None => false end) opt))).
(** parser.rs:54-59 *)
Definition c_struct_type : cparser (list (string * unresolved)) :=
  c_blanks ~>c clit (T "struct") ~>c c_blanks ~>c clit (T "{") ~>c c_spaces ~>c
  fields <~c cstar c_struct_field; c_spaces ~>c clit (T "}") ~>c cret (somes fields).
(** parser.rs:62-64 *)
Definition c_type : cparser atype :=
  calt (cmap (fun vs => AEnum (map name_of vs)) c_enum_type) (cmap AStruct c_struct_type).
(** parser.rs:67-75 *)
Definition c_decl : cparser node :=
  c_blanks ~>c i <~c c_ident; c_blanks ~>c clit (T ":") ~>c c_blanks ~>c t <~c c_type; c_spaces ~>c cret (NDecl (name_of i) t).
Definition c_export : cparser node :=
  clit (T "export") ~>c c_blanks ~>c s <~c c_string; cret (NExport (name_of s)).
(** parser.rs:77-80 *)
Definition c_line : cparser (option node) :=
  calt (c_blanks ~>c c_comment ~>c c_newlines ~>c cret None)
  (calt (c_blanks ~>c e <~c c_export; c_newlines ~>c cret (Some e))
        (c_blanks ~>c s <~c c_decl; c_newlines ~>c cret (Some s))).
(** parser.rs:83-88 *)
Definition c_schema : cparser ast :=
  copt c_newlines ~>c lines <~c cstar c_line; cret (somes lines).

(** The outcome of parsing, and the number of steps it takes. *)
Definition parse_counted (s : text) : parse_result ast * nat := crun c_schema s.
(** If the text does not parse, rust-peg runs the parser a second time to collect what it expected where it failed. *)
Definition parse_work (s : text) : nat :=
  match (parse_counted s).1 with POk _ => (parse_counted s).2 | _ => (parse_counted s).2 + (parse_counted s).2 end.
