(** Model of src/lib/parser.rs. Line numbers refer to that file. *)
From Verif Require Export Peg Ast.

Definition T (s : string) : text := list_ascii_of_string s.
Definition name_of (t : text) : string := string_of_list_ascii t.

Definition ch (n : nat) : ascii := ascii_of_nat n.
Definition TAB : ascii := ch 9.
Definition LF : ascii := ch 10.
Definition CR : ascii := ch 13.
Definition SP : ascii := ch 32.

Definition byte_in (lo hi : nat) (c : ascii) : bool :=
  ((lo <=? nat_of_ascii c) && (nat_of_ascii c <=? hi))%nat.
(** parser.rs:7, 9, 11 *)
Definition is_blank (c : ascii) : bool := Ascii.eqb c SP || Ascii.eqb c TAB.
Definition is_newline (c : ascii) : bool := Ascii.eqb c LF || Ascii.eqb c CR.
Definition is_white (c : ascii) : bool := is_blank c || is_newline c.
(** parser.rs:18, 33, 35: 'a'..='z' | 'A'..='Z' | '_', and the digits *)
Definition is_start (c : ascii) : bool := byte_in 97 122 c || byte_in 65 90 c || Ascii.eqb c "_"%char.
Definition is_name (c : ascii) : bool := is_start c || byte_in 48 57 c.

(** parser.rs:7 *)
Definition blanks : parser unit := pmap (fun _ => ()) (pstar (pclass is_blank)).
(** parser.rs:9 *)
Definition newlines : parser unit := pmap (fun _ => ()) (pstar (pclass is_newline)).
(** parser.rs:11 *)
Definition spaces : parser unit := pmap (fun _ => ()) (pstar (pclass is_white)).

(** parser.rs:14-15 *)
Definition comment : parser unit :=
  plit (T "#") ~> pstar (pclass (fun c => negb (Ascii.eqb c LF))) ~> newlines.

(** parser.rs:17-18 *)
Definition string_ : parser text := pslice (pstar (pclass is_name)).

(** parser.rs:21-31, in the order of the alternatives *)
Definition reserved_words : list text :=
  [T "uint8"; T "uint16"; T "uint32"; T "int8"; T "int16"; T "int32"; T "float"; T "string"; T "enum"; T "struct"].
Definition reserved : parser unit :=
  palt (plit (T "uint8")) (palt (plit (T "uint16")) (palt (plit (T "uint32")) (palt (plit (T "int8"))
  (palt (plit (T "int16")) (palt (plit (T "int32")) (palt (plit (T "float")) (palt (plit (T "string"))
  (palt (plit (T "enum")) (plit (T "struct")))))))))).
(** parser.rs:33, 35 *)
Definition ident_start : parser text := pslice (pclass is_start).
Definition ident_chars : parser text := pslice (pclass is_name).
(** parser.rs:37-38 *)
Definition ident : parser text :=
  pquiet (pslice (pnot reserved ~> ident_start ~> pstar ident_chars)).

(** parser.rs:40-41 *)
Definition enum_variant : parser text :=
  s <~ ident; spaces ~> popt (plit (T ",")) ~> spaces ~> pret s.
(** parser.rs:43-44 *)
Definition enum_type : parser (list text) :=
  blanks ~> plit (T "enum") ~> blanks ~> plit (T "{") ~> spaces ~>
  variants <~ pstar enum_variant; spaces ~> plit (T "}") ~> pret variants.

(** parser.rs:46-47 *)
Definition is_optional : parser bool :=
  pmap (fun o => match o with Some _ => true | None => false end) (popt (plit (T "?"))).

(** parser.rs:49-51 *)
Definition struct_field : parser (option (string * unresolved)) :=
  palt (comment ~> spaces ~> pret None)
       (i <~ ident; blanks ~> opt <~ is_optional; plit (T ":") ~> blanks ~> t <~ string_;
        a <~ popt (plit (T "[]")); spaces ~> popt (plit (T ",")) ~> spaces ~>
        pret (Some (name_of i, Unresolved (name_of t) (match a with Some _ => true | None => false end) opt))).

(** [filter_map(|x| x)] of parser.rs:57 and 86 *)
Definition somes {A} (l : list (option A)) : list A := omap id l.

(** parser.rs:54-59 *)
Definition struct_type : parser (list (string * unresolved)) :=
  blanks ~> plit (T "struct") ~> blanks ~> plit (T "{") ~> spaces ~>
  fields <~ pstar struct_field; spaces ~> plit (T "}") ~> pret (somes fields).

(** parser.rs:62-64 *)
Definition type_ : parser atype :=
  palt (pmap (fun vs => AEnum (map name_of vs)) enum_type) (pmap AStruct struct_type).

(** parser.rs:67-70 *)
Definition decl : parser node :=
  blanks ~> i <~ ident; blanks ~> plit (T ":") ~> blanks ~> t <~ type_; spaces ~> pret (NDecl (name_of i) t).

(** parser.rs:72-75 *)
Definition export_ : parser node :=
  plit (T "export") ~> blanks ~> s <~ string_; pret (NExport (name_of s)).

(** parser.rs:77-80 *)
Definition line : parser (option node) :=
  palt (blanks ~> comment ~> newlines ~> pret None)
  (palt (blanks ~> e <~ export_; newlines ~> pret (Some e))
        (blanks ~> s <~ decl; newlines ~> pret (Some s))).

(** parser.rs:83-88 *)
Definition schema : parser ast :=
  popt newlines ~> lines <~ pstar line; pret (somes lines).

(** pkt::schema(text) *)
Definition parse_schema (s : text) : parse_result ast := prun schema s.
