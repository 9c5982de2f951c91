(** The unit tests of src/lib/parser.rs:90-382, run on the model (the tests strip leading blanks
    of every line before parsing, as done here). *)
From Verif Require Import Report.

Definition loc (s : string) : res (nat * nat * nat) :=
  match parse_schema (T s) with
  | PErr off => do l <- position_repr (T s) off; Ok (lc_line l, lc_column l, lc_offset l)
  | _ => Err "parsed"
  end.
Definition U (n : string) (a o : bool) := Unresolved n a o.

Example parse_whitespace_before_array_bracket : loc "
a: struct { v: uint8 [] }
" = Ok (2, 22, 22).
Proof. by vm_compute. Qed.
Example parse_unclosed_struct_brackets : loc "
aaa: struct { x:float, y:float
" = Ok (3, 1, 32).
Proof. by vm_compute. Qed.
Example parse_unclosed_enum_brackets : loc "
aaa: enum { A, B
" = Ok (3, 1, 18).
Proof. by vm_compute. Qed.
Example parse_unclosed_array_brackets : loc "
a: struct { v: uint8[ }
" = Ok (2, 21, 21).
Proof. by vm_compute. Qed.
Example parse_reserved_identifier : loc "
uint8: uint8
" = Ok (2, 1, 1).
Proof. by vm_compute. Qed.
Example parse_first_char_numeric_bad_identifier : loc "
0aaa: uint8
" = Ok (2, 1, 1).
Proof. by vm_compute. Qed.
Example parse_comment : parse_schema (T "
# this is a comment.
") = POk [].
Proof. by vm_compute. Qed.
Example parse_comment_right_of_line : parse_schema (T "
a: struct { v: uint8 } # this is a comment placed to the right of a line.
") = POk [NDecl "a" (AStruct [("v", U "uint8" false false)])].
Proof. by vm_compute. Qed.
Example parse_comment_inside_brackets : parse_schema (T "
a: struct {
# this is a comment placed infront of fields
a: uint8,
# this is a comment placed inbetween fields
b: uint8
# this is a comment placed after of fields
}
") = POk [NDecl "a" (AStruct [("a", U "uint8" false false); ("b", U "uint8" false false)])].
Proof. by vm_compute. Qed.
Example parse_enum : parse_schema (T "
asdf: enum { A, B }
") = POk [NDecl "asdf" (AEnum ["A"; "B"])].
Proof. by vm_compute. Qed.
Example parse_struct : parse_schema (T "
asdf: struct {
x: float,
y: float
}") = POk [NDecl "asdf" (AStruct [("x", U "float" false false); ("y", U "float" false false)])].
Proof. by vm_compute. Qed.
Example parse_struct_trailing_comma : parse_schema (T "
asdf: struct {
a: A,
b: B,
}
") = POk [NDecl "asdf" (AStruct [("a", U "A" false false); ("b", U "B" false false)])].
Proof. by vm_compute. Qed.
Example parse_struct_with_arrays : parse_schema (T "
asdf: struct {
a: A[],
b: B[],
}
") = POk [NDecl "asdf" (AStruct [("a", U "A" true false); ("b", U "B" true false)])].
Proof. by vm_compute. Qed.
Example parse_struct_with_optional : parse_schema (T "
asdf: struct {
a?: A[],
b?: B,
c: C
}
") = POk [NDecl "asdf" (AStruct [("a", U "A" true true); ("b", U "B" false true); ("c", U "C" false false)])].
Proof. by vm_compute. Qed.
Example parse_export : parse_schema (T "
export Test
") = POk [NExport "Test"].
Proof. by vm_compute. Qed.
Definition complex_text : text := T "
# This is a comment.
# Below is what a fairly complex packet may look like
Flag: enum { A, B }
Position: struct { x: float, y: float }
Value: struct { 
a: uint32, b: int32, c: uint8, d: uint8
}
ComplexType: struct {
flag: Flag,
pos: Position,
names: string[],
values: Value[]
}
export ComplexType
".
Definition complex_ast : ast :=
  [ NDecl "Flag" (AEnum ["A"; "B"]);
    NDecl "Position" (AStruct [("x", U "float" false false); ("y", U "float" false false)]);
    NDecl "Value" (AStruct [("a", U "uint32" false false); ("b", U "int32" false false);
                            ("c", U "uint8" false false); ("d", U "uint8" false false)]);
    NDecl "ComplexType" (AStruct [("flag", U "Flag" false false); ("pos", U "Position" false false);
                                  ("names", U "string" true false); ("values", U "Value" true false)]);
    NExport "ComplexType" ].
Example parse_complex : parse_schema complex_text = POk complex_ast.
Proof. by vm_compute. Qed.
