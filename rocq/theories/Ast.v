(** Model of src/lib/ast.rs. *)
From Verif Require Export Base.

(** ast.rs:9  [Unresolved(identifier, is_array, is_optional)] *)
Record unresolved := Unresolved { u_name : string; u_array : bool; u_opt : bool }.

(** ast.rs:11-21  [Enum(Vec<&str>)], [Struct(Vec<(&str, Unresolved)>)], [Type] *)
Inductive atype :=
| AEnum (variants : list string)
| AStruct (fields : list (string * unresolved)).

(** ast.rs:23-27 [Node] *)
Inductive node :=
| NDecl (name : string) (ty : atype)
| NExport (name : string).

(** ast.rs:28 [AST = Vec<Node>] *)
Definition ast := list node.

#[export] Instance unresolved_eq_dec : EqDecision unresolved.
Proof. solve_decision. Defined.
#[export] Instance atype_eq_dec : EqDecision atype.
Proof. solve_decision. Defined.
#[export] Instance node_eq_dec : EqDecision node.
Proof. solve_decision. Defined.
