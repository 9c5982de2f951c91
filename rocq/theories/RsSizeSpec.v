(** How large a schema is when every struct is written out where it is used, names of types included (specification for C97). *)
From Verif Require Export SizeSpec.

(** [written_out a d n k]: written out at a place whose path has [d] characters, the type [n] has size [k]. Every use of
    a type counts with the length of its path and of its name. *)
Inductive written_out (a : ast) : nat -> string -> nat -> Prop :=
| written_leaf d n : (n ∈ builtin_names \/ exists vs, declares_enum a n vs) -> written_out a d n (d + 1 + String.length n)
| written_struct d n fs ks : declares_struct a n fs ->
    Forall2 (fun f k => written_out a (d + 1 + String.length f.1) (u_name f.2) k) fs ks ->
    written_out a d n (d + 1 + String.length n + sum_list ks).
