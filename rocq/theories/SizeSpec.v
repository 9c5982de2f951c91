(** How large a schema is when every struct is written out where it is used (specification for C22). *)
From Verif Require Export GenSpec.

(** [unfolded a d n k]: written out at a place whose path has [d] characters, the type [n] has size [k]. Every use of
    a type counts with the length of its path. *)
Inductive unfolded (a : ast) : nat -> string -> nat -> Prop :=
| unfolded_leaf d n : (n ∈ builtin_names \/ exists vs, declares_enum a n vs) -> unfolded a d n (d + 1)
| unfolded_struct d n fs ks : declares_struct a n fs ->
    Forall2 (fun f k => unfolded a (d + 1 + String.length f.1) (u_name f.2) k) fs ks ->
    unfolded a d n (d + 1 + sum_list ks).

(** The struct [n] contains no structs. *)
Definition flat (a : ast) (n : string) : Prop :=
  forall fs f, declares_struct a n fs -> f ∈ fs -> u_name f.2 ∈ builtin_names \/ exists vs, declares_enum a (u_name f.2) vs.

(** The type [n] nests structs at most [d] deep; enums and builtins nest 0 deep. *)
Inductive nested (a : ast) : nat -> string -> Prop :=
| nested_leaf d n : (n ∈ builtin_names \/ exists vs, declares_enum a n vs) -> nested a d n
| nested_struct d n fs : declares_struct a n fs -> (forall f, f ∈ fs -> nested a d (u_name f.2)) -> nested a (S d) n.
