(** Which orders of the fields of a struct the checker can choose (specification for C90). *)
From Verif Require Export CheckSpec.

(** A set of types that may have been resolved when the checker comes to [n]: all shallow ones, whatever the types in the
    set refer to, and not [n] itself. *)
Record done_before (a : ast) (n : string) (S : gset string) : Prop := {
  db_shallow : forall m, shallow a m -> m ∈ S;
  db_closed : forall m m', m ∈ S -> refers a m m' -> m' ∈ S;
  db_self : n ∈ S -> shallow a n }.
(** the fields of a type in the set come first *)
Definition arrangement (S : gset string) (fs : list (string * unresolved)) : list (string * unresolved) :=
  filter (fun d => u_name d.2 ∈ S) fs ++ filter (fun d => u_name d.2 ∉ S) fs.
