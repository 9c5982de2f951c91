(** Schemas in which nothing but the names of fields can be wrong, and the repetitions that the checker passes over (C12). *)
From Verif Require Export CheckSpec.

Definition valid_but_fields (a : ast) : Prop :=
  (exists e fs, exports a = [e] /\ declares_struct a e fs) /\ NoDup (decl_names a) /\
  (forall n vs, declares_enum a n vs -> 1 <= length vs <= 32 /\ NoDup vs) /\
  (forall n fs f u, declares_struct a n fs -> (f, u) ∈ fs -> u_name u ∈ builtin_names \/ u_name u ∈ decl_names a) /\
  (forall n fs f u, declares_struct a n fs -> (f, u) ∈ fs -> ~ (u_array u = true /\ u_opt u = true)) /\
  (forall n, ~ tc (refers a) n n).
(** every field that repeats a name stands after a field of a declared type, not counting itself *)
Definition repeats_late (a : ast) : Prop := forall n pre d post, declares_struct a n (pre ++ d :: post) -> d.1 ∈ pre.*1 ->
  exists g, g ∈ pre /\ u_name g.2 ∉ builtin_names.
