(** What an export needs. *)
From Verif Require Export VoidSpec.

(** an enum with at least [k] variants *)
Definition needs_enum (k : nat) (a : ast) (e : string) : Prop := exists n vs, needed a e n /\ declares_enum a n vs /\ k <= length vs.
(** a field whose type is as in [P] *)
Definition needs_field (P : unresolved -> Prop) (a : ast) (e : string) : Prop :=
  exists n fs f u, needed a e n /\ declares_struct a n fs /\ (f, u) ∈ fs /\ P u.
Definition needs_optional : ast -> string -> Prop := needs_field (fun u => u_opt u = true).
Definition needs_array : ast -> string -> Prop := needs_field (fun u => u_array u = true).
Definition needs_float : ast -> string -> Prop := needs_field (fun u => u_name u = "float").
Definition needs_string : ast -> string -> Prop := needs_field (fun u => u_name u = "string").
(** an array whose items take bytes *)
Definition needs_heavy_array (a : ast) : string -> Prop := needs_field (fun u => u_array u = true /\ ~ no_bytes a (u_name u)) a.
