(** Types whose values take no bytes. *)
From Verif Require Export CheckSpec.

(** structs whose fields, if there are any, are single values of such types *)
Inductive no_bytes (a : ast) : string -> Prop :=
| no_bytes_struct n fs : declares_struct a n fs ->
    Forall (fun d => u_array d.2 = false /\ u_opt d.2 = false /\ no_bytes a (u_name d.2)) fs -> no_bytes a n.
(** the export contains an array whose items take no bytes *)
Definition weightless_array (a : ast) (e : string) : Prop :=
  exists n fs f u, needed a e n /\ declares_struct a n fs /\ (f, u) ∈ fs /\ u_array u = true /\ no_bytes a (u_name u).
(** a field that takes no bytes *)
Definition weightless (a : ast) (d : string * unresolved) : Prop := u_array d.2 = false /\ u_opt d.2 = false /\ no_bytes a (u_name d.2).
