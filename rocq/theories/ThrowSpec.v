(** Vocabulary for C76: schemas whose read can throw. *)
From Verif Require Export WireSpec.

(** exports for which the model does not say what read does (see [prologue]) *)
Definition outside_model : list string := ["data"; "reader"; "Array"; "undefined"].
(** no field that the export needs is called __proto__ (C31) *)
Definition no_proto_fields (a : ast) : Prop := forall e n fs, exports a = [e] -> needed a e n -> declares_struct a n fs -> "__proto__" ∉ fs.*1.
(** The module loads, read can create its result, and the result can be given every field of the export. *)
Record result_names (a : ast) : Prop := {
  rn_module : module_names a;
  rn_top : forall e fs, exports a = [e] -> declares_struct a e fs -> Forall (fun f => f ∉ readonly_names) fs.*1 }.
(** A single enum: read checks its number before the assignment. *)
Definition single_enum (a : ast) (u : unresolved) : Prop := u_array u = false /\ exists vs, declares_enum a (u_name u) vs.
