(** Properties of read for field names that its result cannot be given. *)
From Verif Require Import ThrowWitness.

(** C76. Calls of read throw for the sake of names only, and exactly these: read never throws, whatever the bytes, if and only
    if the module loads, read can create its result and no field of the export is one that functions have. *)
Theorem C76_throwing_names : forall a rt str_ok, rt_ok rt str_ok -> str_ok [] -> small_enums a -> no_proto_fields a ->
  for_code a (fun k t => k_name k ∉ outside_model -> ((forall h data e, ~ reads rt k h data (Throws e)) <-> result_names a)).
Proof. exact throwing_names. Qed.
Print Assumptions C76_throwing_names.
(** If the export has such a field, then read returns no packet, whatever the bytes: it throws, or returns null. The latter
    only if the field is an enum and no array. *)
Theorem C76_refused_fields : forall a rt str_ok, rt_ok rt str_ok -> no_proto_fields a -> for_code a (fun k t => k_name k ∉ outside_model ->
  forall fs f u, declares_struct a (k_name k) fs -> (f, u) ∈ fs -> f ∈ readonly_names ->
  forall h data, (exists e, reads rt k h data (Throws e)) \/ (single_enum a u /\ exists M, reads rt k h data (Done (JNull, M)))).
Proof. exact refused_fields. Qed.
Print Assumptions C76_refused_fields.
Example C76_nonvacuous : rt_ok latin1 latin1_ok /\ latin1_ok [] /\
  accepted demo_schema /\ small_enums demo_schema /\ no_proto_fields demo_schema /\ result_names demo_schema.
Proof. exact (conj latin1_rt_ok (conj no_units_ok demo_throw)). Qed.
(** Both outcomes occur. *)
Example C76_outcomes : (accepted length_schema /\ small_enums length_schema /\ no_proto_fields length_schema /\
  export_of length_schema = Ok length_export /\ single_enum length_schema (plain "E")) /\
  read_result length_export [ascii_of_N 2] = Some (Throws "TypeError") /\ read_result length_export [ascii_of_N 3] = Some (Done JNull).
Proof. exact (conj length_facts length_runs). Qed.
