(** Property theorems that say for every schema whether objects can be written and come back: C25, C31, C51 and C61. *)
From Verif Require Import ProtoWitness OmitProofs.

(** C25. Every value gets through exactly if the names are plain and no enum that the export needs has 32 variants. Left
    out: names whose effect the model does not cover ([modelled_names]), and structs with repeated field names (C12). *)
Theorem C25_criterion_partial : forall a rt (str_ok : jstr -> Prop), str_ok [] -> forall e, exports a = [e] -> rt_ok rt str_ok -> modelled_names a e -> distinct_fields a e ->
  for_code a (fun k t => gets_through rt str_ok k t <-> plain_names a /\ ~ needs_enum 32 a e).
Proof. exact code_gets_through. Qed.
Print Assumptions C25_criterion_partial.
Example C25_criterion_nonvacuous : exports demo_schema = ["Outer"] /\ modelled_names demo_schema "Outer" /\ distinct_fields demo_schema "Outer" /\
  plain_names demo_schema /\ ~ needs_enum 32 demo_schema "Outer".
Proof. split; [done|]. split; [apply demo_modelled|]. split; [apply demo_modelled|]. split; [apply demo_facts|apply demo_without]. Qed.
Example C25_criterion_fails : (accepted hidden_proto /\ exports hidden_proto = ["P"] /\ modelled_names hidden_proto "P" /\ distinct_fields hidden_proto "P" /\ ~ plain_names hidden_proto) /\
  let m := enum_schema many_names in accepted m /\ exports m = ["P"] /\ modelled_names m "P" /\ distinct_fields m "P" /\ needs_enum 32 m "P".
Proof.
  destruct hidden_proto_facts as (H1 & H2 & H3 & H4 & _ & H5), many_needs as (M1 & M2 & M3 & _), many_modelled as [M4 M5].
  exact (conj (conj H1 (conj H2 (conj H3 (conj H4 H5)))) (conj M3 (conj M1 (conj M4 (conj M5 M2))))).
Qed.

(** C31. With a field called __proto__ anywhere in the message there is a value that no packet gives. *)
Theorem C31_proto_refuted : forall a rt (str_ok : jstr -> Prop), str_ok [] -> forall e, exports a = [e] -> forall n fs u, needed a e n -> declares_struct a n fs -> ("__proto__", u) ∈ fs ->
  modelled_names a e ->
  for_code a (fun k t => exists v, has_type str_ok t v /\ forall h data x M, plain_heap h -> reads rt k h data (Done (x, M)) -> ~ rep (m_heap M) x v).
Proof. exact code_proto_lost. Qed.
Print Assumptions C31_proto_refuted.
Example C31_proto_nonvacuous : accepted hidden_proto /\ exports hidden_proto = ["P"] /\ needed hidden_proto "P" "Q" /\ modelled_names hidden_proto "P" /\
  declares_struct hidden_proto "Q" [("x", plain "uint8"); ("__proto__", opt "string")].
Proof. destruct hidden_proto_facts as (H1 & H2 & H3 & _ & H4 & _). split; [done|]. split; [done|]. split; [done|]. split; [done|by left]. Qed.

(** C61. Objects made with new can be written exactly if the module loads and no field of the export is called write or
    __proto__. Left out: an export called undefined, which the model does not cover, and repeated field names (C12). *)
Theorem C61_criterion_partial : forall a rt (str_ok : jstr -> Prop) e, str_ok [] -> exports a = [e] -> e ≠ "undefined" -> distinct_fields a e -> for_code a (fun k t =>
  usable_instances rt str_ok k t <-> loads k /\ forall fs, declares_struct a e fs -> "write" ∉ fs.*1 /\ "__proto__" ∉ fs.*1).
Proof. exact code_instances. Qed.
Print Assumptions C61_criterion_partial.
Example C61_criterion_nonvacuous : (exports demo_schema = ["Outer"] /\ distinct_fields demo_schema "Outer" /\ loads (class_of demo_export) /\
    forall fs, declares_struct demo_schema "Outer" fs -> "write" ∉ fs.*1 /\ "__proto__" ∉ fs.*1) /\
  accepted (name_schema "write") /\ distinct_fields (name_schema "write") "P" /\ ~ (forall fs, declares_struct (name_schema "write") "P" fs -> "write" ∉ fs.*1 /\ "__proto__" ∉ fs.*1).
Proof. exact instances_witness. Qed.

(** C51. Optional fields may be left out of the objects given to write exactly if none of those in the message is called
    like something that objects inherit. Left out: repeated field names (C12). *)
Theorem C51_criterion_partial : forall a rt (str_ok : jstr -> Prop) e, str_ok [] -> exports a = [e] -> rt_ok rt str_ok -> distinct_fields a e ->
  for_code a (fun k t => write_ready k -> (may_omit rt str_ok k t <-> ~ needs_inherited a e)).
Proof. exact code_may_omit. Qed.
Print Assumptions C51_criterion_partial.
Example C51_criterion_nonvacuous : (exports demo_schema = ["Outer"] /\ distinct_fields demo_schema "Outer" /\ write_ready (class_of demo_export) /\ ~ needs_inherited demo_schema "Outer") /\
  accepted hidden_proto /\ exports hidden_proto = ["P"] /\ distinct_fields hidden_proto "P" /\ needs_inherited hidden_proto "P".
Proof. exact omit_witness. Qed.
