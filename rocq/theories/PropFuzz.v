(** Property theorems C71: the random schemas of scripts/gen_random_pkt.py. *)
From Verif Require Import FuzzProofs Fuzz Parser.

(** C71. Whatever the random choices are, the script writes a schema that is accepted under every hash order. *)
Theorem C71_random_schemas_refuted : ~ forall ds, a_run ds ->
  exists s a, script ds = Some s /\ parse_schema s = POk a /\ forall iter, fair_order iter -> is_ok (type_check iter a).
Proof. exact script_refuted. Qed.
Print Assumptions C71_random_schemas_refuted.
(** The script itself fails; its file does not parse; its file exports an enum; its file declares a name twice. *)
Theorem C71_ways_to_fail_refuted :
  (a_run run_none /\ a_run run_reserved /\ a_run run_enum /\ a_run run_case) /\
  script run_none = None /\
  (exists s o, script run_reserved = Some s /\ parse_schema s = PErr o) /\
  (exists s a, script run_enum = Some s /\ parse_schema s = POk a /\ forall iter, fair_order iter -> ~ is_ok (type_check iter a)) /\
  (exists s a, script run_case = Some s /\ parse_schema s = POk a /\ forall iter, fair_order iter -> ~ is_ok (type_check iter a)).
Proof. exact (conj (conj run_none_ok (conj run_reserved_ok (conj run_enum_ok run_case_ok))) ways_to_fail). Qed.
Print Assumptions C71_ways_to_fail_refuted.
Theorem C71_random_schemas_partial : forall ds s, a_run ds -> no_collisions ds -> script ds = Some s ->
  exists a, parse_schema s = POk a /\ forall iter, fair_order iter -> is_ok (type_check iter a).
Proof. exact script_compiles. Qed.
Print Assumptions C71_random_schemas_partial.
Example C71_nonvacuous : a_run run_fine /\ no_collisions run_fine /\ exists s, script run_fine = Some s.
Proof. exact (conj run_fine_ok run_fine_tidy). Qed.
