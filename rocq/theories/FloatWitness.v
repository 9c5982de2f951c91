(** A schema with a float, and two packets with a NaN. *)
From Verif Require Export FloatProofs RunsWitness.

Definition float_schema : ast := [NDecl "P" (AStruct [("n", plain "uint8"); ("x", plain "float")]); NExport "P"].
Lemma float_facts : legal_ast float_schema /\ accepted float_schema /\ plain_names float_schema /\ small_enums float_schema /\ exports float_schema = ["P"] /\
  ~ needs_optional float_schema "P" /\ needs_float float_schema "P".
Proof.
  split; [solve_legal|]. split; [eapply accepted_export; [solve_legal|by vm_compute]|]. split; [solve_plain|]. split; [decl_cases; cbn; lia|]. split; [done|]. split; [field_cases|].
  eapply needs_of_field; [by left|right; by left|done].
Qed.
Lemma nan_twice : (rt_rd latin1 KF32 (le_bytes 4 2143289344, false)).1 = (rt_rd latin1 KF32 (le_bytes 4 2143289345, false)).1 /\ le_bytes 4 2143289344 ≠ le_bytes 4 2143289345.
Proof. by vm_compute. Qed.
