(** C103, C14: which messages the checker can give for a schema. Only theorems and examples. *)
From Verif Require Import MessageWitness.

(** C103. For every schema, the messages that some hash order leads to are exactly those of [possible]. *)
Theorem C103_possible_messages : forall a m, no_builtin_decl a ->
  (exists iter, fair_order iter /\ type_check iter a = Err m) <-> possible a m.
Proof. exact possible_messages. Qed.
Print Assumptions C103_possible_messages.
Example C103_torn : forall m, possible torn_schema m <->
  m ∈ ["Field 'f' in struct 'D' cannot be optional and array at once"; "Declaration for type 'F' does not exist"].
Proof. exact torn_messages. Qed.
Example C103_loop : forall m, possible loop_schema m <->
  m ∈ ["Declaration for type 'B' does not exist"; "Found a cycle between two or more top level definitions in type 'B'"; "Found a cycle between two or more top level definitions in type 'C'"].
Proof. exact loop_messages. Qed.

(** C14. The message is a function of the schema exactly for these schemas. *)
Theorem C14_criterion_partial : forall a, no_builtin_decl a ->
  (forall i1 i2 m1 m2, fair_order i1 -> fair_order i2 -> type_check i1 a = Err m1 -> type_check i2 a = Err m2 -> m1 = m2) <->
  (forall m1 m2, possible a m1 -> possible a m2 -> m1 = m2).
Proof. exact message_criterion. Qed.
Print Assumptions C14_criterion_partial.
Example C14_criterion_nonvacuous : no_builtin_decl torn_schema /\ ~ (forall m1 m2, possible torn_schema m1 -> possible torn_schema m2 -> m1 = m2).
Proof. exact torn_criterion. Qed.
