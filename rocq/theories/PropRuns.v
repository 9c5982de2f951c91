(** Property theorems about the code of two runs of the compiler on one schema: when it can exchange packets (C35).
    [talks rt str_ok k k' t]: what an object holds is read back by the class [k'] from what the class [k] writes for it. *)
From Verif Require Import RunsWitness.

(** C35. For a schema whose types all have two values: the code of two runs can exchange packets in both directions only if
    the two classes are the same. *)
Theorem C35_same_class_partial : forall a rt str_ok iter1 iter2, rt_ok rt str_ok -> exact_on rt str_ok -> local_floats rt -> two_strings str_ok ->
  plain_names a -> small_enums a -> varied a -> fair_order iter1 -> fair_order iter2 ->
  for_runs iter1 iter2 a (fun k1 k2 t => talks rt str_ok k1 k2 t /\ talks rt str_ok k2 k1 t <-> k1 = k2).
Proof. exact runs_same_class. Qed.
Print Assumptions C35_same_class_partial.
(** Hence the code of all runs can exchange packets exactly if the checker keeps the declared order of all fields (C47). *)
Theorem C35_criterion_partial : forall a rt str_ok, rt_ok rt str_ok -> exact_on rt str_ok -> local_floats rt -> two_strings str_ok ->
  accepted a -> plain_names a -> small_enums a -> varied a ->
  ((forall iter1 iter2, fair_order iter1 -> fair_order iter2 -> for_runs iter1 iter2 a (fun k1 k2 t => talks rt str_ok k1 k2 t)) <-> all_fixed a).
Proof. exact runs_talk_fixed. Qed.
Print Assumptions C35_criterion_partial.
(** libraries; a schema that loses packets; one that does not *)
Example C35_criterion_nonvacuous : (rt_ok latin1 latin1_ok /\ exact_on latin1 latin1_ok /\ local_floats latin1 /\ two_strings latin1_ok) /\
  (rt_ok utf8_lib ascii_ok /\ exact_on utf8_lib ascii_ok /\ local_floats utf8_lib /\ two_strings ascii_ok) /\
  (accepted order_schema /\ plain_names order_schema /\ small_enums order_schema /\ varied order_schema /\ ~ all_fixed order_schema) /\
  (accepted demo_schema /\ plain_names demo_schema /\ small_enums demo_schema /\ varied demo_schema /\ all_fixed demo_schema).
Proof.
  split; [split; [exact latin1_rt_ok|]; split; [exact latin1_on|]; split; [exact latin1_local|exact latin1_two]|].
  split; [split; [exact utf8_rt_ok|]; split; [exact utf8_on|]; split; [exact utf8_local|exact ascii_two]|]. split; [|exact demo_varied].
  destruct order_varied as (H1 & H2 & H3 & H4). split; [done|]. split; [done|]. split; [done|]. split; [done|exact order_not_fixed].
Qed.
