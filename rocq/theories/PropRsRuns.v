(** Property theorem about the TypeScript of one run and the Rust of another: when they can exchange packets (C94).
    [exchange]: what the one writes, the other reads as the same value, in both directions. *)
From Verif Require Import RsRunsWitness.

(** C94. For a schema whose types all have two values: the TypeScript of any run and the Rust of any run can exchange packets
    exactly if the checker keeps the declared order of all fields. *)
Theorem C94_criterion_partial : forall a rt lib rt_str str_ok both, rt_ok rt rt_str -> rs_lib_ok lib str_ok -> same_format rt lib both ->
  (forall s, both s -> rt_str s) -> (forall s, both s -> str_ok s) -> exact_on rt both -> two_strings both ->
  accepted a -> plain_names a -> rust_names a -> small_enums a -> varied a ->
  ((forall iter1 iter2, fair_order iter1 -> fair_order iter2 -> for_apart iter1 iter2 a (fun k _ m t => exchange rt lib str_ok both k m t)) <-> all_fixed a).
Proof. exact languages_fixed. Qed.
Print Assumptions C94_criterion_partial.
(** libraries; a schema that loses packets; one that does not *)
Example C94_criterion_nonvacuous : (rt_ok utf8_lib ascii_ok /\ rs_lib_ok utf8_rs utf8_str /\ same_format utf8_lib utf8_rs ascii_ok /\ (forall s, ascii_ok s -> utf8_str s) /\
    exact_on utf8_lib ascii_ok /\ two_strings ascii_ok) /\
  (accepted order_schema /\ plain_names order_schema /\ rust_names order_schema /\ small_enums order_schema /\ varied order_schema /\ ~ all_fixed order_schema) /\
  (accepted demo_schema /\ plain_names demo_schema /\ rust_names demo_schema /\ small_enums demo_schema /\ varied demo_schema /\ all_fixed demo_schema).
Proof. exact apart_examples. Qed.
