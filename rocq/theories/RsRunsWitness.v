(** Libraries and schemas that meet the hypotheses of PropRsRuns.v. *)
From Verif Require Export RsRuns RunsWitness RsEvolveWitness.

Lemma apart_examples : (rt_ok utf8_lib ascii_ok /\ rs_lib_ok utf8_rs utf8_str /\ same_format utf8_lib utf8_rs ascii_ok /\ (forall s, ascii_ok s -> utf8_str s) /\
    exact_on utf8_lib ascii_ok /\ two_strings ascii_ok) /\
  (accepted order_schema /\ plain_names order_schema /\ rust_names order_schema /\ small_enums order_schema /\ varied order_schema /\ ~ all_fixed order_schema) /\
  (accepted demo_schema /\ plain_names demo_schema /\ rust_names demo_schema /\ small_enums demo_schema /\ varied demo_schema /\ all_fixed demo_schema).
Proof.
  split; [split; [exact utf8_rt_ok|]; split; [exact utf8_rs_ok|]; split; [exact utf8_format|]; split; [exact ascii_utf8|]; split; [exact utf8_on|exact ascii_two]|].
  destruct order_varied as (H1 & H2 & H3 & H4), demo_varied as (K1 & K2 & K3 & K4 & K5). split.
  - split; [done|]. split; [done|]. split; [exact order_rust|]. split; [done|]. split; [done|exact order_not_fixed].
  - split; [done|]. split; [done|]. split; [exact demo_rust|]. split; [done|]. split; [done|done].
Qed.
