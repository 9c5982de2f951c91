(** Property theorem that decides C34 for every schema. *)
From Verif Require Import FloatWitness.

(** C34. The bytes that are read are always the ones that are written for the value exactly if neither an optional field nor
    a float is needed. *)
Theorem C34_encodings_partial : forall a rt str_ok, rt_ok rt str_ok -> forall e, exports a = [e] -> exact_strings rt -> local_floats rt -> str_ok [] -> small_enums a ->
  for_code a (fun k t => names_fine a k -> (one_encoding rt k t <-> ~ needs_optional a e /\ ~ needs_float a e)).
Proof. exact code_encodings. Qed.
Print Assumptions C34_encodings_partial.
Example C34_encodings : (rt_ok latin1 latin1_ok /\ exact_strings latin1 /\ local_floats latin1 /\ latin1_ok []) /\
  (accepted float_schema /\ plain_names float_schema /\ exports float_schema = ["P"] /\ small_enums float_schema /\ ~ needs_optional float_schema "P" /\ needs_float float_schema "P") /\
  (accepted order_schema /\ exports order_schema = ["A"] /\ ~ needs_optional order_schema "A" /\ ~ needs_float order_schema "A") /\
  (rt_rd latin1 KF32 (le_bytes 4 2143289344, false)).1 = (rt_rd latin1 KF32 (le_bytes 4 2143289345, false)).1.
Proof.
  destruct float_facts as (_ & H1 & H2 & H3 & H4 & H5 & H6). split; [split; [exact latin1_rt_ok|]; split; [exact latin1_exact|]; split; [exact latin1_local|constructor]|].
  split; [done|]. split; [split; [apply order_one|]; split; [done|]; split; apply order_without|]. apply nan_twice.
Qed.
