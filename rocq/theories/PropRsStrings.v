(** Property theorems about strings that cross the languages (C86, C87), for every schema.
    [decodes]: the TypeScript library decodes all strings of the Rust library; [recode conv v] is [v] with the decoded
    strings. [undecodable]: the Rust library refuses what the TypeScript library writes for the string. *)
From Verif Require Import RsStringsWitness.

(** C86. Rust to TypeScript: every value arrives, whatever its strings. *)
Theorem C86_rust_to_ts_partial : forall a rt lib rt_str str_ok both conv, rt_ok rt rt_str -> rs_lib_ok lib str_ok -> same_format rt lib both -> decodes rt lib str_ok conv ->
  small_enums a -> rust_names a -> for_both a (fun k m t => names_fine a k -> forall x v, stands str_ok t (rm_type m) x v ->
    exists bytes, rs_write lib m x = Some bytes /\ forall rest h, exists l M,
      reads rt k h (bytes ++ rest) (Done (JLoc l, M)) /\ rep (m_heap M) (JLoc l) (recode conv v) /\ r_rest (m_rd M) = rest).
Proof. exact both_sent. Qed.
Print Assumptions C86_rust_to_ts_partial.
(** C86. TypeScript to Rust: if the export needs a string and the Rust library refuses one string, there is an object that
    TypeScript writes and Rust refuses. *)
Theorem C86_any_schema_refuted : forall rt lib str_ok both, rs_lib_ok lib str_ok -> same_format rt lib both -> str_ok [] -> both [] ->
  forall a, small_enums a -> rust_names a -> forall e, exports a = [e] -> forall s, undecodable rt lib s -> needs_string a e ->
  for_both a (fun k m t => names_fine a k -> exists d v, default_value (rm_items m) (rm_type m) = Some d /\
    has_type any_string t v /\ forall h this, rep h this v -> exists bytes M i, writes rt k h this (Done (bytes, M)) /\ rs_read lib m d bytes = Bad i).
Proof. exact both_unread. Qed.
Print Assumptions C86_any_schema_refuted.
(** C86. If the export needs no string, the languages read each other's packets, without conditions on the values. *)
Theorem C86_no_strings_partial : forall a rt lib rt_str str_ok both, rt_ok rt rt_str -> rs_lib_ok lib str_ok -> same_format rt lib both -> (forall s, both s -> str_ok s) ->
  small_enums a -> rust_names a -> forall e, exports a = [e] -> ~ needs_string a e ->
  for_both a (fun k m t => names_fine a k -> exists d, default_value (rm_items m) (rm_type m) = Some d /\
  forall v x h this, stands str_ok t (rm_type m) x v -> rep h this v ->
    exists bytes M, writes rt k h this (Done (bytes, M)) /\ rs_write lib m x = Some bytes /\ forall rest h',
      (exists l M, reads rt k h' (bytes ++ rest) (Done (JLoc l, M)) /\ rep (m_heap M) (JLoc l) v /\ r_rest (m_rd M) = rest) /\
      (exists i, rs_read lib m d (bytes ++ rest) = Good x i /\ ri_bytes i = rest)).
Proof. exact both_stringless. Qed.
Print Assumptions C86_no_strings_partial.
(** C87. What Rust accepts, TypeScript accepts, whatever the strings. *)
Theorem C87_any_string_partial : forall a rt lib rt_str str_ok both conv, rt_ok rt rt_str -> rs_lib_ok lib str_ok -> same_format rt lib both -> decodes rt lib str_ok conv ->
  small_enums a -> rust_names a -> for_both a (fun k m t => names_fine a k -> exists d, default_value (rm_items m) (rm_type m) = Some d /\
  forall h data x v i, rs_read lib m d data = Good x i -> stands str_ok t (rm_type m) x v ->
    exists l M, reads rt k h data (Done (JLoc l, M)) /\ rep (m_heap M) (JLoc l) (recode conv v) /\ r_rest (m_rd M) = ri_bytes i).
Proof. exact both_recoded. Qed.
Print Assumptions C87_any_string_partial.
Example C86_strings_nonvacuous : (rt_ok utf8_lib ascii_ok /\ rs_lib_ok utf8_rs utf8_str /\ same_format utf8_lib utf8_rs ascii_ok /\ (forall s, ascii_ok s -> utf8_str s) /\ ascii_ok [] /\ utf8_str []) /\
  (decodes utf8_lib utf8_rs utf8_str utf8_conv /\ utf8_str [195; 169]%Z /\ utf8_conv [195; 169]%Z = [233]%Z) /\
  undecodable utf8_lib utf8_rs [233%Z] /\
  (accepted deep_schema /\ small_enums deep_schema /\ rust_names deep_schema /\ exports deep_schema = ["P"] /\ needs_string deep_schema "P") /\
  (accepted order_schema /\ small_enums order_schema /\ rust_names order_schema /\ exports order_schema = ["A"] /\ ~ needs_string order_schema "A").
Proof. exact string_examples. Qed.
