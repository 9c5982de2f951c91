(** Property theorems that say for every schema whether a property refuted elsewhere holds: C29, C30, C32, C33, C34, C85,
    C87 and C98. It depends on what the export [e] needs: [needs_enum k a e], an enum with at least [k] variants;
    [needs_optional], [needs_array], [needs_string] and [needs_float], a field of that kind; [needs_heavy_array], an array
    whose items take bytes. *)
From Verif Require Import NeedsWitness.

(** C29. read returns numbers that are no variant exactly if an enum with three variants is needed. *)
Theorem C29_three_variants_refuted : forall a rt str_ok, rt_ok rt str_ok -> forall e, exports a = [e] -> str_ok [] -> small_enums a -> needs_enum 3 a e ->
  for_code a (fun k t => names_fine a k -> forall h, exists data l M v,
    reads rt k h data (Done (JLoc l, M)) /\ r_rest (m_rd M) = [] /\ rep (m_heap M) (JLoc l) v /\ shape from_first_to_last str_ok t v /\ ~ has_type any_string t v).
Proof. exact code_undeclared. Qed.
Print Assumptions C29_three_variants_refuted.
Theorem C29_two_variants_partial : forall a rt str_ok, rt_ok rt str_ok -> forall e, exports a = [e] -> ~ needs_enum 3 a e ->
  for_code a (fun k t => names_fine a k -> forall h data l M, reads rt k h data (Done (JLoc l, M)) -> exists v, rep (m_heap M) (JLoc l) v /\ has_type any_string t v).
Proof. exact code_declared. Qed.
Print Assumptions C29_two_variants_partial.
Example C29_criterion : (exports deep_schema = ["P"] /\ needs_enum 3 deep_schema "P" /\ small_enums deep_schema /\ accepted deep_schema /\ plain_names deep_schema) /\
  (exports demo_schema = ["Outer"] /\ ~ needs_enum 3 demo_schema "Outer").
Proof. split; [|split; apply demo_without]. split; [apply deep_needs|]. split; [apply deep_needs|]. split; [apply deep_facts|]. split; apply deep_facts. Qed.

(** C30. There is a value that does not survive writing and reading exactly if an enum with 32 variants is needed. *)
Theorem C30_many_variants_refuted : forall a rt str_ok, rt_ok rt str_ok -> forall e, exports a = [e] -> str_ok [] -> needs_enum 32 a e ->
  for_code a (fun k t => names_fine a k -> exists v, has_type str_ok t v /\ forall h this h', rep h this v ->
    exists bytes M M', writes rt k h this (Done (bytes, M)) /\ reads rt k h' bytes (Done (JNull, M'))).
Proof. exact code_lost. Qed.
Print Assumptions C30_many_variants_refuted.
Theorem C30_few_variants_partial : forall a rt str_ok, rt_ok rt str_ok -> forall e, exports a = [e] -> ~ needs_enum 32 a e ->
  for_code a (fun k t => names_fine a k -> forall v h this h', has_type str_ok t v -> rep h this v -> exists bytes M, writes rt k h this (Done (bytes, M)) /\
    exists l M', reads rt k h' bytes (Done (JLoc l, M')) /\ rep (m_heap M') (JLoc l) v /\ r_rest (m_rd M') = []).
Proof. exact code_kept. Qed.
Print Assumptions C30_few_variants_partial.
Example C30_criterion : (exports (enum_schema many_names) = ["P"] /\ needs_enum 32 (enum_schema many_names) "P" /\ accepted (enum_schema many_names) /\ plain_names (enum_schema many_names)) /\
  ~ needs_enum 32 demo_schema "Outer".
Proof. split; [apply many_needs|apply demo_without]. Qed.

(** C32. With a library that does not give a string [s] back, [s] is lost exactly if a string is needed. *)
Theorem C32_any_schema_refuted : forall a rt str_ok, rt_ok rt str_ok -> forall e, exports a = [e] -> forall s, str_ok [] -> small_enums a -> (Z.of_nat (length s) < 2 ^ 32)%Z ->
  (forall rest, (rt_rds rt (Z.of_nat (length s)) (rt_encs rt s ++ rest, false)).1 ≠ s) -> needs_string a e ->
  for_code a (fun k t => names_fine a k -> exists v, has_type any_string t v /\ forall h this h', rep h this v -> exists bytes M x M',
    writes rt k h this (Done (bytes, M)) /\ reads rt k h' bytes (Done (x, M')) /\ ~ rep (m_heap M') x v).
Proof. exact code_lost_string. Qed.
Print Assumptions C32_any_schema_refuted.
Theorem C32_no_strings_partial : forall a rt str_ok, rt_ok rt str_ok -> forall e, exports a = [e] -> ~ needs_string a e -> ~ needs_enum 32 a e ->
  for_code a (fun k t => names_fine a k -> forall v h this h', has_type any_string t v -> rep h this v -> exists bytes M, writes rt k h this (Done (bytes, M)) /\
    exists l M', reads rt k h' bytes (Done (JLoc l, M')) /\ rep (m_heap M') (JLoc l) v /\ r_rest (m_rd M') = []).
Proof. exact code_any_string. Qed.
Print Assumptions C32_no_strings_partial.
Example C32_criterion : (forall rest, (rt_rds utf8_lib (Z.of_nat (length [233%Z])) (rt_encs utf8_lib [233%Z] ++ rest, false)).1 ≠ [233%Z]) /\ rt_ok utf8_lib ascii_ok /\ needs_string deep_schema "P" /\
  ~ needs_string order_schema "A" /\ ~ needs_enum 32 order_schema "A".
Proof. split; [exact accent_lost|]. split; [exact utf8_rt_ok|]. split; [apply deep_needs|]. split; apply order_without. Qed.

(** C33. Packets of one length make read call the library any number of times exactly if an array is needed whose items
    take bytes. If none is needed, the calls of read are bounded by the size of the type, whatever the packet. *)
Theorem C33_heavy_arrays_refuted : forall a rt str_ok, rt_ok rt str_ok -> forall e, exports a = [e] -> str_ok [] -> small_enums a -> needs_heavy_array a e ->
  for_code a (fun k t => names_fine a k -> exists L, forall z h, (0 < z < 2 ^ 32)%Z -> exists data M, length data = L /\
    reads rt k h data (Done (JNull, M)) /\ (z <= Z.of_nat (r_calls (m_rd M)))%Z).
Proof. exact code_long. Qed.
Print Assumptions C33_heavy_arrays_refuted.
Theorem C33_light_arrays_partial : forall a rt str_ok, rt_ok rt str_ok -> forall e, exports a = [e] -> ~ needs_heavy_array a e ->
  for_code a (fun k t => names_fine a k -> forall h data x M, reads rt k h data (Done (x, M)) -> (Z.of_nat (r_calls (m_rd M)) <= read_places t)%Z).
Proof. exact code_few. Qed.
Print Assumptions C33_light_arrays_partial.
Example C33_criterion : needs_heavy_array deep_schema "P" /\ ~ needs_heavy_array nested_schema "P" /\ needs_array nested_schema "P".
Proof. split; [apply deep_needs|]. split; apply nested_without. Qed.

(** C34. Some packet is read as a value that is written differently if an optional field is needed; without optional
    fields and floats there is none. *)
Theorem C34_optional_refuted : forall a rt str_ok, rt_ok rt str_ok -> forall e, exports a = [e] -> str_ok [] -> small_enums a -> needs_optional a e ->
  for_code a (fun k t => names_fine a k -> forall h, exists data l M v, reads rt k h data (Done (JLoc l, M)) /\ r_rest (m_rd M) = [] /\ rep (m_heap M) (JLoc l) v /\ has_type str_ok t v /\
    forall h' this bytes M', rep h' this v -> writes rt k h' this (Done (bytes, M')) -> bytes ≠ data).
Proof. exact code_two. Qed.
Print Assumptions C34_optional_refuted.
Theorem C34_no_optional_partial : forall a rt str_ok, rt_ok rt str_ok -> forall e, exports a = [e] -> exact_strings rt -> ~ needs_optional a e -> ~ needs_float a e ->
  for_code a (fun k t => names_fine a k -> forall h data l M, reads rt k h data (Done (JLoc l, M)) ->
    exists v, rep (m_heap M) (JLoc l) v /\ data = wire (rt_enc rt) (rt_encs rt) t v ++ r_rest (m_rd M)).
Proof. exact code_one. Qed.
Print Assumptions C34_no_optional_partial.
Example C34_criterion : needs_optional deep_schema "P" /\ ~ needs_optional order_schema "A" /\ ~ needs_float order_schema "A".
Proof. split; [apply deep_needs|]. split; apply order_without. Qed.

(** C85. What the emitted Rust reads depends on the packet only, exactly if no array and no optional field is needed. *)
Theorem C85_packet_only : forall a lib str_ok, rs_lib_ok lib str_ok -> small_enums a -> rust_names a -> forall e, exports a = [e] -> str_ok [] ->
  for_rust a (fun m t => (forall cur1 cur2 data, typed str_ok t (rm_type m) cur1 -> typed str_ok t (rm_type m) cur2 -> rs_read lib m cur1 data = rs_read lib m cur2 data) <->
    ~ needs_array a e /\ ~ needs_optional a e).
Proof. exact rust_packet_only. Qed.
Print Assumptions C85_packet_only.
Example C85_criterion : (accepted deep_schema /\ rust_names deep_schema /\ small_enums deep_schema /\ needs_array deep_schema "P") /\
  (exports order_schema = ["A"] /\ ~ needs_array order_schema "A" /\ ~ needs_optional order_schema "A").
Proof. split; [split; [apply deep_facts|split; [apply deep_facts|split; [apply deep_facts|apply deep_needs]]]|split; [done|split; apply order_without]]. Qed.

(** C87. TypeScript takes a packet that Rust refuses exactly if an enum with three variants is needed. *)
Theorem C87_three_variants_refuted : forall a lib str_ok, rs_lib_ok lib str_ok -> small_enums a -> rust_names a -> forall e, exports a = [e] ->
  forall rt rt_str both, rt_ok rt rt_str -> same_format rt lib both -> rt_str [] -> str_ok [] -> both [] -> needs_enum 3 a e ->
  for_both a (fun k m t => names_fine a k -> exists d, default_value (rm_items m) (rm_type m) = Some d /\
    forall h, exists data l M i, reads rt k h data (Done (JLoc l, M)) /\ r_rest (m_rd M) = [] /\ rs_read lib m d data = Bad i).
Proof. exact both_apart. Qed.
Print Assumptions C87_three_variants_refuted.
Theorem C87_two_variants_partial : forall a lib str_ok, rs_lib_ok lib str_ok -> small_enums a -> rust_names a -> forall e, exports a = [e] ->
  forall rt rt_str both, rt_ok rt rt_str -> same_format rt lib both -> exact_strings rt -> (forall s, both s -> str_ok s) -> ~ needs_enum 3 a e ->
  for_both a (fun k m t => names_fine a k -> exists d, default_value (rm_items m) (rm_type m) = Some d /\
    forall h data l M, reads rt k h data (Done (JLoc l, M)) -> exists v, rep (m_heap M) (JLoc l) v /\
      (strings_in both v -> exists x i, rs_read lib m d data = Good x i /\ stands str_ok t (rm_type m) x v /\ ri_bytes i = r_rest (m_rd M))).
Proof. exact both_same. Qed.
Print Assumptions C87_two_variants_partial.
Example C87_criterion : (rt_ok utf8_lib ascii_ok /\ rs_lib_ok utf8_rs utf8_str /\ same_format utf8_lib utf8_rs ascii_ok /\ ascii_ok [] /\ utf8_str [] /\ needs_enum 3 deep_schema "P") /\
  (rt_ok latin1 latin1_ok /\ exact_strings latin1 /\ same_format latin1 utf8_rs ascii_ok /\ (forall s, ascii_ok s -> utf8_str s) /\ ~ needs_enum 3 demo_schema "Outer").
Proof.
  split.
  - split; [exact utf8_rt_ok|]. split; [exact utf8_rs_ok|]. split; [exact utf8_format|]. split; [constructor|]. split; [by split; [constructor|]|apply deep_needs].
  - split; [exact latin1_rt_ok|]. split; [exact latin1_exact|]. split; [exact latin1_format|]. split; [exact ascii_utf8|apply demo_without].
Qed.

(** C98. Some packet that the emitted Rust reads is written differently if an optional field is needed; without optional
    fields and floats there is none. *)
Theorem C98_optional_refuted : forall a lib str_ok, rs_lib_ok lib str_ok -> small_enums a -> rust_names a -> forall e, exports a = [e] -> str_ok [] -> needs_optional a e ->
  for_rust a (fun m t => exists d data x i bytes, default_value (rm_items m) (rm_type m) = Some d /\
    rs_read lib m d data = Good x i /\ ri_bytes i = [] /\ rs_write lib m x = Some bytes /\ bytes ≠ data).
Proof. exact rust_two. Qed.
Print Assumptions C98_optional_refuted.
Theorem C98_no_optional_partial : forall a lib str_ok, rs_lib_ok lib str_ok -> small_enums a -> rust_names a -> forall e, exports a = [e] -> ~ needs_optional a e -> ~ needs_float a e ->
  for_rust a (fun m t => exists d, default_value (rm_items m) (rm_type m) = Some d /\
    forall data x i, rs_read lib m d data = Good x i -> exists bytes, rs_write lib m x = Some bytes /\ data = bytes ++ ri_bytes i).
Proof. exact rust_one. Qed.
Print Assumptions C98_no_optional_partial.
Example C98_criterion : needs_optional deep_schema "P" /\ ~ needs_optional order_schema "A" /\ ~ needs_float order_schema "A".
Proof. exact C34_criterion. Qed.
