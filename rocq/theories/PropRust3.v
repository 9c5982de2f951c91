(** Property theorems C91-C94: emitted Rust when the schema changes, and when the compiler is run twice.

    [for_rusts a1 a2 P] says that [P] holds of the module in the Rust emitted for [a1], the type that [a1] gives its export,
    and the same two things for [a2], whichever runs of the compiler emitted the code. [for_apart] says it of the
    TypeScript of one run and the Rust of another. *)
From Verif Require Import RsEvolveWitness.

(** C91. Fields added at the end of the exported struct: the old code reads the packets of the new one, without the new
    fields; the new code refuses the packets of the old one, unless the new fields take no bytes: then it reads them. *)
Theorem C91_old_reads_new : forall a1 a2 extra lib str_ok, rs_lib_ok lib str_ok -> small_enums a1 -> rust_names a1 -> rust_names a2 -> all_fixed a1 -> all_fixed a2 -> appended a1 a2 extra ->
  for_rusts a1 a2 (fun m1 t1 m2 t2 => exists d, default_value (rm_items m1) (rm_type m1) = Some d /\ forall xs, typed str_ok t2 (rm_type m2) (RRec xs) ->
    exists bytes i, rs_write lib m2 (RRec xs) = Some bytes /\ rs_read lib m1 d bytes = Good (RRec (take (length xs - length extra) xs)) i).
Proof. exact rust_old_reads_new. Qed.
Print Assumptions C91_old_reads_new.
Theorem C91_new_rejects_old : forall a1 a2 extra lib str_ok, rs_lib_ok lib str_ok -> str_ok [] -> small_enums a2 -> rust_names a1 -> rust_names a2 -> all_fixed a1 -> all_fixed a2 ->
  appended a1 a2 extra -> ~ Forall (weightless a2) extra ->
  for_rusts a1 a2 (fun m1 t1 m2 t2 => exists d, default_value (rm_items m2) (rm_type m2) = Some d /\ forall x, typed str_ok t1 (rm_type m1) x ->
    exists bytes i, rs_write lib m1 x = Some bytes /\ rs_read lib m2 d bytes = Bad i).
Proof. exact rust_new_rejects_old. Qed.
Print Assumptions C91_new_rejects_old.
Theorem C91_new_reads_old : forall a1 a2 extra lib str_ok, rs_lib_ok lib str_ok -> small_enums a2 -> rust_names a1 -> rust_names a2 -> all_fixed a1 -> all_fixed a2 ->
  appended a1 a2 extra -> Forall (weightless a2) extra ->
  for_rusts a1 a2 (fun m1 t1 m2 t2 => exists d, default_value (rm_items m2) (rm_type m2) = Some d /\ forall xs, typed str_ok t1 (rm_type m1) (RRec xs) ->
    exists bytes ys i, rs_write lib m1 (RRec xs) = Some bytes /\ rs_read lib m2 d bytes = Good (RRec (xs ++ ys)) i /\ ys.*1 = extra.*1).
Proof. exact rust_new_reads_old. Qed.
Print Assumptions C91_new_reads_old.
Example C91_nonvacuous : usable msg_old /\ usable msg_long /\ rust_names msg_old /\ rust_names msg_long /\ appended msg_old msg_long [("tags", arr "uint16"); ("next", opt "Kind")] /\
  rs_lib_ok utf8_rs utf8_str /\ utf8_str [].
Proof. split; [apply msg_facts|]. split; [apply msg_facts|]. split; [apply msg_rust|]. split; [apply msg_rust|]. split; [exact msg_appended|]. split; [exact utf8_rs_ok|exact utf8_empty]. Qed.
Example C91_weight : ~ Forall (weightless msg_long) [("tags", arr "uint16"); ("next", opt "Kind")] /\ rust_names mark_old /\ rust_names mark_new /\
  appended mark_old mark_new [("mark", plain "Nil")] /\ Forall (weightless mark_new) [("mark", plain "Nil")].
Proof. split; [exact msg_weight|]. split; [apply mark_rust|]. split; [apply mark_rust|]. split; apply mark_facts. Qed.
Example C91_run : exists bytes, rs_sent msg_long long_rval = Some bytes /\ rs_received msg_old bytes = Some (Some (short_rval "Pong")) /\
  rs_sent msg_old (short_rval "Pong") = Some (take 6 bytes) /\ rs_received msg_long (take 6 bytes) = Some None.
Proof. exact rs_long_run. Qed.

(** C92. Variants added at the end of enums whose representation stays the same: a value of the old type is written alike
    and read back by the new code; the old code reads a packet of the new one if the value is one of the old type, and
    refuses it otherwise. *)
Theorem C92_new_reads_old : forall a1 a2 lib str_ok, rs_lib_ok lib str_ok -> small_enums a2 -> rust_names a1 -> rust_names a2 -> all_fixed a1 -> all_fixed a2 -> grown a1 a2 ->
  for_rusts a1 a2 (fun m1 t1 m2 t2 => exists d, default_value (rm_items m2) (rm_type m2) = Some d /\ forall x, typed str_ok t1 (rm_type m1) x ->
    exists bytes i, rs_write lib m1 x = Some bytes /\ rs_write lib m2 x = Some bytes /\ rs_read lib m2 d bytes = Good x i).
Proof. exact rust_new_reads_old_enums. Qed.
Print Assumptions C92_new_reads_old.
Theorem C92_old_reads_new : forall a1 a2 lib str_ok, rs_lib_ok lib str_ok -> small_enums a1 -> small_enums a2 -> rust_names a1 -> rust_names a2 -> all_fixed a1 -> all_fixed a2 -> grown a1 a2 ->
  for_rusts a1 a2 (fun m1 t1 m2 t2 => exists d, default_value (rm_items m1) (rm_type m1) = Some d /\ forall x, typed str_ok t2 (rm_type m2) x ->
    exists bytes i, rs_write lib m2 x = Some bytes /\
      ((typed str_ok t1 (rm_type m1) x /\ rs_read lib m1 d bytes = Good x i) \/ (~ typed str_ok t1 (rm_type m1) x /\ rs_read lib m1 d bytes = Bad i))).
Proof. exact rust_old_reads_new_enums. Qed.
Print Assumptions C92_old_reads_new.
(** The condition on the representation is needed: with the ninth variant every packet of the old code is refused. *)
Theorem C92_ninth_variant : usable (tiny_schema eight) /\ usable (tiny_schema (eight ++ ["I"])) /\ forall lib str_ok, rs_lib_ok lib str_ok ->
  for_rusts (tiny_schema eight) (tiny_schema (eight ++ ["I"])) (fun m1 t1 m2 t2 => exists d, default_value (rm_items m2) (rm_type m2) = Some d /\
    forall x, typed str_ok t1 (rm_type m1) x -> typed str_ok t2 (rm_type m2) x /\ exists bytes i, rs_write lib m1 x = Some bytes /\ rs_read lib m2 d bytes = Bad i).
Proof. exact rust_ninth_refuted. Qed.
Print Assumptions C92_ninth_variant.
Example C92_nonvacuous : usable msg_old /\ usable msg_wide /\ rust_names msg_old /\ rust_names msg_wide /\ grown msg_old msg_wide.
Proof. split; [apply msg_facts|]. split; [apply msg_facts|]. split; [apply msg_rust|]. split; [apply msg_rust|exact msg_grown]. Qed.
Example C92_run : (exists bytes, rs_sent msg_wide (short_rval "Quit") = Some bytes /\ rs_received msg_wide bytes = Some (Some (short_rval "Quit")) /\ rs_received msg_old bytes = Some None) /\
  (exists bytes, rs_sent msg_wide (short_rval "Pong") = Some bytes /\ rs_received msg_old bytes = Some (Some (short_rval "Pong"))).
Proof. exact rs_wide_run. Qed.

(** C93. Names of types and fields are not transmitted: values that differ in the names of fields only are written as the
    same bytes by the code for the renamed schema. *)
Theorem C93_renamed_bytes : forall a ty field lib str_ok, good_renaming ty a -> all_fixed a -> rust_names a -> rust_names (rename ty field a) ->
  for_rusts a (rename ty field a) (fun m1 t1 m2 t2 => forall x1 x2 v1 v2, stands str_ok t1 (rm_type m1) x1 v1 -> stands str_ok t2 (rm_type m2) x2 v2 -> same_content v1 v2 ->
    exists bytes, rs_write lib m1 x1 = Some bytes /\ rs_write lib m2 x2 = Some bytes).
Proof. exact rust_renamed_bytes. Qed.
Print Assumptions C93_renamed_bytes.
Example C93_nonvacuous : usable msg_long /\ good_renaming swap_names msg_long /\ usable (rename swap_names my_fields msg_long) /\ rust_names msg_long /\
  rust_names (rename swap_names my_fields msg_long) /\ rename swap_names my_fields msg_long ≠ msg_long.
Proof. split; [apply msg_facts|]. split; [apply swap_good|]. split; [exact swap_usable|]. split; [apply msg_rust|]. split; [apply msg_rust|done]. Qed.
Example C93_run : exists bytes, rs_sent msg_long long_rval = Some bytes /\
  rs_sent (rename swap_names my_fields msg_long) (RRec [("mkind", RVariant "Msg" "Pong"); ("mtext", RStr [104]%Z); ("mtags", RVec [rnum 513]); ("mnext", ROpt None)]) = Some bytes.
Proof. exact rs_swap_run. Qed.

(** C94. A run of the compiler emits one language, so TypeScript and Rust for the same schema come from two runs. They
    understand each other if the compiler keeps the declared order; otherwise they may not. *)
Theorem C94_rust_partial : forall a lib str_ok, rs_lib_ok lib str_ok -> small_enums a -> rust_names a -> all_fixed a ->
  for_rusts a a (fun m1 t1 m2 t2 => exists d, default_value (rm_items m2) (rm_type m2) = Some d /\ forall x, typed str_ok t1 (rm_type m1) x ->
    exists bytes, rs_write lib m1 x = Some bytes /\ rs_write lib m2 x = Some bytes /\ forall rest, exists i, rs_read lib m2 d (bytes ++ rest) = Good x i /\ ri_bytes i = rest).
Proof. exact rust_runs_interop. Qed.
Print Assumptions C94_rust_partial.
Theorem C94_languages_partial : forall a rt lib rt_str str_ok both iter1 iter2, rt_ok rt rt_str -> rs_lib_ok lib str_ok -> same_format rt lib both ->
  (forall s, both s -> str_ok s) -> small_enums a -> rust_names a -> all_fixed a -> fair_order iter1 -> fair_order iter2 ->
  for_apart iter1 iter2 a (fun k t1 m t2 => names_fine a k -> exists d, default_value (rm_items m) (rm_type m) = Some d /\
  forall v x h this, stands str_ok t2 (rm_type m) x v -> strings_in both v -> rep h this v ->
    exists bytes M, writes rt k h this (Done (bytes, M)) /\ rs_write lib m x = Some bytes /\ forall rest h',
      (exists l M, reads rt k h' (bytes ++ rest) (Done (JLoc l, M)) /\ rep (m_heap M) (JLoc l) v /\ r_rest (m_rd M) = rest) /\
      (exists i, rs_read lib m d (bytes ++ rest) = Good x i /\ ri_bytes i = rest)).
Proof. exact languages_interop. Qed.
Print Assumptions C94_languages_partial.
Theorem C94_languages_refuted : exists a iter1 iter2, accepted a /\ plain_names a /\ rust_names a /\ small_enums a /\ fair_order iter1 /\ fair_order iter2 /\
  forall rt rt_str lib str_ok both, rt_ok rt rt_str -> rs_lib_ok lib str_ok -> same_format rt lib both -> for_apart iter1 iter2 a (fun k t1 m t2 =>
    exists d v h this bytes M y i, default_value (rm_items m) (rm_type m) = Some d /\ has_type rt_str t1 v /\ rep h this v /\
      writes rt k h this (Done (bytes, M)) /\ get_prop h this "x" = Done (JNum (NInt 2)) /\
      rs_read lib m d bytes = Good (RRec [("x", RNum (NInt 1)); ("b", y)]) i /\ ri_bytes i = []).
Proof. exact languages_differ. Qed.
Print Assumptions C94_languages_refuted.
Example C94_nonvacuous : all_fixed demo_schema /\ rust_names demo_schema /\ small_enums demo_schema /\ same_format utf8_lib utf8_rs ascii_ok /\ fair_order iter_fwd /\ fair_order iter_rev /\
  is_ok (type_check iter_rev demo_schema).
Proof. exact demo_apart. Qed.
