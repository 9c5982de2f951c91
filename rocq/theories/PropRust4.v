(** Property theorems C95 and C96: two versions of a packet, with both languages on both sides.

    [for_four a1 a2 P] says that [P] holds of the class in the TypeScript and the module in the Rust emitted for [a1], of
    the type that [a1] gives its export, and of the same three things for [a2], each file emitted by a run of its own. The
    two libraries agree on the strings in [both]. *)
From Verif Require Import RsMixedWitness.

(** C95. Fields added at the end of the exported struct: the new code of both languages writes the same packet, and the
    old code of both languages reads it, without the new fields; *)
Theorem C95_old_reads_new : forall rt lib rt_str str_ok both, rt_ok rt rt_str -> rs_lib_ok lib str_ok -> same_format rt lib both ->
  (forall s, both s -> rt_str s) ->
  forall a1 a2 extra, small_enums a1 -> small_enums a2 -> rust_names a1 -> rust_names a2 -> all_fixed a1 -> all_fixed a2 -> appended a1 a2 extra ->
  for_four a1 a2 (fun k1 m1 t1 k2 m2 t2 => names_fine a1 k1 -> write_ready k2 -> exists d, default_value (rm_items m1) (rm_type m1) = Some d /\
    forall xs vs h this, stands str_ok t2 (rm_type m2) (RRec xs) (VRec vs) -> strings_in both (VRec vs) -> rep h this (VRec vs) ->
    exists bytes M, writes rt k2 h this (Done (bytes, M)) /\ rs_write lib m2 (RRec xs) = Some bytes /\ forall h',
      (exists l M', reads rt k1 h' bytes (Done (JLoc l, M')) /\ rep (m_heap M') (JLoc l) (VRec (take (length vs - length extra) vs))) /\
      (exists i, rs_read lib m1 d bytes = Good (RRec (take (length xs - length extra) xs)) i)).
Proof. exact mixed_added. Qed.
Print Assumptions C95_old_reads_new.
(** a packet of the old code is refused by the new code of both languages, unless the new fields take no bytes. *)
Theorem C95_new_rejects_old : forall rt lib rt_str str_ok both, rt_ok rt rt_str -> rs_lib_ok lib str_ok -> same_format rt lib both ->
  (forall s, both s -> rt_str s) -> (forall s, both s -> str_ok s) ->
  forall a1 a2 extra, both [] -> small_enums a1 -> small_enums a2 -> rust_names a1 -> rust_names a2 -> all_fixed a1 -> all_fixed a2 -> appended a1 a2 extra ->
  ~ Forall (weightless a2) extra ->
  for_four a1 a2 (fun k1 m1 t1 k2 m2 t2 => write_ready k1 -> names_fine a2 k2 -> exists d, default_value (rm_items m2) (rm_type m2) = Some d /\
    forall x v h this, stands str_ok t1 (rm_type m1) x v -> strings_in both v -> rep h this v ->
    exists bytes M, writes rt k1 h this (Done (bytes, M)) /\ rs_write lib m1 x = Some bytes /\ forall h',
      (exists M', reads rt k2 h' bytes (Done (JNull, M'))) /\ (exists i, rs_read lib m2 d bytes = Bad i)).
Proof. exact mixed_refused. Qed.
Print Assumptions C95_new_rejects_old.
Theorem C95_new_reads_old : forall rt lib rt_str str_ok both, rt_ok rt rt_str -> rs_lib_ok lib str_ok -> same_format rt lib both ->
  (forall s, both s -> rt_str s) ->
  forall a1 a2 extra, small_enums a1 -> small_enums a2 -> rust_names a1 -> rust_names a2 -> all_fixed a1 -> all_fixed a2 -> appended a1 a2 extra ->
  Forall (weightless a2) extra ->
  for_four a1 a2 (fun k1 m1 t1 k2 m2 t2 => write_ready k1 -> names_fine a2 k2 -> exists d, default_value (rm_items m2) (rm_type m2) = Some d /\
    forall xs vs h this, stands str_ok t1 (rm_type m1) (RRec xs) (VRec vs) -> strings_in both (VRec vs) -> rep h this (VRec vs) ->
    exists bytes M, writes rt k1 h this (Done (bytes, M)) /\ rs_write lib m1 (RRec xs) = Some bytes /\ forall h',
      (exists ws l M', reads rt k2 h' bytes (Done (JLoc l, M')) /\ rep (m_heap M') (JLoc l) (VRec (vs ++ ws)) /\ ws.*1 = extra.*1) /\
      (exists ys i, rs_read lib m2 d bytes = Good (RRec (xs ++ ys)) i /\ ys.*1 = extra.*1)).
Proof. exact mixed_accepted. Qed.
Print Assumptions C95_new_reads_old.
Example C95_nonvacuous : usable msg_old /\ usable msg_long /\ rust_names msg_old /\ rust_names msg_long /\ appended msg_old msg_long [("tags", arr "uint16"); ("next", opt "Kind")] /\
  rt_ok latin1 latin1_ok /\ rs_lib_ok utf8_rs utf8_str /\ same_format latin1 utf8_rs ascii_ok /\ (forall s, ascii_ok s -> latin1_ok s) /\ (forall s, ascii_ok s -> utf8_str s) /\ ascii_ok [].
Proof.
  split; [apply msg_facts|]. split; [apply msg_facts|]. split; [apply msg_rust|]. split; [apply msg_rust|]. split; [exact msg_appended|]. exact mixed_libs.
Qed.
Example C95_run : exists bytes, sent msg_long long_heap = Some bytes /\ rs_sent msg_long long_rval = Some bytes /\
  received msg_old bytes = Some (Some ["kind"; "text"]) /\ rs_received msg_old bytes = Some (Some (short_rval "Pong")) /\
  sent msg_old (wide_heap 2) = Some (take 6 bytes) /\ rs_sent msg_old (short_rval "Pong") = Some (take 6 bytes) /\
  received msg_long (take 6 bytes) = Some None /\ rs_received msg_long (take 6 bytes) = Some None.
Proof. exact mixed_long_run. Qed.

(** C96. Variants added at the end of enums whose representation stays the same: what the old code writes the new code of
    both languages reads; *)
Theorem C96_new_reads_old : forall rt lib rt_str str_ok both, rt_ok rt rt_str -> rs_lib_ok lib str_ok -> same_format rt lib both ->
  (forall s, both s -> rt_str s) ->
  forall a1 a2, small_enums a1 -> small_enums a2 -> rust_names a1 -> rust_names a2 -> all_fixed a1 -> all_fixed a2 -> grown a1 a2 ->
  for_four a1 a2 (fun k1 m1 t1 k2 m2 t2 => write_ready k1 -> names_fine a2 k2 -> exists d, default_value (rm_items m2) (rm_type m2) = Some d /\
    forall x v h this, stands str_ok t1 (rm_type m1) x v -> strings_in both v -> rep h this v ->
    exists bytes M, writes rt k1 h this (Done (bytes, M)) /\ rs_write lib m1 x = Some bytes /\ forall h',
      (exists l M', reads rt k2 h' bytes (Done (JLoc l, M')) /\ rep (m_heap M') (JLoc l) v) /\ (exists i, rs_read lib m2 d bytes = Good x i)).
Proof. exact mixed_grown. Qed.
Print Assumptions C96_new_reads_old.
(** a packet of the new code is read by the old code of both languages, or refused by both: it is read if the value is one
    of the old type. *)
Theorem C96_old_reads_new : forall rt lib rt_str str_ok both, rt_ok rt rt_str -> rs_lib_ok lib str_ok -> same_format rt lib both ->
  (forall s, both s -> rt_str s) ->
  forall a1 a2, small_enums a1 -> small_enums a2 -> rust_names a1 -> rust_names a2 -> all_fixed a1 -> all_fixed a2 -> grown a1 a2 ->
  for_four a1 a2 (fun k1 m1 t1 k2 m2 t2 => names_fine a1 k1 -> write_ready k2 -> exists d, default_value (rm_items m1) (rm_type m1) = Some d /\
    forall x v h this, stands str_ok t2 (rm_type m2) x v -> strings_in both v -> rep h this v ->
    exists bytes M, writes rt k2 h this (Done (bytes, M)) /\ rs_write lib m2 x = Some bytes /\ forall h',
      (typed str_ok t1 (rm_type m1) x /\ (exists l M', reads rt k1 h' bytes (Done (JLoc l, M')) /\ rep (m_heap M') (JLoc l) v) /\ (exists i, rs_read lib m1 d bytes = Good x i)) \/
      (~ typed str_ok t1 (rm_type m1) x /\ (exists M', reads rt k1 h' bytes (Done (JNull, M'))) /\ (exists i, rs_read lib m1 d bytes = Bad i))).
Proof. exact mixed_shrunk. Qed.
Print Assumptions C96_old_reads_new.
Example C96_nonvacuous : usable msg_old /\ usable msg_wide /\ rust_names msg_old /\ rust_names msg_wide /\ grown msg_old msg_wide /\
  rt_ok latin1 latin1_ok /\ rs_lib_ok utf8_rs utf8_str /\ same_format latin1 utf8_rs ascii_ok /\ (forall s, ascii_ok s -> latin1_ok s) /\ (forall s, ascii_ok s -> utf8_str s) /\ ascii_ok [].
Proof.
  split; [apply msg_facts|]. split; [apply msg_facts|]. split; [apply msg_rust|]. split; [apply msg_rust|]. split; [exact msg_grown|]. exact mixed_libs.
Qed.
Example C96_run : (exists bytes, sent msg_wide (wide_heap 4) = Some bytes /\ rs_sent msg_wide (short_rval "Quit") = Some bytes /\
    received msg_old bytes = Some None /\ rs_received msg_old bytes = Some None) /\
  (exists bytes, sent msg_wide (wide_heap 2) = Some bytes /\ rs_sent msg_wide (short_rval "Pong") = Some bytes /\
    received msg_old bytes = Some (Some ["kind"; "text"]) /\ rs_received msg_old bytes = Some (Some (short_rval "Pong"))).
Proof. exact mixed_wide_run. Qed.
