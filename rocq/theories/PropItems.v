(** Property theorems C52 and, for packets that are accepted, C88: what is read is not much more than the packet. *)
From Verif Require Import VoidWitness.

(** C52. An accepted packet has at least as many bytes as array items, and more if the export takes any bytes at all, unless
    the export contains an array whose items take no bytes. If there is such an array, packets of one length give results of
    any size. *)
Theorem C52_items_partial : forall a rt str_ok e, rt_ok rt str_ok -> exports a = [e] -> ~ weightless_array a e -> for_code a (fun k t => names_fine a k ->
  forall h data l M, reads rt k h data (Done (JLoc l, M)) ->
    exists v, rep (m_heap M) (JLoc l) v /\ items v <= length data /\ (~ no_bytes a e -> items v < length data)).
Proof. exact code_solid. Qed.
Print Assumptions C52_items_partial.
Theorem C52_items_refuted : forall a rt str_ok e, rt_ok rt str_ok -> str_ok [] -> small_enums a -> exports a = [e] -> weightless_array a e ->
  for_code a (fun k t => names_fine a k -> exists L, forall h z, (Z.of_nat z < 2 ^ 32)%Z ->
    exists data l M v, length data = L /\ reads rt k h data (Done (JLoc l, M)) /\ rep (m_heap M) (JLoc l) v /\ z <= items v).
Proof. exact code_weightless. Qed.
Print Assumptions C52_items_refuted.
(** four bytes are enough *)
Theorem C52_four_bytes_refuted : forall rt str_ok, rt_ok rt str_ok -> accepted hollow_schema /\ for_code hollow_schema (fun k t => forall z h, (0 <= z < 2 ^ 32)%Z ->
  exists data l M v, length data = 4 /\ reads rt k h data (Done (JLoc l, M)) /\ rep (m_heap M) (JLoc l) v /\ Z.of_nat (items v) = z).
Proof. exact hollow_refuted. Qed.
Print Assumptions C52_four_bytes_refuted.
Example C52_nonvacuous : ~ weightless_array demo_schema "Outer" /\ items demo_value = 3.
Proof. split; [exact demo_solid|by vm_compute]. Qed.
Example C52_empty_structs : legal_ast calm_schema /\ accepted calm_schema /\ rust_names calm_schema /\ ~ no_empty calm_schema /\ ~ weightless_array calm_schema "P".
Proof. exact calm_solid. Qed.
Example C52_nested : accepted nested_schema /\ plain_names nested_schema /\ rust_names nested_schema /\ small_enums nested_schema /\ weightless_array nested_schema "P".
Proof. destruct nested_facts as (_ & H1 & H2 & H3 & H4). exact (conj H1 (conj H3 (conj H2 (conj H4 nested_weightless)))). Qed.

(** C88. The same of the room that Rust reserves. *)
Theorem C88_room_partial : forall a lib str_ok e, rs_lib_ok lib str_ok -> rust_names a -> exports a = [e] -> ~ weightless_array a e -> for_rust a (fun m t =>
  forall cur data x i, typed str_ok t (rm_type m) cur -> rs_read lib m cur data = Good x i ->
    (ri_room i <= Z.of_nat (length data))%Z /\ (~ no_bytes a e -> (ri_room i < Z.of_nat (length data))%Z)).
Proof. exact rust_solid. Qed.
Print Assumptions C88_room_partial.
Theorem C88_items_refuted : forall a lib str_ok e, rs_lib_ok lib str_ok -> str_ok [] -> rust_names a -> small_enums a -> exports a = [e] -> weightless_array a e ->
  for_rust a (fun m t => exists d L, default_value (rm_items m) (rm_type m) = Some d /\ forall z, (Z.of_nat z < 2 ^ 32)%Z ->
    exists data x v i, length data = L /\ rs_read lib m d data = Good x i /\ stands str_ok t (rm_type m) x v /\ z <= items v).
Proof. exact rust_weightless. Qed.
Print Assumptions C88_items_refuted.
Theorem C88_empty_structs_refuted : forall lib str_ok, rs_lib_ok lib str_ok -> accepted hollow_schema /\ for_rust hollow_schema (fun m t =>
  exists d, default_value (rm_items m) (rm_type m) = Some d /\ forall z, (0 <= z < 2 ^ 32)%Z -> exists data i, length data = 4 /\
    rs_read lib m d data = Good (RRec [("xs", RVec (repeat (RRec []) (Z.to_nat z)))]) i /\ ri_calls i = 1).
Proof. exact hollow_result. Qed.
Print Assumptions C88_empty_structs_refuted.
Example C88_room_nonvacuous : typed utf8_str (TStruct (x_fields demo_export)) "Outer" demo_rval /\ exports demo_schema = ["Outer"] /\ rust_names demo_schema /\ utf8_str [].
Proof. split; [exists demo_value; exact demo_stands|]. split; [done|]. split; [apply demo_rust|]. split; [by apply Forall_nil|done]. Qed.
