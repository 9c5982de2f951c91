(** Property theorems C63-C67: what a change of the schema does to the result.

    [for_versions a1 a2 P] says that [P] holds of the class in the code emitted for [a1], the type that [a1] gives its
    export, and the same two things for [a2], whichever runs of the compiler emitted the code. *)
From Verif Require Import EvolveWitness.

(** C63. The order of the declarations, and the place of the export, do not matter. *)
Theorem C63_declaration_order : forall iter a1 a2, a1 ≡ₚ a2 -> is_ok (type_check iter a1) \/ is_ok (type_check iter a2) ->
  type_check iter a1 = type_check iter a2.
Proof. exact declarations_move. Qed.
Print Assumptions C63_declaration_order.
Example C63_nonvacuous : demo_schema ≡ₚ reverse demo_schema /\ demo_schema ≠ reverse demo_schema /\ is_ok (type_check iter_fwd demo_schema).
Proof. split; [symmetry; apply reverse_Permutation|]. split; [done|exact demo_accepted]. Qed.

(** C64. Declarations that the export does not need do not matter. *)
Theorem C64_needed_only : forall a1 a2 iter1 iter2 r1 r2, fair_order iter1 -> fair_order iter2 -> no_builtin_decl a1 -> no_builtin_decl a2 ->
  same_needed a1 a2 -> all_fixed a1 -> type_check iter1 a1 = Ok r1 -> type_check iter2 a2 = Ok r2 -> r1 = r2.
Proof. exact same_results. Qed.
Print Assumptions C64_needed_only.
Theorem C64_added_declaration : forall a n t iter1 iter2, valid_schema a -> no_builtin_decl a -> all_fixed a -> addable a n t ->
  fair_order iter1 -> fair_order iter2 -> exists r, type_check iter1 a = Ok r /\ type_check iter2 (a ++ [NDecl n t]) = Ok r.
Proof. exact added_unused. Qed.
Print Assumptions C64_added_declaration.
Theorem C64_same_possibilities : forall a1 a2 r, no_builtin_decl a1 -> no_builtin_decl a2 -> valid_schema a1 -> valid_schema a2 -> same_needed a1 a2 ->
  (exists iter, fair_order iter /\ type_check iter a1 = Ok r) <-> (exists iter, fair_order iter /\ type_check iter a2 = Ok r).
Proof. exact same_possibilities. Qed.
Print Assumptions C64_same_possibilities.
Theorem C64_added_possibilities : forall a n t r, valid_schema a -> no_builtin_decl a -> addable a n t ->
  (exists iter, fair_order iter /\ type_check iter a = Ok r) <-> (exists iter, fair_order iter /\ type_check iter (a ++ [NDecl n t]) = Ok r).
Proof. exact added_possibilities. Qed.
Print Assumptions C64_added_possibilities.
(** a schema with two possible results *)
Example C64_possibilities_nonvacuous : valid_schema order_schema /\ no_builtin_decl order_schema /\
  addable order_schema "D" (AStruct [("a", arr "A"); ("b", opt "B"); ("n", plain "int8")]) /\
  exists r1 r2, (exists iter, fair_order iter /\ type_check iter order_schema = Ok r1) /\ (exists iter, fair_order iter /\ type_check iter order_schema = Ok r2) /\ r1 ≠ r2.
Proof. split; [exact order_valid|]. split; [exact order_names|]. split; [exact order_more|exact order_possible]. Qed.
Example C64_nonvacuous : valid_schema demo_schema /\ no_builtin_decl demo_schema /\ all_fixed demo_schema /\
  addable demo_schema "More" (AStruct [("outer", arr "Outer"); ("flag", opt "Flag"); ("n", plain "int8")]) /\
  same_needed demo_schema (demo_schema ++ [NDecl "More" (AEnum ["A"])]).
Proof.
  split; [exact demo_valid|]. split; [exact demo_names|]. split; [apply demo_facts|]. split; [exact more_addable|exact more_same].
Qed.

(** C65. Fields added at the end of the exported struct: the old code reads the packets of the new one, without the
    new fields; the new code rejects the packets of the old one, unless the new fields take no bytes: then it reads them. *)
Theorem C65_old_reads_new : forall a1 a2 extra rt str_ok, rt_ok rt str_ok -> small_enums a1 -> all_fixed a1 -> all_fixed a2 -> appended a1 a2 extra ->
  for_versions a1 a2 (fun k1 t1 k2 t2 => names_fine a1 k1 -> write_ready k2 -> forall vs h this bytes M h',
    has_type str_ok t2 (VRec vs) -> rep h this (VRec vs) -> writes rt k2 h this (Done (bytes, M)) ->
    exists l M', reads rt k1 h' bytes (Done (JLoc l, M')) /\ rep (m_heap M') (JLoc l) (VRec (take (length vs - length extra) vs))).
Proof. exact old_reads_new. Qed.
Print Assumptions C65_old_reads_new.
Theorem C65_new_rejects_old : forall a1 a2 extra rt str_ok, rt_ok rt str_ok -> str_ok [] -> small_enums a1 -> small_enums a2 -> all_fixed a1 -> all_fixed a2 ->
  appended a1 a2 extra -> ~ Forall (weightless a2) extra ->
  for_versions a1 a2 (fun k1 t1 k2 t2 => write_ready k1 -> names_fine a2 k2 -> forall v h this bytes M h',
    has_type str_ok t1 v -> rep h this v -> writes rt k1 h this (Done (bytes, M)) ->
    exists M', reads rt k2 h' bytes (Done (JNull, M'))).
Proof. exact new_rejects_old. Qed.
Print Assumptions C65_new_rejects_old.
Theorem C65_new_reads_old : forall a1 a2 extra rt str_ok, rt_ok rt str_ok -> small_enums a2 -> all_fixed a1 -> all_fixed a2 -> appended a1 a2 extra ->
  Forall (weightless a2) extra ->
  for_versions a1 a2 (fun k1 t1 k2 t2 => write_ready k1 -> names_fine a2 k2 -> forall vs h this bytes M h',
    has_type str_ok t1 (VRec vs) -> rep h this (VRec vs) -> writes rt k1 h this (Done (bytes, M)) ->
    exists ws l M', reads rt k2 h' bytes (Done (JLoc l, M')) /\ rep (m_heap M') (JLoc l) (VRec (vs ++ ws)) /\ ws.*1 = extra.*1).
Proof. exact new_reads_old. Qed.
Print Assumptions C65_new_reads_old.
Example C65_nonvacuous : usable msg_old /\ usable msg_long /\ appended msg_old msg_long [("tags", arr "uint16"); ("next", opt "Kind")] /\
  ~ Forall (weightless msg_long) [("tags", arr "uint16"); ("next", opt "Kind")] /\ latin1_ok [].
Proof. split; [apply msg_facts|]. split; [apply msg_facts|]. split; [exact msg_appended|]. split; [exact msg_weight|exact latin1_empty]. Qed.
Example C65_weightless : (accepted mark_old /\ plain_names mark_old /\ small_enums mark_old /\ all_fixed mark_old) /\
  (accepted mark_new /\ plain_names mark_new /\ small_enums mark_new /\ all_fixed mark_new) /\
  appended mark_old mark_new [("mark", plain "Nil")] /\ Forall (weightless mark_new) [("mark", plain "Nil")].
Proof. exact mark_facts. Qed.
Example C65_run : exists bytes, sent msg_long long_heap = Some bytes /\ received msg_old bytes = Some (Some ["kind"; "text"]) /\
  received msg_long (take 6 bytes) = Some None.
Proof. exact long_run. Qed.

(** C66. Variants added at the end of enums whose representation stays the same: the new code reads the packets of
    the old one; the old code reads the packets of the new one if they only use old variants, and rejects the others. *)
Theorem C66_new_reads_old : forall a1 a2 rt str_ok, rt_ok rt str_ok -> small_enums a2 -> all_fixed a1 -> all_fixed a2 -> grown a1 a2 ->
  for_versions a1 a2 (fun k1 t1 k2 t2 => write_ready k1 -> names_fine a2 k2 -> forall v h this bytes M h',
    has_type str_ok t1 v -> rep h this v -> writes rt k1 h this (Done (bytes, M)) ->
    exists l M', reads rt k2 h' bytes (Done (JLoc l, M')) /\ rep (m_heap M') (JLoc l) v).
Proof. exact new_reads_old_enums. Qed.
Print Assumptions C66_new_reads_old.
Theorem C66_old_reads_new : forall a1 a2 rt str_ok, rt_ok rt str_ok -> small_enums a1 -> small_enums a2 -> all_fixed a1 -> all_fixed a2 -> grown a1 a2 ->
  for_versions a1 a2 (fun k1 t1 k2 t2 => names_fine a1 k1 -> write_ready k2 -> forall v h this bytes M h',
    has_type str_ok t2 v -> rep h this v -> writes rt k2 h this (Done (bytes, M)) ->
    (has_type str_ok t1 v /\ exists l M', reads rt k1 h' bytes (Done (JLoc l, M')) /\ rep (m_heap M') (JLoc l) v) \/
    (~ has_type str_ok t1 v /\ exists M', reads rt k1 h' bytes (Done (JNull, M')))).
Proof. exact old_reads_new_enums. Qed.
Print Assumptions C66_old_reads_new.
(** The condition on the representation is needed: with the ninth variant every packet of the old code is lost. *)
Theorem C66_ninth_variant : usable (tiny_schema eight) /\ usable (tiny_schema (eight ++ ["I"])) /\ forall rt str_ok, rt_ok rt str_ok ->
  for_versions (tiny_schema eight) (tiny_schema (eight ++ ["I"])) (fun k1 t1 k2 t2 => forall v h this bytes M h',
    has_type str_ok t1 v -> rep h this v -> writes rt k1 h this (Done (bytes, M)) ->
    has_type str_ok t2 v /\ exists M', reads rt k2 h' bytes (Done (JNull, M'))).
Proof. exact ninth_refuted. Qed.
Print Assumptions C66_ninth_variant.
Example C66_nonvacuous : usable msg_old /\ usable msg_wide /\ grown msg_old msg_wide.
Proof. split; [apply msg_facts|]. split; [apply msg_facts|exact msg_grown]. Qed.
Example C66_run : (exists bytes, sent msg_wide (wide_heap 4) = Some bytes /\ received msg_wide bytes = Some (Some ["kind"; "text"]) /\ received msg_old bytes = Some None) /\
  (exists bytes, sent msg_wide (wide_heap 2) = Some bytes /\ received msg_old bytes = Some (Some ["kind"; "text"])).
Proof. exact wide_run. Qed.

(** C67. Names of types and fields are not transmitted: a renamed schema is accepted too, and values that differ in
    the names of fields only are written as the same bytes. *)
Theorem C67_renamed_accepted : forall a ty field iter1 iter2, good_renaming ty a -> good_field_renaming field a -> fair_order iter1 -> fair_order iter2 ->
  no_builtin_decl a -> is_ok (type_check iter1 a) -> is_ok (type_check iter2 (rename ty field a)).
Proof. exact renamed_accepted. Qed.
Print Assumptions C67_renamed_accepted.
Theorem C67_renamed_bytes : forall a ty field rt, good_renaming ty a -> all_fixed a ->
  for_versions a (rename ty field a) (fun k1 t1 k2 t2 => write_ready k1 -> write_ready k2 -> forall v1 v2 h1 h2 this1 this2,
    writable t1 v1 -> writable t2 v2 -> same_content v1 v2 -> rep h1 this1 v1 -> rep h2 this2 v2 ->
    exists bytes M1 M2, writes rt k1 h1 this1 (Done (bytes, M1)) /\ writes rt k2 h2 this2 (Done (bytes, M2))).
Proof. exact renamed_bytes. Qed.
Print Assumptions C67_renamed_bytes.
Example C67_nonvacuous : usable msg_long /\ good_renaming swap_names msg_long /\ good_field_renaming my_fields msg_long /\ usable (rename swap_names my_fields msg_long) /\
  rename swap_names my_fields msg_long ≠ msg_long.
Proof. split; [apply msg_facts|]. split; [apply swap_good|]. split; [apply swap_good|]. split; [exact swap_usable|done]. Qed.
