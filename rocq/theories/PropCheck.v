(** Property theorems C06-C17, C47, C70 and C90: the type checker. *)
From Verif Require Import CheckErrorProofs CheckWitness OrderProofs RepeatProofs.

(** C06. type_check always returns Ok or Err, whatever the AST and the hash order. *)
Theorem C06_type_check_total : forall iter a, fair_order iter -> returns (type_check iter a).
Proof. exact type_check_returns. Qed.
Print Assumptions C06_type_check_total.
Example C06_nonvacuous : fair_order iter_fwd /\ fair_order iter_rev.
Proof. exact (conj fair_fwd fair_rev). Qed.

(** C07. Acceptance is validity. *)
Theorem C07_accepts_exactly_valid : forall iter a, fair_order iter -> no_builtin_decl a ->
  is_ok (type_check iter a) <-> valid_schema a.
Proof. exact type_check_valid. Qed.
Print Assumptions C07_accepts_exactly_valid.
Example C07_nonvacuous : no_builtin_decl demo_schema /\ valid_schema demo_schema /\
  no_builtin_decl cycle_schema /\ ~ valid_schema cycle_schema.
Proof.
  split; [exact demo_names|]. split; [exact demo_valid|].
  assert (no_builtin_decl cycle_schema) as H by by apply (bool_decide_unpack _); vm_compute.
  split; [exact H|]. rewrite <-(type_check_valid iter_fwd _ fair_fwd H). intros [r Hr].
  assert (okb (type_check iter_fwd cycle_schema) = true) by by rewrite Hr. by vm_compute in H0.
Qed.

(** C08. The verdict does not depend on the hash order. *)
Theorem C08_verdict_order_independent : forall iter1 iter2 a, fair_order iter1 -> fair_order iter2 ->
  is_ok (type_check iter1 a) <-> is_ok (type_check iter2 a).
Proof. exact verdict_order_independent. Qed.
Print Assumptions C08_verdict_order_independent.
Example C08_nonvacuous : exists i1 i2, fair_order i1 /\ fair_order i2 /\
  names_of (type_check i1 order_schema) ≠ names_of (type_check i2 order_schema).
Proof. destruct two_orders as (i1 & i2 & ? & ? & E1 & E2). exists i1, i2. rewrite E1, E2. split_and!; [done..|]. intros [=]. Qed.

(** C09. The result holds exactly the types that the export needs, and the export itself. *)
Theorem C09_result_is_what_export_needs : forall iter a r,
  fair_order iter -> no_builtin_decl a -> type_check iter a = Ok r ->
  exports a = [x_name (r_export r)] /\
  r_types r !! x_name (r_export r) = Some (x_name (r_export r), TStruct (x_fields (r_export r))) /\
  (forall n, is_Some (r_types r !! n) <-> needed a (x_name (r_export r)) n).
Proof.
  exact (fun iter a r Hf Hn Hr =>
    match type_check_result iter a r Hf Hn Hr with
    | conj H1 (conj H2 (conj H3 _)) => conj H1 (conj H2 H3) end).
Qed.
Print Assumptions C09_result_is_what_export_needs.
Example C09_nonvacuous : is_ok (type_check iter_fwd demo_schema) /\
  is_Some (type_of (type_check iter_fwd demo_schema) "Complex") /\
  type_of (type_check iter_fwd demo_schema) "Unused" = None /\
  type_of (type_check iter_fwd demo_schema) "int16" = None.
Proof. split; [exact demo_accepted|]. split; [vm_compute; eexists; reflexivity|]. split; vm_compute; reflexivity. Qed.

(** C10. Every entry of the result is what the schema declares, and every field is bound to the
    definition that its type name has in the result. *)
Theorem C10_resolution_faithful : forall iter a r,
  fair_order iter -> no_builtin_decl a -> type_check iter a = Ok r ->
  forall n m t, r_types r !! n = Some (m, t) -> m = n /\ entry_matches a (r_types r) n t.
Proof.
  exact (fun iter a r Hf Hn Hr =>
    match type_check_result iter a r Hf Hn Hr with conj _ (conj _ (conj _ H)) => H end).
Qed.
Print Assumptions C10_resolution_faithful.
Example C10_nonvacuous : is_ok (type_check iter_fwd demo_schema) /\
  type_of (type_check iter_fwd demo_schema) "Position" =
    Some (TStruct [SField "x" "float" (TBuiltin Float) false false; SField "y" "float" (TBuiltin Float) false false]) /\
  type_of (type_check iter_fwd demo_schema) "Flag" =
    Some (TEnum (Enum U8 [EnumVariant "A" 0; EnumVariant "B" 1])).
Proof. split; [exact demo_accepted|]. split; vm_compute; reflexivity. Qed.

(** C11. Full claim: the declared order of fields is kept. False: *)
Theorem C11_field_order_refuted : exists a iter r n fs,
  no_builtin_decl a /\ fair_order iter /\ type_check iter a = Ok r /\
  needed a (x_name (r_export r)) n /\ declares_struct a n fs /\ ~ keeps_order (r_types r) n fs.
Proof. exact field_order_refuted. Qed.
Print Assumptions C11_field_order_refuted.
(** ... and the same schema gets two different layouts under two hash orders. *)
Theorem C11_two_layouts_refuted : exists i1 i2, fair_order i1 /\ fair_order i2 /\
  names_of (type_check i1 order_schema) = Ok ["b"; "x"] /\
  names_of (type_check i2 order_schema) = Ok ["x"; "b"].
Proof. exact two_orders. Qed.
Print Assumptions C11_two_layouts_refuted.
(** What holds: structs in which every earlier field has a shallow type or one that the later
    field's type contains. *)
Theorem C11_field_order_partial : forall iter a r n fs,
  fair_order iter -> no_builtin_decl a -> type_check iter a = Ok r ->
  needed a (x_name (r_export r)) n -> declares_struct a n fs -> order_fixed a fs ->
  keeps_order (r_types r) n fs.
Proof. exact order_fixed_keeps. Qed.
Print Assumptions C11_field_order_partial.

(** C47. The criterion is exact: these are the only structs whose order every run keeps. *)
Theorem C47_order_criterion_necessary : forall a n fs,
  valid_schema a -> no_builtin_decl a -> declares_struct a n fs ->
  (exists e, exports a = [e] /\ needed a e n) ->
  (forall iter r, fair_order iter -> type_check iter a = Ok r -> keeps_order (r_types r) n fs) ->
  order_fixed a fs.
Proof. exact keeps_order_fixed. Qed.
Print Assumptions C47_order_criterion_necessary.
Example C11_nonvacuous : order_fixed demo_schema [("id", plain "uint16"); ("inner", plain "Complex")] /\
  declares_struct demo_schema "Outer" [("id", plain "uint16"); ("inner", plain "Complex")] /\
  ~ shallow demo_schema "Complex".
Proof.
  split; [|split].
  - intros i j di dj Hij Hi Hj. destruct i as [|[|i]]; simpl in Hi; [|destruct j as [|[|j]]; simpl in Hj; try done; lia|done].
    injection Hi as <-. left. left. simpl. set_solver.
  - do 4 right. by left.
  - intros [H|[[vs H]|(fs & H & Hb)]].
    + apply (bool_decide_pack _) in H. by vm_compute in H.
    + unfold declares_enum, demo_schema in H.
      repeat (apply elem_of_cons in H as [[=]|H]). by apply elem_of_nil in H.
    + assert (fs = [("flag", plain "Flag"); ("pos", opt "Position"); ("names", arr "string"); ("values", arr "Value")]) as ->.
      { unfold declares_struct, demo_schema in H.
        repeat (apply elem_of_cons in H as [[=]|H]; try done). by apply elem_of_nil in H. }
      assert ("Flag" ∈ builtin_names) as Hf by (apply (Hb ("flag", plain "Flag")); by left).
      apply (bool_decide_pack _) in Hf. by vm_compute in Hf.
Qed.

(** C90. The orders of the fields of a struct that runs can choose are exactly these: the fields of the types that have
    been resolved before come first. *)
Theorem C90_field_orders : forall a e n fs ds, valid_schema a -> no_builtin_decl a -> declares_struct a n fs -> exports a = [e] -> needed a e n ->
  (exists iter r, fair_order iter /\ type_check iter a = Ok r /\ keeps_order (r_types r) n ds) <-> exists S, done_before a n S /\ ds = arrangement S fs.
Proof. exact layouts. Qed.
Print Assumptions C90_field_orders.
Example C90_nonvacuous : done_before order_schema "A" (list_to_set ("C" :: builtin_names)) /\ done_before order_schema "A" (list_to_set ("B" :: "C" :: builtin_names)) /\
  arrangement (list_to_set ("C" :: builtin_names)) [("b", plain "B"); ("x", plain "uint8")] = [("x", plain "uint8"); ("b", plain "B")] /\
  arrangement (list_to_set ("B" :: "C" :: builtin_names)) [("b", plain "B"); ("x", plain "uint8")] = [("b", plain "B"); ("x", plain "uint8")].
Proof. exact order_example. Qed.

(** C12. Full claim: a struct with two fields of one name is rejected. False: *)
Theorem C12_duplicate_fields_refuted : exists a iter n fs, no_builtin_decl a /\ fair_order iter /\
  declares_struct a n fs /\ ~ NoDup fs.*1 /\ is_ok (type_check iter a).
Proof. exact duplicate_field_refuted. Qed.
Print Assumptions C12_duplicate_fields_refuted.
(** What holds: a field that repeats the name of an earlier one is rejected if all fields before
    it have builtin types. *)
Theorem C12_duplicate_fields_partial : forall iter a n fs d pre post,
  fair_order iter -> no_builtin_decl a ->
  declares_struct a n fs -> fs = pre ++ d :: post -> d.1 ∈ pre.*1 ->
  (forall d, d ∈ pre -> u_name d.2 ∈ builtin_names) -> exists m, type_check iter a = Err m.
Proof. exact rejects_duplicates_builtin. Qed.
Print Assumptions C12_duplicate_fields_partial.
(** Exactly: if nothing else is wrong with a schema, it is accepted iff every field that repeats a name stands after a
    field of a declared type. *)
Theorem C12_criterion_partial : forall iter a, fair_order iter -> no_builtin_decl a -> valid_but_fields a ->
  is_ok (type_check iter a) <-> repeats_late a.
Proof. exact repeats_criterion. Qed.
Print Assumptions C12_criterion_partial.
Example C12_criterion_nonvacuous :
  (valid_but_fields (repeat_schema "F" "uint8") /\ no_builtin_decl (repeat_schema "F" "uint8") /\ repeats_late (repeat_schema "F" "uint8") /\
    is_ok (type_check iter_fwd (repeat_schema "F" "uint8"))) /\
  (valid_but_fields (repeat_schema "uint8" "F") /\ no_builtin_decl (repeat_schema "uint8" "F") /\ ~ repeats_late (repeat_schema "uint8" "F")).
Proof. exact repeat_witness. Qed.
Example C12_nonvacuous : exists d pre post,
  [("x", plain "uint8"); ("x", plain "B"); ("b", plain "B")] = pre ++ d :: post /\ d.1 ∈ pre.*1 /\
  forall d, d ∈ pre -> u_name d.2 ∈ builtin_names.
Proof.
  exists ("x", plain "B"), [("x", plain "uint8")], [("b", plain "B")]. split; [done|].
  split; [by left|]. intros d ->%elem_of_list_singleton. by left.
Qed.

(** C13. Enums get the smallest representation; variant i is number i, and bit i fits in it. *)
Theorem C13_enum_numbering : forall iter a r n m en,
  fair_order iter -> no_builtin_decl a -> type_check iter a = Ok r ->
  r_types r !! n = Some (m, TEnum en) ->
  exists vs, declares_enum a n vs /\ 1 <= length vs <= 32 /\
    (ev_name <$> e_variants en) = vs /\
    smallest_repr (length vs) (e_repr en) /\
    forall i v, e_variants en !! i = Some v -> ev_value v = i /\ 2 ^ i < 2 ^ repr_bits (e_repr en).
Proof. exact enum_numbers. Qed.
Print Assumptions C13_enum_numbering.
Example C13_nonvacuous : is_ok (type_check iter_fwd demo_schema) /\
  type_of (type_check iter_fwd demo_schema) "Flag" =
    Some (TEnum (Enum U8 [EnumVariant "A" 0; EnumVariant "B" 1])).
Proof. split; [exact demo_accepted|]. vm_compute; reflexivity. Qed.

(** C14. Full claim: the message is a function of the schema. False, and the message can be wrong
    about the schema: *)
Theorem C14_message_refuted : exists a i1 i2 m1 m2, no_builtin_decl a /\ fair_order i1 /\ fair_order i2 /\
  type_check i1 a = Err m1 /\ type_check i2 a = Err m2 /\ m1 ≠ m2.
Proof. exact message_refuted. Qed.
Print Assumptions C14_message_refuted.
Theorem C14_message_wrong_refuted : exists a iter n, no_builtin_decl a /\ fair_order iter /\ n ∈ decl_names a /\
  type_check iter a = Err ("Declaration for type '" +:+ n +:+ "' does not exist").
Proof. exact message_false. Qed.
Print Assumptions C14_message_wrong_refuted.
(** What holds: schemas with a defect that is found before the second pass. *)
Theorem C14_message_partial : forall a i1 i2, early_defect a -> type_check i1 a = type_check i2 a.
Proof. exact early_defect_message. Qed.
Print Assumptions C14_message_partial.
(** And acyclic schemas whose defects all have one message, under every hash order. *)
Theorem C14_single_defect_partial : forall iter a m, fair_order iter -> no_builtin_decl a -> ~ valid_schema a ->
  (forall n, ~ tc (refers a) n n) -> (forall m', defect a m' -> m' = m) -> type_check iter a = Err m.
Proof. exact single_defect. Qed.
Print Assumptions C14_single_defect_partial.
Example C14_single_nonvacuous : no_builtin_decl late_schema /\ ~ valid_schema late_schema /\ (forall n, ~ tc (refers late_schema) n n) /\
  (forall m', defect late_schema m' -> m' = "Declaration for type 'Nope' does not exist").
Proof. exact late_single. Qed.
Example C14_nonvacuous : early_defect (NExport "X" :: demo_schema).
Proof. left. intros e. done. Qed.

(** C15. Recursive types are rejected. *)
Theorem C15_cycles_rejected : forall iter a n, fair_order iter -> no_builtin_decl a -> tc (refers a) n n ->
  exists m, type_check iter a = Err m.
Proof. exact rejects_cycles. Qed.
Print Assumptions C15_cycles_rejected.
Example C15_nonvacuous : no_builtin_decl cycle_schema /\ tc (refers cycle_schema) "X" "X".
Proof.
  split; [by apply (bool_decide_unpack _); vm_compute|].
  apply (tc_l _ _ "Y"). { exists [("y", opt "Y")], "y", (opt "Y"). split; [right; by left|]. split; [by left|done]. }
  apply (tc_l _ _ "Z"). { exists [("z", arr "Z")], "z", (arr "Z"). split; [do 2 right; by left|]. split; [by left|done]. }
  apply tc_once. exists [("k", plain "uint8"); ("x", plain "X")], "x", (plain "X").
  split; [do 3 right; by left|]. split; [right; by left|done].
Qed.

(** C16. Optional arrays are rejected. *)
Theorem C16_optional_arrays_rejected : forall iter a n fs f u, fair_order iter -> no_builtin_decl a ->
  declares_struct a n fs -> (f, u) ∈ fs -> u_array u = true -> u_opt u = true ->
  exists m, type_check iter a = Err m.
Proof. exact rejects_optional_arrays. Qed.
Print Assumptions C16_optional_arrays_rejected.
Example C16_nonvacuous : exists a n fs f u, no_builtin_decl a /\ declares_struct a n fs /\ (f, u) ∈ fs /\
  u_array u = true /\ u_opt u = true /\ exports a = ["P"] /\ n ≠ "P".
Proof.
  exists [NDecl "P" (AStruct []); NDecl "Q" (AStruct [("p", plain "P"); ("q", Unresolved "P" true true)]); NExport "P"].
  exists "Q", [("p", plain "P"); ("q", Unresolved "P" true true)], "q", (Unresolved "P" true true).
  split; [by apply (bool_decide_unpack _); vm_compute|]. split; [right; by left|]. split; [right; by left|]. done.
Qed.

(** C17. Unknown type names are rejected. *)
Theorem C17_unknown_types_rejected : forall iter a n fs f u, fair_order iter -> no_builtin_decl a ->
  declares_struct a n fs -> (f, u) ∈ fs -> u_name u ∉ builtin_names -> u_name u ∉ decl_names a ->
  exists m, type_check iter a = Err m.
Proof. exact rejects_unknown. Qed.
Print Assumptions C17_unknown_types_rejected.
Example C17_nonvacuous : exists a n fs f u, no_builtin_decl a /\ declares_struct a n fs /\ (f, u) ∈ fs /\
  u_name u ∉ builtin_names /\ u_name u ∉ decl_names a /\ exports a = ["P"] /\ n ≠ "P".
Proof.
  exists [NDecl "P" (AStruct []); NDecl "Q" (AStruct [("p", plain "P"); ("q", plain "Nope")]); NExport "P"].
  exists "Q", [("p", plain "P"); ("q", plain "Nope")], "q", (plain "Nope").
  split; [by apply (bool_decide_unpack _); vm_compute|]. split; [right; by left|]. split; [right; by left|].
  split; [by apply (bool_decide_unpack _); vm_compute|]. split; [by apply (bool_decide_unpack _); vm_compute|]. done.
Qed.

(** C70. Full claim: an error message describes a defect that the schema has. False: *)
Theorem C70_messages_refuted : exists a iter m, no_builtin_decl a /\ fair_order iter /\ type_check iter a = Err m /\ ~ defect a m.
Proof. exact message_not_defect. Qed.
Print Assumptions C70_messages_refuted.
(** What holds: it does, or the message says of a type that refers to itself that its declaration does not exist. *)
Theorem C70_messages_partial : forall iter a m, fair_order iter -> type_check iter a = Err m ->
  defect a m \/ exists n, tc (refers a) n n /\ m = "Declaration for type '" +:+ n +:+ "' does not exist".
Proof. exact check_errors_true. Qed.
Print Assumptions C70_messages_partial.
Example C70_nonvacuous : map (type_check iter_fwd)
  [ [NDecl "P" (AStruct [])];
    [NDecl "P" (AStruct []); NExport "P"; NExport "P"];
    [NDecl "P" (AStruct []); NDecl "P" (AEnum ["A"]); NExport "P"];
    [NDecl "E" (AEnum []); NDecl "P" (AStruct []); NExport "P"];
    [NDecl "E" (AEnum (replicate 33 "A")); NDecl "P" (AStruct []); NExport "P"];
    [NDecl "E" (AEnum ["A"; "B"; "A"]); NDecl "P" (AStruct []); NExport "P"];
    [NDecl "P" (AStruct [("x", plain "uint8"); ("x", plain "float")]); NExport "P"];
    [NDecl "P" (AStruct [("q", plain "Q"); ("r", Unresolved "Q" true true)]); NDecl "Q" (AStruct []); NExport "P"];
    late_schema;
    [NDecl "Q" (AStruct [("q", plain "Q")]); NDecl "P" (AStruct []); NExport "P"];
    [NDecl "E" (AEnum ["A"]); NExport "E"];
    [NDecl "P" (AStruct []); NExport "Q"] ] =
  [ Err "Schema has no export";
    Err "Schema has more than one export";
    Err "Schema has duplicate declaration: P";
    Err "Enum 'E' must have at least one variant";
    Err "Enum 'E' has too many variants (33/32)";
    Err "Duplicate variant 'A' on enum 'E'";
    Err "Duplicate field 'x' on struct 'P'";
    Err "Field 'r' in struct 'P' cannot be optional and array at once";
    Err "Declaration for type 'Nope' does not exist";
    Err "Found a cycle between two or more top level definitions in type 'Q'";
    Err "Attempted to export 'E', which is not a struct";
    Err "Export 'Q' could not be resolved" ].
Proof. vm_compute. reflexivity. Qed.
