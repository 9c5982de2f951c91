(** Property theorems C100-C102: the text that src/lib/gen/rust.rs emits. *)
From Verif Require Import RsBrackets ParserWitness.

(** C100. Generation of Rust never panics on a checked schema. *)
Theorem C100_generation_total : forall iter a r version now titer, fair_order iter -> no_builtin_decl a -> type_check iter a = Ok r ->
  fair_types titer -> exists t, rs_generate version now titer r = Ok t.
Proof. exact rust_total. Qed.
Print Assumptions C100_generation_total.
Example C100_nonvacuous : fair_order iter_fwd /\ no_builtin_decl two_schema /\ fair_types types_fwd /\
  exists r, type_check iter_fwd two_schema = Ok r.
Proof.
  split; [exact fair_fwd|]. split; [by apply (bool_decide_unpack _); vm_compute|]. split; [exact fair_types_fwd|].
  destruct rust_order_visible as (r & _ & _ & H & _). by exists r.
Qed.
(** enums that the checker rejects do make it panic: the default is the first variant, and the values are computed in 32 bits *)
Example C100_needs_check : let run e := rs_generate "0" "now" types_fwd (Resolved (Export_ "P" []) {[ "E" := ("E", TEnum e) ]}) in
  (exists m, run (Enum U8 []) = Panic m) /\ (exists m, run (Enum U32 [EnumVariant "x" 32]) = Panic m).
Proof. split; eexists; vm_compute; reflexivity. Qed.

(** C101. Brackets nest and close at the indentation of the line that opened them. *)
Theorem C101_well_bracketed : forall iter a r version now titer t,
  fair_order iter -> no_builtin_decl a -> legal_ast a -> fair_types titer -> plain_text version -> plain_text now ->
  type_check iter a = Ok r -> rs_generate version now titer r = Ok t -> well_bracketed t.
Proof. exact rust_well_bracketed. Qed.
Print Assumptions C101_well_bracketed.
Example C101_nonvacuous : legal_ast complex_ast /\ no_builtin_decl complex_ast /\ is_ok (type_check iter_fwd complex_ast) /\
  fair_types types_fwd /\ plain_text "0.1.0" /\ plain_text "2021-06-01T12:00:00Z".
Proof.
  split; [exact (proj1 legal_examples)|]. split; [by apply (bool_decide_unpack _); vm_compute|].
  split; [apply okb_ok; vm_compute; done|]. split; [exact fair_types_fwd|].
  split; (repeat (split; [try done; by intros [?|[?|?]]|])); exact I.
Qed.
(** a name with a bracket in it would break this *)
Example C101_needs_names : exists r t, type_check iter_fwd [NDecl "P" (AStruct [("a}", plain "uint8")]); NExport "P"] = Ok r /\
  rs_generate "0" "now" types_fwd r = Ok t /\ ~ well_bracketed t.
Proof. eexists _, _. split; [vm_compute; reflexivity|]. split; [vm_compute; reflexivity|]. intros (? & ? & ? & H). by vm_compute in H. Qed.

(** C102. Two runs differ at most in the timestamp and in the order of the items. *)
Theorem C102_two_runs : forall iter a r version now1 now2 titer1 titer2,
  fair_order iter -> no_builtin_decl a -> type_check iter a = Ok r -> fair_types titer1 -> fair_types titer2 ->
  exists pre post ds1 ds2, ds1 ≡ₚ ds2 /\ Forall (fun d => exists t, d = "#[derive(Clone, " +:+ t) ds1 /\
    rs_generate version now1 titer1 r = Ok ("// Generated by packetc v" +:+ version +:+ " at " +:+ now1 +:+ pre +:+ concat_str ds1 +:+ post) /\
    rs_generate version now2 titer2 r = Ok ("// Generated by packetc v" +:+ version +:+ " at " +:+ now2 +:+ pre +:+ concat_str ds2 +:+ post).
Proof. exact rust_two_runs. Qed.
Print Assumptions C102_two_runs.
Example C102_nonvacuous : fair_types types_fwd /\ fair_types types_rev /\ exists r t1 t2, type_check iter_fwd two_schema = Ok r /\
  rs_generate "0" "now" types_fwd r = Ok t1 /\ rs_generate "0" "now" types_rev r = Ok t2 /\ t1 ≠ t2.
Proof. exact (conj fair_types_fwd (conj fair_types_rev rust_order_visible)). Qed.
