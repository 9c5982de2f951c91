(** Schemas that witness the statements of PropThrow.v. *)
From Verif Require Export TsThrow WireWitness.

Lemma plain_no_proto a : plain_names a -> no_proto_fields a.
Proof. intros [_ H _] e n fs He HN Hd. by apply (H e n fs). Qed.
Lemma demo_throw : accepted demo_schema /\ small_enums demo_schema /\ no_proto_fields demo_schema /\ result_names demo_schema.
Proof.
  destruct demo_facts as (_ & H1 & H2 & H3 & _). split; [done|]. split; [done|]. split; [by apply plain_no_proto|].
  destruct H2. by constructor.
Qed.
(** the length of P is an enum *)
Definition length_schema : ast := [NDecl "E" (AEnum ["A"; "B"]); NDecl "P" (AStruct [("length", plain "E")]); NExport "P"].
Definition length_export : export := Export_ "P" [SField "length" "E" (TEnum (Enum U8 [EnumVariant "A" 0; EnumVariant "B" 1])) false false].
Lemma length_facts : accepted length_schema /\ small_enums length_schema /\ no_proto_fields length_schema /\
  export_of length_schema = Ok length_export /\ single_enum length_schema (plain "E").
Proof.
  assert (export_of length_schema = Ok length_export) as Hx by by vm_compute.
  split; [eapply accepted_export; [solve_legal|exact Hx]|]. split; [decl_cases; cbn; lia|]. split; [intros e n fs _ _; revert n fs; decl_cases; apply (bool_decide_unpack _); by vm_compute|].
  split; [exact Hx|]. split; [done|]. exists ["A"; "B"]. by left.
Qed.
Definition read_result (x : export) (data : list ascii) : option (out val) :=
  match call_read latin1 20 (class_of x) [] data with
  | Some (Done (v, _)) => Some (Done v) | Some (Throws e) => Some (Throws e) | Some (Stuck) => Some Stuck | None => None end.
Lemma length_runs : read_result length_export [ascii_of_N 2] = Some (Throws "TypeError") /\
  read_result length_export [ascii_of_N 3] = Some (Done JNull).
Proof. split; by vm_compute. Qed.
Lemma no_units_ok : latin1_ok [].
Proof. constructor. Qed.
