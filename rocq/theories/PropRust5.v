(** Property theorem C97: how long the emitted Rust can be. *)
From Verif Require Import GenWitness RsSize.

(** C97. No bound of the form K * length of the schema holds: structs are inlined where they are used, so the code can be
    exponentially longer than the schema. *)
Theorem C97_linear_size_refuted : forall K version now titer, fair_types titer -> exists s a iter r t,
  parse_schema s = POk a /\ fair_order iter /\ type_check iter a = Ok r /\
  rs_generate version now titer r = Ok t /\ K * length s < String.length t.
Proof. exact rs_size_refuted. Qed.
Print Assumptions C97_linear_size_refuted.
(** What holds: a bound by the size of the export with all structs written out where they are used, *)
Theorem C97_written_out_partial : exists K, forall s a iter r version now titer t, parse_schema s = POk a -> fair_order iter -> type_check iter a = Ok r ->
  fair_types titer -> rs_generate version now titer r = Ok t -> exists e k, exports a = [e] /\ written_out a 1 e k /\
  String.length t <= K * (length s + k) + String.length version + String.length now.
Proof. exact rs_size_written. Qed.
Print Assumptions C97_written_out_partial.
Example C97_written_out_nonvacuous : parse_schema (show_ast (tower 1)) = POk (tower 1) /\ is_ok (type_check iter_fwd (tower 1)) /\ written_out (tower 1) 1 "AA" 36.
Proof.
  split; [vm_compute; reflexivity|]. split; [vm_compute; eexists; reflexivity|].
  apply (written_struct _ 1 "AA" [("a", plain "A"); ("b", plain "A")] [16; 16]); [by left|].
  repeat constructor; cbn; apply (written_struct _ 3 "A" [("x", plain "uint8")] [11]); try (right; by left); repeat constructor; apply (bool_decide_unpack _); vm_compute; exact I.
Qed.
(** if the export contains no structs, a bound linear in the schema, unlike in TypeScript (C22_flat_refuted), *)
Theorem C97_flat_partial : exists K, forall s a e iter r version now titer t, parse_schema s = POk a -> exports a = [e] -> flat a e -> fair_order iter ->
  type_check iter a = Ok r -> fair_types titer -> rs_generate version now titer r = Ok t ->
  String.length t <= K * length s + String.length version + String.length now.
Proof. exact rs_size_flat. Qed.
Print Assumptions C97_flat_partial.
Example C97_flat_nonvacuous : exports (wide 3) = [nm 9] /\ flat (wide 3) (nm 9) /\ legal_ast (wide 3) /\ is_ok (type_check iter_fwd (wide 3)).
Proof. split; [reflexivity|]. split; [exact (wide_flat 3)|]. split; [exact (wide_legal 3)|]. vm_compute. eexists. reflexivity. Qed.
(** and for schemas whose structs are nested at most [d] deep a polynomial bound, of degree [d]. *)
Theorem C97_nested_partial : exists K, forall d s a e iter r version now titer t, parse_schema s = POk a -> exports a = [e] -> nested a d e -> fair_order iter ->
  type_check iter a = Ok r -> fair_types titer -> rs_generate version now titer r = Ok t ->
  String.length t <= K * (d * (2 * length s + 2) ^ d) + String.length version + String.length now.
Proof. exact rs_size_nested. Qed.
Print Assumptions C97_nested_partial.
Example C97_nested_nonvacuous : exports (tower 1) = ["AA"] /\ nested (tower 1) 2 "AA" /\ ~ nested (tower 1) 1 "AA" /\ is_ok (type_check iter_fwd (tower 1)).
Proof. exact tower_nested. Qed.
(** The degree cannot be smaller. *)
Theorem C97_degree_refuted : forall d K version now titer, fair_types titer -> exists s a e iter r t, parse_schema s = POk a /\ exports a = [e] /\ nested a (S d) e /\
  (forall n fs, declares_struct a n fs -> NoDup fs.*1) /\ fair_order iter /\ type_check iter a = Ok r /\
  rs_generate version now titer r = Ok t /\ K * length s ^ d < String.length t.
Proof. exact rs_degree_refuted. Qed.
Print Assumptions C97_degree_refuted.
