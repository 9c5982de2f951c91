(** Property theorems C18-C23, C50 and C60: the TypeScript generator.

    [for_text a P] says that the text which any successful run of the compiler on the schema [a] emits can be read by
    the reader of TsText.v, and that [P] holds of the declarations and of the class it reads. *)
From Verif Require Import GenSize5 ParserWitness GenWitness.

(** C18. Generation never panics on a checked schema. *)
Theorem C18_generation_total : forall iter a r version now titer,
  fair_order iter -> no_builtin_decl a -> type_check iter a = Ok r ->
  exists t, generate version now titer r = Ok t.
Proof. exact (fun iter a r version now titer Hf Hn Hr => ex_intro _ _ (generate_ok iter a r version now titer Hf Hn Hr)). Qed.
Print Assumptions C18_generation_total.
Example C18_nonvacuous : fair_order iter_fwd /\ no_builtin_decl demo_schema /\
  exists r, type_check iter_fwd demo_schema = Ok r /\ generate "0" "now" types_fwd r ≠ Ok "".
Proof. exact (conj fair_fwd (conj demo_names demo_result)). Qed.

(** C19. Brackets nest and close at the indentation of the line that opened them. *)
Theorem C19_well_bracketed : forall iter a r version now titer t,
  fair_order iter -> no_builtin_decl a -> legal_ast a -> fair_types titer -> plain_text version -> plain_text now ->
  type_check iter a = Ok r -> generate version now titer r = Ok t -> well_bracketed t.
Proof. exact generated_well_bracketed. Qed.
Print Assumptions C19_well_bracketed.
Example C19_nonvacuous : legal_ast complex_ast /\ no_builtin_decl complex_ast /\ is_ok (type_check iter_fwd complex_ast) /\
  fair_types types_fwd /\ plain_text "0.1.0" /\ plain_text "2021-06-01T12:00:00Z".
Proof.
  split; [exact (proj1 legal_examples)|]. split; [by apply (bool_decide_unpack _); vm_compute|].
  split; [apply okb_ok; vm_compute; done|]. split; [exact fair_types_fwd|].
  split; (repeat (split; [try done; by intros [?|[?|?]]|])); exact I.
Qed.
(** the scan rejects wrong nesting and wrong indentation *)
Example C19_discriminates : ~ well_bracketed "{(})" /\ ~ well_bracketed "(" /\
  ~ well_bracketed ("  {" +:+ NL +:+ "}") /\ well_bracketed ("  {" +:+ NL +:+ "  }").
Proof.
  split; [|split; [|split]]; [intros (?&?&?&H); by vm_compute in H..|]. eexists _, _, _. vm_compute. reflexivity.
Qed.

(** C20. The namespace declares the user types that the export needs, each once, and nothing else. *)
Theorem C20_declared_types : forall a, for_text a (fun ds k => exports a = [k_name k] /\ NoDup (decl_name <$> ds) /\
  forall n, n ∈ decl_name <$> ds <-> n ≠ k_name k /\ n ∉ builtin_names /\ needed a (k_name k) n).
Proof. exact declared_types. Qed.
Print Assumptions C20_declared_types.
Theorem C20_mentioned_types : forall a, for_text a (fun ds k => forall n fs f u, n = k_name k \/ n ∈ decl_name <$> ds ->
  declares_struct a n fs -> (f, u) ∈ fs -> u_name u ∈ builtin_names \/ u_name u ∈ decl_name <$> ds).
Proof. exact mentioned_types. Qed.
Print Assumptions C20_mentioned_types.
Example C20_nonvacuous : legal_ast demo_schema /\
  (do r <- type_check iter_fwd demo_schema; do t <- generate "0.1.0" "2021-06-01 12:00" types_fwd r;
   Ok (match read_ts t with Some (ds, k) => Some (List.map decl_name ds, k_name k) | None => None end)) = Ok (Some (["Position"; "Flag"; "Value"; "Complex"], "Outer")).
Proof. split; [exact demo_legal|]. vm_compute. reflexivity. Qed.

(** C21. Two runs differ at most in the timestamp and in the order of the declarations. *)
Theorem C21_two_runs : forall iter a r version now1 now2 titer1 titer2,
  fair_order iter -> no_builtin_decl a -> type_check iter a = Ok r -> fair_types titer1 -> fair_types titer2 ->
  exists pre post ds1 ds2, ds1 ≡ₚ ds2 /\ Forall (fun d => exists t, d = "    export " +:+ t) ds1 /\
    generate version now1 titer1 r = Ok ("// Generated by packetc v" +:+ version +:+ " at " +:+ now1 +:+ pre +:+ concat_str ds1 +:+ post) /\
    generate version now2 titer2 r = Ok ("// Generated by packetc v" +:+ version +:+ " at " +:+ now2 +:+ pre +:+ concat_str ds2 +:+ post).
Proof. exact two_runs. Qed.
Print Assumptions C21_two_runs.
Example C21_nonvacuous : fair_types types_fwd /\ fair_types types_rev /\
  exists r, type_check iter_fwd two_schema = Ok r /\ generate "0" "now" types_fwd r ≠ generate "0" "now" types_rev r.
Proof. exact (conj fair_types_fwd (conj fair_types_rev order_visible)). Qed.

(** C22. No bound of the form K * length of the schema holds: structs are inlined where they are
    used, so the code can be exponentially longer than the schema. *)
Theorem C22_linear_size_refuted : forall K version now titer, exists s a iter r t,
  parse_schema s = POk a /\ fair_order iter /\ type_check iter a = Ok r /\
  generate version now titer r = Ok t /\ K * length s < String.length t.
Proof. exact size_refuted. Qed.
Print Assumptions C22_linear_size_refuted.
(** Nor without nested structs: the name of the export is repeated for every field with an enum type. *)
Theorem C22_flat_refuted : forall K version now titer, fair_types titer -> exists s a e iter r t, parse_schema s = POk a /\ exports a = [e] /\ flat a e /\
  (forall n fs, declares_struct a n fs -> NoDup fs.*1) /\ fair_order iter /\ type_check iter a = Ok r /\
  generate version now titer r = Ok t /\ K * length s < String.length t.
Proof. exact flat_refuted. Qed.
Print Assumptions C22_flat_refuted.
(** What holds: a bound by the size of the export with all structs written out where they are used, *)
Theorem C22_unfolded_partial : exists K, forall s a iter r version now titer t, parse_schema s = POk a -> fair_order iter -> type_check iter a = Ok r ->
  fair_types titer -> generate version now titer r = Ok t -> exists e k, exports a = [e] /\ unfolded a 1 e k /\
  String.length t <= K * ((String.length e + 1) * length s + k) + String.length version + String.length now.
Proof. exact size_unfolded. Qed.
Print Assumptions C22_unfolded_partial.
Example C22_unfolded_nonvacuous : parse_schema (show_ast (tower 1)) = POk (tower 1) /\ is_ok (type_check iter_fwd (tower 1)) /\ unfolded (tower 1) 1 "AA" 22.
Proof.
  split; [vm_compute; reflexivity|]. split; [vm_compute; eexists; reflexivity|].
  apply (unfolded_struct _ 1 "AA" [("a", plain "A"); ("b", plain "A")] [10; 10]); [by left|].
  repeat constructor; cbn; apply (unfolded_struct _ 3 "A" [("x", plain "uint8")] [6]); try (right; by left); repeat constructor; apply (bool_decide_unpack _); vm_compute; exact I.
Qed.
(** and if the export contains no structs, a bound linear in the schema but for the name of the export. *)
Theorem C22_flat_partial : exists K, forall s a e iter r version now titer t, parse_schema s = POk a -> exports a = [e] -> flat a e -> fair_order iter ->
  type_check iter a = Ok r -> fair_types titer -> generate version now titer r = Ok t ->
  String.length t <= K * ((String.length e + 1) * length s) + String.length version + String.length now.
Proof. exact size_flat. Qed.
Print Assumptions C22_flat_partial.
Example C22_flat_nonvacuous : exports (wide 3) = [nm 9] /\ flat (wide 3) (nm 9) /\ legal_ast (wide 3) /\ is_ok (type_check iter_fwd (wide 3)).
Proof. split; [reflexivity|]. split; [exact (wide_flat 3)|]. split; [exact (wide_legal 3)|]. vm_compute. eexists. reflexivity. Qed.

(** and for schemas whose structs are nested at most [d] deep a polynomial bound, of degree [d] but for the name of the export. *)
Theorem C22_nested_partial : exists K, forall d s a e iter r version now titer t, parse_schema s = POk a -> exports a = [e] -> nested a d e -> fair_order iter ->
  type_check iter a = Ok r -> fair_types titer -> generate version now titer r = Ok t ->
  String.length t <= K * ((String.length e + 1) * length s + d * (2 * length s + 2) ^ d) + String.length version + String.length now.
Proof. exact size_nested. Qed.
Print Assumptions C22_nested_partial.
Example C22_nested_nonvacuous : exports (tower 1) = ["AA"] /\ nested (tower 1) 2 "AA" /\ ~ nested (tower 1) 1 "AA" /\ is_ok (type_check iter_fwd (tower 1)).
Proof. exact tower_nested. Qed.
(** The degree cannot be smaller. *)
Theorem C22_degree_refuted : forall d K version now titer, exists s a e iter r t, parse_schema s = POk a /\ exports a = [e] /\ nested a (S d) e /\
  (forall n fs, declares_struct a n fs -> NoDup fs.*1) /\ fair_order iter /\ type_check iter a = Ok r /\
  generate version now titer r = Ok t /\ K * length s ^ d < String.length t.
Proof. exact degree_refuted. Qed.
Print Assumptions C22_degree_refuted.

(** C23. Full claim: no block of read or write declares a local twice. False in general (below); here is exactly when
    it holds: in every struct that the export needs, the fields are kept apart by what follows their names. *)
Theorem C23_locals_criterion_partial : forall a, for_text a (fun ds k =>
  (read_ok k <-> forall n fs, needed a (k_name k) n -> declares_struct a n fs -> kept_apart (read_local a) fs) /\
  (write_ok k <-> forall n fs, needed a (k_name k) n -> declares_struct a n fs -> kept_apart (write_local a) fs)).
Proof. exact locals_criterion. Qed.
Print Assumptions C23_locals_criterion_partial.
Example C23_criterion_nonvacuous :
  (forall n fs, declares_struct snake_schema n fs -> kept_apart (read_local snake_schema) fs /\ kept_apart (write_local snake_schema) fs) /\
  (exists fs, declares_struct clash_string "P" fs /\ ~ kept_apart (read_local clash_string) fs) /\
  (exists fs, declares_struct clash_opt "P" fs /\ ~ kept_apart (write_local clash_opt) fs).
Proof. exact criterion_facts. Qed.
(** A simple sufficient condition; all schemas without underscores in (distinct) field names meet it. *)
Theorem C23_locals_distinct_partial : forall a, plain_fields a -> for_text a (fun ds k => read_ok k /\ write_ok k).
Proof. exact locals_distinct. Qed.
Print Assumptions C23_locals_distinct_partial.
Example C23_nonvacuous : plain_fields demo_schema /\ legal_ast demo_schema /\ is_ok (type_check iter_fwd demo_schema).
Proof. exact (conj demo_plain_fields (conj demo_legal demo_accepted)). Qed.
Example C23_underscores_nonvacuous : plain_fields snake_schema /\ legal_ast snake_schema /\ is_ok (type_check iter_fwd snake_schema).
Proof. exact snake_facts. Qed.
(** With underscores it fails even if all field names are distinct. *)
Theorem C23_read_locals_refuted : exists a, legal_ast a /\ valid_schema a /\ (forall n fs, declares_struct a n fs -> NoDup fs.*1) /\
  exists iter r version now titer t ds k, fair_order iter /\ fair_types titer /\ type_check iter a = Ok r /\
    generate version now titer r = Ok t /\ read_ts t = Some (ds, k) /\ ~ read_ok k.
Proof. exact names_refuted. Qed.
Print Assumptions C23_read_locals_refuted.
Theorem C23_write_locals_refuted : exists a, legal_ast a /\ valid_schema a /\ (forall n fs, declares_struct a n fs -> NoDup fs.*1) /\
  exists iter r version now titer t ds k, fair_order iter /\ fair_types titer /\ type_check iter a = Ok r /\
    generate version now titer r = Ok t /\ read_ts t = Some (ds, k) /\ ~ write_ok k.
Proof. exact write_names_refuted. Qed.
Print Assumptions C23_write_locals_refuted.

(** C50. Declarations and constructor mirror the schema: names, optionality, arrays, variants. *)
Theorem C50_declarations_mirror : forall a, for_text a (fun ds k => (forall d, d ∈ ds -> declares a (decl_name d) d) /\
  exists fs ps, declares_struct a (k_name k) fs /\ ps ≡ₚ fs /\
    k_params k = List.map (fun '(f, u) => (f, param_type (k_name k) u)) ps).
Proof. exact mirrored. Qed.
Print Assumptions C50_declarations_mirror.
Example C50_nonvacuous : declares demo_schema "Flag" (DEnum "Flag" [("A", 0); ("B", 1)]) /\
  declares demo_schema "Complex" (DInterface "Complex"
    [("flag", false, "Flag"); ("pos", true, "Position"); ("names", false, "string[]"); ("values", false, "Value[]")]).
Proof.
  split; [left|right].
  - exists ["A"; "B"]. split; [by left|done].
  - eexists _, _. split; [by do 3 right; left|]. split; [reflexivity|reflexivity].
Qed.

(** C60. The emitted text is a module of the subset of TypeScript that TsText.v reads, from the first character to the last. *)
Theorem C60_emits_a_module : forall a, for_text a (fun ds k => exports a = [k_name k]).
Proof. exact text_is_module. Qed.
Print Assumptions C60_emits_a_module.
Definition small_module (first body : string) : string :=
  first +:+ NL +:+ "import { Reader, Writer } from ""packet"";" +:+ NL +:+ "export namespace P { }" +:+ NL +:+
  "export class P { constructor(public x: number,) {} static read(data: ArrayBuffer): P | null {" +:+ NL +:+
  "let reader = new Reader(data); let output = Object.create(P); " +:+ body +:+ NL +:+
  "if (reader.failed) return null; return output; } write(buffer?: ArrayBuffer): ArrayBuffer {" +:+ NL +:+
  "let writer = buffer ? new Writer(buffer) : new Writer(); return writer.finish(); } }".
(** the reader tells texts apart: layout does not matter, anything else does *)
Example C60_discriminates :
  read_ts (small_module "// x" "output.x = reader.read_uint8();") = Some ([], Cls "P" [("x", "number")] [SSimple (Assign (EProp (EVar "output") "x") (ERead "uint8"))] []) /\
  read_ts (small_module "// x" "output  . x=reader . read_uint8 ( ) ;") = read_ts (small_module "" "output.x = reader.read_uint8();") /\
  read_ts (small_module "x" "output.x = reader.read_uint8();") = None /\
  read_ts (small_module "" "output.x = reader.read_uint8()") = None /\
  read_ts (small_module "" "output.""x = reader.read_uint8();") = None /\
  read_ts (small_module "" "out put.x = reader.read_uint8();") = None /\
  read_ts (small_module "" "output.x = reader.read_uint8(); }") = None.
Proof. vm_compute. repeat split. Qed.
Example C60_nonvacuous : legal_ast complex_ast /\ is_ok (type_check iter_fwd complex_ast) /\ on_one_line "0.1.0" /\ on_one_line "2021-06-01 12:00:00 +02:00".
Proof.
  split; [exact (proj1 legal_examples)|]. split; [apply okb_ok; vm_compute; done|]. split; apply (bool_decide_unpack _); by vm_compute.
Qed.

