(** Properties of the types in the emitted code. *)
From Verif Require Import TsTypesWitness IsolatedProofs.

(** C62. The emitted module has no type errors. Wrong for some names that TypeScript uses for itself, in schemas whose
    names give the code at run time no trouble. *)
Theorem C62_types_refuted :
  (accepted (export_schema "ArrayBuffer") /\ plain_names (export_schema "ArrayBuffer") /\
   for_text (export_schema "ArrayBuffer") (fun ds k => k_name k = "ArrayBuffer" /\ ~ well_typed ds k)) /\
  (forall f, f ∈ ["write"; "constructor"] -> accepted (name_schema f) /\ plain_names (name_schema f) /\
     for_text (name_schema f) (fun ds k => f ∈ (k_params k).*1 /\ ~ well_typed ds k)) /\
  (forall n, n ∈ ["read"; "prototype"] -> accepted (tag_schema n) /\ plain_names (tag_schema n) /\
     for_text (tag_schema n) (fun ds k => (exists vs, DEnum n vs ∈ ds) /\ ~ well_typed ds k)) /\
  (forall n, n ∈ ["any"; "unknown"; "never"; "number"; "bigint"; "boolean"; "symbol"; "void"; "object"; "undefined"] ->
     accepted (type_schema n) /\ plain_names (type_schema n) /\
     for_text (type_schema n) (fun ds k => n ∈ decl_name <$> ds /\ ~ well_typed ds k)).
Proof. exact types_ill. Qed.
Print Assumptions C62_types_refuted.
(** Exactly which schemas give modules without type errors. What decides is the schema alone: no run of the generator
    differs from another. *)
Theorem C62_types_criterion_partial : forall a, for_text a (fun ds k => well_typed ds k <-> typed_names a).
Proof. exact typed_criterion. Qed.
Print Assumptions C62_types_criterion_partial.
Example C62_criterion_nonvacuous :
  (accepted spare_schema /\ typed_names spare_schema /\ ~ type_names spare_schema) /\
  (forall f, f ∈ ["__proto__"; "prototype"; "length"; "name"; "caller"] -> accepted (name_schema f) /\ typed_names (name_schema f) /\ ~ plain_names (name_schema f)) /\
  (accepted demo_schema /\ typed_names demo_schema) /\
  (accepted (tag_schema "read") /\ ~ typed_names (tag_schema "read")).
Proof. exact criterion_types. Qed.
Theorem C62_types_partial : forall a, plain_names a -> type_names a -> for_text a well_typed.
Proof. exact code_typed. Qed.
Print Assumptions C62_types_partial.
Example C62_nonvacuous : accepted demo_schema /\ plain_names demo_schema /\ type_names demo_schema.
Proof. exact (conj (proj1 (proj2 demo_facts)) (conj (proj1 (proj2 (proj2 demo_facts))) demo_types)). Qed.

(** C104. It has none either if the compiler has to preserve const enums. Wrong for every schema whose export needs an
    enum, right for all others that give no type errors anyway. *)
Theorem C104_enums_refuted : forall a e, exports a = [e] -> needs_enum 0 a e -> for_text a (fun ds k => ~ enums_preserved ds k).
Proof. exact preserved_refuted. Qed.
Print Assumptions C104_enums_refuted.
Theorem C104_criterion_partial : forall a e, exports a = [e] -> for_text a (fun ds k => enums_preserved ds k <-> typed_names a /\ ~ needs_enum 0 a e).
Proof. exact preserved_criterion. Qed.
Print Assumptions C104_criterion_partial.
Example C104_nonvacuous : (exports demo_schema = ["Outer"] /\ accepted demo_schema /\ typed_names demo_schema /\ needs_enum 0 demo_schema "Outer") /\
  exports order_schema = ["A"] /\ accepted order_schema /\ typed_names order_schema /\ ~ needs_enum 0 order_schema "A".
Proof. exact preserved_witness. Qed.
