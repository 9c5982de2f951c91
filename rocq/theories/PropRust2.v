(** Property theorems C81 (continued) and C89: which schemas give Rust that rustc takes.

    [compiles refs m] checks the module [m] by the rules of Rust that its code can break; [refs] says whether the methods
    of the writer that take a number also take a reference to one. *)
From Verif Require Import RsCheckWitness.

(** C81, continued: the number of a 32nd variant in try_from is not that of the variant, but negative. *)
Theorem C81_last_arm_refuted : forall vs, length vs = 32 -> NoDup vs -> Forall (fun v => legal_name (txt v)) vs ->
  accepted (enum_schema vs) /\ for_rust (enum_schema vs) (fun m t => exists repr ws d arms v, IEnum "E" repr ws d arms ∈ rm_items m /\
    repr = "u32" /\ ws !! 31 = Some (v, 31) /\ arms !! 31 = Some (- 2 ^ 31, v)%Z).
Proof. exact negative_arm. Qed.
Print Assumptions C81_last_arm_refuted.
Example C81_large : length many_names = 32 /\ NoDup many_names /\ Forall (fun v => legal_name (txt v)) many_names.
Proof. exact many_facts. Qed.

(** C89. Exactly when the emitted module compiles. *)
Theorem C89_exactly : forall a refs, for_rust a (fun m t => compiles refs m = true <-> rust_ready refs a (rm_type m)).
Proof. exact rust_compiles. Qed.
Print Assumptions C89_exactly.
Example C89_nonvacuous : accepted demo_schema /\ forall refs, for_rust demo_schema (fun m t => compiles refs m = true).
Proof. exact (conj (proj1 (proj2 demo_facts)) demo_compiles). Qed.
(** not for every accepted schema *)
Theorem C89_enum_arrays_refuted : accepted enums_schema /\ forall refs, for_rust enums_schema (fun m t => compiles refs m = false).
Proof. exact enum_arrays. Qed.
Print Assumptions C89_enum_arrays_refuted.
Theorem C89_optional_strings_refuted : accepted opt_string_schema /\ forall refs, for_rust opt_string_schema (fun m t => compiles refs m = false).
Proof. exact optional_strings. Qed.
Print Assumptions C89_optional_strings_refuted.
Theorem C89_large_enums_refuted : forall vs, length vs = 32 -> NoDup vs -> Forall (fun v => legal_name (txt v)) vs ->
  accepted (enum_schema vs) /\ forall refs, for_rust (enum_schema vs) (fun m t => compiles refs m = false).
Proof. exact variants_32. Qed.
Print Assumptions C89_large_enums_refuted.
Theorem C89_names_refuted : Forall (fun a => accepted a /\ forall refs, for_rust a (fun m t => compiles refs m = false)) name_schemas.
Proof. exact bad_names. Qed.
Print Assumptions C89_names_refuted.
Example C89_names : name_schemas =
  [one_field [] "type" (plain "uint8");
   one_field [NDecl "Status" (AEnum ["Fine"; "Error"])] "status" (plain "Status");
   one_field [NDecl "Status" (AEnum ["pending"; "try_from"])] "status" (plain "Status");
   one_field [NDecl "Vec" (AStruct [("x", plain "float"); ("y", plain "float")])] "place" (plain "Vec")].
Proof. done. Qed.
