(** Property theorems C39, C45, C46 and C53: compile as a whole, and names. *)
From Verif Require Import NameWitness.

(** C39. compile never panics, and its three outcomes are told apart by the specification alone. *)
Theorem C39_total : forall iter version now titer, fair_order iter -> forall s, utf8 s -> exists c, compile iter version now titer s = Ok c.
Proof. exact compile_total. Qed.
Print Assumptions C39_total.
Theorem C39_parse_error : forall iter version now titer, fair_order iter -> forall s, utf8 s ->
  (exists m, compile iter version now titer s = Ok (ParseError m)) <-> forall a, ~ layout a s.
Proof. exact compile_parse_error. Qed.
Print Assumptions C39_parse_error.
Theorem C39_check_error : forall iter version now titer, fair_order iter -> forall s, utf8 s ->
  (exists m, compile iter version now titer s = Ok (CheckError m)) <-> exists a, layout a s /\ ~ valid_schema a.
Proof. exact compile_check_error. Qed.
Print Assumptions C39_check_error.
Theorem C39_code : forall iter version now titer, fair_order iter -> forall s, utf8 s ->
  (exists c, compile iter version now titer s = Ok (Code c)) <-> exists a, layout a s /\ valid_schema a.
Proof. exact compile_code. Qed.
Print Assumptions C39_code.
(** The code is that for the schema which the text denotes: whatever PropWire.v proves of the schema holds of it. *)
Theorem C39_text_of_schema : forall iter version now titer, fair_order iter -> forall s a c (P : list decl -> cls -> Prop),
  fair_types titer -> on_one_line version -> on_one_line now -> layout a s -> compile iter version now titer s = Ok (Code c) ->
  for_text a P -> exists ds k, read_ts c = Some (ds, k) /\ P ds k.
Proof. exact compile_for_text. Qed.
Print Assumptions C39_text_of_schema.
Theorem C39_code_of_schema : forall iter version now titer, fair_order iter -> forall s a c (P : cls -> rtype -> Prop),
  fair_types titer -> on_one_line version -> on_one_line now -> layout a s -> compile iter version now titer s = Ok (Code c) ->
  for_code a P -> exists ds k e t, read_ts c = Some (ds, k) /\ exports a = [e] /\ k_name k = e /\ denotes Permutation a e t /\ P k t.
Proof. exact compile_for_code. Qed.
Print Assumptions C39_code_of_schema.
Definition kind_of_result (c : res compiled) : option nat :=
  match c with Ok (Code _) => Some 0 | Ok (CheckError _) => Some 1 | Ok (ParseError _) => Some 2 | _ => None end.
Example C39_nonvacuous : map (fun s => kind_of_result (compile iter_fwd "0" "now" types_fwd s)) [complex_text; txt "export A"; txt "nonsense"] = [Some 0; Some 1; Some 2] /\
  layout complex_ast complex_text /\ for_code complex_ast (fun k t => k_name k ≠ "").
Proof.
  split; [by vm_compute|]. split; [apply parse_schema_ok, parse_complex|]. intros iter r version now titer Hf Hl Hr Ht Hv Hn.
  destruct (code_writes complex_ast latin1 iter r version now titer Hf Hl Hr Ht Hv Hn) as (x & ds & k & H1 & H2 & e & t & H3 & H4 & H5 & _).
  exists x, ds, k. split; [done|]. split; [done|]. exists e, t. split; [done|]. split; [done|]. split; [done|]. rewrite H4. by injection H3 as <-.
Qed.

(** C45. Exports with certain names give a module that does not load or whose read throws. *)
Theorem C45_export_names_refuted : forall e, e ∈ usable_words ++ ["Reader"; "Writer"] -> accepted (export_schema e) /\
  for_code (export_schema e) (fun k t => ~ loads k).
Proof. exact export_breaks_module. Qed.
Print Assumptions C45_export_names_refuted.
Theorem C45_export_names_read_refuted : forall e rt, e ∈ ["Object"; "output"] -> accepted (export_schema e) /\
  for_code (export_schema e) (fun k t => loads k /\ forall h data, exists x, reads rt k h data (Throws x)).
Proof. exact export_breaks_read. Qed.
Print Assumptions C45_export_names_read_refuted.
(** Exactly which schemas give a module that loads and whose read gets started. *)
Theorem C45_export_names_partial : forall a, for_code a (fun k t => loads k /\ prologue k = Done () <-> module_names a).
Proof. exact code_module. Qed.
Print Assumptions C45_export_names_partial.
Example C45_nonvacuous : length usable_words = 46 /\ "class" ∈ usable_words /\ module_names demo_schema /\ module_names snake_schema /\
  ~ module_names hidden_schema /\ accepted hidden_schema.
Proof.
  split; [by vm_compute|]. split; [apply (bool_decide_unpack _); by vm_compute|]. split; [apply pn_module, demo_facts|].
  split; [apply pn_module, snake_plain|exact hidden_facts].
Qed.

(** C46. Fields of the export that are called like a word of JavaScript spoil the module; so do, for the TypeScript
    compiler, types that are called like a type of TypeScript. *)
Theorem C46_field_names_refuted : forall f, f ∈ usable_words -> accepted (name_schema f) /\ for_code (name_schema f) (fun k t => ~ loads k).
Proof. exact field_breaks_module. Qed.
Print Assumptions C46_field_names_refuted.
Theorem C46_type_names_refuted : forall n, n ∈ ts_type_reserved -> accepted (type_schema n) /\
  for_text (type_schema n) (fun ds k => n ∈ decl_name <$> ds).
Proof. exact type_named. Qed.
Print Assumptions C46_type_names_refuted.
(** Exactly which schemas have fields that can be parameters of a constructor. *)
Theorem C46_field_names_partial : forall a, for_code a (fun k t =>
  Forall (fun x => x ∉ js_reserved) (k_params k).*1 /\ NoDup (k_params k).*1 <->
  forall fs, declares_struct a (k_name k) fs -> NoDup fs.*1 /\ Forall (fun f => f ∉ js_reserved) fs.*1).
Proof. exact code_params. Qed.
Print Assumptions C46_field_names_partial.
Example C46_nonvacuous : "default" ∈ usable_words /\ "number" ∈ ts_type_reserved /\ legal_ast (name_schema "default").
Proof.
  split; [apply (bool_decide_unpack _); by vm_compute|]. split; [apply (bool_decide_unpack _); by vm_compute|]. apply field_facts. apply (bool_decide_unpack _). by vm_compute.
Qed.

(** C53. Identifiers that begin with a reserved word cannot name a declaration, all others can. *)
Theorem C53_identifiers_refuted : exists w, identifier w /\ w ∉ reserved_list /\ ~ declarable w.
Proof. exact (ex_intro _ _ floaty). Qed.
Print Assumptions C53_identifiers_refuted.
Theorem C53_identifiers_excluded : forall w k, k ∈ "export" :: reserved_list -> txt k `prefix_of` txt w -> ~ declarable w.
Proof. exact reserved_prefix. Qed.
Print Assumptions C53_identifiers_excluded.
Theorem C53_identifiers_partial : forall w, identifier w -> (forall k, k ∈ "export" :: reserved_list -> ~ txt k `prefix_of` txt w) -> declarable w.
Proof. exact no_prefix_declarable. Qed.
Print Assumptions C53_identifiers_partial.
Example C53_nonvacuous : identifier "Complex2" /\ Forall (fun k => ~ txt k `prefix_of` txt "Complex2") ("export" :: reserved_list).
Proof.
  split; [|apply (bool_decide_unpack _); by vm_compute]. apply identifier_check; [by vm_compute|]. eexists _, _. split; [reflexivity|]. apply (bool_decide_unpack _). by vm_compute.
Qed.
