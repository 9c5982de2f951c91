(** Property theorems C78-C80: the work that the parser and the checker do. *)
From Verif Require Import CostWitness CheckWitness ParserTests.

(** C78. The work of the parser is linear in the length of the text,
    whether the text parses or not. *)
Theorem C78_linear_parse : forall s, (parse_counted s).1 = parse_schema s /\ parse_work s <= 742 * length s + 480.
Proof. exact parse_work_ok. Qed.
Print Assumptions C78_linear_parse.
(** The work is not constant, and a text that does not parse costs twice as much. *)
Example C78_nonvacuous : parse_work (txt "A: struct { x: B }") = 277 /\ parse_work (txt "A: struct { x: B") = 420.
Proof. vm_compute. split; reflexivity. Qed.

(** C79. The work of the checker is at most quadratic in the number of lines, fields and variants, for every hash order, *)
Theorem C79_quadratic_check : forall a iter, fair_order iter -> no_builtin_decl a ->
  (w_type_check iter a).1 = type_check iter a /\ (w_type_check iter a).2.1 <= 20 * (items a + 8) * (items a + 8).
Proof. exact (fun a iter Hf Hn => conj (e_type_check iter a) (proj1 (check_bound a iter Hf Hn))). Qed.
Print Assumptions C79_quadratic_check.
(** hence in the length of the text, *)
Theorem C79_quadratic_text : forall s a iter, parse_schema s = POk a -> fair_order iter ->
  (w_type_check iter a).2.1 <= 80 * (length s + 4) * (length s + 4).
Proof. exact check_text. Qed.
Print Assumptions C79_quadratic_text.
(** and no linear bound holds: the types of the fields of the export are searched once for each field. *)
Theorem C79_quadratic_tight : forall K, exists a, no_builtin_decl a /\ (forall n fs, declares_struct a n fs -> NoDup fs.*1) /\
  forall iter, fair_order iter -> is_ok (type_check iter a) /\ K * items a < (w_type_check iter a).2.1.
Proof. exact steps_not_linear. Qed.
Print Assumptions C79_quadratic_tight.
Example C79_nonvacuous : no_builtin_decl demo_schema /\ items demo_schema = 22 /\ (w_type_check iter_fwd demo_schema).2.1 = 154 /\
  parse_schema complex_text = POk complex_ast.
Proof. split; [exact demo_names|]. split; [vm_compute; reflexivity|]. split; vm_compute; reflexivity. Qed.

(** C80. Full claim: the checker recurses to a bounded depth. False: structs that contain structs make it recurse as deeply as
    they are nested, whatever the hash order. *)
Theorem C80_bounded_depth_refuted : forall d, exists a, no_builtin_decl a /\ length a = d + 2 /\
  forall iter, fair_order iter -> is_ok (type_check iter a) /\ d <= (w_type_check iter a).2.2.
Proof. exact depth_unbounded. Qed.
Print Assumptions C80_bounded_depth_refuted.
(** What holds: the depth is at most the number of lines and nine. *)
Theorem C80_depth_partial : forall a iter, fair_order iter -> no_builtin_decl a -> (w_type_check iter a).2.2 <= length a + 9.
Proof. exact (fun a iter Hf Hn => proj2 (check_bound a iter Hf Hn)). Qed.
Print Assumptions C80_depth_partial.
Example C80_nonvacuous : no_builtin_decl demo_schema /\ length demo_schema = 7 /\ (w_type_check iter_fwd demo_schema).2.2 = 3.
Proof. split; [exact demo_names|]. split; vm_compute; reflexivity. Qed.
