(** Property theorems C109: what the command reports about a schema that cannot be compiled. *)
From Verif Require Import CliReportWitness.

(** C109, what is proved. A single file: the command ends with the error of the library, as lib.rs:15-41 has it: the line and column at which every continuation
    stops being a schema (C69) with that line, or a message of the checker that some hash order leads to (C103). *)
Theorem C109_single_file : forall E f, sane E f -> no_fault E -> forall path out l c, input_file E f path l c -> ~ compiles c ->
  exists m, run E path out f = (f, Err m) /\ message c (txt m).
Proof. exact file_report. Qed.
Print Assumptions C109_single_file.
Example C109_single_nonvacuous : sane calm bad_tree /\ no_fault calm /\ input_file calm bad_tree "in/sub/b.pkt" ["in"; "sub"; "b.pkt"] bad_text /\ ~ compiles bad_text /\
  (run calm "in/sub/b.pkt" "out" bad_tree).2 = Err ("Parsing failed with:" +:+ NL +:+ NL +:+ "Unexpected token '" +:+ String (ascii_of_nat 0) "' at line 1, column 9" +:+ NL +:+ "|" +:+ NL +:+ "|  nonsense" +:+ NL +:+ "|~~~~~~~~~~^" +:+ NL).
Proof. split; [apply calm_sane; by vm_compute|]. split; [done|]. split; [split; by vm_compute|]. split; [apply bad_compiles|by vm_compute]. Qed.
(** A directory: the error is that of one of the schemas that do not compile. *)
Theorem C109_directory : forall E f, sane E f -> no_fault E -> no_blind E -> forall path out base, input_dir E f path base -> utf8 (txt path) -> dirs_named f base ->
  ~ (forall dirs s c, schema_at f base dirs s c -> compiles c) ->
  exists m, run E path out f = (f, Err m) /\ exists dirs s c, schema_at f base dirs s c /\ (utf8 (txt s) -> ~ compiles c) /\ complaint s c (txt m).
Proof. exact dir_report. Qed.
Print Assumptions C109_directory.
Example C109_directory_nonvacuous : sane calm bad_tree /\ input_dir calm bad_tree "in" ["in"] /\ utf8 (txt "in") /\ dirs_named bad_tree ["in"] /\ schema_at bad_tree ["in"] ["sub"] "b" bad_text /\ ~ compiles bad_text.
Proof.
  split; [apply calm_sane; by vm_compute|]. split; [split; by vm_compute|]. split; [apply from_utf8_spec; by vm_compute|]. split; [apply named_check; by vm_compute|]. split; [split; [done|by vm_compute]|apply bad_compiles].
Qed.
(** C109, full statement: the report tells which schema cannot be compiled. False: there is no way to find the schema from the report, *)
Theorem C109_which_schema_refuted : ~ exists who : string -> location, forall E f path out base f' m, sane E f -> input_dir E f path base -> utf8 (txt path) -> dirs_named f base -> files_named f base ->
  no_fault E -> no_blind E -> run E path out f = (f', Err m) -> (exists dirs s c, schema_at f base dirs s c /\ ~ compiles c) ->
  exists dirs s c, who m = base ++ dirs ++ [s +:+ ".pkt"] /\ schema_at f base dirs s c /\ ~ compiles c.
Proof. exact no_who. Qed.
Print Assumptions C109_which_schema_refuted.
(** because the report on any text is the same whatever the name of the file. *)
Theorem C109_same_report : forall E out s1 s2 c, sane E (lone s1 c) -> sane E (lone s2 c) -> cwd E = [] -> no_fault E -> s1 ≠ "" -> s2 ≠ "" -> utf8 (txt s1) -> utf8 (txt s2) -> utf8 c -> ~ compiles c ->
  exists m, run E "in" out (lone s1 c) = (lone s1 c, Err m) /\ run E "in" out (lone s2 c) = (lone s2 c, Err m).
Proof. exact same_report. Qed.
Print Assumptions C109_same_report.
Example C109_same_nonvacuous : sane calm (lone "a" bad_text) /\ sane calm (lone "b" bad_text) /\ no_fault calm /\ utf8 bad_text /\ ~ compiles bad_text.
Proof. split; [apply calm_sane; by vm_compute|]. split; [apply calm_sane; by vm_compute|]. split; [done|]. split; [apply from_utf8_spec; by vm_compute|apply bad_compiles]. Qed.
