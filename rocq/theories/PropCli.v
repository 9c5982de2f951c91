(** Property theorems C40-C44 and C54-C59: the command and the file system. *)
From Verif Require Import CliWitness.

(** C40, full statement: if some schema file in the input directory cannot be read or compiled, the command fails and changes nothing.
    False: a directory that cannot be inspected is passed over, with all it contains. *)
Theorem C40_all_or_nothing_refuted : ~ forall E f path out base f' r, sane E f -> input_dir E f path base -> fault E 0 base = false -> run E path out f = (f', r) ->
  (exists dirs s c, schema_at f base dirs s c /\ ~ compiles c) -> f' = f /\ r ≠ Ok ().
Proof. exact blind_refuted. Qed.
Print Assumptions C40_all_or_nothing_refuted.
(** Missing: trees where is_dir fails on some entry. Unreadable files and directories are covered. *)
Theorem C40_all_or_nothing_partial : forall E f path out base, sane E f -> input_dir E f path base -> fault E 0 base = false -> forall f' r,
  no_blind E -> run E path out f = (f', r) ->
  (exists dirs s c, schema_at f base dirs s c /\ (~ compiles c \/ forall n, 0 < n -> fault E n (base ++ dirs ++ [s +:+ ".pkt"]) = true)) \/
  (exists dirs, entry_at f (base ++ dirs) = Some Dir /\ forall n, 0 < n -> fault E n (base ++ dirs) = true) ->
  f' = f /\ r ≠ Ok ().
Proof. exact nothing_written. Qed.
Print Assumptions C40_all_or_nothing_partial.
Example C40_nonvacuous : sane calm bad_tree /\ input_dir calm bad_tree "in" ["in"] /\ no_blind calm /\ schema_at bad_tree ["in"] ["sub"] "b" bad_text /\ ~ compiles bad_text /\
  ended_ok (run calm "in" "out" bad_tree).2 = Some false /\ ended_ok (run dim "in" "out" bad_tree).2 = Some true.
Proof.
  split; [apply calm_sane; by vm_compute|]. split; [by apply bad_in|]. split; [done|]. split; [apply bad_schema|]. split; [apply bad_compiles|]. split; by vm_compute.
Qed.
(** A single file. *)
Theorem C40_single_file : forall E f path out l n c f' r, sane E f -> input_file E f path (l ++ [n]) c -> fault E 0 (l ++ [n]) = false ->
  run E path out f = (f', r) -> ~ compiles c -> f' = f /\ exists m, r = Err m.
Proof. exact file_fails. Qed.
Print Assumptions C40_single_file.
Example C40_single_file_nonvacuous : input_file calm bad_tree "in/sub/b.pkt" (["in"; "sub"] ++ ["b.pkt"]) bad_text /\ ended_ok (run calm "in/sub/b.pkt" "out" bad_tree).2 = Some false.
Proof. split; [split|]; by vm_compute. Qed.

(** C41. A successful run leaves the code for each schema at the mirrored place; nothing else changes but directories made on the way. *)
Theorem C41_one_output_each : forall E f path out base, sane E f -> input_dir E f path base -> fault E 0 base = false -> forall f',
  no_blind E -> run E path out f = (f', Ok ()) ->
  (forall dirs s c, schema_at f base dirs s c -> exists t, code_for E c t /\ f' !! target E out dirs s = Some (File (txt t))) /\
  (forall x, ~ is_target E f out base x -> f' !! x = f !! x \/ made_dir f f' x /\ passed E f out base x).
Proof. exact one_output_each. Qed.
Print Assumptions C41_one_output_each.
Example C41_nonvacuous : sane calm some_tree /\ input_dir calm some_tree "in" ["in"] /\ no_blind calm /\
  let o := run calm "in" "./out//x" some_tree in ended_ok o.2 = Some true /\
  map (kind_at o.1) [["out"]; ["out"; "x"; "a.ts"]; ["out"; "x"; "sub"]; ["out"; "x"; "sub"; "b.c.ts"]; ["out"; "x"; "note.ts"]; ["out"; "x"; ".ts"]] =
    [Some false; Some true; Some false; Some true; None; None].
Proof. split; [apply calm_sane; by vm_compute|]. split; [apply some_in|]. split; [done|]. split; by vm_compute. Qed.

(** C42. Each schema has an output path, it leads to the mirrored place, and different schemas have paths to different places. *)
Theorem C42_mirrored : forall E f path out base dirs s c, sane E f -> input_dir E f path base -> schema_at f base dirs s c ->
  exists p, format_path (foldl push path (dirs ++ [s +:+ ".pkt"])) path out true = Ok p /\ leads_to E p = target E out dirs s.
Proof. exact output_path. Qed.
Print Assumptions C42_mirrored.
Theorem C42_outputs_differ : forall E f path out base dirs s c dirs' s' c', sane E f -> input_dir E f path base -> schema_at f base dirs s c -> schema_at f base dirs' s' c' ->
  (dirs, s) ≠ (dirs', s') ->
  exists p p', format_path (foldl push path (dirs ++ [s +:+ ".pkt"])) path out true = Ok p /\ format_path (foldl push path (dirs' ++ [s' +:+ ".pkt"])) path out true = Ok p' /\
    leads_to E p ≠ leads_to E p'.
Proof. exact outputs_differ. Qed.
Print Assumptions C42_outputs_differ.
Example C42_nonvacuous : input_dir calm some_tree "in" ["in"] /\ schema_at some_tree ["in"] [] "a" good_text /\ schema_at some_tree ["in"] ["sub"] "b.c" good_text /\
  format_path (foldl push "in" (["sub"] ++ ["b.c.pkt"])) "in" "../o/./x/" true = Ok "../o/x/sub/b.c.ts".
Proof. split; [apply some_in|]. split; [apply some_first|]. split; [apply some_second|]. by vm_compute. Qed.

(** C43. Outputs are written one after the other; when one fails, those before are complete and no later one was written. *)
Theorem C43_failing_write : forall E f path out base, sane E f -> input_dir E f path base -> fault E 0 base = false -> forall f' r,
  run E path out f = (f', r) ->
  f' = f /\ r ≠ Ok () \/
  exists outs : list (location * text),
    NoDup outs.*1 /\ Forall (fun o => exists dirs s c t, schema_at f base dirs s c /\ compiles c /\ code_for E c t /\ o = (target E out dirs s, txt t)) outs /\
    (no_blind E -> forall dirs s c, schema_at f base dirs s c -> target E out dirs s ∈ outs.*1) /\
    exists k, k <= length outs /\
      (forall i l t, outs !! i = Some (l, t) -> i < k -> f' !! l = Some (File t)) /\
      (forall i l t, outs !! i = Some (l, t) -> k < i -> f' !! l = f !! l \/ made_dir f f' l) /\
      (forall l t, outs !! k = Some (l, t) -> f' !! l = f !! l \/ made_dir f f' l \/ exists n, f' !! l = Some (File (take n t))) /\
      (k = length outs -> r = Ok ()) /\ (k < length outs -> exists m, r = Err m) /\
      (forall x, x ∉ outs.*1 -> f' !! x = f !! x \/ made_dir f f' x).
Proof. exact failing_write. Qed.
Print Assumptions C43_failing_write.
(** the second write stops after five bytes *)
Example C43_nonvacuous : sane (full 22) some_tree /\ input_dir (full 22) some_tree "in" ["in"] /\
  let o := run (full 22) "in" "out" some_tree in ended_ok o.2 = Some false /\ map (size_at o.1) [["out"; "sub"; "b.c.ts"]; ["out"; "a.ts"]] = [Some 589; Some 5].
Proof. split; [apply full_sane; by vm_compute|]. split; [apply some_in|]. split; by vm_compute. Qed.

(** C44, full statement: the command fails if the input path does not exist. False: it never does. *)
Theorem C44_missing_input_refuted : forall E f path out, (forall l, resolve E f path = Some l -> entry_at f l = None) -> run E path out f = (f, Ok ()).
Proof. exact input_missing. Qed.
Print Assumptions C44_missing_input_refuted.
(** The same goes for an input that exists and cannot be inspected. *)
Theorem C44_unreadable_input_refuted : forall E f path out l, resolve E f path = Some l -> fault E 0 l = true -> run E path out f = (f, Ok ()).
Proof. exact input_unreadable. Qed.
Print Assumptions C44_unreadable_input_refuted.
Example C44_nonvacuous : resolve calm some_tree "in/b.pkt" = Some ["in"; "b.pkt"] /\ entry_at some_tree ["in"; "b.pkt"] = None /\ resolve calm some_tree "im/b.pkt" = None.
Proof. split; [|split]; by vm_compute. Qed.

(** C54. Whatever happens, nothing is changed but files with extension ts, and nothing is made but such files and directories. *)
Theorem C54_only_ts : forall E f path out f' r, sane E f -> run E path out f = (f', r) -> only_ts f f'.
Proof. exact run_only_ts. Qed.
Print Assumptions C54_only_ts.
Example C54_nonvacuous : sane (full 22) some_tree /\ (run (full 22) "in" "in" some_tree).1 ≠ some_tree.
Proof. split; [apply full_sane; by vm_compute|]. apply tree_differs with ["in"; "a.ts"]. by vm_compute. Qed.

(** C55, full statement: if all operations succeed, all schemas compile and the output directory does not exist, the command succeeds.
    False: a.ts is the output of a.pkt and the place for the outputs of a directory a.ts. *)
Theorem C55_succeeds_refuted : ~ forall E f path out base, sane E f -> input_dir E f path base -> no_fault E -> no_blind E -> (forall n, torn E n = None) -> dirs_named f base -> files_named f base -> utf8 (txt path) ->
  (forall dirs s c, schema_at f base dirs s c -> compiles c) -> (forall x, f !! (leads_to E out ++ x) = None) -> exists f', run E path out f = (f', Ok ()).
Proof. exact succeeds_refuted. Qed.
Print Assumptions C55_succeeds_refuted.
Theorem C55_clash_refuted : forall E f path out base dirs s c more s' c' f', sane E f -> input_dir E f path base -> fault E 0 base = false -> no_blind E ->
  schema_at f base dirs s c -> schema_at f base (dirs ++ (s +:+ ".ts") :: more) s' c' -> run E path out f ≠ (f', Ok ()).
Proof. exact clash. Qed.
Print Assumptions C55_clash_refuted.
(** When it does succeed. *)
Theorem C55_succeeds_partial : forall E f path out base, sane E f -> input_dir E f path base -> fault E 0 base = false ->
  no_fault E -> no_blind E -> (forall n, torn E n = None) -> utf8 (txt path) ->
  (exists f', run E path out f = (f', Ok ())) <->
    unobstructed E f out base /\ dirs_named f base /\ files_named f base /\ forall dirs s c, schema_at f base dirs s c -> compiles c.
Proof. exact succeeds_iff. Qed.
Print Assumptions C55_succeeds_partial.
Example C55_nonvacuous : sane calm clash_tree /\ input_dir calm clash_tree "in" ["in"] /\ (dirs_named clash_tree ["in"] /\ files_named clash_tree ["in"]) /\
  ended_ok (run calm "in" "out" clash_tree).2 = Some false /\ ended_ok (run calm "in" "out" some_tree).2 = Some true.
Proof. split; [apply calm_sane; by vm_compute|]. split; [apply clash_in|]. split; [apply clash_names|]. split; by vm_compute. Qed.

(** C56, full statement: the command ends without a panic. False: the name of a directory need not be UTF-8. *)
Theorem C56_no_panic_refuted : exists f m, sane calm f /\ run calm "in" "out" f = (f, Panic m).
Proof. exact odd_panics. Qed.
Print Assumptions C56_no_panic_refuted.
(** Missing: such names below the input. C56_criterion (PropPanic.v) says that nothing else is missing. *)
Theorem C56_no_panic_partial : forall E f path out f' r, sane E f -> run E path out f = (f', r) -> r ≠ Diverge /\ (utf8 (txt path) -> (forall base, input_dir E f path base -> dirs_named f base) -> forall m, r ≠ Panic m).
Proof. exact run_ends. Qed.
Print Assumptions C56_no_panic_partial.
Example C56_nonvacuous : sane calm clash_tree /\ (dirs_named clash_tree ["in"] /\ files_named clash_tree ["in"]) /\ utf8 (txt "in").
Proof. split; [apply calm_sane; by vm_compute|]. split; [apply clash_names|]. apply from_utf8_spec. by vm_compute. Qed.

(** C57. After a successful run, the same command succeeds again, whatever the orders. *)
Theorem C57_rerun : forall E E' f path out base f', sane E f -> sane E' f -> cwd E' = cwd E -> input_dir E f path base -> fault E 0 base = false -> no_blind E ->
  no_fault E' -> no_blind E' -> (forall n, torn E' n = None) -> utf8 (txt path) -> utf8 (txt out) ->
  run E path out f = (f', Ok ()) -> exists f'', run E' path out f' = (f'', Ok ()).
Proof. exact rerun. Qed.
Print Assumptions C57_rerun.
(** the outputs are put next to the schemas *)
Example C57_nonvacuous : sane calm some_tree /\ input_dir calm some_tree "in" ["in"] /\ ended_ok (run calm "in" "in" some_tree).2 = Some true /\
  kind_at (run calm "in" "in" some_tree).1 ["in"; "sub"; "b.c.ts"] = Some true.
Proof. split; [apply calm_sane; by vm_compute|]. split; [apply some_in|]. split; by vm_compute. Qed.

(** C58, full statement: compiling the single file d/s.pkt puts the code at s.ts in the output directory, as compiling the directory d does.
    False for a.b.pkt, which goes to a.ts. *)
Theorem C58_single_file_refuted : ~ forall E f path out l s c f', sane E f -> s ≠ "" -> input_file E f path (l ++ [s +:+ ".pkt"]) c -> fault E 0 (l ++ [s +:+ ".pkt"]) = false ->
  run E path out f = (f', Ok ()) -> exists t, code_for E c t /\ f' !! target E out [] s = Some (File (txt t)).
Proof. exact single_mode_refuted. Qed.
Print Assumptions C58_single_file_refuted.
Theorem C58_dots_refuted : forall E f path out l a b c f', sane E f -> a ≠ "" -> a ≠ "." -> DOT ∉ txt b ->
  input_file E f path (l ++ [a +:+ "." +:+ b +:+ ".pkt"]) c -> fault E 0 (l ++ [a +:+ "." +:+ b +:+ ".pkt"]) = false -> run E path out f = (f', Ok ()) ->
  (exists t, code_for E c t /\ f' !! target E out [] a = Some (File (txt t))) /\
  (f' !! target E out [] (a +:+ "." +:+ b) = f !! target E out [] (a +:+ "." +:+ b) \/ made_dir f f' (target E out [] (a +:+ "." +:+ b))).
Proof. exact file_output_dots. Qed.
Print Assumptions C58_dots_refuted.
(** Missing: names with several dots. *)
Theorem C58_single_file_partial : forall E f path out l s c f' r, sane E f -> s ≠ "" -> DOT ∉ txt s -> input_file E f path (l ++ [s +:+ ".pkt"]) c -> fault E 0 (l ++ [s +:+ ".pkt"]) = false ->
  run E path out f = (f', r) -> compiles c ->
  (r = Ok () -> exists t, code_for E c t /\ f' !! target E out [] s = Some (File (txt t))) /\
  (forall x, x ≠ target E out [] s -> f' !! x = f !! x \/ made_dir f f' x /\ on_way E out [] x).
Proof. exact file_output_plain. Qed.
Print Assumptions C58_single_file_partial.
Example C58_nonvacuous : sane calm some_tree /\ input_file calm some_tree "in/a.pkt" (["in"] ++ ["a" +:+ ".pkt"]) good_text /\ compiles good_text /\
  ended_ok (run calm "in/a.pkt" "out" some_tree).2 = Some true /\ kind_at (run calm "in/a.b.pkt" "out" dots_tree).1 ["out"; "a.ts"] = Some true.
Proof. split; [apply calm_sane; by vm_compute|]. split; [split; by vm_compute|]. split; [apply good_compiles|]. split; by vm_compute. Qed.

(** C59. The language argument. *)
Theorem C59_language : forall s, lang_ok s = true <-> s ∈ ["ts"; "tS"; "Ts"; "TS"].
Proof. exact lang_ok_iff. Qed.
Print Assumptions C59_language.
Example C59_nonvacuous : map lang_ok ["TS"; "rust"; "tss"] = [true; false; false].
Proof. by vm_compute. Qed.
