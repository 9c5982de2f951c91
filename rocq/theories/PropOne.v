(** Property theorems C55, C58 (single files) and C106: one input file. *)
From Verif Require Import CliOne.

(** C55 for a single file: if no operation fails, the command succeeds exactly if the schema compiles and nothing is in the way of the output. *)
Theorem C55_single_file : forall E f path out l s c, sane E f -> proper_name s -> input_file E f path (l ++ [s +:+ ".pkt"]) c -> forall x, shortened s x ->
  no_fault E -> (forall n, torn E n = None) ->
  (exists f', run E path out f = (f', Ok ())) <-> compiles c /\ clear_way E f out x.
Proof. exact single_iff. Qed.
Print Assumptions C55_single_file.
Example C55_single_nonvacuous : sane calm taken_tree /\ proper_name "test" /\ shortened "test" "test" /\ shortened "a.b" "a" /\ input_file calm taken_tree "test.pkt" ([] ++ ["test" +:+ ".pkt"]) good_text /\
  map (fun out => ended_ok (run calm "test.pkt" out taken_tree).2) ["."; "test.pkt/.."; "out"; "test.ts"; "test.ts/.."] = map Some [true; false; true; false; false].
Proof.
  split; [apply calm_sane; by vm_compute|]. split; [apply proper_nameb_spec; by vm_compute|]. split; [|split; [|split; [split; by vm_compute|by vm_compute]]].
  - rewrite <- (eq_refl : name_stem "test" = "test") at 2. apply stem_shortened.
  - rewrite <- (eq_refl : name_stem "a.b" = "a"). apply stem_shortened.
Qed.

(** C58 for a single file, all names: the code of s.pkt goes to the name that is left of s without its last extension; this is s itself exactly if s has no dot but at its start. *)
Theorem C58_place_partial : forall E f path out l s c, sane E f -> proper_name s -> input_file E f path (l ++ [s +:+ ".pkt"]) c -> forall f' r x,
  fault E 0 (l ++ [s +:+ ".pkt"]) = false -> run E path out f = (f', r) -> shortened s x ->
  (r = Ok () -> exists t, code_for E c t /\ f' !! target E out [] x = Some (File (txt t))) /\
  (forall y, y ≠ target E out [] x -> f' !! y = f !! y \/ made_dir f f' y /\ on_way E out [] y) /\
  (x = s <-> forall a b, s = a +:+ "." +:+ b -> a = "").
Proof. exact single_place. Qed.
Print Assumptions C58_place_partial.
Example C58_place_nonvacuous : sane calm dots_tree /\ proper_name "a.b" /\ input_file calm dots_tree "in/a.b.pkt" (["in"] ++ ["a.b" +:+ ".pkt"]) good_text /\ shortened "a.b" "a" /\
  ended_ok (run calm "in/a.b.pkt" "out" dots_tree).2 = Some true.
Proof.
  split; [apply calm_sane; by vm_compute|]. split; [apply proper_nameb_spec; by vm_compute|]. split; [split; by vm_compute|]. split; [|by vm_compute].
  rewrite <- (eq_refl : name_stem "a.b" = "a"). apply stem_shortened.
Qed.

(** C106, full statement: the code of a single file is put into the file that the command line names (README.md lines 23-29: packetc <lang> <input> <output>).
    False of every run: the file that is named never gets any content; *)
Theorem C106_named_file_refuted : forall E f path out l s c, sane E f -> proper_name s -> input_file E f path (l ++ [s +:+ ".pkt"]) c -> forall f' r,
  fault E 0 (l ++ [s +:+ ".pkt"]) = false -> run E path out f = (f', r) ->
  f' !! leads_to E out = f !! leads_to E out \/ made_dir f f' (leads_to E out).
Proof. exact named_place. Qed.
Print Assumptions C106_named_file_refuted.
(** after a run that succeeds it is a directory, with the code in a file inside; *)
Theorem C106_directory_refuted : forall E f path out l s c, sane E f -> proper_name s -> input_file E f path (l ++ [s +:+ ".pkt"]) c -> forall f',
  fault E 0 (l ++ [s +:+ ".pkt"]) = false -> run E path out f = (f', Ok ()) ->
  entry_at f' (leads_to E out) = Some Dir /\ exists x t, shortened s x /\ code_for E c t /\ f' !! (leads_to E out ++ [x +:+ ".ts"]) = Some (File (txt t)).
Proof. exact becomes_dir. Qed.
Print Assumptions C106_directory_refuted.
(** and if it is a file already, from an earlier version of the code say, the command fails. *)
Theorem C106_file_there_refuted : forall E f path out l s c, sane E f -> proper_name s -> input_file E f path (l ++ [s +:+ ".pkt"]) c -> forall f' r,
  is_file f (leads_to E out) -> fault E 0 (l ++ [s +:+ ".pkt"]) = false -> run E path out f = (f', r) -> r ≠ Ok ().
Proof. exact file_there. Qed.
Print Assumptions C106_file_there_refuted.
(** The name must not be a dot: the code of a file called ..pkt does go to the place that is named, if that ends in .ts. *)
Example C106_nonvacuous : sane calm readme_tree /\ input_file calm readme_tree "test.pkt" ([] ++ ["test" +:+ ".pkt"]) good_text /\
  ended_ok (run calm "test.pkt" "test.ts" readme_tree).2 = Some true /\
  map (kind_at (run calm "test.pkt" "test.ts" readme_tree).1) [["test.ts"]; ["test.ts"; "test.ts"]] = [Some false; Some true] /\
  ended_ok (run calm "test.pkt" "test.ts" taken_tree).2 = Some false /\
  kind_at (run calm "..pkt" "test.ts" dot_tree).1 ["test.ts"] = Some true.
Proof. split; [apply calm_sane; by vm_compute|]. split; [split; by vm_compute|]. repeat split; by vm_compute. Qed.
