(** Property theorems C107, C108: what the command prints, and what happens if it cannot. *)
From Verif Require Import CliPrintProofs CliWitness.

(** C107, every directory run: either it stops before it writes or prints anything; or it announces outputs one after the other, in an order of its own,
    each before it is written, and at the end exactly the announced ones can have changed: all of them are complete, but for the last if the run ends with an error. *)
Theorem C107_every_run : forall E mute lossy f path out base, sane E f -> input_dir E f path base -> fault E 0 base = false -> forall f' ls r,
  run_out E mute lossy path out f = (f', ls, r) ->
  (f' = f /\ ls = [] /\ r ≠ Ok ()) \/
  exists ps ts k, outputs E f out base ps ts /\ ls = announce lossy <$> take (length ls) ps /\ stands E f f' ps ts k (length ls) /\
    (no_blind E -> utf8 (txt path) -> utf8 (txt out) -> Forall (fun p => display lossy p = p) ps) /\
    (r = Ok () /\ k = length ps /\ length ls = k \/
     (exists m, r = Err m) /\ k < length ps /\ length ls = S k \/
     (exists m, r = Panic m) /\ k < length ps /\ length ls = k /\ mute k = true).
Proof. exact dir_out. Qed.
Print Assumptions C107_every_run.
(** A run that succeeds prints a path to each output, once, and nothing else. *)
Theorem C107_announced : forall E mute lossy f path out base, sane E f -> input_dir E f path base -> fault E 0 base = false -> forall f' ls,
  run_out E mute lossy path out f = (f', ls, Ok ()) -> no_blind E -> utf8 (txt path) -> utf8 (txt out) ->
  exists ps ts, outputs E f out base ps ts /\ ls = (fun p => "Writing to " +:+ p) <$> ps /\ stands E f f' ps ts (length ps) (length ps).
Proof. exact dir_announced. Qed.
Print Assumptions C107_announced.
Example C107_nonvacuous : sane calm some_tree /\ input_dir calm some_tree "in" ["in"] /\ fault calm 0 ["in"] = false /\ no_blind calm /\ utf8 (txt "in") /\ utf8 (txt "out") /\
  (let '(_, ls, r) := run_out calm (fun _ => false) id "in" "out" some_tree in (ls, r)) = (["Writing to out/sub/b.c.ts"; "Writing to out/a.ts"], Ok ()) /\
  (let '(_, ls, r) := run_out calm (fun n => Nat.eqb n 1) id "in" "out" some_tree in (ls, r)) = (["Writing to out/sub/b.c.ts"], Panic "failed printing to stdout").
Proof.
  split; [apply calm_sane; by vm_compute|]. split; [apply some_in|]. split; [done|]. split; [done|]. split; [apply from_utf8_spec; by vm_compute|]. split; [apply from_utf8_spec; by vm_compute|].
  split; by vm_compute.
Qed.
(** A single file: a run that gets as far as writing first prints the output directory as it was given, then the announcement. *)
Theorem C107_single_file : forall E mute lossy f path out l s c f' ls r, sane E f -> proper_name s -> input_file E f path (l ++ [s +:+ ".pkt"]) c -> fault E 0 (l ++ [s +:+ ".pkt"]) = false ->
  run_out E mute lossy path out f = (f', ls, r) -> forall x, shortened s x ->
  (f' = f /\ ls = [] /\ exists m, r = Err m) \/
  (f' = f /\ (mute 0 = true /\ ls = [] \/ mute 1 = true /\ ls = [display lossy out]) /\ exists m, r = Panic m) \/
  (run E path out f = (f', r) /\ (r = Ok () \/ exists m, r = Err m) /\
   exists p, ls = [display lossy out; announce lossy p] /\ leads_to E p = target E out [] x /\ (utf8 (txt path) -> utf8 (txt out) -> display lossy p = p)).
Proof. exact single_announced. Qed.
Print Assumptions C107_single_file.
Example C107_single_nonvacuous : sane calm some_tree /\ proper_name "a" /\ input_file calm some_tree "in/a.pkt" (["in"] ++ ["a" +:+ ".pkt"]) good_text /\ fault calm 0 (["in"] ++ ["a" +:+ ".pkt"]) = false /\
  shortened "a" "a" /\ (let '(_, ls, r) := run_out calm (fun _ => false) id "in/a.pkt" "out" some_tree in (ls, r)) = (["out"; "Writing to out/a.ts"], Ok ()).
Proof.
  split; [apply calm_sane; by vm_compute|]. split; [apply proper_nameb_spec; by vm_compute|]. split; [split; by vm_compute|]. split; [done|]. split; [|by vm_compute].
  rewrite <- (eq_refl : name_stem "a" = "a") at 2. apply stem_shortened.
Qed.

(** C108, full statement: a run that would succeed succeeds whether or not somebody reads what it prints. False of every run on a directory with a schema:
    with standard output closed it panics before it writes anything. *)
Theorem C108_closed_stdout_refuted : forall E mute lossy f path out base, sane E f -> input_dir E f path base -> fault E 0 base = false -> forall f',
  mute 0 = true -> run E path out f = (f', Ok ()) -> (exists dirs s c, schema_at f base dirs s c) -> no_blind E ->
  exists m, run_out E mute lossy path out f = (f, [], Panic m).
Proof. exact closed_panic. Qed.
Print Assumptions C108_closed_stdout_refuted.
Example C108_nonvacuous : sane calm some_tree /\ input_dir calm some_tree "in" ["in"] /\ fault calm 0 ["in"] = false /\ (exists f', run calm "in" "out" some_tree = (f', Ok ())) /\
  schema_at some_tree ["in"] [] "a" good_text /\ no_blind calm.
Proof.
  split; [apply calm_sane; by vm_compute|]. split; [apply some_in|]. split; [done|]. split; [|split; [apply some_first|done]].
  assert ((run calm "in" "out" some_tree).2 = Ok ()) as H by by vm_compute. destruct (run calm "in" "out" some_tree) as [f' r]. cbn in H. subst r. by exists f'.
Qed.
(** What is left, for every input and every file system: the outcome is that of the run without output, unless a line cannot be printed; the lines before it were. *)
Theorem C108_only_panics : forall E mute lossy path out f f' ls r, run_out E mute lossy path out f = (f', ls, r) ->
  (forall i, i < length ls -> mute i = false) /\ (run E path out f = (f', r) \/ mute (length ls) = true /\ exists e, r = Panic e).
Proof. exact stdout_only. Qed.
Print Assumptions C108_only_panics.
Example C108_only_nonvacuous : (let '(f', ls, r) := run_out calm (fun n => Nat.leb 1 n) id "in" "out" some_tree in
  (f' !! ["out"; "a.ts"], bool_decide (is_Some (f' !! ["out"; "sub"; "b.c.ts"])), length ls, r)) = (None, true, 1, Panic "failed printing to stdout").
Proof. by vm_compute. Qed.
