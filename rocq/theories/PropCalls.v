(** Property theorems C113, C114: the calls of the command, whatever the operating system answers. *)
From Verif Require Import CliCallsWitness CliCallsCover.

(** C113. Nothing is done, with success, if the first question about the path fails. Otherwise the command looks for schemas, only below the path, and then writes.
    It begins to write when everything that it found was pursued and every text that it read compiles. It writes the codes of the texts in the order in which they were read,
    all of them if it succeeds, each to the output of its file, and makes only directories above these outputs. *)
Theorem C113_calls : forall O E fuel path out tr r, orun O E fuel path out = (tr, r) -> (tr = [Meta path None] /\ r = Ok ()) \/
  exists dir look act k, tr = Meta path (Some dir) :: look ++ act /\ Forall (looks path dir) look /\ Forall (saves path out dir (texts_read look)) act /\
    (act ≠ [] \/ r = Ok () -> found_all path dir look) /\ (act ≠ [] -> forall s c, (s, c) ∈ texts_read look -> exists t, code_for E c t) /\
    Forall2 (output_for E path out dir) (take k (texts_read look)) (texts_written act) /\ (r = Ok () -> k = length (texts_read look)).
Proof. exact calls_in_order. Qed.
Print Assumptions C113_calls.
Example C113_calls_nonvacuous : let r := orun (two_schemas (fun _ _ _ => true)) calm 4 "in" "out" in
  r.2 = Ok () /\ (texts_read r.1).*1 = ["in/a.pkt"; "in/sub/c.pkt"] /\ (texts_written r.1).*1 = ["out/a.ts"; "out/sub/c.ts"] /\ orun fickle calm 4 "in" "out" = ([Meta "in" (Some true); Meta "in" (Some false)], Ok ()).
Proof. split; [by vm_compute|]. split; [by vm_compute|]. split; by vm_compute. Qed.
(** C113: no error is ignored. After the first question, an error of the system, other than that of making a directory, is the last answer that the command waits for, and it does not succeed then. *)
Theorem C113_errors : forall O E fuel path out tr r, orun O E fuel path out = (tr, r) -> tr ≠ [Meta path None] -> Forall no_error (removelast tr) /\ (r = Ok () -> Forall no_error tr).
Proof. exact calls_fine. Qed.
Print Assumptions C113_errors.
Example C113_errors_nonvacuous : let r := orun (two_schemas (fun _ s _ => bool_decide (s ≠ "out/a.ts"))) calm 4 "in" "out" in
  r.2 = Err "I/O error" /\ length (texts_read r.1) = 2 /\ (texts_written r.1).*1 = ["out/a.ts"] /\ match last r.1 with Some (Writes s _ false) => s = "out/a.ts" | _ => False end.
Proof. split; [by vm_compute|]. split; [by vm_compute|]. split; by vm_compute. Qed.
(** C113: each write was announced, and its directory was made or found there before. *)
Theorem C113_prepared : forall O E fuel path out tr r, orun O E fuel path out = (tr, r) -> prepared tr.
Proof. exact run_prepared. Qed.
Print Assumptions C113_prepared.
Example C113_prepared_nonvacuous : let r := orun (two_schemas (fun _ _ _ => true)) calm 4 "in" "out/sub" in
  length (texts_written r.1) = 2 /\ omap (fun c => match c with Makes s a => Some (s, match a with Made => true | _ => false end) | _ => None end) r.1 = [("out/sub", false); ("out", true); ("out/sub", true); ("out/sub/sub", true)].
Proof. split; by vm_compute. Qed.
(** C113: this covers the command on a file system that other processes change, of C112: some system answers so that the outcome is the same, the same texts are read, and the same directories and files are made and written. *)
Theorem C113_covers : forall E meddle f fuel path out w r, hrun E meddle fuel path out f = (w, r) ->
  exists O tr r', orun O E fuel path out = (tr, r') /\ same_end eq r r' /\ texts_read tr = event_texts (p_events w) /\ Forall (comes_from E tr) (p_events w) /\ Forall (shows_in E (p_events w)) tr.
Proof. exact (fun E meddle f fuel path out w r H => ex_intro _ (fs_os E meddle f) (run_follows E meddle f fuel path out w r H)). Qed.
Print Assumptions C113_covers.
Example C113_covers_nonvacuous : (hrun calm rival 4 "in" "out" shared_tree).2 = Ok () /\ event_texts (p_events (hrun calm rival 4 "in" "out" shared_tree).1) = [("in/a.pkt", good_text)].
Proof. split; by vm_compute. Qed.
(** C114, full statement: the command ends whatever the system answers. Proved for every system that has a limit on the length of a path to a directory, however its files change meanwhile. *)
Theorem C114_ends_partial : forall O E L fuel path out, names_proper O -> path_limit L O -> (forall n, fair_order (hash1 E n)) -> S L < fuel -> (orun O E fuel path out).2 ≠ Diverge.
Proof. exact (fun O E L fuel path out Hn HL Hh => run_stops O E Hn L HL Hh fuel path out). Qed.
Print Assumptions C114_ends_partial.
Example C114_ends_nonvacuous : names_proper (nested 12) /\ path_limit 12 (nested 12) /\ (forall n, fair_order (hash1 calm n)) /\ (orun (nested 12) calm 14 "in" "out").2 = Ok () /\ length (texts_written (orun (nested 12) calm 14 "in" "out").1) = 6.
Proof. split; [apply nested_proper|]. split; [apply nested_limit|]. split; [apply (sane_hash1 calm ∅), calm_sane; by vm_compute|]. split; by vm_compute. Qed.
(** C114, refuted without such a limit: each directory that is listed may have another one. *)
Theorem C114_ends_refuted : exists O E path out, names_proper O /\ (forall n, fair_order (hash1 E n)) /\ forall fuel, (orun O E fuel path out).2 = Diverge.
Proof. exact bottomless_ends. Qed.
Print Assumptions C114_ends_refuted.
