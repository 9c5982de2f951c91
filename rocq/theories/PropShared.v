(** Property theorems C112: the command while other processes change the file system. *)
From Verif Require Import CliSharedKeep CliSharedAlone CliSharedWitness.

(** C112, what is proved. Whatever other processes do between its operations, the command first reads, then writes. It writes only if every text that it read compiles, and what it writes
    is the code of such a text, to the output of its file, or directories above one. If it succeeds there was an output for each file that it read,
    and all outputs were written completely. *)
Theorem C112_own_actions : forall E meddle fuel path out f w r, keeps_tree meddle -> tree f -> hrun E meddle fuel path out f = (w, r) ->
  tree (p_fs w) /\ exists rs ws, p_events w = rs ++ ws /\ Forall a_read rs /\ Forall (own_output E path out rs) ws /\
    (ws ≠ [] -> forall s c, Read s c ∈ rs -> exists t, code_for E c t) /\
    (r = Ok () -> forall s c, Read s c ∈ rs -> exists p t, out_path path out rs s c p /\ code_for E c t /\ Wrote (leads_to E p) (txt t) ∈ ws) /\
    (r = Ok () -> Forall (whole_output E path out rs) ws).
Proof. exact (fun E meddle fuel path out f w r Hm => run_own E meddle Hm fuel path out f w r). Qed.
Print Assumptions C112_own_actions.
Example C112_own_actions_nonvacuous : keeps_tree rival /\ tree shared_tree /\ let r := hrun calm rival 4 "in" "out" shared_tree in
  ended_ok r.2 = Some true /\ wrote_good r.1 = true /\ p_fs r.1 !! ["in"; "a.pkt"] = Some (File bad_text).
Proof. split; [apply rival_tree|]. split; [apply treeb_spec; by vm_compute|]. split; [by vm_compute|]. split; by vm_compute. Qed.
(** C112: if the others leave what has extension ts alone, then after success the output of each file that was read holds the code of a text that was read, from this file or from another with the same output. *)
Theorem C112_outputs : forall E meddle fuel path out f w r, spares_ts meddle -> keeps_tree meddle -> tree f -> hrun E meddle fuel path out f = (w, r) -> r = Ok () -> exists rs ws, p_events w = rs ++ ws /\ Forall a_read rs /\
  forall s c, Read s c ∈ rs -> exists p s' c' p' t', out_path path out rs s c p /\ out_path path out rs s' c' p' /\ leads_to E p' = leads_to E p /\ code_for E c' t' /\ p_fs w !! leads_to E p = Some (File (txt t')).
Proof. exact (fun E meddle fuel path out f w r Hts => shared_outputs E meddle Hts fuel path out f w r). Qed.
Print Assumptions C112_outputs.
Example C112_outputs_nonvacuous : spares_ts rival /\ keeps_tree rival /\ tree shared_tree /\ ended_ok (hrun calm rival 4 "in" "out" shared_tree).2 = Some true /\ match p_fs (hrun calm rival 4 "in" "out" shared_tree).1 !! ["out"; "a.ts"] with Some (File c) => bool_decide (c ≠ []) | _ => false end = true.
Proof. split; [apply rival_ts|]. split; [apply rival_tree|]. split; [apply treeb_spec; by vm_compute|]. split; by vm_compute. Qed.
(** C112, full statement: and it ends. Proved if the others keep the depth of the file system within some bound. *)
Theorem C112_ends_partial : forall E meddle D fuel path out f w r, keeps_tree meddle -> keeps_depth D meddle -> (forall n, fair_order (hash1 E n)) -> (forall n l, listing E n l ≡ₚ l) ->
  tree f -> depth f <= D -> D < fuel -> hrun E meddle fuel path out f = (w, r) -> r ≠ Diverge.
Proof. exact (fun E meddle D fuel path out f w r Hm HD Hh => run_halts E meddle Hm Hh D fuel path out f w r HD). Qed.
Print Assumptions C112_ends_partial.
Example C112_ends_nonvacuous : keeps_tree rival /\ keeps_depth 3 rival /\ tree shared_tree /\ depth shared_tree <= 3 /\ ended_ok (hrun calm rival 4 "in" "out" shared_tree).2 = Some true.
Proof. split; [apply rival_tree|]. split; [by apply rival_depth|]. split; [apply treeb_spec; by vm_compute|]. split; by vm_compute. Qed.
(** The same if nothing deeper than [L] can be opened. A limit on the length of paths has this effect, since the walk makes its path longer at each step down. *)
Theorem C112_limit_partial : forall E meddle L fuel path out f w r, keeps_tree meddle -> (forall n l, L < length l -> fault E n l = true) -> (forall n, fair_order (hash1 E n)) -> (forall n l, listing E n l ≡ₚ l) ->
  tree f -> S L < fuel -> hrun E meddle fuel path out f = (w, r) -> r ≠ Diverge.
Proof. exact (fun E meddle L fuel path out f w r Hm HL Hh => run_halts_limit E meddle Hm Hh L fuel path out f w r HL). Qed.
Print Assumptions C112_limit_partial.
Example C112_limit_nonvacuous : keeps_tree digger /\ (forall n l, 3 < length l -> fault shallow n l = true) /\ (hrun shallow digger 5 (deep 0) "out" (chain 0)).2 = Err "I/O error".
Proof. split; [apply digger_tree|]. split; [|by vm_compute]. intros n l Hl. by apply bool_decide_eq_true. Qed.
(** C112, refuted without either: a process that keeps adding a directory below the one being visited keeps the walk going. (The limit on the length of a path is not modelled.) *)
Theorem C112_ends_refuted : exists E meddle path out f, sane E f /\ keeps_tree meddle /\ forall fuel, (hrun E meddle fuel path out f).2 = Diverge.
Proof. exact never_ends. Qed.
Print Assumptions C112_ends_refuted.
(** C112: if the others do nothing and no operation fails by itself, this is the command of Cli.v: the same file system at the end, and success together. (Directories are made in another order here.) *)
Theorem C112_alone : forall E f path out f' r, calm_env E -> sane E f -> run E path out f = (f', r) ->
  exists w r', hrun E (fun _ f => f) (S (depth f)) path out f = (w, r') /\ p_fs w = f' /\ (r' = Ok () <-> r = Ok ()).
Proof. exact (fun E f path out f' r HE => run_alone E HE f path out f' r). Qed.
Print Assumptions C112_alone.
Example C112_alone_nonvacuous : calm_env calm /\ sane calm shared_tree /\ (run calm "in" "new/../deep/./out" shared_tree).2 = Ok () /\
  (run calm "in" "new/../deep/./out" shared_tree).1 !! ["new"] = Some Dir /\ shared_tree !! ["new"] = None.
Proof. split; [by split|]. split; [apply calm_sane; by vm_compute|]. split; [by vm_compute|]. split; by vm_compute. Qed.
