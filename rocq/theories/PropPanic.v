(** Property theorems C56 (criterion): which inputs can make the command panic. *)
From Verif Require Import CliPanic.

(** C56, the exact condition: no run on the directory panics, whatever the file system does, exactly if the directories below it have UTF-8 names. *)
Theorem C56_criterion : forall E f path out base, sane E f -> input_dir E f path base -> utf8 (txt path) ->
  (forall E' f' r t, sane E' f -> cwd E' = cwd E -> run E' path out f = (f', r) -> r ≠ Panic t) <-> dirs_named f base.
Proof. exact panic_iff. Qed.
Print Assumptions C56_criterion.
Example C56_criterion_nonvacuous : sane calm rough_tree /\ input_dir calm rough_tree "in" ["in"] /\ utf8 (txt "in") /\ dirs_named rough_tree ["in"] /\ ~ files_named rough_tree ["in"] /\ ~ dirs_named odd_tree ["in"].
Proof.
  split; [apply calm_sane; by vm_compute|]. split; [split; by vm_compute|]. split; [apply from_utf8_spec; by vm_compute|]. split; [apply rough_named|]. split; [|apply odd_unnamed].
  intros H. assert (utf8 (txt odd_name)) as Hf by (apply (H [] odd_name good_text); split; by vm_compute). apply from_utf8_spec in Hf. by vm_compute in Hf.
Qed.
(** A single input file never makes it panic. *)
Theorem C56_single_file : forall E f, sane E f -> forall path out l c f' r, input_file E f path l c -> run E path out f = (f', r) -> forall t, r ≠ Panic t.
Proof. exact file_calm. Qed.
Print Assumptions C56_single_file.
Example C56_single_nonvacuous : sane calm rough_tree /\ input_file calm rough_tree ("in/" +:+ odd_name +:+ ".pkt") ["in"; odd_name +:+ ".pkt"] good_text.
Proof. split; [apply calm_sane; by vm_compute|]. split; by vm_compute. Qed.
