(** Systems for the examples of C113 and C114. *)
From Verif Require Export CliSharedWitness CliCallsEnds CliCallsProofs.

Definition has_made (s : string) (tr : list call) : bool := existsb (fun c => match c with Makes q Made => bool_decide (q = s) | _ => false end) tr.
(** Two schemas, one in a subdirectory, and another file; "out" is not there. [w] answers writes. *)
Definition two_schemas (w : list call -> string -> text -> bool) : os := {|
  o_meta _ s := if decide (s ∈ ["in"; "in/sub"]) then Some true else None;
  o_is_dir tr s := bool_decide (s = "in/sub") || has_made s tr;
  o_list _ s := if decide (s = "in") then Some ["a.pkt"; "sub"; "b.txt"] else if decide (s = "in/sub") then Some ["c.pkt"] else None;
  o_next _ _ := true;
  o_read _ _ := Some good_text;
  o_print _ _ := true;
  o_mkdir tr s := if has_made s tr then Refused else if decide (s = "out") then Made else if has_made "out" tr then Made else Absent;
  o_write := w;
  o_time tr := length tr |}.
(** "in" is a directory when it is first asked about, and a file the next time. *)
Definition fickle : os := {|
  o_meta tr s := Some (bool_decide (tr = [])); o_is_dir _ _ := false; o_list _ _ := None; o_next _ _ := false; o_read _ _ := None; o_print _ _ := false; o_mkdir _ _ := Refused; o_write _ _ _ := false; o_time _ := 0 |}.
(** Each directory has a directory "d" and a schema, as long as the path is not longer than [L]. *)
Definition nested (L : nat) : os := {|
  o_meta _ _ := Some true;
  o_is_dir _ s := bool_decide (String.length s <= L /\ extension_of s ≠ Some "pkt");
  o_list _ _ := Some ["d"; "a.pkt"];
  o_next _ _ := true; o_read _ _ := Some good_text; o_print _ _ := true; o_mkdir _ _ := Made; o_write _ _ _ := true; o_time _ := 0 |}.
Lemma nested_proper L : names_proper (nested L).
Proof. intros tr s names [= <-]. by repeat (constructor; [apply proper_nameb_spec; by vm_compute|]). Qed.
Lemma nested_limit L : path_limit L (nested L).
Proof. intros tr s H. cbn. apply bool_decide_eq_false. lia. Qed.
(** Each directory has a directory "d". *)
Definition bottomless : os := {|
  o_meta _ _ := Some true; o_is_dir _ _ := true; o_list _ _ := Some ["d"]; o_next _ _ := true; o_read _ _ := None; o_print _ _ := true; o_mkdir _ _ := Made; o_write _ _ _ := true; o_time _ := 0 |}.
Lemma bottomless_visit fuel : forall k tr, (ovisit_files bottomless calm fuel (deep k) tr).2 = Diverge.
Proof.
  induction fuel as [|fuel IH]; intros k tr; [done|]. cbn [ovisit_files]. unfold CliCalls.obind, ometadata, oread_dir. cbn [o_meta o_list bottomless or_fail]. cbn [ovisit_entries]. unfold CliCalls.obind, onext, ois_dir. cbn [o_next o_is_dir bottomless].
  change (push (deep k) "d") with (deep (S k)). rewrite deep_str. specialize (IH (S k)). match goal with |- context [ovisit_files _ _ _ _ ?t] => specialize (IH t); destruct (ovisit_files bottomless calm fuel (deep (S k)) t) as [tr1 r1] end. cbn in IH. by rewrite IH.
Qed.
Lemma bottomless_ends : exists O E path out, names_proper O /\ (forall n, fair_order (hash1 E n)) /\ forall fuel, (orun O E fuel path out).2 = Diverge.
Proof.
  exists bottomless, calm, (deep 0), "out". split; [intros tr s names [= <-]; by repeat (constructor; [apply proper_nameb_spec; by vm_compute|])|]. split; [apply (sane_hash1 calm ∅), calm_sane; by vm_compute|].
  intros fuel. unfold orun, omain, ometadata. cbn [o_meta bottomless or_fail]. unfold CliCalls.obind. match goal with |- context [ovisit_files _ _ _ _ ?t] => pose proof (bottomless_visit fuel 0 t) as H; destruct (ovisit_files bottomless calm fuel (deep 0) t) as [tr1 r1] end. cbn in H. by rewrite H.
Qed.
