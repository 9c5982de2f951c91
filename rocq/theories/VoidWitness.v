(** Schemas with and without arrays whose items take no bytes. *)
From Verif Require Export RsVoid RsWitness.

Lemma empty_no_bytes a : no_empty a -> forall n, ~ no_bytes a n.
Proof.
  intros He. unfold not. fix IH 2. intros n [m fs Hd Hfs]. specialize (He m fs Hd). destruct Hfs as [|d fs (_ & _ & Hn) _]; [done|]. exact (IH _ Hn).
Qed.
Lemma demo_solid : ~ weightless_array demo_schema "Outer".
Proof. intros (n & fs & f & u & _ & _ & _ & _ & Hn). eapply empty_no_bytes; [|exact Hn]. apply demo_facts. Qed.
(** an array of structs of an empty struct *)
Definition nested_schema : ast := [NDecl "E" (AStruct []); NDecl "Q" (AStruct [("a", plain "E"); ("b", plain "E")]);
  NDecl "R" (AStruct [("qs", arr "Q"); ("n", plain "uint8")]); NDecl "P" (AStruct [("r", opt "R")]); NExport "P"].
Lemma nested_facts : legal_ast nested_schema /\ accepted nested_schema /\ rust_names nested_schema /\ plain_names nested_schema /\ small_enums nested_schema.
Proof.
  split; [solve_legal|]. split; [eapply accepted_export; [solve_legal|by vm_compute]|]. split; [solve_rust|]. split; [solve_plain|]. decl_cases.
Qed.
Lemma nested_weightless : weightless_array nested_schema "P".
Proof.
  assert (no_bytes nested_schema "E") as He by (econstructor; [by left|constructor]).
  exists "R", [("qs", arr "Q"); ("n", plain "uint8")], "qs", (arr "Q"). split.
  { eapply rtc_l; [|apply rtc_refl]. exists [("r", opt "R")], "r", (opt "R"). split; [do 3 right; by left|]. split; [by left|done]. }
  split; [do 2 right; by left|]. split; [by left|]. split; [done|]. econstructor; [right; by left|]. repeat constructor; exact He.
Qed.
(** empty structs do no harm outside arrays *)
Definition calm_schema : ast := [NDecl "E" (AStruct []); NDecl "P" (AStruct [("e", plain "E"); ("f", opt "E"); ("xs", arr "uint8")]); NExport "P"].
Lemma calm_solid : legal_ast calm_schema /\ accepted calm_schema /\ rust_names calm_schema /\ ~ no_empty calm_schema /\ ~ weightless_array calm_schema "P".
Proof.
  split; [solve_legal|]. split; [eapply accepted_export; [solve_legal|by vm_compute]|]. split; [solve_rust|]. split.
  - intros H. by apply (H "E" []); [left|].
  - intros (n & fs & f & u & _ & Hd & Hin & Ha & Hn). assert (u_name u = "uint8") as E.
    { unfold declares_struct in Hd. repeat (apply elem_of_cons in Hd as [Hd|Hd]; [|]); simplify_eq; [by apply elem_of_nil in Hin| |by apply elem_of_nil in Hd].
      repeat (apply elem_of_cons in Hin as [Hin|Hin]; [by simplify_eq|]). by apply elem_of_nil in Hin. }
    rewrite E in Hn. inversion Hn as [m gs Hg _]; subst. unfold declares_struct in Hg. repeat (apply elem_of_cons in Hg as [Hg|Hg]; [by simplify_eq|]). by apply elem_of_nil in Hg.
Qed.
