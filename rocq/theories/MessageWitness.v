(** A schema with two defects: which of them is reported is up to the hash order. *)
From Verif Require Export MessageResults CheckWitness.

Lemma message_criterion a : no_builtin_decl a ->
  (forall i1 i2 m1 m2, fair_order i1 -> fair_order i2 -> type_check i1 a = Err m1 -> type_check i2 a = Err m2 -> m1 = m2) <-> (forall m1 m2, possible a m1 -> possible a m2 -> m1 = m2).
Proof.
  intros Hnb. split.
  - intros H m1 m2 (i1 & H1 & E1)%(possible_messages a m1 Hnb) (i2 & H2 & E2)%(possible_messages a m2 Hnb). by eapply (H i1 i2).
  - intros H i1 i2 m1 m2 H1 H2 E1 E2. apply H; apply possible_messages; eauto.
Qed.

Definition torn_schema : ast :=
  [NDecl "D" (AStruct [("f", Unresolved "E" true true); ("g", plain "F")]); NDecl "E" (AStruct [("b", plain "B")]); NDecl "B" (AStruct [("x", plain "uint8")]); NExport "D"].
Definition loop_schema : ast :=
  [NDecl "A" (AStruct [("b", plain "B")]); NDecl "B" (AStruct [("c", plain "C")]); NDecl "C" (AStruct [("b", plain "B")]); NExport "A"].

(** all messages, by going through all orders *)
Definition within (a : ast) (L : list string) : bool :=
  match front a with
  | Ok (e, C0, D) => forallb (fun o => match second_pass_loop (S (size D)) o (Sp C0 ∅ D) with Err m => bool_decide (m ∈ L) | _ => false end) (permutations (map_to_list D))
  | _ => false
  end.
Lemma within_all a L iter m : within a L = true -> fair_order iter -> type_check iter a = Err m -> m ∈ L.
Proof.
  unfold within. rewrite type_check_front. destruct (front a) as [[[e C0] D]|m'|m'|]; [|done..]. cbn [rbind]. unfold resolve_second_pass.
  rewrite forallb_forall. intros H Hfair. assert (List.In (iter D) (permutations (map_to_list D))) as Hin.
  { apply elem_of_list_In, permutations_Permutation. symmetry. apply Hfair. }
  apply H in Hin. destruct (second_pass_loop (S (size D)) (iter D) (Sp C0 ∅ D)) as [s|m'|m'|]; [done| |done|done]. cbn [rbind]. intros [= <-]. by apply bool_decide_eq_true in Hin.
Qed.
Definition chosen (a : ast) (ns : list string) (m : gmap string atype) : list (string * atype) :=
  let l := omap (fun n => (fun t => (n, t)) <$> m !! n) ns in
  if decide (l ≡ₚ map_to_list m) then l else map_to_list m.
Lemma chosen_fair a ns : fair_order (chosen a ns).
Proof. intros m. unfold chosen. by case_decide. Qed.
Lemma torn_messages m : possible torn_schema m <-> m ∈ ["Field 'f' in struct 'D' cannot be optional and array at once"; "Declaration for type 'F' does not exist"].
Proof.
  assert (no_builtin_decl torn_schema) as Hnb by (apply (bool_decide_unpack _); by vm_compute).
  rewrite <- possible_messages by done. split.
  - intros (iter & Hf & H). eapply within_all; [|exact Hf|exact H]. by vm_compute.
  - rewrite !elem_of_cons, elem_of_nil. intros [->|[->|[]]].
    + exists (chosen torn_schema ["E"; "D"]). split; [apply chosen_fair|]. by vm_compute.
    + exists (chosen torn_schema ["D"; "E"]). split; [apply chosen_fair|]. by vm_compute.
Qed.
Lemma loop_messages m : possible loop_schema m <-> m ∈ ["Declaration for type 'B' does not exist"; "Found a cycle between two or more top level definitions in type 'B'";
  "Found a cycle between two or more top level definitions in type 'C'"].
Proof.
  assert (no_builtin_decl loop_schema) as Hnb by (apply (bool_decide_unpack _); by vm_compute).
  rewrite <- possible_messages by done. split.
  - intros (iter & Hf & H). eapply within_all; [|exact Hf|exact H]. by vm_compute.
  - rewrite !elem_of_cons, elem_of_nil. intros [->|[->|[->|[]]]].
    + exists (chosen loop_schema ["A"; "B"; "C"]). split; [apply chosen_fair|]. by vm_compute.
    + exists (chosen loop_schema ["B"; "A"; "C"]). split; [apply chosen_fair|]. by vm_compute.
    + exists (chosen loop_schema ["C"; "A"; "B"]). split; [apply chosen_fair|]. by vm_compute.
Qed.
Lemma torn_criterion : no_builtin_decl torn_schema /\ ~ (forall m1 m2, possible torn_schema m1 -> possible torn_schema m2 -> m1 = m2).
Proof.
  split.
  - apply (bool_decide_unpack _). by vm_compute.
  - intros H. specialize (H _ _ (proj2 (torn_messages _) ltac:(left)) (proj2 (torn_messages _) ltac:(right; left))). done.
Qed.
