(** Schemas for the examples of PropProto.v. *)
From Verif Require Export ProtoProofs OmitSpec NeedsWitness.

Definition hidden_proto : ast :=
  [NDecl "Q" (AStruct [("x", plain "uint8"); ("__proto__", opt "string")]); NDecl "P" (AStruct [("qs", arr "Q"); ("n", plain "uint8")]); NExport "P"].
Lemma modelled_intro a e : e ∉ outside_model -> (forall n fs, declares_struct a n fs -> NoDup fs.*1 /\ Forall (fun p => p.1 = "__proto__" -> u_array p.2 = false /\ u_name p.2 ∈ builtin_names) fs) ->
  no_builtin_decl a -> modelled_names a e /\ distinct_fields a e.
Proof.
  intros He H Hnb. split; [constructor; [done|]|intros n fs _ Hd; by apply (H n)]. intros n fs u _ Hd Hin. destruct (H _ _ Hd) as [_ HF].
  destruct (proj1 (Forall_forall _ _) HF _ Hin eq_refl) as [H1 H2]. split; [done|]. intros gs Hgs. eapply Hnb; [|exact H2]. by eapply declared_name.
Qed.
Lemma hidden_proto_facts : accepted hidden_proto /\ exports hidden_proto = ["P"] /\ modelled_names hidden_proto "P" /\ distinct_fields hidden_proto "P" /\
  needed hidden_proto "P" "Q" /\ ~ plain_names hidden_proto.
Proof.
  assert (parse_schema (show_ast hidden_proto) = POk hidden_proto) as Hl by by vm_compute. apply parsed_legal in Hl.
  assert (needed hidden_proto "P" "Q") as HN.
  { eapply rtc_l; [|apply rtc_refl]. eexists _, "qs", (arr "Q"). split; [right; by left|]. split; [by left|done]. }
  split; [apply accepted_fwd; [done|apply okb_ok; by vm_compute]|]. split; [done|]. split; [|split; [|split; [done|]]].
  1-2: apply modelled_intro; [apply (bool_decide_unpack _); by vm_compute| |by apply legal_no_builtin].
  1-2: decl_cases; (split; [apply (bool_decide_unpack _); by vm_compute|repeat constructor; try done; intros _; apply (bool_decide_unpack _); by vm_compute]).
  intros [_ Hp _]. destruct (Hp "P" "Q" _ eq_refl HN ltac:(by left)) as [_ Hno]. apply Hno. right. by left.
Qed.
Lemma demo_modelled : modelled_names demo_schema "Outer" /\ distinct_fields demo_schema "Outer".
Proof.
  apply modelled_intro; [apply (bool_decide_unpack _); by vm_compute| |apply legal_no_builtin, demo_facts].
  decl_cases; (split; [apply (bool_decide_unpack _); by vm_compute|repeat constructor; done]).
Qed.
Lemma many_modelled : modelled_names (enum_schema many_names) "P" /\ distinct_fields (enum_schema many_names) "P".
Proof.
  apply modelled_intro; [apply (bool_decide_unpack _); by vm_compute| |apply (bool_decide_unpack _); by vm_compute].
  decl_cases; (split; [apply (bool_decide_unpack _); by vm_compute|repeat constructor; done]).
Qed.
Lemma instances_witness : (exports demo_schema = ["Outer"] /\ distinct_fields demo_schema "Outer" /\ loads (class_of demo_export) /\
    forall fs, declares_struct demo_schema "Outer" fs -> "write" ∉ fs.*1 /\ "__proto__" ∉ fs.*1) /\
  accepted (name_schema "write") /\ distinct_fields (name_schema "write") "P" /\ ~ (forall fs, declares_struct (name_schema "write") "P" fs -> "write" ∉ fs.*1 /\ "__proto__" ∉ fs.*1).
Proof.
  split; [split; [done|]; split; [apply demo_modelled|]; split|].
  - apply (bool_decide_unpack _). by vm_compute.
  - assert (forall n fs, declares_struct demo_schema n fs -> "write" ∉ fs.*1 /\ "__proto__" ∉ fs.*1) as H; [|intros fs; apply H].
    decl_cases; split; apply (bool_decide_unpack _); by vm_compute.
  - split; [apply write_hidden; exact latin1|]. split.
    + assert (forall n fs, declares_struct (name_schema "write") n fs -> NoDup fs.*1) as H; [|intros n fs _; apply H]. decl_cases; apply (bool_decide_unpack _); by vm_compute.
    + intros H. destruct (H [("write", plain "uint8")]) as [Hw _]; [by left|]. apply Hw. by left.
Qed.
Lemma omit_witness : (exports demo_schema = ["Outer"] /\ distinct_fields demo_schema "Outer" /\ write_ready (class_of demo_export) /\ ~ needs_inherited demo_schema "Outer") /\
  accepted hidden_proto /\ exports hidden_proto = ["P"] /\ distinct_fields hidden_proto "P" /\ needs_inherited hidden_proto "P".
Proof.
  split; [split; [done|]; split; [apply demo_modelled|]; split|].
  - split; apply (bool_decide_unpack _); by vm_compute.
  - intros (n & fs & f & u & _ & Hd & Hin & Hu & Hf). destruct demo_facts as (_ & _ & _ & _ & _ & Hno & _). by eapply Hno.
  - destruct hidden_proto_facts as (H1 & H2 & _ & H4 & H5 & _). split; [done|]. split; [done|]. split; [done|].
    exists "Q", [("x", plain "uint8"); ("__proto__", opt "string")], "__proto__", (opt "string"). split; [done|]. split; [by left|]. split; [right; by left|]. split; [done|].
    apply (bool_decide_unpack _). by vm_compute.
Qed.
