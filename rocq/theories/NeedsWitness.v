(** Schemas that need what the theorems ask for, and schemas that do not. *)
From Verif Require Export RsNeeds VoidWitness RsOneWitness RsLib Runtimes.

Ltac field_cases := let H := fresh in intros (? & ? & ? & ? & _ & H & Hin & Hu); unfold declares_struct in H;
  repeat (apply elem_of_cons in H as [H|H]; [first [discriminate H|injection H as -> ->;
    repeat (apply elem_of_cons in Hin as [Hin|Hin]; [injection Hin as -> ->; cbn in Hu; first [done|by destruct Hu]|]); by apply elem_of_nil in Hin]|]); by apply elem_of_nil in H.
Ltac enum_cases := let H := fresh in intros (? & ? & _ & H & Hk); unfold declares_enum in H;
  repeat (apply elem_of_cons in H as [H|H]; [first [discriminate H|injection H as -> ->; cbn in Hk; lia]|]); by apply elem_of_nil in H.

Lemma needs_of_field (P : unresolved -> Prop) a e fs f u : declares_struct a e fs -> (f, u) ∈ fs -> P u -> needs_field P a e.
Proof. intros. exists e, fs, f, u. split; [apply rtc_refl|done]. Qed.
Lemma step_field (P : unresolved -> Prop) a e fs f u : declares_struct a e fs -> (f, u) ∈ fs -> needs_field P a (u_name u) -> needs_field P a e.
Proof. intros H1 H2 (n & gs & g & w & H3 & H4). exists n, gs, g, w. split; [|done]. eapply rtc_l; [|exact H3]. by exists fs, f, u. Qed.
Lemma needs_of_enum k a e fs f u vs : declares_struct a e fs -> (f, u) ∈ fs -> declares_enum a (u_name u) vs -> k <= length vs -> needs_enum k a e.
Proof. intros H1 H2 H3 H4. exists (u_name u), vs. split; [|done]. eapply rtc_l; [|apply rtc_refl]. by exists fs, f, u. Qed.

(** an enum with three variants in an array of optional structs *)
Definition deep_schema : ast := [NDecl "E" (AEnum ["A"; "B"; "C"]); NDecl "Q" (AStruct [("s", plain "string"); ("e", plain "E")]);
  NDecl "R" (AStruct [("qs", arr "Q"); ("n", plain "float")]); NDecl "P" (AStruct [("k", plain "uint16"); ("r", opt "R")]); NExport "P"].
Lemma deep_facts : legal_ast deep_schema /\ accepted deep_schema /\ rust_names deep_schema /\ plain_names deep_schema /\ small_enums deep_schema.
Proof.
  split; [solve_legal|]. split; [eapply accepted_export; [solve_legal|by vm_compute]|]. split; [solve_rust|]. split; [solve_plain|]. decl_cases; cbn; lia.
Qed.
Lemma deep_needs : exports deep_schema = ["P"] /\ needs_enum 3 deep_schema "P" /\ needs_optional deep_schema "P" /\ needs_array deep_schema "P" /\
  needs_string deep_schema "P" /\ needs_heavy_array deep_schema "P".
Proof.
  assert (declares_struct deep_schema "Q" [("s", plain "string"); ("e", plain "E")]) as HQ by (right; by left).
  assert (declares_struct deep_schema "R" [("qs", arr "Q"); ("n", plain "float")]) as HR by (do 2 right; by left).
  assert (declares_struct deep_schema "P" [("k", plain "uint16"); ("r", opt "R")]) as HP by (do 3 right; by left).
  split; [done|]. split; [|split; [|split; [|split]]].
  - exists "E", ["A"; "B"; "C"]. split; [|split; [by left|done]]. eapply rtc_l; [|eapply rtc_l; [|eapply rtc_l; [|apply rtc_refl]]].
    + eexists _, "r", (opt "R"). split; [exact HP|]. split; [right; by left|done].
    + eexists _, "qs", (arr "Q"). split; [exact HR|]. split; [by left|done].
    + eexists _, "e", (plain "E"). split; [exact HQ|]. split; [right; by left|done].
  - eapply needs_of_field; [exact HP|right; by left|done].
  - eapply step_field; [exact HP|right; by left|]. eapply needs_of_field; [exact HR|by left|done].
  - eapply step_field; [exact HP|right; by left|]. eapply step_field; [exact HR|by left|]. eapply needs_of_field; [exact HQ|by left|done].
  - eapply step_field; [exact HP|right; by left|]. eapply needs_of_field; [exact HR|by left|]. split; [done|]. apply empty_no_bytes.
    decl_cases; done.
Qed.
(** many variants *)
Lemma many_needs : exports (enum_schema many_names) = ["P"] /\ needs_enum 32 (enum_schema many_names) "P" /\ accepted (enum_schema many_names) /\ plain_names (enum_schema many_names).
Proof.
  split; [done|]. split; [eapply needs_of_enum; [right; by left|by left|by left|by vm_compute]|]. split; [destruct many_facts as (H1 & H2 & H3); apply enum_schema_accepted; [rewrite H1; lia|done..]|solve_plain].
Qed.
(** schemas without *)
Lemma nested_without : exports nested_schema = ["P"] /\ ~ needs_heavy_array nested_schema "P" /\ ~ needs_enum 3 nested_schema "P" /\ ~ needs_string nested_schema "P" /\ needs_array nested_schema "P".
Proof.
  split; [done|]. split; [|split; [enum_cases|split; [field_cases|]]].
  - assert (no_bytes nested_schema "E") as HE by (econstructor; [by left|constructor]).
    assert (no_bytes nested_schema "Q") as HQ by (econstructor; [right; by left|]; repeat constructor; exact HE).
    unfold needs_heavy_array. field_cases.
  - eapply step_field; [do 3 right; by left|by left|]. eapply needs_of_field; [do 2 right; by left|by left|done].
Qed.
Lemma order_without : exports order_schema = ["A"] /\ ~ needs_optional order_schema "A" /\ ~ needs_float order_schema "A" /\ ~ needs_array order_schema "A" /\
  ~ needs_string order_schema "A" /\ ~ needs_enum 3 order_schema "A" /\ ~ needs_enum 32 order_schema "A".
Proof. split; [done|]. split; [field_cases|]. split; [field_cases|]. split; [field_cases|]. split; [field_cases|]. split; enum_cases. Qed.
Lemma demo_without : exports demo_schema = ["Outer"] /\ ~ needs_enum 3 demo_schema "Outer" /\ ~ needs_enum 32 demo_schema "Outer".
Proof. split; [done|]. split; enum_cases. Qed.
(** a string that is not read back *)
Lemma accent_lost rest : (rt_rds utf8_lib (Z.of_nat (length [233%Z])) (rt_encs utf8_lib [233%Z] ++ rest, false)).1 ≠ [233%Z].
Proof. cbn [utf8_lib rt_rds rt_encs]. unfold utf8_rds. by destruct (false || _). Qed.
