(** Proofs for C104. *)
From Verif Require Export IsolatedSpec TsTypesWitness NeedsWitness.

Lemma enum_declared a e : exports a = [e] -> for_text a (fun ds k => (exists n vs, DEnum n vs ∈ ds) <-> needs_enum 0 a e).
Proof.
  intros He iter r version now titer H1 H2 H3 H4 H5 H6.
  destruct (declared_types a iter r version now titer H1 H2 H3 H4 H5 H6) as (t & ds & k & E1 & E2 & D1 & _ & D2).
  destruct (mirrored a iter r version now titer H1 H2 H3 H4 H5 H6) as (t' & ds' & k' & E1' & E2' & M1 & (fs & _ & M2 & _)).
  rewrite E1 in E1'. injection E1' as <-. rewrite E2 in E2'. injection E2' as <- <-. exists t, ds, k. split; [done|]. split; [done|].
  rewrite He in D1. injection D1 as ->. pose proof (vs_decls _ (result_valid _ _ _ H1 (legal_no_builtin _ H2) H3)) as Hu. split.
  - intros (n & vs & Hin). destruct (M1 _ Hin) as [(vs' & Hd & _)|(? & ? & _ & _ & [=])]. exists n, vs'. split; [|split; [exact Hd|lia]].
    apply (elem_of_list_fmap_1 decl_name) in Hin. cbn in Hin. by apply D2 in Hin as (_ & _ & ?).
  - intros (n & vs & HN & Hd & _). assert (n ∈ decl_name <$> ds) as Hin.
    { apply D2. split; [|split; [|done]].
      - intros ->. pose proof (decl_unique _ _ _ _ Hu Hd M2) as [=].
      - intros Hb. eapply (legal_no_builtin _ H2); [|exact Hb]. by eapply declared_name. }
    apply elem_of_list_fmap in Hin as (d & -> & Hin). destruct (M1 _ Hin) as [(vs' & Hd' & Ed)|(fs' & ? & Hd' & _ & _)].
    + rewrite Ed in Hin. eauto.
    + pose proof (decl_unique _ _ _ _ Hu Hd Hd') as [=].
Qed.
Lemma preserved_criterion a e : exports a = [e] -> for_text a (fun ds k => enums_preserved ds k <-> typed_names a /\ ~ needs_enum 0 a e).
Proof.
  intros He iter r version now titer H1 H2 H3 H4 H5 H6.
  destruct (typed_criterion a iter r version now titer H1 H2 H3 H4 H5 H6) as (t & ds & k & E1 & E2 & HT).
  destruct (enum_declared a e He iter r version now titer H1 H2 H3 H4 H5 H6) as (t' & ds' & k' & E1' & E2' & HE).
  rewrite E1 in E1'. injection E1' as <-. rewrite E2 in E2'. injection E2' as <- <-. exists t, ds, k. split; [done|]. split; [done|].
  unfold enums_preserved. rewrite HT, <- HE. split.
  - intros [HA HB]. split; [done|]. intros (n & vs & Hin). by eapply HB.
  - intros [HA HB]. split; [done|]. intros n vs Hin. apply HB. eauto.
Qed.
Lemma preserved_refuted a e : exports a = [e] -> needs_enum 0 a e -> for_text a (fun ds k => ~ enums_preserved ds k).
Proof. intros He Hn. eapply for_text_mono; [|by apply preserved_criterion]. intros ds k H [_ ?]%H. done. Qed.
Lemma preserved_witness : (exports demo_schema = ["Outer"] /\ accepted demo_schema /\ typed_names demo_schema /\ needs_enum 0 demo_schema "Outer") /\
  exports order_schema = ["A"] /\ accepted order_schema /\ typed_names order_schema /\ ~ needs_enum 0 order_schema "A".
Proof.
  split.
  - split; [done|]. split; [apply demo_facts|]. split; [apply criterion_types|]. exists "Flag", ["A"; "B"]. split; [|split; [by left|lia]].
    eapply rtc_l; [|eapply rtc_l; [|apply rtc_refl]].
    + eexists _, "inner", (plain "Complex"). split; [do 4 right; by left|]. split; [right; by left|done].
    + eexists _, "flag", (plain "Flag"). split; [do 3 right; by left|]. split; [by left|done].
  - split; [done|]. destruct (computed_typed order_schema) as [H1 H2]; [apply parsed_legal; by vm_compute|by vm_compute|]. split; [done|]. split; [done|].
    intros (n & vs & _ & Hd & _). unfold declares_enum, order_schema in Hd. rewrite !elem_of_cons, elem_of_nil in Hd. naive_solver.
Qed.
