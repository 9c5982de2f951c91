(** Proofs about compile. *)
From Verif Require Export ParserWitness.
From Verif Require Export Compile WireWitness.

Section compile.
  Context iter (version now : string) (titer : tymap -> list (string * (string * rtype))) (Hf : fair_order iter).
  Notation comp := (compile iter version now titer).

  Lemma compile_layout s a : layout a s -> comp s =
    match type_check iter a with Ok r => Ok (Code (print_module (module_of version now titer r))) | Err e => Ok (CheckError e) | Panic m => Panic m | Diverge => Diverge end.
  Proof.
    intros Hl. unfold compile. rewrite (proj2 (parse_schema_ok a s) Hl). destruct (type_check iter a) as [r|e|m|] eqn:E; try done.
    rewrite (generate_ok iter a r version now titer Hf (legal_no_builtin _ (parse_legal a s (proj2 (parse_schema_ok a s) Hl))) E). done.
  Qed.
  Lemma compile_cases s : utf8 s ->
    (exists a r, layout a s /\ valid_schema a /\ type_check iter a = Ok r /\ comp s = Ok (Code (print_module (module_of version now titer r)))) \/
    (exists a m, layout a s /\ ~ valid_schema a /\ type_check iter a = Err m /\ comp s = Ok (CheckError m)) \/
    (exists off m, (forall a, ~ layout a s) /\ parse_schema s = PErr off /\ parse_message s off = Ok m /\ comp s = Ok (ParseError m)).
  Proof.
    intros Hu. destruct (parse_total s) as [(a & Ha)|(off & Ho & _)].
    - pose proof (proj1 (parse_schema_ok a s) Ha) as Hl. pose proof (legal_no_builtin _ (parse_legal a s Ha)) as Hn.
      rewrite (compile_layout _ _ Hl). destruct (type_check_returns iter a Hf) as [(r & Hr)|(m & Hm)].
      + left. exists a, r. rewrite Hr. split; [done|]. split; [|done]. apply (type_check_valid iter a Hf Hn). by eexists.
      + right. left. exists a, m. rewrite Hm. split; [done|]. split; [|done]. intros [r Hr]%(type_check_valid iter a Hf Hn). congruence.
    - right. right. destruct (parse_report s off Hu Ho) as (? & ? & ? & ? & ? & ? & _ & _ & _ & Hm & _). eexists off, _.
      split; [|split; [done|split; [exact Hm|]]].
      + intros a Ha. apply parse_schema_ok in Ha. congruence.
      + unfold compile. by rewrite Ho, Hm.
  Qed.
  Lemma compile_total s : utf8 s -> exists c, comp s = Ok c.
  Proof. intros [(? & ? & _ & _ & _ & H)|[(? & ? & _ & _ & _ & H)|(? & ? & _ & _ & _ & H)]]%compile_cases; by eexists. Qed.
  Lemma compile_parse_error s : utf8 s -> (exists m, comp s = Ok (ParseError m)) <-> forall a, ~ layout a s.
  Proof.
    intros Hu. destruct (compile_cases s Hu) as [(a & r & Hl & _ & _ & ->)|[(a & m & Hl & _ & _ & ->)|(off & m & Hl & _ & _ & ->)]].
    - split; [by intros [? [=]]|intros H; by destruct (H a)].
    - split; [by intros [? [=]]|intros H; by destruct (H a)].
    - split; [done|]. by eexists.
  Qed.
  Lemma compile_check_error s : utf8 s -> (exists m, comp s = Ok (CheckError m)) <-> exists a, layout a s /\ ~ valid_schema a.
  Proof.
    intros Hu. destruct (compile_cases s Hu) as [(a & r & Hl & Hv & _ & ->)|[(a & m & Hl & Hv & _ & ->)|(off & m & Hl & _ & _ & ->)]].
    - split; [by intros [? [=]]|intros (a' & Hl' & Hv')]. by rewrite (layout_unique _ _ _ Hl Hl') in Hv.
    - split; [by exists a|by eexists].
    - split; [by intros [? [=]]|intros (a' & Hl' & _)]. by destruct (Hl a').
  Qed.
  Lemma compile_code s : utf8 s -> (exists c, comp s = Ok (Code c)) <-> exists a, layout a s /\ valid_schema a.
  Proof.
    intros Hu. destruct (compile_cases s Hu) as [(a & r & Hl & Hv & _ & ->)|[(a & m & Hl & Hv & _ & ->)|(off & m & Hl & _ & _ & ->)]].
    - split; [by exists a|by eexists].
    - split; [by intros [? [=]]|intros (a' & Hl' & Hv')]. by rewrite (layout_unique _ _ _ Hl Hl') in Hv.
    - split; [by intros [? [=]]|intros (a' & Hl' & _)]. by destruct (Hl a').
  Qed.
  (** whatever holds of the code for the schema that the text denotes *)
  Lemma compile_for_text s a c (P : list decl -> cls -> Prop) : fair_types titer -> on_one_line version -> on_one_line now ->
    layout a s -> comp s = Ok (Code c) -> for_text a P -> exists ds k, read_ts c = Some (ds, k) /\ P ds k.
  Proof.
    intros Ht Hv Hn Hl Hc HP. rewrite (compile_layout _ _ Hl) in Hc. destruct (type_check iter a) as [r|e|m|] eqn:Hr; try done.
    assert (legal_ast a) as Hla by (apply (parse_legal a s), parse_schema_ok, Hl).
    destruct (HP iter r version now titer Hf Hla Hr Ht Hv Hn) as (t & ds & k & Hg & H1 & H2). exists ds, k. split; [|done].
    rewrite (generate_ok iter a r version now titer Hf (legal_no_builtin _ Hla) Hr) in Hg. injection Hc as <-. congruence.
  Qed.
  Lemma compile_for_code s a c (P : cls -> rtype -> Prop) : fair_types titer -> on_one_line version -> on_one_line now ->
    layout a s -> comp s = Ok (Code c) -> for_code a P ->
    exists ds k e t, read_ts c = Some (ds, k) /\ exports a = [e] /\ k_name k = e /\ denotes Permutation a e t /\ P k t.
  Proof.
    intros Ht Hv Hn Hl Hc HP. destruct (compile_for_text s a c _ Ht Hv Hn Hl Hc HP) as (ds & k & H1 & e & t & H2).
    by exists ds, k, e, t.
  Qed.
End compile.
