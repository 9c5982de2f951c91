(** Proofs for C109: what the command reports about a schema that cannot be compiled. *)
From Verif Require Export CliReportSpec MessageResults CliNames CliOne.

Lemma compile_message iter v now titer c e : fair_order iter -> utf8 c -> compile iter v now titer c = Ok e -> (forall t, e ≠ Code t) -> message c (default [] (error_text e)).
Proof.
  intros Hf Hu Hc Hne. pose proof (compile_parse_error iter v now titer Hf c Hu) as Hpe. pose proof (compile_check_error iter v now titer Hf c Hu) as Hce. rewrite Hc in *.
  unfold compile in Hc. destruct (parse_schema c) as [a|off|] eqn:P; [|..|done].
  - destruct (type_check iter a) as [r|m|m|] eqn:TC; [|..|done].
    + unfold rbind in Hc. destruct (generate v now titer r) as [t|m|m|]; [|done..]. injection Hc as <-. by destruct (Hne t).
    + injection Hc as <-. destruct Hce as [Hce _]. destruct Hce as (a' & Ha & Hv); [by eexists|]. apply parse_schema_ok in Ha as Hp. rewrite P in Hp. injection Hp as <-.
      apply (message_check c a m); [done..|]. intros Hnb. apply possible_messages; [done|]. by exists iter.
    + done.
  - destruct (parse_report c off Hu P) as (before & after & lines & cur & rest & token & -> & <- & Hpl & Hm & Ht). rewrite Hm in Hc. injection Hc as <-.
    destruct Hpe as [Hpe _]. apply (message_parse _ before after lines cur rest token); [done|apply Hpe; by eexists|done..].
Qed.

Section report.
  Context (E : env) (f : fs) (Hs : sane E f) (Hnf : no_fault E).
  Lemma run_one_err p l c op w m : resolve E f p = Some l -> entry_at f l = Some (File c) -> run_one E p (World f op) = (w, Err m) -> ~ compiles c /\ message c (txt m).
  Proof.
    intros H1 H2. unfold run_one, ibind, read_to_string, tick. cbn [w_op w_fs]. rewrite (inspect_eq E f op p l _ H1 H2), Hnf. cbn [rbind snd].
    destruct (from_utf8 c) eqn:U.
    2:{ intros [= _ <-]. assert (~ utf8 c) as Hn by (intros H%from_utf8_spec; by rewrite U in H). split; [by intros [? _]|by constructor]. }
    apply from_utf8_spec in U. destruct (compile_io E c (World f (S op))) as [w' r'] eqn:C. pose proof C as C'. apply (compile_io_spec E f Hs) in C as (-> & _ & C2 & C3); [|done].
    destruct C2 as [[t ->]|[m' ->]]; [done|]. intros [= _ <-]. split; [intros Hc; apply C3 in Hc as [t ?]; done|].
    unfold compile_io, tick in C'. cbn [w_op w_fs] in C'. injection C' as C'.
    destruct (compile_total (hash1 E (S op)) (version E) (clock E (S op)) (hash2 E (S op)) (sane_hash1 E f Hs (S op)) c U) as [x Hx]. rewrite Hx in C'.
    assert (m' = string_of_list_ascii (default [] (error_text x))) as -> by (destruct x; [done|by injection C'..]).
    unfold txt. rewrite list_ascii_of_string_of_list_ascii. eapply compile_message; [apply (sane_hash1 E f Hs)|done|exact Hx|]. intros t ->. done.
  Qed.
  Definition blamed (l : location) (m : string) : Prop := exists dirs s c, schema_at f l dirs s c /\ (utf8 (txt s) -> ~ compiles c) /\ complaint s c (txt m).
  Lemma blamed_under l n m : blamed (l ++ [n]) m -> blamed l m.
  Proof. intros (dirs & s & c & [H1 H2] & H3). exists (n :: dirs), s, c. split; [|done]. split; [done|]. by rewrite <- app_assoc in H2. Qed.
  Context (Hnb : no_blind E).
  Lemma entries_err fuel dir l op w m names :
    (forall d k op w m, to_str_ok d = true -> d ≠ "" -> resolve E f d = Some k -> entry_at f k = Some Dir -> visit_files E fuel d (World f op) = (w, Err m) -> blamed k m) ->
    to_str_ok dir = true -> dir ≠ "" -> resolve E f dir = Some l -> entry_at f l = Some Dir ->
    (forall n, n ∈ names -> is_Some (entry_at f (l ++ [n]))) ->
    visit_entries E (visit_files E fuel) dir names (World f op) = (w, Err m) -> blamed l m.
  Proof.
    intros IHf Hu Hd Hl Hdir. revert op w. induction names as [|n names IH]; intros op w Hex; [done|].
    destruct (Hex n (elem_of_list_here _ _)) as [e He]. pose proof (child_proper E f Hs l n e He) as Hp.
    pose proof (resolve_push E f dir n l Hd Hp Hl Hdir) as Hpush.
    cbn [visit_entries]. unfold ibind at 1. unfold next_entry, tick. cbn [w_op w_fs]. rewrite (inspect_eq E f op dir l Dir Hl Hdir), Hnf. cbn [rbind].
    unfold ibind at 1. unfold is_dir, tick. cbn [w_op w_fs]. rewrite Hpush, He, Hnb.
    unfold ibind at 1.
    lazymatch goal with |- context [(if ?b then ?x else ?y) (World f (S (S op)))] => destruct ((if b then x else y) (World f (S (S op)))) as [w1 r1] eqn:H1 end.
    assert (w_fs w1 = f /\ (forall m, r1 = Err m -> blamed l m)) as [Hf1 Hn1].
    { destruct e as [c|]; cbn [negb] in H1.
      - destruct (decide (extension_of (push dir n) = Some "pkt")) as [Hx|Hx]; [|unfold iret in H1; injection H1 as <- <-; done].
        rewrite extension_push in Hx by done. apply name_ext_spec in Hx as (s & Hs1 & ->); [|by vm_compute]. change (s +:+ "." +:+ "pkt") with (s +:+ ".pkt") in *.
        assert (schema_at f l [] s c) as Hsc by (split; [done|]; by rewrite entry_ne in He).
        unfold ibind, visit_one in H1. rewrite to_str_push_iff in H1 by done. destruct (from_utf8 (txt (s +:+ ".pkt"))) eqn:U.
        + apply from_utf8_spec, utf8_stem in U. destruct (run_one E _ _) as [w2 r2] eqn:R. pose proof R as R'. eapply (run_one_spec E f Hs) in R as (A & _); [|done..].
          assert (w_fs w1 = f) as Hf1 by (destruct r2; unfold iret in H1; simplify_eq; done). split; [done|].
          intros m' ->. destruct r2 as [x|x|x|]; [done| |done..]. injection H1 as _ ->. eapply run_one_err in R' as [R1 R2]; [|done..]. exists [], s, c. split; [done|]. split; [done|]. by right.
        + unfold ifail in H1. injection H1 as <- <-. split; [done|]. intros m' [= <-].
          assert (~ utf8 (txt s)) as Hn. { intros Hn. assert (from_utf8 (txt (s +:+ ".pkt")) = true) as U'; [|by rewrite U in U']. apply from_utf8_spec. rewrite txt_app. apply utf8_append; [done|]. apply from_utf8_spec. by vm_compute. }
          exists [], s, c. split; [done|]. split; [done|]. by left.
      - rewrite to_str_push_iff in H1 by done. destruct (from_utf8 (txt n)) eqn:U; [|by injection H1 as <- <-]. split.
        + eapply (visit_files_spec E f Hs) in H1 as [[O _ _ _ _ _] _]; [exact O|apply push_ne, Hp|done..].
        + intros m' ->. apply (blamed_under l n). eapply IHf; [| | | |exact H1]; [by rewrite to_str_push_iff|apply push_ne, Hp|done..]. }
    destruct r1 as [found1|x|x|]; [|intros [= _ <-]; by apply Hn1|done..].
    destruct w1 as [f1 op1]. cbn in Hf1. subst f1. unfold ibind.
    destruct (visit_entries E (visit_files E fuel) dir names (World f op1)) as [w2 [more|x|x|]] eqn:H2; [done| |done..].
    intros [= _ ->]. eapply IH; [|exact H2]. intros k Hk. apply Hex. by right.
  Qed.
  Lemma visit_err fuel dir l op w m : to_str_ok dir = true -> dir ≠ "" -> resolve E f dir = Some l -> entry_at f l = Some Dir ->
    visit_files E fuel dir (World f op) = (w, Err m) -> blamed l m.
  Proof.
    revert dir l op w m. induction fuel as [|fuel IH]; intros dir l op w m Hu Hd Hl Hdir; [done|].
    cbn [visit_files]. unfold ibind at 1. unfold metadata, tick. cbn [w_op w_fs]. rewrite (inspect_eq E f op dir l Dir Hl Hdir), Hnf. cbn [rbind snd].
    unfold ibind, read_dir, tick. cbn [w_op w_fs]. rewrite (inspect_eq E f (S op) dir l Dir Hl Hdir), Hnf. cbn [rbind fst snd].
    intros H. eapply entries_err; [exact IH|done..| |exact H].
    intros n Hn. rewrite (sane_order E f Hs (S op) (children f l)), elem_of_children in Hn. by rewrite entry_ne.
  Qed.
  (** a directory with a schema that does not compile *)
  Lemma dir_report path out base : input_dir E f path base -> utf8 (txt path) -> dirs_named f base -> ~ (forall dirs s c, schema_at f base dirs s c -> compiles c) ->
    exists m, run E path out f = (f, Err m) /\ blamed base m.
  Proof.
    intros [Hr Hd] Hu Hdn Hbad. unfold run, main, start, metadata, tick. cbn [w_op w_fs]. rewrite (inspect_eq E f 0 path base Dir Hr Hd), Hnf. cbn [rbind snd].
    unfold ibind. destruct (run_all E path (World f 1)) as [[f1 op1] r1] eqn:R. pose proof R as R'. apply (run_all_spec E f Hs) with (l := base) in R as [O1 O2 O3 O4 O5 O6]; [|done..].
    cbn [w_fs] in O1. subst f1. destruct r1 as [found|m|m|].
    - destruct (O3 found eq_refl) as (rels & A1 & A2 & A3). destruct (A3 Hnb) as [A4 _]. destruct Hbad. intros dirs s c Hsch.
      assert (dirs ++ [s +:+ ".pkt"] ∈ rels) as Hin by (apply A4; by exists dirs, s, c). destruct (Forall2_elem_l _ _ _ _ A1 Hin) as (sc & _ & (d & n & c' & Heq & [H1 H2] & Hc & _)).
      rewrite <- Heq in H2. destruct Hsch as [_ H3]. rewrite H2 in H3. by injection H3 as <-.
    - exists m. split; [done|]. eapply visit_err; [| | | |exact R']; [by apply from_utf8_spec|by eapply path_ne|done..].
    - destruct (O5 Hdn) with (m := m); [|done]. by apply from_utf8_spec.
    - by destruct O4.
  Qed.
  Lemma file_report path out l c : input_file E f path l c -> ~ compiles c -> exists m, run E path out f = (f, Err m) /\ message c (txt m).
  Proof.
    intros [R He] Hn. unfold run, main, start, metadata, tick. cbn [w_op w_fs]. rewrite (inspect_eq E f 0 path l _ R He), Hnf. cbn [rbind snd].
    unfold ibind. destruct (run_one E path (World f 1)) as [[f1 op1] r1] eqn:R1. pose proof R1 as R1'. apply (run_one_spec E f Hs path l (File c)) in R1 as (A1 & _ & A2 & A3 & _); [|done..].
    cbn [w_fs] in A1. subst f1. destruct A2 as [[s ->]|[m ->]]; [destruct (A3 s eq_refl) as (_ & _ & c' & [= <-] & ? & _); done|].
    exists m. split; [done|]. by eapply run_one_err in R1' as [_ ?].
  Qed.
End report.
