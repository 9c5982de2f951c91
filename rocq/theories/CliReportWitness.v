(** Directories with one schema, for C109. *)
From Verif Require Export CliReport CliWitness.

Definition lone (s : string) (c : text) : fs := <[["in"] := Dir]> {[ ["in"; s +:+ ".pkt"] := File c ]}.
Section lone.
  Context (s : string) (c : text).
  Lemma lone_dir : lone s c !! ["in"] = Some Dir.
  Proof. apply lookup_insert. Qed.
  Lemma lone_file : lone s c !! ["in"; s +:+ ".pkt"] = Some (File c).
  Proof. unfold lone. rewrite lookup_insert_ne by done. apply lookup_singleton. Qed.
  Lemma lone_only l e : lone s c !! l = Some e -> (l = ["in"] /\ e = Dir) \/ (l = ["in"; s +:+ ".pkt"] /\ e = File c).
  Proof. unfold lone. intros [[<- <-]|[_ H]]%lookup_insert_Some; [by left|]. apply lookup_singleton_Some in H as [<- <-]. by right. Qed.
  Lemma lone_in E : cwd E = [] -> input_dir E (lone s c) "in" ["in"].
  Proof. intros Hc. split; [|apply lone_dir]. unfold resolve. rewrite decide_False by done. cbn. by rewrite Hc. Qed.
  Lemma lone_children : children (lone s c) ["in"] = [s +:+ ".pkt"].
  Proof.
    assert (NoDup (children (lone s c) ["in"])) as Hnd by apply children_nodup.
    assert (forall n, n ∈ children (lone s c) ["in"] <-> n = s +:+ ".pkt") as Hch.
    { intros n. rewrite elem_of_children. split; [intros [e [[H _]|[H _]]%lone_only]; [done|by injection H]|intros ->; eexists; apply lone_file]. }
    destruct (children (lone s c) ["in"]) as [|x xs]; [by pose proof (proj2 (Hch _) eq_refl) as ?%elem_of_nil|].
    assert (x = s +:+ ".pkt") as -> by (apply Hch; left). destruct xs as [|y ys]; [done|]. assert (y = s +:+ ".pkt") as -> by (apply Hch; right; left).
    apply NoDup_cons in Hnd as [Hnd _]. destruct Hnd. left.
  Qed.
  (** the seven operations of the walk *)
  Lemma lone_walk E : sane E (lone s c) -> cwd E = [] -> no_fault E -> s ≠ "" -> utf8 (txt s) -> utf8 c -> ~ compiles c ->
    exists e, compile (hash1 E 6) (version E) (clock E 6) (hash2 E 6) c = Ok e /\ run_all E "in" (World (lone s c) 1) = (World (lone s c) 7, Err (string_of_list_ascii (default [] (error_text e)))).
  Proof.
    intros Hs Hc Hnf Hne Hu Huc Hn. destruct (lone_in E Hc) as [Hr Hd].
    destruct (compile_total (hash1 E 6) (version E) (clock E 6) (hash2 E 6) (sane_hash1 E _ Hs 6) c Huc) as [x Hx]. exists x. split; [done|].
    assert (forall t, x ≠ Code t) as Hx'.
    { intros t ->. apply Hn. split; [done|]. apply (compile_code (hash1 E 6) (version E) (clock E 6) (hash2 E 6) (sane_hash1 E _ Hs 6) c Huc). by eexists. }
    unfold run_all. cbn [w_fs]. destruct (depth (lone s c)) as [|d] eqn:D; [pose proof (depth_pos (lone s c)); lia|]. clear D.
    set (fuel := S d). cbn [visit_files]. unfold ibind at 1. unfold metadata, tick. cbn [w_op w_fs]. rewrite (inspect_eq E _ _ "in" ["in"] Dir Hr Hd), Hnf. cbn [rbind snd].
    unfold ibind at 1. unfold read_dir, tick. cbn [w_op w_fs]. rewrite (inspect_eq E _ _ "in" ["in"] Dir Hr Hd), Hnf. cbn [rbind fst snd]. rewrite lone_children.
    pose proof (sane_order E _ Hs 2 [s +:+ ".pkt"]) as Hp. apply Permutation_singleton_r in Hp. rewrite Hp.
    assert (entry_at (lone s c) (["in"] ++ [s +:+ ".pkt"]) = Some (File c)) as He by apply lone_file.
    pose proof (child_proper E _ Hs ["in"] (s +:+ ".pkt") _ He) as Hpn.
    assert (resolve E (lone s c) (push "in" (s +:+ ".pkt")) = Some (["in"] ++ [s +:+ ".pkt"])) as Hpush by (apply resolve_push; done).
    cbn [visit_entries]. unfold ibind at 1. unfold next_entry, tick. cbn [w_op w_fs]. rewrite (inspect_eq E _ _ "in" ["in"] Dir Hr Hd), Hnf. cbn [rbind].
    unfold ibind at 1. unfold is_dir, tick. cbn [w_op w_fs]. rewrite Hpush, He. unfold ibind at 1. rewrite decide_True.
    2:{ rewrite extension_push by done. apply name_ext_spec; [by vm_compute|]. by exists s. }
    unfold ibind at 1, visit_one. rewrite to_str_push_iff by done.
    assert (from_utf8 (txt (s +:+ ".pkt")) = true) as -> by (apply from_utf8_spec; rewrite txt_app; apply utf8_append; [done|]; apply from_utf8_spec; by vm_compute).
    unfold run_one, ibind at 1, read_to_string, tick. cbn [w_op w_fs]. rewrite (inspect_eq E _ _ _ _ _ Hpush He), Hnf. cbn [rbind snd]. rewrite (proj2 (from_utf8_spec c) Huc).
    unfold ibind at 1, compile_io, tick. cbn [w_op w_fs]. rewrite Hx. destruct x as [t| |]; [by destruct (Hx' t)|done..].
  Qed.
  Lemma lone_run E out : sane E (lone s c) -> cwd E = [] -> no_fault E -> s ≠ "" -> utf8 (txt s) -> utf8 c -> ~ compiles c ->
    exists e, compile (hash1 E 6) (version E) (clock E 6) (hash2 E 6) c = Ok e /\ run E "in" out (lone s c) = (lone s c, Err (string_of_list_ascii (default [] (error_text e)))).
  Proof.
    intros Hs Hc Hnf Hne Hu Huc Hn. destruct (lone_walk E Hs Hc Hnf Hne Hu Huc Hn) as (e & He & Hw). exists e. split; [done|].
    destruct (lone_in E Hc) as [Hr Hd]. unfold run, main, start, metadata, tick. cbn [w_op w_fs]. rewrite (inspect_eq E _ _ "in" ["in"] Dir Hr Hd), Hnf. cbn [rbind snd].
    unfold ibind. by rewrite Hw.
  Qed.
End lone.
Lemma same_report E out s1 s2 c : sane E (lone s1 c) -> sane E (lone s2 c) -> cwd E = [] -> no_fault E -> s1 ≠ "" -> s2 ≠ "" -> utf8 (txt s1) -> utf8 (txt s2) -> utf8 c -> ~ compiles c ->
  exists m, run E "in" out (lone s1 c) = (lone s1 c, Err m) /\ run E "in" out (lone s2 c) = (lone s2 c, Err m).
Proof.
  intros H1 H2 Hc Hnf N1 N2 U1 U2 Hu Hn. destruct (lone_run s1 c E out H1 Hc Hnf N1 U1 Hu Hn) as (e & He & Hr). destruct (lone_run s2 c E out H2 Hc Hnf N2 U2 Hu Hn) as (e' & He' & Hr').
  rewrite He in He'. injection He' as <-. by eexists.
Qed.
Lemma no_who : ~ exists who : string -> location, forall E f path out base f' m, sane E f -> input_dir E f path base -> utf8 (txt path) -> dirs_named f base -> files_named f base -> no_fault E -> no_blind E ->
  run E path out f = (f', Err m) -> (exists dirs s c, schema_at f base dirs s c /\ ~ compiles c) -> exists dirs s c, who m = base ++ dirs ++ [s +:+ ".pkt"] /\ schema_at f base dirs s c /\ ~ compiles c.
Proof.
  intros [who H]. assert (forall s, treeb (lone s bad_text) = true -> from_utf8 (txt s) = true -> s ≠ "" -> sane calm (lone s bad_text) /\ forall m, run calm "in" "out" (lone s bad_text) = (lone s bad_text, Err m) -> who m = ["in"; s +:+ ".pkt"]) as Hw.
  { intros s Ht Hu Hne. assert (sane calm (lone s bad_text)) as Hs by by apply calm_sane. split; [done|]. intros m Hm.
    destruct (H calm (lone s bad_text) "in" "out" ["in"] (lone s bad_text) m) as (dirs & n & c & Hwho & [_ Hl] & _); [done|by apply lone_in|apply from_utf8_spec; by vm_compute| | |done|done|done| |].
    - intros dirs [[Hl _]|[_ ?]]%lone_only; [|done]. destruct dirs; [constructor|done].
    - intros dirs n c [_ [[_ ?]|[Hl _]]%lone_only]; [done|]. 
      change ((["in"] ++ dirs) ++ [n +:+ ".pkt"] = ["in"] ++ [s +:+ ".pkt"]) in Hl. apply last_inj in Hl as [_ ->]. by apply from_utf8_spec.
    - exists [], s, bad_text. split; [split; [done|apply lone_file]|apply bad_compiles].
    - rewrite Hwho. by apply lone_only in Hl as [[_ ?]|[-> _]]. }
  destruct (Hw "a") as [S1 W1]; [by vm_compute..|]. destruct (Hw "b") as [S2 W2]; [by vm_compute..|].
  destruct (same_report calm "out" "a" "b" bad_text S1 S2) as (m & R1 & R2); [done..|apply from_utf8_spec; by vm_compute|apply from_utf8_spec; by vm_compute|apply from_utf8_spec; by vm_compute|apply bad_compiles|].
  pose proof (W1 m R1) as Q1. pose proof (W2 m R2) as Q2. rewrite Q1 in Q2. done.
Qed.
