(** Proofs about what the command prints. *)
From Verif Require Export CliPrintSpec CliOne.

(** Whatever happens, the run is the one without output until a line cannot be printed *)
Section follows.
  Context (E : env) (mute : nat -> bool) (lossy : string -> string).
  Definition follows {A} (m : io A) (t : said A) : Prop := forall w ls w' ls' r, t w ls = (w', ls', r) -> length ls <= length ls' /\
    (forall i, length ls <= i < length ls' -> mute i = false) /\ (m w = (w', r) \/ mute (length ls') = true /\ exists e, r = Panic e).
  Lemma follows_silent {A} (m : io A) : follows m (silent m).
  Proof. intros w ls w' ls' r. unfold silent. destruct (m w) as [w1 r1] eqn:M. intros [= <- <- <-]. split; [done|]. split; [lia|by left]. Qed.
  Lemma follows_bind {A B} (m : io A) t (k : A -> io B) u : follows m t -> (forall a, follows (k a) (u a)) -> follows (ibind m k) (sbind t u).
  Proof.
    intros H1 H2 w ls w' ls' r. unfold sbind, ibind. destruct (t w ls) as [[w1 ls1] r1] eqn:T1. destruct (H1 _ _ _ _ _ T1) as (A1 & A2 & A3).
    destruct r1 as [a|e|e|].
    - intros T2. destruct (H2 a _ _ _ _ _ T2) as (B1 & B2 & B3). split; [lia|]. split. { intros i Hi. destruct (decide (i < length ls1)); [apply A2|apply B2]; lia. }
      destruct A3 as [->|(_ & e & ?)]; done.
    - intros [= <- <- <-]. split; [done|]. split; [done|]. destruct A3 as [->|(_ & e' & ?)]; [by left|done].
    - intros [= <- <- <-]. split; [done|]. split; [done|]. destruct A3 as [->|(? & e' & ?)]; [by left|]. right. split; [done|]. by exists e.
    - intros [= <- <- <-]. split; [done|]. split; [done|]. destruct A3 as [->|(_ & e' & ?)]; [by left|done].
  Qed.
  Lemma follows_println {A} s (m : io A) t : follows m t -> follows m (sbind (println mute s) (fun _ => t)).
  Proof.
    intros H w ls w' ls' r. unfold sbind, println. destruct (mute (length ls)) eqn:M.
    - intros [= <- <- <-]. split; [done|]. split; [lia|]. right. split; [done|]. by eexists.
    - intros T1. destruct (H _ _ _ _ _ T1) as (A1 & A2 & A3). rewrite app_length in *. cbn in *. split; [lia|]. split; [|done]. intros i Hi. destruct (decide (i = length ls)) as [->|]; [done|apply A2; lia].
  Qed.
  Lemma follows_save base out found : follows (save_all E base out found) (save_all_out E mute lossy base out found).
  Proof.
    induction found as [|s found IH]; [apply follows_silent|]. cbn [save_all save_all_out]. apply follows_bind; [apply follows_silent|]. intros p. apply follows_bind; [|done].
    apply follows_println, follows_silent.
  Qed.
  Lemma follows_main path out : follows (main E path out) (main_out E mute lossy path out).
  Proof.
    intros w ls w' ls' r. unfold main, main_out. destruct (metadata E path w) as [w1 [[c|]|e|e|]].
    - apply (follows_bind (run_one E path)); [apply follows_silent|]. intros s. apply (follows_bind (ilift (format_path (s_path s) path out false))); [apply follows_println, follows_silent|].
      intros p. apply follows_println, follows_silent.
    - apply (follows_bind (run_all E path)); [apply follows_silent|]. intros found. apply follows_save.
    - intros [= <- <- <-]. split; [done|]. split; [lia|by left].
    - intros [= <- <- <-]. split; [done|]. split; [lia|by left].
    - intros [= <- <- <-]. split; [done|]. split; [lia|by left].
  Qed.
  Lemma stdout_only path out f f' ls r : run_out E mute lossy path out f = (f', ls, r) ->
    (forall i, i < length ls -> mute i = false) /\ (run E path out f = (f', r) \/ mute (length ls) = true /\ exists e, r = Panic e).
  Proof.
    unfold run_out, run. destruct (main_out E mute lossy path out (start f) []) as [[w ls1] r1] eqn:M. intros [= <- <- <-]. destruct (follows_main path out _ _ _ _ _ M) as (_ & H1 & H2).
    split; [intros i Hi; apply H1; cbn; lia|]. destruct H2 as [->|H2]; [by left|by right].
  Qed.
End follows.

Section lines.
  Context (E : env) (mute : nat -> bool) (lossy : string -> string).
  (** the loop that saves, line by line *)
  Lemma save_all_lines base out found ps w ls w' ls' r :
    Forall2 (fun s p => format_path (s_path s) base out true = Ok p) found ps ->
    save_all_out E mute lossy base out found w ls = (w', ls', r) ->
    (r = Ok () /\ save_all E base out found w = (w', Ok ()) /\ ls' = ls ++ (announce lossy <$> ps)) \/
    (exists k s p w1, found !! k = Some s /\ ps !! k = Some p /\ save_all E base out (take k found) w = (w1, Ok ()) /\ save_one E s p w1 = (w', r) /\
       r ≠ Ok () /\ ls' = ls ++ (announce lossy <$> take (S k) ps)) \/
    (exists k m, k < length ps /\ mute (length ls + k) = true /\ save_all E base out (take k found) w = (w', Ok ()) /\ r = Panic m /\ ls' = ls ++ (announce lossy <$> take k ps)).
  Proof.
    intros Hall. revert w ls. induction Hall as [|s p found ps Hp Hall IH]; intros w ls.
    { cbn. intros [= <- <- <-]. left. split; [done|]. split; [done|]. by rewrite app_nil_r. }
    cbn [save_all_out]. unfold sbind at 1. unfold format_path_out, silent, ilift. rewrite Hp. unfold sbind at 1. unfold save_one_out, sbind at 1, println.
    destruct (mute (length ls)) eqn:M.
    { intros [= <- <- <-]. right. right. exists 0, "failed printing to stdout". split; [cbn; lia|]. rewrite Nat.add_0_r. split; [done|]. split; [done|]. split; [done|]. cbn. by rewrite app_nil_r. }
    unfold silent. destruct (save_one E s p w) as [w1 r1] eqn:Sv. destruct r1 as [[]|m|m|].
    2-4: intros [= <- <- <-]; right; left; exists 0, s, p, w; split; [done|]; split; [done|]; split; [done|]; split; [done|]; split; [done|]; cbn; by rewrite take_0.
    assert (forall more, save_all E base out (s :: more) w = save_all E base out more w1) as Hstep.
    { intros more. cbn [save_all]. unfold ibind at 1, ilift. rewrite Hp. unfold ibind. by rewrite Sv. }
    intros [(-> & H1 & ->)|[(k & s' & p' & w2 & H1 & H2 & H3 & H4 & H5 & ->)|(k & m & H1 & H2 & H3 & -> & ->)]]%IH.
    - left. rewrite Hstep. split; [done|]. split; [done|]. by rewrite <- app_assoc.
    - right. left. exists (S k), s', p', w2. cbn [take]. rewrite Hstep. do 5 (split; [done|]). by rewrite <- app_assoc.
    - right. right. exists (S k), m. cbn [take length]. rewrite Hstep. split; [lia|]. rewrite app_length in H2. cbn in H2. replace (length ls + S k) with (length ls + 1 + k) by lia.
      do 3 (split; [done|]). by rewrite <- app_assoc.
  Qed.
End lines.

(** what is printed is the path *)
Lemma utf8_junk p : junk p = true -> utf8 (txt p).
Proof. unfold junk. rewrite bool_decide_eq_true. intros [-> | ->]; apply from_utf8_spec; by vm_compute. Qed.
Lemma path_utf8 E st p j : path_for E st p j -> Forall (fun n => utf8 (txt n)) (j_way j) -> utf8 (txt (j_name j)) -> utf8 (txt p).
Proof.
  intros (_ & _ & pre & Hp & Hpre) Hw Hn. apply utf8_pieces. rewrite Hp. apply Forall_app. split; [|by constructor]. rewrite <- Hpre in Hw.
  apply Forall_forall. intros q Hq. destruct (junk q) eqn:J; [by apply utf8_junk|]. rewrite Forall_forall in Hw. apply Hw.
  apply elem_of_list_In, filter_In. split; [by apply elem_of_list_In|by rewrite J].
Qed.
Lemma names_utf8 s : utf8 (txt s) -> Forall (fun n => utf8 (txt n)) (names_of s).
Proof.
  intros H%pieces_utf8. rewrite Forall_forall in H. apply Forall_forall. intros n Hn. apply H. unfold names_of in Hn.
  apply elem_of_list_In, filter_In in Hn as [Hn _]. by apply elem_of_list_In.
Qed.
Lemma display_utf8 lossy p : utf8 (txt p) -> display lossy p = p.
Proof. intros H%from_utf8_spec. unfold display, to_str_ok. change T with txt. by rewrite H. Qed.
Lemma utf8_ts s : utf8 (txt s) -> utf8 (txt (s +:+ ".ts")).
Proof. intros H. rewrite txt_app. apply utf8_append; [done|]. apply from_utf8_spec. by vm_compute. Qed.

Section directory.
  Context (E : env) (mute : nat -> bool) (lossy : string -> string) (f : fs) (path out : string) (base : location).
  Context (Hs : sane E f) (Hin : input_dir E f path base) (Hf0 : fault E 0 base = false).
  Lemma jobs_and_paths rels found : Forall2 (item E f path base 1) rels found -> exists js ps,
    Forall2 (fun j s => exists p, format_path (s_path s) path out true = Ok p /\ path_for E (origin E out) p j /\ j_code j = T (s_generated s)) js found /\
    Forall2 (job_of E f out base) js rels /\ Forall2 (fun s p => format_path (s_path s) path out true = Ok p) found ps /\
    Forall2 (output_of E f out base) ps (j_code <$> js) /\ leads_to E <$> ps = j_target (origin E out) <$> js /\ Forall2 (path_for E (origin E out)) ps js /\
    Forall2 (fun j s => j_code j = T (s_generated s)) js found.
  Proof.
    induction 1 as [|rel s rels found (dirs & n & c & -> & Hsch & Hc & Hcode & Hp & Hr) _ (js & ps & IH1 & IH2 & IH3 & IH4 & IH5 & IH6 & IH7)]; [exists [], []; repeat (split; [constructor|]); constructor|].
    destruct (schema_proper E f base Hs dirs n c Hsch) as (Hn & Hd & Hx).
    destruct (format_path_spec E path out dirs n (path_ne E f path base Hin) Hd Hn Hx) as (p & Hp1 & Hp2).
    destruct (output_path E f path out base dirs n c Hs Hin Hsch) as (p' & Hp3 & Hlead). rewrite Hp1 in Hp3. injection Hp3 as <-.
    exists (Job (names_of out ++ dirs) (n +:+ ".ts") (T (s_generated s)) :: js), (p :: ps). split; [|split; [|split; [|split; [|split; [|split]]]]].
    - constructor; [|done]. exists p. split; [by rewrite Hp|]. done.
    - constructor; [|done]. exists dirs, n, c, (s_generated s). do 6 (split; [done|]). done.
    - constructor; [by rewrite Hp|done].
    - constructor; [|done]. by exists dirs, n, c, (s_generated s).
    - cbn. f_equal; [|done]. rewrite Hlead. symmetry. exact (job_target E out dirs n (T (s_generated s)) Hd).
    - by constructor.
    - by constructor.
  Qed.
  Lemma dir_out f' ls r : run_out E mute lossy path out f = (f', ls, r) ->
    (f' = f /\ ls = [] /\ r ≠ Ok ()) \/
    exists ps ts k, outputs E f out base ps ts /\ ls = announce lossy <$> take (length ls) ps /\ stands E f f' ps ts k (length ls) /\
      (no_blind E -> utf8 (txt path) -> utf8 (txt out) -> Forall (fun p => display lossy p = p) ps) /\
      (r = Ok () /\ k = length ps /\ length ls = k \/
       (exists m, r = Err m) /\ k < length ps /\ length ls = S k \/
       (exists m, r = Panic m) /\ k < length ps /\ length ls = k /\ mute k = true).
  Proof.
    destruct Hin as [Hr Hd]. unfold run_out, main_out, start, metadata, tick. cbn [w_op w_fs]. rewrite (inspect_eq E f 0 path base Dir Hr Hd), Hf0. cbn [rbind snd].
    unfold sbind at 1, silent at 1. destruct (run_all E path (World f 1)) as [[f1 op1] r1] eqn:R. pose proof R as R'. apply (run_all_spec E f Hs) with (l := base) in R as [O1 O2 O3 O4 O5 O6]; [|done..].
    cbn [w_fs] in O1. subst f1. destruct r1 as [found|m|m|]; [|intros [= <- <- <-]; by left..].
    destruct (O3 found eq_refl) as (rels & A1 & A2 & A3). destruct (jobs_and_paths rels found A1) as (js & ps & B1 & B2 & B3 & B4 & B5 & B6 & B7). pose proof (jobs_nodup E f out base js rels B2 A2) as B8.
    destruct (save_all_out E mute lossy path out found (World f op1) []) as [[w2 ls2] r2] eqn:Sv. intros [= <- <- <-]. right.
    assert (length ps = length js) as Hlen by by apply Forall2_length in B6.
    assert (outputs E f out base ps (j_code <$> js)) as Hout.
    { split; [done|]. split; [by rewrite B5|]. intros Hnb dirs s c Hsch. destruct (A3 Hnb) as [A4 _].
      assert (dirs ++ [s +:+ ".pkt"] ∈ rels) as Hin' by (apply A4; by exists dirs, s, c).
      destruct (Forall2_elem_r _ _ _ _ B2 Hin') as (j & Hj & (d & n & c' & t & Heq & Hs' & _ & _ & -> & Hdp & _)). apply last_inj in Heq as [-> ->].
      rewrite B5. apply elem_of_list_fmap. eexists. split; [|exact Hj]. symmetry. exact (job_target E out d n (T t) Hdp). }
    assert (forall k w, save_all E path out (take k found) (World f op1) = (w, Ok ()) -> written (origin E out) (take k js) f (w_fs w)) as Hwr.
    { intros k w H. eapply save_all_spec in H as [H _]; [by inversion H; subst|by apply Forall2_take| |apply Hs|apply Hs|done].
      change (List.map ?g ?l) with (g <$> l) in *. rewrite fmap_take. rewrite <- (take_drop k (j_target (origin E out) <$> js)) in B8. by apply NoDup_app in B8 as [? _]. }
    assert (forall i p t, ps !! i = Some p -> (j_code <$> js) !! i = Some t -> exists j, js !! i = Some j /\ leads_to E p = j_target (origin E out) j /\ t = j_code j) as Hget.
    { intros i p t Hi. rewrite list_lookup_fmap. destruct (js !! i) as [j|] eqn:Hj; [|done]. intros [= <-]. exists j. split; [done|]. split; [|done].
      apply (f_equal (fun l => l !! i)) in B5. rewrite !list_lookup_fmap, Hi, Hj in B5. by injection B5. }
    assert (forall k g, written (origin E out) (take k js) f g -> stands E f g ps (j_code <$> js) k k) as Hst.
    { intros k g [W1 W2 _ _ _]. split.
      - intros i p t Hp Ht Hi. destruct (Hget i p t Hp Ht) as (j & Hj & -> & ->). apply W1. apply elem_of_take. by exists i.
      - intros x Hx. rewrite fmap_take, B5, <- fmap_take in Hx. destruct (W2 x) as [H|[H _]]; [|by left|by right]. intros j Hj ->. apply Hx. by apply elem_of_list_fmap_1. }
    assert (no_blind E -> utf8 (txt path) -> utf8 (txt out) -> Forall (fun p => display lossy p = p) ps) as Hshow.
    { intros Hnb Hu Hu'. assert (CliNames.named f base) as [N1 N2].
      { eapply (visit_named E f Hs Hnb); [| | | |exact R']; [by apply from_utf8_spec|by eapply path_ne|done..]. }
      apply Forall_forall. intros p Hp. apply display_utf8. destruct (Forall2_elem_l _ _ _ _ B6 Hp) as (j & Hj & Hpf).
      destruct (Forall2_elem_l _ _ _ _ B2 Hj) as (rel & _ & (d & n & c' & t & -> & Hs' & _ & _ & -> & Hdp & _)). eapply path_utf8; [exact Hpf|..]; cbn [j_way j_name].
      - apply Forall_app. split; [by apply names_utf8|]. destruct d as [|a d]; [constructor|]. apply N1. destruct Hs' as [_ Hs']. rewrite app_assoc in Hs'. apply (tree_parent f (sane_tree E f Hs)) in Hs'.
        rewrite entry_ne' in Hs'; [done|]. by destruct base.
      - apply utf8_ts. by eapply N2. }
    exists ps, (j_code <$> js). destruct (save_all_lines E mute lossy path out found ps _ _ _ _ _ B3 Sv) as [(-> & H1 & ->)|[(k & s & p & w1 & H1 & H2 & H3 & H4 & H5 & ->)|(k & m & H1 & H2 & H3 & -> & ->)]].
    - exists (length ps). split; [done|]. cbn [app]. rewrite fmap_length, firstn_all. split; [done|]. split; [|split; [done|by left]].
      apply Hst. apply Hwr. rewrite take_ge; [done|]. apply Forall2_length in B3. lia.
    - pose proof (lookup_lt_Some _ _ _ H2) as Hk. exists k. split; [done|]. cbn [app]. rewrite fmap_length, take_length, Nat.min_l by lia. split; [done|].
      destruct (lookup_lt_is_Some_2 js k) as [j Hj]; [by rewrite <- Hlen|].
      pose proof (Forall2_lookup_lr _ _ _ _ _ _ B6 H2 Hj) as Hpf. pose proof (Forall2_lookup_lr _ _ _ _ _ _ B7 Hj H1) as Hcode. cbn in Hcode.
      pose proof (Hwr k w1 H3) as Hw. destruct (Hst k _ Hw) as [S1 S2]. destruct w1 as [g op2]. cbn [w_fs] in *.
      assert (entry_at g (cwd E) = Some Dir) as Hcwd.
      { assert (forall x, entry_at f x = Some Dir -> entry_at g x = Some Dir) as Hkeep; [|by apply Hkeep, Hs].
        intros [|a x] Hx; [done|]. cbn in Hx |- *. destruct Hw as [_ W2 _ _ W5]. destruct (W2 (a :: x)) as [H|[[H _] _]]; [|by rewrite H|by rewrite Hx in H].
        intros j' Hj' Heq. destruct (W5 j' Hj') as (_ & W5' & _). apply W5'. by rewrite <- Heq. }
      apply (save_one_spec E (origin E out) g s p j op2) in H4 as [[Q1 Q2 Q3 Q4] _]; [|apply Hw|done|done|done].
      destruct (Q3 H5) as [[m ->] _]. split; [|split; [done|right; left; split; [by exists m|split; [done|done]]]].
      assert (leads_to E p = j_target (origin E out) j) as Hpj. { apply (f_equal (fun l => l !! k)) in B5. rewrite !list_lookup_fmap, H2, Hj in B5. by injection B5. }
      split.
      + intros i p' t Hp' Ht Hi. pose proof (S1 i p' t Hp' Ht Hi) as Hg. destruct (Hget i p' t Hp' Ht) as (j' & Hj' & Heq & ->). rewrite Heq in *.
        assert (j_target (origin E out) j' ≠ j_target (origin E out) j) as Hne.
        { intros Hjj. assert (i = k); [|lia]. eapply (NoDup_lookup (j_target (origin E out) <$> js)); [exact B8|by rewrite list_lookup_fmap, Hj'|rewrite list_lookup_fmap, Hj; cbn; by rewrite Hjj]. }
        destruct (Q1 _ Hne) as [H|[[H _] _]]; [by rewrite H|by rewrite Hg in H].
      + intros x Hx. rewrite (take_S_r _ _ p) in Hx by done. rewrite fmap_app, not_elem_of_app in Hx. destruct Hx as [Hx1 Hx2]. cbn in Hx2. rewrite elem_of_list_singleton, Hpj in Hx2.
        destruct (Q1 x Hx2) as [H|[[Ha Hb] _]]; destruct (S2 x Hx1) as [Hg|[Hg1 Hg2]].
        * left. by rewrite H.
        * right. split; [done|]. by rewrite H.
        * right. split; [by rewrite <- Hg|done].
        * by rewrite Ha in Hg2.
    - exists k. split; [done|]. cbn [app]. rewrite fmap_length, take_length, Nat.min_l by lia. split; [done|]. split; [by apply Hst, Hwr|]. split; [done|]. right. right. split; [by exists m|]. split; [done|]. split; [done|exact H2].
  Qed.
  Lemma dir_announced f' ls : run_out E mute lossy path out f = (f', ls, Ok ()) -> no_blind E -> utf8 (txt path) -> utf8 (txt out) ->
    exists ps ts, outputs E f out base ps ts /\ ls = (fun p => "Writing to " +:+ p) <$> ps /\ stands E f f' ps ts (length ps) (length ps).
  Proof.
    intros Hrun Hnb H1 H2. destruct (dir_out f' ls _ Hrun) as [(_ & _ & ?)|(ps & ts & k & Ho & Hls & Hst & Hsh & H)]; [done|]. exists ps, ts. split; [done|].
    destruct H as [(_ & -> & Hl)|[[[m ?] _]|[[m ?] _]]]; [|done..]. rewrite Hl in *. rewrite firstn_all in Hls. split; [|done]. rewrite Hls. apply Forall_fmap_ext_1.
    eapply Forall_impl; [by apply Hsh|]. intros p Hp. unfold announce. by rewrite Hp.
  Qed.
  (** nobody listens: nothing is written *)
  Lemma closed_dir f' ls r : mute 0 = true -> run_out E mute lossy path out f = (f', ls, r) -> (exists dirs s c, schema_at f base dirs s c) -> no_blind E -> f' = f /\ ls = [] /\ r ≠ Ok ().
  Proof.
    intros Hm Hrun (dirs & s & c & Hsch) Hnb. pose proof Hrun as Hrun'. unfold run_out, main_out, start, metadata, tick in Hrun. destruct Hin as [Hr Hd]. cbn [w_op w_fs] in Hrun.
    rewrite (inspect_eq E f 0 path base Dir Hr Hd), Hf0 in Hrun. cbn [rbind snd] in Hrun. unfold sbind at 1, silent at 1 in Hrun.
    destruct (run_all E path (World f 1)) as [[f1 op1] r1] eqn:R. apply (run_all_spec E f Hs) with (l := base) in R as [O1 O2 O3 O4 O5 O6]; [|done..].
    cbn [w_fs] in O1. subst f1. destruct r1 as [found|m|m|]; [|injection Hrun as <- <- <-; done..].
    destruct (O3 found eq_refl) as (rels & A1 & A2 & A3). destruct (A3 Hnb) as [A4 _].
    assert (dirs ++ [s +:+ ".pkt"] ∈ rels) as Hin' by (apply A4; by exists dirs, s, c). destruct (Forall2_elem_l _ _ _ _ A1 Hin') as (sc & Hsc & _).
    destruct (jobs_and_paths rels found A1) as (js & ps & _ & _ & B3 & _). destruct B3 as [|s1 p1 found ps Hp1 _]; [by apply elem_of_nil in Hsc|].
    cbn [save_all_out] in Hrun. unfold sbind at 1, format_path_out, silent, ilift in Hrun. rewrite Hp1 in Hrun. unfold sbind at 1, save_one_out, sbind at 1, println in Hrun. cbn [length] in Hrun. rewrite Hm in Hrun.
    injection Hrun as <- <- <-. done.
  Qed.
  Lemma closed_panic f' : mute 0 = true -> run E path out f = (f', Ok ()) -> (exists dirs s c, schema_at f base dirs s c) -> no_blind E -> exists m, run_out E mute lossy path out f = (f, [], Panic m).
  Proof.
    intros Hm Hok Hsch Hnb. destruct (run_out E mute lossy path out f) as [[f1 ls] r] eqn:R. destruct (closed_dir f1 ls r Hm R Hsch Hnb) as (-> & -> & Hr).
    destruct (stdout_only E mute lossy path out f f [] r R) as [_ [H|(_ & e & ->)]]; [|by exists e]. rewrite Hok in H. by injection H as _ <-.
  Qed.
End directory.

(** A single file *)
Lemma single_lines E mute lossy f path out l c f' ls r : sane E f -> input_file E f path l c -> fault E 0 l = false -> run_out E mute lossy path out f = (f', ls, r) ->
  (f' = f /\ ls = [] /\ exists m, r = Err m) \/
  (f' = f /\ (mute 0 = true /\ ls = [] \/ mute 1 = true /\ ls = [display lossy out]) /\ exists m, r = Panic m) \/
  (run E path out f = (f', r) /\ (r = Ok () \/ exists m, r = Err m) /\
   exists p, ls = [display lossy out; announce lossy p] /\ format_path path path out false = Ok p).
Proof.
  intros Hs [R He] Ff. unfold run_out, main_out, run, main, start, metadata, tick. cbn [w_op w_fs]. rewrite (inspect_eq E f 0 path l _ R He), Ff. cbn [rbind snd].
  unfold sbind at 1, silent at 1. unfold ibind at 1. destruct (run_one E path (World f 1)) as [[f1 op1] r1] eqn:R1. apply (run_one_spec E f Hs path l (File c)) in R1 as (A1 & _ & A2 & A3 & _); [|done..].
  cbn [w_fs] in A1. subst f1. destruct A2 as [[s ->]|[m ->]]; [|intros [= <- <- <-]; left; split; [done|]; split; [done|by eexists]]. destruct (A3 s eq_refl) as (Hpath & _). rewrite Hpath.
  unfold sbind at 1, format_path_out, sbind at 1, println. cbn [length]. destruct (mute 0) eqn:M0; [intros [= <- <- <-]; right; left; split; [done|]; split; [by left|by eexists]|].
  unfold silent, ilift, ibind at 1. unfold format_path. destruct (file_stem_some E f path l c Hs (conj R He)) as (k & n & pre & _ & _ & _ & Hst). rewrite Hst. cbn [app].
  unfold save_one_out, sbind, println. cbn [length]. destruct (mute 1) eqn:M1; [intros [= <- <- <-]; right; left; split; [done|]; split; [by right|by eexists]|].
  unfold silent. destruct (save_one E s _ _) as [w2 r2] eqn:Sv. intros [= <- <- <-]. right. right. split; [done|].
  apply save_one_any in Sv as (Hret & _); [|apply Hs|apply Hs]. split; [destruct Hret as [[[] ->]|[m ->]]; [by left|right; by eexists]|]. by eexists.
Qed.
Lemma leads_path E out p dirs n : Forall proper_name dirs -> path_for E (origin E out) p (Job (names_of out ++ dirs) (n +:+ ".ts") []) -> leads_to E p = target E out dirs n.
Proof.
  intros Hd (Ho & Hpn & pre & Hpre & Hway). rewrite <- (job_target E out dirs n [] Hd). unfold leads_to, j_target. rewrite Ho, Hpre, foldl_app. cbn [foldl j_way j_name] in *.
  rewrite <- Hway, descend_proper by done. unfold plain_pieces. by rewrite <- foldl_filter.
Qed.
Lemma single_announced E mute lossy f path out l s c f' ls r : sane E f -> proper_name s -> input_file E f path (l ++ [s +:+ ".pkt"]) c -> fault E 0 (l ++ [s +:+ ".pkt"]) = false ->
  run_out E mute lossy path out f = (f', ls, r) -> forall x, shortened s x ->
  (f' = f /\ ls = [] /\ exists m, r = Err m) \/
  (f' = f /\ (mute 0 = true /\ ls = [] \/ mute 1 = true /\ ls = [display lossy out]) /\ exists m, r = Panic m) \/
  (run E path out f = (f', r) /\ (r = Ok () \/ exists m, r = Err m) /\
   exists p, ls = [display lossy out; announce lossy p] /\ leads_to E p = target E out [] x /\ (utf8 (txt path) -> utf8 (txt out) -> display lossy p = p)).
Proof.
  intros Hs Hp Hi Ff Hrun x Hx. destruct (single_lines E mute lossy f path out _ c f' ls r Hs Hi Ff Hrun) as [H|[H|(H1 & H2 & p & H3 & H4)]]; [by left|by right; left|].
  right. right. split; [done|]. split; [done|]. exists p. split; [done|].
  destruct (file_stem_some E f path _ c Hs Hi) as (m & n' & pre & Heq & _ & Hpre & Hst). apply app_inj_2 in Heq as [_ Heq]; [|done]. injection Heq as <-.
  unfold format_path in H4. rewrite Hst, (stem_pkt s (proj1 Hp)) in H4. injection H4 as <-. apply shortened_stem in Hx as <-.
  assert (name_stem s ≠ "") as Hne by apply name_stem_ne, Hp.
  assert (plainb (name_stem s)) as Hps. { destruct Hp as (_ & _ & _ & Hpl). destruct (name_stem_part s) as [e He]. rewrite He in Hpl. by apply plainb_app in Hpl as [? _]. }
  pose proof (collect_path E out [] s "ts" (Forall_nil_2 _) Hp plain_ts (proper_ts _ Hne Hps)) as Hpf.
  split; [by apply leads_path|]. intros Hu Hu'. apply display_utf8. eapply path_utf8; [exact Hpf|..]; cbn [j_way j_name].
  - rewrite app_nil_r. by apply names_utf8.
  - apply utf8_ts. pose proof (pieces_utf8 path Hu) as Hpu. rewrite Hpre in Hpu. apply Forall_app in Hpu as [_ Hpu]. apply Forall_cons in Hpu as [Hpu _]. apply utf8_stem in Hpu.
    destruct (stem_shortened s) as [[Hb _]|(_ & b & _ & Hb)]; [by rewrite <- Hb|]. rewrite Hb in Hpu at 1. rewrite txt_app in Hpu.
    by apply ReportProofs.utf8_split in Hpu as [Hpu _].
Qed.
