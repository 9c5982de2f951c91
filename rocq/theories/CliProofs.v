(** Results on the whole command. *)
From Verif Require Export CliNames CliWrite.

Lemma app_inj_ext a b e : a +:+ e = b +:+ e -> a = b.
Proof.
  intros H. apply (f_equal txt) in H. rewrite !txt_app in H. apply app_inv_tail in H. apply (f_equal string_of_list_ascii) in H.
  unfold txt in H. by rewrite !string_of_list_ascii_of_string in H.
Qed.
Lemma last_inj dirs a dirs' b e : dirs ++ [a +:+ e] = dirs' ++ [b +:+ e] -> dirs = dirs' /\ a = b.
Proof. intros [-> H]%app_inj_2; [|done]. split; [done|]. injection H as H. by eapply app_inj_ext. Qed.
Lemma schema_fun f base dirs s c c' : schema_at f base dirs s c -> schema_at f base dirs s c' -> c = c'.
Proof. intros [_ H1] [_ H2]. rewrite H1 in H2. by injection H2. Qed.
Section directory.
  Context (E : env) (f : fs) (path out : string) (base : location).
  Context (Hs : sane E f) (Hin : input_dir E f path base) (Hf0 : fault E 0 base = false).
  (** the job for a schema file *)
  Definition job_of (j : job) (rel : location) : Prop := exists dirs n c t, rel = dirs ++ [n +:+ ".pkt"] /\ schema_at f base dirs n c /\
    compiles c /\ code_for E c t /\ j = Job (names_of out ++ dirs) (n +:+ ".ts") (T t) /\ Forall proper_name dirs /\ readable E 1 (base ++ rel).
  Lemma schema_proper dirs n c : schema_at f base dirs n c -> n ≠ "" /\ Forall proper_name dirs /\ proper_name (n +:+ ".pkt").
  Proof.
    intros [Hn H]. split; [done|]. apply (tree_names f (sane_tree E f Hs)) in H. rewrite !Forall_app in H. destruct H as (_ & H1 & H2). split; [done|].
    by apply Forall_cons in H2 as [? _].
  Qed.
  Lemma path_ne : path ≠ "".
  Proof. destruct Hin as [H _]. by intros ->. Qed.
  Lemma jobs_for rels found : Forall2 (item E f path base 1) rels found -> exists js,
    Forall2 (fun j s => exists p, format_path (s_path s) path out true = Ok p /\ path_for E (origin E out) p j /\ j_code j = T (s_generated s)) js found /\
    Forall2 job_of js rels.
  Proof.
    induction 1 as [|rel s rels found (dirs & n & c & -> & Hsch & Hc & Hcode & Hp & Hr) _ (js & IH1 & IH2)]; [exists []; split; constructor|].
    destruct (schema_proper dirs n c Hsch) as (Hn & Hd & Hx). destruct (format_path_spec E path out dirs n path_ne Hd Hn Hx) as (p & Hp1 & Hp2).
    exists (Job (names_of out ++ dirs) (n +:+ ".ts") (T (s_generated s)) :: js). split; constructor; try done.
    - exists p. split; [by rewrite Hp|]. done.
    - exists dirs, n, c, (s_generated s). do 6 (split; [done|]). done.
  Qed.
  Lemma target_inj dirs n dirs' n' : target E out dirs n = target E out dirs' n' -> dirs = dirs' /\ n = n'.
  Proof.
    unfold target. intros H%app_inv_head. by apply last_inj in H.
  Qed.
  Lemma jobs_nodup js rels : Forall2 job_of js rels -> NoDup rels -> NoDup (List.map (j_target (origin E out)) js).
  Proof.
    induction 1 as [|j rel js rels Hj Hall IH]; [constructor|]. intros [Hn Hnd]%NoDup_cons. cbn. apply NoDup_cons. split; [|by apply IH].
    intros (j' & Heq & Hj')%elem_of_list_In%in_map_iff. apply elem_of_list_In in Hj'. destruct (Forall2_elem_l _ _ _ _ Hall Hj') as (rel' & Hrel & Hk).
    destruct Hj as (d1 & n1 & c1 & t1 & -> & _ & _ & _ & -> & P1 & _). destruct Hk as (d2 & n2 & c2 & t2 & -> & _ & _ & _ & -> & P2 & _).
    rewrite !job_target in Heq by done. apply target_inj in Heq as [-> ->]. done.
  Qed.
  (** A run: reading fails, or all outputs are tried in turn. *)
  Lemma dir_run f' r : run E path out f = (f', r) ->
    (f' = f /\ r ≠ Ok () /\ r ≠ Diverge /\ (dirs_named f base -> to_str_ok path = true -> forall m, r ≠ Panic m) /\
       ~ (no_fault E /\ no_blind E /\ dirs_named f base /\ files_named f base /\ to_str_ok path = true /\ all_compile f base)) \/
    (exists js rels, Forall2 job_of js rels /\ NoDup rels /\ NoDup (List.map (j_target (origin E out)) js) /\
       (no_blind E -> (forall rel, schema_loc f base rel -> rel ∈ rels) /\ forall rel, entry_at f (base ++ rel) = Some Dir -> readable E 1 (base ++ rel)) /\
       ended (origin E out) js f f' r /\ ((forall n, torn E n = None) -> all_clear (origin E out) f js -> r = Ok ())).
  Proof.
    destruct Hin as [Hr Hd]. unfold run, main, start, metadata, tick. cbn [w_op w_fs]. rewrite (inspect_eq E f 0 path base Dir Hr Hd), Hf0. cbn [rbind snd].
    unfold ibind at 1. destruct (run_all E path (World f 1)) as [[f1 op1] r1] eqn:R. apply (run_all_spec E f Hs) with (l := base) in R as [O1 O2 O3 O4 O5 O6]; [|done..].
    cbn [w_fs] in O1. subst f1. destruct r1 as [found|m|m|].
    - destruct (O3 found eq_refl) as (rels & A1 & A2 & A3). destruct (jobs_for rels found A1) as (js & B1 & B2). pose proof (jobs_nodup js rels B2 A2) as B3.
      destruct (save_all E path out found (World f op1)) as [w2 r2] eqn:Sv. eapply save_all_spec in Sv as [C1 C2]; [|exact B1|exact B3|apply Hs|apply Hs|done].
      intros [= <- <-]. right. exists js, rels. done.
    - intros [= <- <-]. left. cbn [w_fs]. do 4 (split; [done|]). intros (H1 & H2 & H3 & H4 & H5 & H6). by destruct (O6 H1 H2 H3 H4 H5 H6).
    - intros [= <- <-]. left. cbn [w_fs]. do 3 (split; [done|]). split; [intros H1 H2 m' [= ->]; by eapply O5|]. intros (H1 & H2 & H3 & H4 & H5 & H6). by destruct (O6 H1 H2 H3 H4 H5 H6).
    - done.
  Qed.

  (** C40 *)
  Lemma nothing_written f' r : no_blind E -> run E path out f = (f', r) ->
    (exists dirs s c, schema_at f base dirs s c /\ (~ compiles c \/ forall n, 0 < n -> fault E n (base ++ dirs ++ [s +:+ ".pkt"]) = true)) \/
    (exists dirs, entry_at f (base ++ dirs) = Some Dir /\ forall n, 0 < n -> fault E n (base ++ dirs) = true) ->
    f' = f /\ r ≠ Ok ().
  Proof.
    intros Hnb Hrun Hbad. destruct (dir_run f' r Hrun) as [(H1 & H2 & _)|(js & rels & H1 & _ & _ & H2 & _)]; [done|exfalso]. destruct (H2 Hnb) as [H3 H4].
    destruct Hbad as [(dirs & s & c & Hsch & Hbad)|(dirs & Hd & Hbad)].
    - assert (dirs ++ [s +:+ ".pkt"] ∈ rels) as Hin' by (apply H3; by exists dirs, s, c).
      destruct (Forall2_elem_r _ _ _ _ H1 Hin') as (j & _ & (d & n & c' & t & Heq & Hs' & Hc & _ & _ & _ & m & Hm1 & Hm2)).
      destruct Hbad as [Hbad|Hbad]; [|rewrite Hbad in Hm2; [done|lia]]. apply Hbad.
      apply last_inj in Heq as [-> ->]. by rewrite (schema_fun _ _ _ _ _ _ Hsch Hs').
    - destruct (H4 dirs Hd) as (m & Hm1 & Hm2). rewrite Hbad in Hm2; [done|lia].
  Qed.

  Lemma job_on_way j rel x : job_of j rel -> way (origin E out) (j_way j) x <-> exists dirs n, rel = dirs ++ [n +:+ ".pkt"] /\ on_way E out dirs x.
  Proof.
    intros (dirs & n & c & t & -> & _ & _ & _ & -> & Hd & _). cbn [j_way]. rewrite job_way by done. split; [by exists dirs, n|].
    intros (d & n' & [-> _]%app_inj_2 & H); done.
  Qed.
  (** C41 *)
  Lemma one_output_each f' : no_blind E -> run E path out f = (f', Ok ()) ->
    (forall dirs s c, schema_at f base dirs s c -> exists t, code_for E c t /\ f' !! target E out dirs s = Some (File (txt t))) /\
    (forall x, ~ is_target E f out base x -> f' !! x = f !! x \/ made_dir f f' x /\ passed E f out base x).
  Proof.
    intros Hnb Hrun. destruct (dir_run f' _ Hrun) as [(_ & H2 & _)|(js & rels & H1 & Hnd & _ & H2 & H3 & _)]; [done|]. inversion H3 as [Hw|]; subst. destruct Hw as [W1 W2 _ _ _].
    destruct (H2 Hnb) as [H4 _]. split.
    - intros dirs s c Hsch. assert (dirs ++ [s +:+ ".pkt"] ∈ rels) as Hin' by (apply H4; by exists dirs, s, c).
      destruct (Forall2_elem_r _ _ _ _ H1 Hin') as (j & Hj & (d & n & c' & t & Heq & Hs' & _ & Hc & -> & Hd & _)).
      apply last_inj in Heq as [-> ->]. apply W1 in Hj. rewrite job_target in Hj by done.
      exists t. split; [|done]. by rewrite (schema_fun _ _ _ _ _ _ Hsch Hs').
    - intros x Hx. destruct (W2 x) as [H|[H (j & Hj & Hwy)]]; [|by left|].
      + intros j Hj ->. apply Hx. destruct (Forall2_elem_l _ _ _ _ H1 Hj) as (rel & _ & (d & n & c' & t & -> & Hs' & _ & _ & -> & Hd & _)).
        exists d, n, c'. split; [done|]. by rewrite job_target.
      + right. split; [done|]. destruct (Forall2_elem_l _ _ _ _ H1 Hj) as (rel & _ & (d & n & c' & t & -> & Hs' & _ & _ & -> & Hd & _)).
        exists d, n, c'. split; [done|]. cbn [j_way] in Hwy. by rewrite job_way in Hwy.
  Qed.

  (** C43 *)
  Lemma failing_write f' r : run E path out f = (f', r) ->
    f' = f /\ r ≠ Ok () \/
    exists outs : list (location * text),
      NoDup outs.*1 /\ Forall (fun o => exists dirs s c t, schema_at f base dirs s c /\ compiles c /\ code_for E c t /\ o = (target E out dirs s, txt t)) outs /\
      (no_blind E -> forall dirs s c, schema_at f base dirs s c -> target E out dirs s ∈ outs.*1) /\
      exists k, k <= length outs /\
        (forall i l t, outs !! i = Some (l, t) -> i < k -> f' !! l = Some (File t)) /\
        (forall i l t, outs !! i = Some (l, t) -> k < i -> f' !! l = f !! l \/ made_dir f f' l) /\
        (forall l t, outs !! k = Some (l, t) -> f' !! l = f !! l \/ made_dir f f' l \/ exists n, f' !! l = Some (File (take n t))) /\
        (k = length outs -> r = Ok ()) /\ (k < length outs -> exists m, r = Err m) /\
        (forall x, x ∉ outs.*1 -> f' !! x = f !! x \/ made_dir f f' x).
  Proof.
    intros Hrun. destruct (dir_run f' r Hrun) as [(H1 & H2 & _)|(js & rels & H1 & Hnd & Hnt & H2 & H3 & _)]; [by left|right].
    set (mk := fun j => (j_target (origin E out) j, j_code j)). exists (mk <$> js).
    assert ((mk <$> js).*1 = List.map (j_target (origin E out)) js) as Hfst by (rewrite <- list_fmap_compose; done).
    rewrite Hfst. split; [done|]. split; [|split].
    { apply Forall_fmap, Forall_forall. intros j Hj. destruct (Forall2_elem_l _ _ _ _ H1 Hj) as (rel & _ & (d & n & c' & t & -> & Hs' & Hc & Hcode & -> & Hd & _)).
      exists d, n, c', t. split; [done|]. split; [done|]. split; [done|]. unfold mk. by rewrite job_target. }
    { intros Hnb dirs s c Hsch. destruct (H2 Hnb) as [H4 _]. assert (dirs ++ [s +:+ ".pkt"] ∈ rels) as Hin' by (apply H4; by exists dirs, s, c).
      destruct (Forall2_elem_r _ _ _ _ H1 Hin') as (j & Hj & (d & n & c' & t & Heq & Hs' & _ & Hc & -> & Hd & _)).
      apply last_inj in Heq as [-> ->].
      apply elem_of_list_In, in_map_iff. eexists. split; [|apply elem_of_list_In; exact Hj]. by rewrite job_target. }
    assert (forall js' g, js' ⊆ js -> written (origin E out) js' f g -> forall x, (forall j, j ∈ js' -> x ≠ j_target (origin E out) j) -> g !! x = f !! x \/ made_dir f g x) as Hkeep.
    { intros js' g _ [_ W2 _ _ _] x Hx. destruct (W2 x Hx) as [H|[H _]]; [by left|by right]. }
    assert (forall i i' j j', js !! i = Some j -> js !! i' = Some j' -> j_target (origin E out) j = j_target (origin E out) j' -> i = i') as Hinj.
    { intros i i' j j' Hi Hi' Heq. eapply (NoDup_lookup (List.map (j_target (origin E out)) js)); [done|..]; rewrite list_lookup_fmap; [by rewrite Hi|rewrite Hi', Heq; done]. }
    assert (forall i l t, (mk <$> js) !! i = Some (l, t) -> exists j, js !! i = Some j /\ l = j_target (origin E out) j /\ t = j_code j) as Hmk.
    { intros i l t. rewrite list_lookup_fmap. destruct (js !! i) as [j|]; [|done]. intros [= <- <-]. by exists j. }
    rewrite fmap_length. inversion H3 as [Hw|dn j rest g m Hjs Hw Hsv]; subst.
    - exists (length js). split; [done|]. split; [|split; [|split; [|split; [|split]]]].
      + intros i l t (j & Hj & -> & ->)%Hmk _. destruct Hw as [W1 _ _ _ _]. apply W1. by eapply elem_of_list_lookup_2.
      + intros i l t (j & Hj & _)%Hmk Hi. apply lookup_lt_Some in Hj. lia.
      + intros l t (j & Hj & _)%Hmk. apply lookup_lt_Some in Hj. lia.
      + done.
      + lia.
      + intros x Hx. apply (Hkeep js f'); [done|done|]. intros j Hj ->. apply Hx. apply elem_of_list_In, in_map, elem_of_list_In, Hj.
    - destruct Hsv as [S1 _ S3 _]. destruct (S3 ltac:(done)) as [_ S4]. set (L := length dn).
      assert ((dn ++ j :: rest) !! L = Some j) as HL by (rewrite lookup_app_r by done; unfold L; by rewrite Nat.sub_diag).
      assert (forall x, x ≠ j_target (origin E out) j -> g !! x = f !! x \/ made_dir f g x -> f' !! x = f !! x \/ made_dir f f' x) as Hstep.
      { intros x Hx Hg. destruct (S1 x Hx) as [H|[[Ha Hb] _]]; destruct Hg as [Hg|[Hg1 Hg2]].
        - left. by rewrite H.
        - right. split; [done|]. by rewrite H.
        - right. split; [by rewrite <- Hg|done].
        - by rewrite Ha in Hg2. }
      assert (dn ⊆ dn ++ j :: rest) as Hsub by (intros y Hy; apply elem_of_app; by left).
      exists L. split; [rewrite app_length; unfold L; lia|]. split; [|split; [|split; [|split; [|split]]]].
      + intros i l t (j' & Hj' & -> & ->)%Hmk Hi. assert (j_target (origin E out) j' ≠ j_target (origin E out) j) as Hne.
        { intros Heq. pose proof (Hinj _ _ _ _ Hj' HL Heq). lia. }
        assert (g !! j_target (origin E out) j' = Some (File (j_code j'))) as Hg.
        { destruct Hw as [W1 _ _ _ _]. apply W1. rewrite lookup_app_l in Hj' by done. by eapply elem_of_list_lookup_2. }
        destruct (S1 _ Hne) as [H|[[H _] _]]; [by rewrite H|by rewrite Hg in H].
      + intros i l t (j' & Hj' & -> & ->)%Hmk Hi. apply Hstep.
        * intros Heq. pose proof (Hinj _ _ _ _ Hj' HL Heq). lia.
        * apply (Hkeep dn g Hsub Hw). intros j'' [i'' Hj'']%elem_of_list_lookup Heq.
          assert ((dn ++ j :: rest) !! i'' = Some j'') as Hj3 by (apply lookup_app_l_Some, Hj''). pose proof (Hinj _ _ _ _ Hj' Hj3 Heq). apply lookup_lt_Some in Hj''. unfold L in Hi. lia.
      + intros l t (j' & Hj' & -> & ->)%Hmk. rewrite HL in Hj'. injection Hj' as <-.
        assert (g !! j_target (origin E out) j = f !! j_target (origin E out) j \/ made_dir f g (j_target (origin E out) j)) as Hg.
        { apply (Hkeep dn g Hsub Hw). intros j'' [i'' Hj'']%elem_of_list_lookup Heq.
          assert ((dn ++ j :: rest) !! i'' = Some j'') as Hj3 by (apply lookup_app_l_Some, Hj''). pose proof (Hinj _ _ _ _ HL Hj3 Heq). apply lookup_lt_Some in Hj''. unfold L in *. lia. }
        destruct S4 as [H|[[Ha Hb]|H]]; [|..|by right; right].
        * destruct Hg as [Hg|[Hg1 Hg2]]; [left; by rewrite H|]. right. left. split; [done|]. by rewrite H.
        * right. left. split; [|done]. destruct Hg as [Hg|[_ Hg]]; [by rewrite <- Hg|by rewrite Ha in Hg].
      + rewrite app_length. unfold L. cbn. lia.
      + by eexists.
      + intros x Hx. assert (forall k, k ∈ dn ++ j :: rest -> x ≠ j_target (origin E out) k) as Hx'.
        { intros k Hk ->. apply Hx. apply elem_of_list_In, in_map, elem_of_list_In, Hk. }
        apply Hstep; [apply Hx', elem_of_list_lookup; by exists L|]. apply (Hkeep dn g Hsub Hw). intros k Hk. apply Hx', Hsub, Hk.
  Qed.

  (** C55 *)
  Lemma succeeds_iff : no_fault E -> no_blind E -> (forall n, torn E n = None) -> utf8 (txt path) ->
    (exists f', run E path out f = (f', Ok ())) <->
      unobstructed E f out base /\ dirs_named f base /\ files_named f base /\ forall dirs s c, schema_at f base dirs s c -> compiles c.
  Proof.
    intros Hnf Hnb Hnt Hp. assert (forall f', run E path out f = (f', Ok ()) -> dirs_named f base /\ files_named f base) as Hok
      by (intros f' Hrun; by apply (ok_named E f Hs Hnb path out base f')). assert (to_str_ok path = true) as Hp' by by apply from_utf8_spec.
    destruct (run E path out f) as [f' r] eqn:Hrun. destruct (dir_run f' r Hrun) as [(H1 & H2 & _ & _ & H3)|(js & rels & H1 & Hnd & _ & H2 & H3 & H4)].
    - split; [intros [? [= -> ->]]; done|]. intros (_ & Hw1 & Hw2 & Hc). exfalso. by apply H3.
    - destruct (H2 Hnb) as [H5 _].
      assert (forall dirs s c, schema_at f base dirs s c -> exists t, Job (names_of out ++ dirs) (s +:+ ".ts") (T t) ∈ js /\ compiles c /\ Forall proper_name dirs) as Hjob.
      { intros dirs s c Hsch. assert (dirs ++ [s +:+ ".pkt"] ∈ rels) as Hin' by (apply H5; by exists dirs, s, c).
        destruct (Forall2_elem_r _ _ _ _ H1 Hin') as (j & Hj & (d & n & c' & t & Heq & Hs' & Hco & Hc & -> & Hd & _)).
        apply last_inj in Heq as [-> ->].
        exists t. split; [done|]. split; [|done]. by rewrite (schema_fun _ _ _ _ _ _ Hsch Hs'). }
      split.
      + intros [f0 [= -> ->]]. inversion H3 as [Hwr|]; subst. destruct Hwr as [_ _ _ _ W5]. destruct (Hok _ eq_refl) as [Hw1 Hw2]. split; [|split; [done|split; [done|intros dirs s c (? & ? & ? & ?)%Hjob; done]]].
        intros dirs s c Hsch. destruct (Hjob _ _ _ Hsch) as (t & Hj & _ & Hd). destruct (W5 _ Hj) as (C1 & C2 & C3). rewrite job_target in C2 by done. cbn [j_way] in *.
        split; [|split; [done|]].
        * intros x Hx Hne. destruct (C1 x) as [|]; [by apply job_way|done|done].
        * intros dirs' s' c' Hsch'. destruct (Hjob _ _ _ Hsch') as (t' & Hj' & _ & Hd'). specialize (C3 _ Hj'). rewrite job_target, job_way in C3 by done. done.
      + intros (Hun & _). exists f'. f_equal. apply H4; [done|]. intros j Hj.
        destruct (Forall2_elem_l _ _ _ _ H1 Hj) as (rel & _ & (d & n & c' & t & -> & Hs' & _ & _ & -> & Hd & _)). destruct (Hun _ _ _ Hs') as (U1 & U2 & U3).
        rewrite job_target by done. cbn [j_way]. split; [|split; [done|]].
        * intros x Hx. destruct (decide (x = [])) as [|Hne]; [by right|]. left. apply U1; [by apply job_way|done].
        * intros j' Hj'. destruct (Forall2_elem_l _ _ _ _ H1 Hj') as (rel & _ & (d' & n' & c'' & t' & -> & Hs'' & _ & _ & -> & Hd' & _)).
          rewrite job_target, job_way by done. by eapply U3.
  Qed.
End directory.

(** ** Facts about every run *)
Lemma input_missing E f path out : (forall l, resolve E f path = Some l -> entry_at f l = None) -> run E path out f = (f, Ok ()).
Proof.
  intros H. unfold run, main, start, metadata, tick, inspect. cbn [w_op w_fs]. destruct (resolve E f path) as [l|] eqn:R; [|done]. by rewrite (H l eq_refl).
Qed.
Lemma input_unreadable E f path out l : resolve E f path = Some l -> fault E 0 l = true -> run E path out f = (f, Ok ()).
Proof.
  intros H Hf. unfold run, main, start, metadata, tick, inspect. cbn [w_op w_fs]. rewrite H. destruct (entry_at f l) as [e|] eqn:He; [|done]. by rewrite Hf.
Qed.

Lemma only_ts_trans f g h : only_ts f g -> only_ts g h -> only_ts f h.
Proof.
  intros H1 H2 x. destruct (H1 x) as [A|[[A1 A2]|(A1 & A2 & c & A3)]], (H2 x) as [B|[[B1 B2]|(B1 & B2 & B3)]].
  - left. by rewrite B.
  - right. left. split; [by rewrite <- A|done].
  - right. right. split; [done|]. by rewrite <- A.
  - right. left. split; [done|]. by rewrite B.
  - by rewrite A2 in B1.
  - by rewrite A2 in B2.
  - right. right. split; [done|]. split; [done|]. exists c. by rewrite B.
  - by rewrite A3 in B1.
  - by right; right.
Qed.
Lemma split_file_name_inv s b n : split_file_name s = Some (b, n) -> n ≠ ".." /\ junk n = false /\ plainb n /\ exists pre, Forall plainb pre /\ b = before pre.
Proof.
  unfold split_file_name. destruct (drop_while_split junk (rev (pieces s))) as (ju & E & _ & Hj). destruct (drop_while junk (rev (pieces s))) as [|m bf]; [done|].
  destruct (decide (m = "..")); [done|]. intros [= <- <-]. split; [done|]. split; [done|].
  assert (pieces s = rev bf ++ m :: rev ju) as Hp. { rewrite <- (rev_involutive (pieces s)), E, rev_app_distr. cbn. by rewrite <- app_assoc. }
  pose proof (pieces_plain s) as Hpl. rewrite Hp in Hpl. apply Forall_app in Hpl as [H1 H2]. apply Forall_cons in H2 as [H2 _]. split; [done|].
  exists (rev bf). split; [done|]. destruct bf as [|x bf]; [done|]. cbn. unfold before. by destruct (rev bf).
Qed.
Lemma with_ts_last X pre q : pieces (with_extension X "ts") = pre ++ [q] -> proper_name q -> exists s, s ≠ "" /\ q = s +:+ ".ts".
Proof.
  intros H Hq. unfold with_extension in H. destruct (split_file_name X) as [[b n]|] eqn:S.
  - apply split_file_name_inv in S as (Hn1 & Hn2 & Hn3 & pre' & Hp & ->). apply junk_false in Hn2 as [Hn2 _]. rewrite before_pieces in H.
    + apply app_inj_2 in H as [_ H]; [|done]. injection H as <-. exists (name_stem n). split; [by apply name_stem_ne|done].
    + done.
    + rewrite !plainb_app. destruct (name_stem_part n) as [r Hr]. rewrite Hr, plainb_app in Hn3. split; [apply Hn3|]. split; [|apply plain_ts].
      unfold plainb. apply (bool_decide_unpack _). by vm_compute.
  - unfold split_file_name in S. destruct (proper_good q Hq) as [_ Hj]. rewrite H, drop_junk_last in S by done. destruct Hq as (_ & _ & Hq & _). by rewrite decide_False in S.
Qed.
Lemma save_one_any E s X f op w r : tree f -> entry_at f (cwd E) = Some Dir -> save_one E s (with_extension X "ts") (World f op) = (w, r) ->
  returns r /\ tree (w_fs w) /\ entry_at (w_fs w) (cwd E) = Some Dir /\ only_ts f (w_fs w).
Proof.
  intros Ht Hc. set (p := with_extension X "ts"). unfold save_one, ibind.
  set (mk := match parent p with Some q => create_dir_all E q | None => iret () end).
  assert (exists g op1 r1, mk (World f op) = (World g op1, r1) /\ returns r1 /\ tree g /\ entry_at g (cwd E) = Some Dir /\ grows f g (fun _ => True)) as (g & op1 & r1 & -> & Hr & Htg & Hcg & Hg).
  { unfold mk. destruct (parent p) as [q|]; [|exists f, op, (Ok ()); split; [done|]; split; [left; by eexists|]; split; [done|]; split; [done|apply grows_refl]].
    unfold create_dir_all, tick. cbn [w_op w_fs]. set (st := if has_root q then [] else cwd E). set (ps := if decide (q = "") then [] else pieces q).
    assert (entry_at f st = Some Dir) as Hst by (unfold st; by destruct (has_root q)).
    assert (Forall plainb ps) as Hps by (unfold ps; destruct (decide _); [constructor|apply pieces_plain]).
    assert (forall ps', Forall plainb ps' -> tree (make_dirs f st ps').1 /\ entry_at (make_dirs f st ps').1 (cwd E) = Some Dir /\ grows f (make_dirs f st ps').1 (fun _ => True)) as Hmk.
    { intros ps' Hps'. split; [by apply make_dirs_tree|]. split; [eapply grows_entry; [apply make_dirs_grows|done]|].
      intros x. destruct (make_dirs_grows f st ps' x) as [H|[H _]]; [by left|by right]. }
    destruct (torn E op) as [k|].
    - eexists _, _, _. split; [done|]. split; [right; by eexists|]. apply Hmk. by apply Forall_take.
    - specialize (Hmk ps Hps). destruct (make_dirs f st ps) as [g b]. cbn [fst] in Hmk. eexists _, _, _. split; [done|]. split; [|done].
      destruct b; [left|right]; by eexists. }
  assert (only_ts f g) as Hog. { intros x. destruct (Hg x) as [H|[H _]]; [by left|by right; left]. }
  destruct r1 as [[]|m|m|]; [|intros [= <- <-]; split; [right; by eexists|done]|by destruct Hr as [[? ?]|[? ?]]..].
  unfold write_file, tick. cbn [w_op w_fs].
  assert (forall r : res unit, returns r -> returns r /\ tree g /\ entry_at g (cwd E) = Some Dir /\ only_ts f g) as Hsame by done.
  destruct (resolve E g p) as [l|] eqn:R; [|intros [= <- <-]; apply Hsame; right; by eexists].
  destruct (decide (entry_at g l = Some Dir)) as [Hd|Hd]; [rewrite Hd; intros [= <- <-]; apply Hsame; right; by eexists|].
  destruct (resolve_new E g p l Htg Hcg R Hd) as (m & pre & q & -> & Hq & Hp & Hm).
  assert (forall c, tree (<[m ++ [q] := File c]> g) /\ entry_at (<[m ++ [q] := File c]> g) (cwd E) = Some Dir /\ only_ts f (<[m ++ [q] := File c]> g)) as Hput.
  { intros c. split; [by apply tree_insert|]. split.
    - destruct (cwd E) as [|a l] eqn:Ec; [done|]. cbn in Hcg |- *. rewrite lookup_insert_ne; [done|]. intros Heq. apply Hd. rewrite Heq. done.
    - eapply only_ts_trans; [done|]. intros x. destruct (decide (x = m ++ [q])) as [->|Hx]; [|left; by rewrite lookup_insert_ne].
      right. right. split; [|split].
      + destruct (with_ts_last X pre q Hp Hq) as (s' & Hs' & ->). by exists m, s'.
      + by rewrite entry_ne in Hd.
      + exists c. apply lookup_insert. }
  intros H. assert ((match torn E op1 with
               | None => (<[m ++ [q] := File (T (s_generated s))]> g, Ok ())
               | Some 0 => (g, Err "I/O error")
               | Some (S k) => (<[m ++ [q] := File (take k (T (s_generated s)))]> g, Err "I/O error")
               end) = (w_fs w, r)) as H'.
  { destruct (entry_at g (m ++ [q])) as [[]|]; [|done|]; repeat case_match; injection H as <- <-; done. }
  clear H. destruct (torn E op1) as [[|k]|]; injection H' as <- <-.
  - apply Hsame. right. by eexists.
  - split; [right; by eexists|apply Hput].
  - split; [left; by eexists|apply Hput].
Qed.
Lemma save_all_any E base out found f op w r : tree f -> entry_at f (cwd E) = Some Dir -> save_all E base out found (World f op) = (w, r) ->
  returns r /\ only_ts f (w_fs w).
Proof.
  revert f op. induction found as [|s found IH]; intros f op Ht Hc; cbn [save_all].
  { intros [= <- <-]. split; [left; by eexists|]. by left. }
  unfold ibind at 1, ilift, format_path. destruct (strip_base _ _) as [rest|]; [|intros [= <- <-]; split; [right; by eexists|by left]].
  unfold ibind at 1. destruct (save_one E s _ _) as [[g op1] r1] eqn:Sv. apply save_one_any in Sv as (H1 & H2 & H3 & H4); [|done..]. cbn [w_fs] in *.
  destruct r1 as [[]|m|m|]; [|intros [= <- <-]; split; [right; by eexists|done]|by destruct H1 as [[? ?]|[? ?]]..].
  intros H. apply IH in H as [H5 H6]; [|done..]. split; [done|]. by eapply only_ts_trans.
Qed.
Lemma file_stem_some E f path l c : sane E f -> input_file E f path l c -> exists m n pre, l = m ++ [n] /\ proper_name n /\ pieces path = pre ++ [n] /\ file_stem path = Some (name_stem n).
Proof.
  intros Hs [Hr He]. destruct (resolve_new E f path l) as (m & pre & q & -> & Hq & Hp & Hm); [apply Hs|apply Hs|done|by rewrite He|].
  exists m, q, pre. split; [done|]. split; [done|]. split; [done|]. unfold file_stem, file_name. rewrite (split_file_name_last path pre q Hp); [done|by apply proper_good|apply Hq].
Qed.
Lemma run_any E f path out f' r : sane E f -> run E path out f = (f', r) ->
  only_ts f f' /\ r ≠ Diverge /\ (utf8 (txt path) -> (forall base, input_dir E f path base -> dirs_named f base) -> forall m, r ≠ Panic m).
Proof.
  intros Hs Hrun. assert (only_ts f f) as Href by by left.
  destruct (resolve E f path) as [l|] eqn:R.
  2:{ rewrite input_missing in Hrun; [|by rewrite R]. by injection Hrun as <- <-. }
  destruct (entry_at f l) as [e|] eqn:He.
  2:{ rewrite input_missing in Hrun; [by injection Hrun as <- <-|]. intros l'. rewrite R. by intros [= <-]. }
  destruct (fault E 0 l) eqn:Ff.
  { unfold run, main, start, metadata, tick in Hrun. cbn [w_op w_fs] in Hrun. rewrite (inspect_eq E f 0 path l e R He), Ff in Hrun. by injection Hrun as <- <-. }
  destruct e as [c|].
  - unfold run, main, start, metadata, tick in Hrun. cbn [w_op w_fs] in Hrun. rewrite (inspect_eq E f 0 path l _ R He), Ff in Hrun. cbn [rbind snd] in Hrun.
    unfold ibind at 1 in Hrun. destruct (run_one E path (World f 1)) as [[f1 op1] r1] eqn:R1. apply (run_one_spec E f Hs path l (File c)) in R1 as (A1 & _ & A2 & A3 & _); [|done..].
    cbn [w_fs] in A1. subst f1. destruct r1 as [s|m|m|]; [|by injection Hrun as <- <-|by destruct A2 as [[? ?]|[? ?]]..].
    unfold ibind at 1, ilift, format_path in Hrun. destruct (A3 s eq_refl) as (Hpath & _). rewrite Hpath in Hrun.
    destruct (file_stem_some E f path l c Hs (conj R He)) as (m & n & pre & _ & _ & _ & Hst). rewrite Hst in Hrun.
    destruct (save_one E s _ _) as [w2 r2] eqn:Sv. apply save_one_any in Sv as (H1 & _ & _ & H4); [|apply Hs..]. injection Hrun as <- <-. split; [done|].
    destruct H1 as [[? ->]|[? ->]]; done.
  - destruct (dir_run E f path out l Hs (conj R He) Ff f' r Hrun) as [(-> & H2 & H3 & H4 & _)|(js & rels & _ & _ & _ & _ & _ & _)].
    { split; [done|]. split; [done|]. intros Hp Hw. apply H4; [by apply Hw|]. by apply from_utf8_spec. }
    unfold run, main, start, metadata, tick in Hrun. cbn [w_op w_fs] in Hrun. rewrite (inspect_eq E f 0 path l _ R He), Ff in Hrun. cbn [rbind snd] in Hrun.
    unfold ibind at 1 in Hrun. destruct (run_all E path (World f 1)) as [[f1 op1] r1] eqn:R1. apply (run_all_spec E f Hs) with (l := l) in R1 as [O1 _ _ O4 O5 _]; [|done..].
    cbn [w_fs] in O1. subst f1. destruct r1 as [found|m|m|]; [|by injection Hrun as <- <-| |done].
    + destruct (save_all E path out found (World f op1)) as [w2 r2] eqn:Sv. apply save_all_any in Sv as [H1 H2]; [|apply Hs..]. injection Hrun as <- <-. split; [done|].
      destruct H1 as [[? ->]|[? ->]]; done.
    + injection Hrun as <- <-. cbn [w_fs]. split; [done|]. split; [done|]. intros Hp Hw m' [= ->]. eapply O5; [by apply Hw|by apply from_utf8_spec|done].
Qed.

(** ** A single file *)
Lemma file_run E f path out l n c f' r : sane E f -> input_file E f path (l ++ [n]) c -> fault E 0 (l ++ [n]) = false -> run E path out f = (f', r) ->
  f' = f /\ (exists m, r = Err m) \/
  compiles c /\ exists t, code_for E c t /\ exists s op w, s_generated s = t /\
    save_one E s (with_extension (collect (components out ++ [Normal (name_stem n)])) "ts") (World f op) = (w, r) /\ w_fs w = f'.
Proof.
  intros Hs [R He] Ff Hrun. unfold run, main, start, metadata, tick in Hrun. cbn [w_op w_fs] in Hrun. rewrite (inspect_eq E f 0 path _ _ R He), Ff in Hrun. cbn [rbind snd] in Hrun.
  unfold ibind at 1 in Hrun. destruct (run_one E path (World f 1)) as [[f1 op1] r1] eqn:R1. apply (run_one_spec E f Hs path (l ++ [n]) (File c)) in R1 as (A1 & _ & A2 & A3 & _); [|done..].
  cbn [w_fs] in A1. subst f1. destruct r1 as [s|m|m|]; [|injection Hrun as <- <-; left; split; [done|by eexists]|by destruct A2 as [[? ?]|[? ?]]..].
  destruct (A3 s eq_refl) as (Hpath & _ & c' & [= <-] & Hc & Hcode). right. split; [done|]. exists (s_generated s). split; [done|].
  unfold ibind at 1, ilift, format_path in Hrun. rewrite Hpath in Hrun.
  destruct (file_stem_some E f path _ c Hs (conj R He)) as (m & n' & pre & Heq & _ & _ & Hst). apply app_inj_2 in Heq as [_ Heq]; [|done]. injection Heq as <-. rewrite Hst in Hrun.
  exists s, op1. destruct (save_one E s _ _) as [w2 r2] eqn:Sv. exists w2. injection Hrun as <- <-. done.
Qed.
Lemma file_fails E f path out l n c f' r : sane E f -> input_file E f path (l ++ [n]) c -> fault E 0 (l ++ [n]) = false -> run E path out f = (f', r) -> ~ compiles c ->
  f' = f /\ exists m, r = Err m.
Proof. intros Hs Hi Hf Hrun Hc. destruct (file_run E f path out l n c f' r Hs Hi Hf Hrun) as [H|[H _]]; done. Qed.
Lemma split_none n : DOT ∉ txt n -> split_last_dot n = None.
Proof. destruct (split_last_dot n) as [[b a]|] eqn:E; [|done]. apply split_last_dot_some in E as [-> _]. rewrite txt_app, elem_of_app. intros H. exfalso. apply H. right. left. Qed.
Lemma file_output E f path out l n c f' r : sane E f -> input_file E f path (l ++ [n]) c -> proper_name (name_stem n) -> fault E 0 (l ++ [n]) = false ->
  run E path out f = (f', r) -> compiles c ->
  (r = Ok () -> exists t, code_for E c t /\ f' !! target E out [] (name_stem (name_stem n)) = Some (File (txt t))) /\
  (forall x, x ≠ target E out [] (name_stem (name_stem n)) -> f' !! x = f !! x \/ made_dir f f' x /\ on_way E out [] x).
Proof.
  intros Hs Hi Hsp Hf Hrun Hc. set (o := name_stem (name_stem n)). destruct (file_run E f path out l _ c f' r Hs Hi Hf Hrun) as [[-> [m ->]]|(_ & t & Hcode & sc & op & w & Hg & Hsv & <-)].
  { split; [done|by left]. }
  assert (o ≠ "") as Hne by apply name_stem_ne, Hsp.
  assert (plainb o) as Hps. { destruct Hsp as (_ & _ & _ & Hp). destruct (name_stem_part (name_stem n)) as [e He]. rewrite He in Hp. by apply plainb_app in Hp as [? _]. }
  pose proof (collect_path E out [] (name_stem n) "ts" (Forall_nil_2 _) Hsp plain_ts) as Hp. fold o in Hp. specialize (Hp (proper_ts o Hne Hps)).
  apply (save_one_spec E (origin E out) f sc _ (Job (names_of out ++ []) (o +:+ "." +:+ "ts") (T t)) op) in Hsv as [[S1 S2 _ _] _]; [|apply Hs|apply Hs|done|by rewrite Hg].
  pose proof (job_target E out [] o (T t) (Forall_nil_2 _)) as Htg. change (o +:+ "." +:+ "ts") with (o +:+ ".ts") in *. rewrite Htg in *. split.
  - intros Hr. destruct (S2 Hr) as [S3 _]. by exists t.
  - intros x Hx. destruct (S1 x Hx) as [H|[H1 H2]]; [by left|]. right. split; [done|]. by apply job_way in H2.
Qed.
Lemma stem_pkt s : s ≠ "" -> name_stem (s +:+ ".pkt") = s.
Proof. intros Hs. change ".pkt" with ("." +:+ "pkt"). by apply name_stem_ext. Qed.
Lemma file_output_plain E f path out l s c f' r : sane E f -> s ≠ "" -> DOT ∉ txt s -> input_file E f path (l ++ [s +:+ ".pkt"]) c -> fault E 0 (l ++ [s +:+ ".pkt"]) = false ->
  run E path out f = (f', r) -> compiles c ->
  (r = Ok () -> exists t, code_for E c t /\ f' !! target E out [] s = Some (File (txt t))) /\
  (forall x, x ≠ target E out [] s -> f' !! x = f !! x \/ made_dir f f' x /\ on_way E out [] x).
Proof.
  intros Hs Hne Hdot Hi Hf Hrun Hc. assert (name_stem s = s) as Hst2 by (unfold name_stem; by rewrite split_none).
  destruct Hi as [Hr He]. assert (proper_name (s +:+ ".pkt")) as Hpk by by eapply (child_proper E f Hs l).
  pose proof (file_output E f path out l _ c f' r Hs (conj Hr He)) as H. rewrite (stem_pkt s Hne), Hst2 in H. apply H; [|done..].
  split; [done|]. split; [intros ->; apply Hdot; left|]. split; [intros ->; apply Hdot; left|by eapply plainb_stem].
Qed.
Lemma file_output_dots E f path out l a b c f' : sane E f -> a ≠ "" -> a ≠ "." -> DOT ∉ txt b -> input_file E f path (l ++ [a +:+ "." +:+ b +:+ ".pkt"]) c -> fault E 0 (l ++ [a +:+ "." +:+ b +:+ ".pkt"]) = false ->
  run E path out f = (f', Ok ()) ->
  (exists t, code_for E c t /\ f' !! target E out [] a = Some (File (txt t))) /\ (f' !! target E out [] (a +:+ "." +:+ b) = f !! target E out [] (a +:+ "." +:+ b) \/ made_dir f f' (target E out [] (a +:+ "." +:+ b))).
Proof.
  intros Hs Ha1 Ha2 Hb Hi Hf Hrun. set (s := a +:+ "." +:+ b). assert (a +:+ "." +:+ b +:+ ".pkt" = s +:+ ".pkt") as Heq by (unfold s; by rewrite !sapp_assoc). rewrite Heq in *.
  assert (s ≠ "") as Hne by by apply app_ne. assert (name_stem s = a) as Hst by (unfold s, name_stem; rewrite split_last_dot_ext by done; by rewrite decide_False).
  assert (compiles c) as Hc. { destruct (file_run E f path out l _ c f' _ Hs Hi Hf Hrun) as [[_ [? ?]]|[H _]]; done. }
  destruct Hi as [Hr He]. assert (proper_name (s +:+ ".pkt")) as Hpk by by eapply (child_proper E f Hs l).
  pose proof (file_output E f path out l _ c f' (Ok ()) Hs (conj Hr He)) as H. rewrite (stem_pkt s Hne), Hst in H. destruct H as [H1 H2]; [|done..|].
  - assert (1 < String.length s) as Hl. { unfold s. rewrite sapp_cons, sapp_nil_l. destruct a as [|x a]; [done|]. rewrite sapp_cons. cbn. destruct a; [rewrite sapp_nil_l|rewrite sapp_cons]; cbn; lia. }
    split; [done|]. split; [intros E1; rewrite E1 in Hl; cbn in Hl; lia|]. split; [|by eapply plainb_stem].
    intros E1. unfold s in E1. destruct a as [|x [|y a]]; [done| |].
    + rewrite !sapp_cons, !sapp_nil_l in E1. injection E1 as -> ->. done.
    + rewrite !sapp_cons in E1. injection E1 as _ _ E1. by apply app_ne_r in E1.
  - split; [by apply H1|]. destruct (H2 (target E out [] s)) as [|[? _]]; [|by left|by right].
    unfold target. intros Ht. apply app_inv_head in Ht. cbn [app] in Ht. injection Ht as Ht. apply app_inj_ext in Ht. apply (f_equal String.length) in Ht. unfold s in Ht.
    revert Ht. clear. induction a as [|x a IH]; [rewrite sapp_nil_l, sapp_cons; done|]. rewrite sapp_cons. cbn. intros [= H]. done.
Qed.

(** ** Running twice *)
Lemma follow_mono f f' l ps : (forall x, entry_at f x = Some Dir -> entry_at f' x = Some Dir) -> forall m, follow f l ps = Some m -> follow f' l ps = Some m.
Proof.
  intros H. revert l. induction ps as [|p ps IH]; intros l m; [done|]. cbn. destruct (entry_at f l) as [[]|] eqn:E; [done| |done]. rewrite (H _ E). apply IH.
Qed.
Lemma rerun E E' f path out base f' : sane E f -> sane E' f -> cwd E' = cwd E -> input_dir E f path base -> fault E 0 base = false -> no_blind E ->
  no_fault E' -> no_blind E' -> (forall n, torn E' n = None) -> utf8 (txt path) -> utf8 (txt out) ->
  run E path out f = (f', Ok ()) -> exists f'', run E' path out f' = (f'', Ok ()).
Proof.
  intros Hs Hs' Hcwd Hin Hf0 Hnb Hnf' Hnb' Hnt' Hu Hout Hrun.
  assert (forall s, origin E' s = origin E s) as Hor by (intros; unfold origin; by rewrite Hcwd).
  assert (forall dirs s, target E' out dirs s = target E out dirs s) as Htar by (intros; unfold target, leads_to; by rewrite Hor).
  destruct (dir_run E f path out base Hs Hin Hf0 f' _ Hrun) as [(_ & H2 & _)|(js & rels & H1 & Hnd & _ & H2 & H3 & _)]; [done|]. inversion H3 as [Hwr|]; subst. destruct Hwr as [W1 W2 W3 W4 W5].
  destruct (one_output_each E f path out base Hs Hin Hf0 f' Hnb Hrun) as [O1 O2]. destruct (H2 Hnb) as [H4 _].
  assert (forall dirs s c, schema_at f base dirs s c -> exists j, j ∈ js /\ j_target (origin E out) j = target E out dirs s /\ j_way j = names_of out ++ dirs /\ Forall proper_name dirs /\ compiles c) as Hjob.
  { intros dirs s c Hsch. assert (dirs ++ [s +:+ ".pkt"] ∈ rels) as Hin' by (apply H4; by exists dirs, s, c).
    destruct (Forall2_elem_r _ _ _ _ H1 Hin') as (j & Hj & (d & n & c' & t & Heq & Hsc & Hco & Hc & -> & Hd & _)). apply last_inj in Heq as [-> ->].
    eexists. split; [done|]. split; [by apply job_target|]. split; [done|]. split; [done|]. by rewrite (schema_fun _ _ _ _ _ _ Hsch Hsc). }
  assert (forall x, entry_at f x = Some Dir -> entry_at f' x = Some Dir) as Hdir.
  { intros [|a x] Hx; [done|]. cbn in Hx |- *. destruct (O2 (a :: x)) as [H|[[H _] _]]; [|by rewrite H|by rewrite Hx in H].
    intros (dirs & s & c & Hsch & Heq). destruct (Hjob _ _ _ Hsch) as (j & Hj & Ht & _). destruct (W5 j Hj) as (_ & Hnd' & _). apply Hnd'. by rewrite Ht, <- Heq. }
  assert (sane E' f') as Hsane.
  { split; [done|rewrite Hcwd; apply Hdir, Hs|apply Hs'..]. }
  assert (input_dir E' f' path base) as Hin'.
  { destruct Hin as [Hr Hd]. split; [|by apply Hdir]. unfold resolve in *. destruct (decide _); [done|]. rewrite Hcwd. by apply (follow_mono f). }
  assert (forall dirs s c, schema_at f' base dirs s c -> schema_at f base dirs s c) as Hback.
  { intros dirs s c [Hne Hl]. split; [done|]. destruct (O2 (base ++ dirs ++ [s +:+ ".pkt"])) as [H|[[_ H] _]]; [|by rewrite <- H|by rewrite Hl in H].
    intros (d & s' & c' & _ & Heq). unfold target in Heq. rewrite !app_assoc in Heq. apply app_inj_2 in Heq as [_ Heq]; [|done]. injection Heq as Heq.
    apply (f_equal (fun x => rev (txt x))) in Heq. rewrite !txt_app, !rev_app_distr in Heq. cbn in Heq. done. }
  destruct (ok_named E f Hs Hnb path out base f' Hin Hf0 Hu Hrun) as [Hw1 Hw2].
  assert (dirs_named f' base) as Hw'.
  { intros dirs. induction dirs as [|n dirs IH] using rev_ind; intros Hl; [constructor|].
    assert (f !! (base ++ dirs ++ [n]) = Some Dir -> Forall (fun n => utf8 (txt n)) (dirs ++ [n])) as Hold by apply Hw1.
    destruct (O2 (base ++ dirs ++ [n])) as [H|[[H _] (ds & s & c & Hsch & k & Hk)]].
    { intros (ds & s & c & Hsch & Heq). destruct (O1 _ _ _ Hsch) as (t & _ & Ht). rewrite Heq in Hl. by rewrite Hl in Ht. }
    { apply Hold. by rewrite <- H. }
    apply Forall_app. split.
    - destruct dirs as [|d dirs]; [constructor|]. apply IH. rewrite app_assoc in Hl. apply (tree_parent f') in Hl; [|done]. rewrite entry_ne' in Hl; [done|]. by destruct base.
    - apply Forall_cons. split; [|constructor]. symmetry in Hk. rewrite app_assoc in Hk. apply descend_names in Hk as [[m' Hm]|Hk].
      + exfalso. assert (entry_at f ((base ++ dirs) ++ [n]) = Some Dir) as Hd.
        { unfold origin in Hm. destruct (has_root out); [by destruct (base ++ dirs)|]. pose proof (sane_cwd E f Hs) as Hc. rewrite Hm in Hc.
          destruct m' as [|y m']; [done|]. eapply (tree_up f _ (y :: m')); [apply Hs|done|]. by rewrite <- app_assoc. }
        rewrite entry_ne, <- app_assoc in Hd. by rewrite H in Hd.
      + apply elem_of_take in Hk as (i & Hk%elem_of_list_lookup_2 & _). apply elem_of_app in Hk as [Hk|Hk].
        * pose proof (pieces_utf8 out Hout) as Hp. rewrite Forall_forall in Hp. by apply Hp.
        * destruct Hsch as [_ Hsl]. assert (f !! (base ++ ds) = Some Dir) as Hds.
          { rewrite app_assoc in Hsl. apply (tree_parent f (sane_tree E f Hs)) in Hsl. rewrite entry_ne' in Hsl; [done|]. destruct ds; [by apply elem_of_nil in Hk|by destruct base]. }
          apply Hw1 in Hds. rewrite Forall_forall in Hds. by apply Hds. }
  assert (files_named f' base) as Hw2' by (intros dirs s c Hsch%Hback; by eapply Hw2).
  apply (succeeds_iff E' f' path out base); [done|done|apply Hnf'|done..|]. split; [|split; [done|split; [done|]]].
  - intros dirs s c Hsch%Hback. destruct (Hjob _ _ _ Hsch) as (j & Hj & Ht & Hway & Hd & _). split; [|split].
    + intros x Hx Hne [c' Hc']. assert (way (origin E out) (j_way j) x) as Hwx. { rewrite Hway. apply job_way; [done|]. unfold on_way in *. by rewrite Hor in Hx. }
      apply (W4 j x Hj) in Hwx. rewrite entry_ne' in Hwx by done. by rewrite Hc' in Hwx.
    + rewrite Htar. destruct (O1 _ _ _ Hsch) as (t & _ & ->). done.
    + intros d' s' c' Hsch'%Hback Hx. rewrite Htar in Hx. assert (way (origin E out) (j_way j) (target E out d' s')) as Hwx.
      { rewrite Hway. apply job_way; [done|]. unfold on_way in *. by rewrite Hor in Hx. }
      apply (W4 j _ Hj) in Hwx. rewrite entry_ne' in Hwx. { destruct (O1 _ _ _ Hsch') as (t & _ & Ht'). by rewrite Ht' in Hwx. }
      unfold target. by destruct (leads_to E out), d'.
  - intros dirs s c Hsch%Hback. by destruct (Hjob _ _ _ Hsch) as (j & _ & _ & _ & _ & Hc).
Qed.

(** ** Success needs a clear way, whatever else happens. *)
Lemma ok_unobstructed E f path out base f' : sane E f -> input_dir E f path base -> fault E 0 base = false -> no_blind E ->
  run E path out f = (f', Ok ()) -> unobstructed E f out base.
Proof.
  intros Hs Hin Hf0 Hnb Hrun.
  destruct (dir_run E f path out base Hs Hin Hf0 f' _ Hrun) as [(_ & H2 & _)|(js & rels & H1 & Hnd & _ & H2 & H3 & _)]; [done|]. inversion H3 as [Hwr|]; subst. destruct Hwr as [_ _ _ _ W5].
  destruct (H2 Hnb) as [H4 _].
  assert (forall dirs s c, schema_at f base dirs s c -> exists t, Job (names_of out ++ dirs) (s +:+ ".ts") (T t) ∈ js /\ Forall proper_name dirs) as Hjob.
  { intros dirs s c Hsch. assert (dirs ++ [s +:+ ".pkt"] ∈ rels) as Hin' by (apply H4; by exists dirs, s, c).
    destruct (Forall2_elem_r _ _ _ _ H1 Hin') as (j & Hj & (d & n & c' & t & Heq & _ & _ & _ & -> & Hd & _)). apply last_inj in Heq as [-> ->]. by exists t. }
  intros dirs s c Hsch. destruct (Hjob _ _ _ Hsch) as (t & Hj & Hd). destruct (W5 _ Hj) as (C1 & C2 & C3). rewrite job_target in C2 by done. cbn [j_way] in *.
  split; [|split; [done|]].
  - intros x Hx Hne. destruct (C1 x) as [|]; [by apply job_way|done|done].
  - intros dirs' s' c' Hsch'. destruct (Hjob _ _ _ Hsch') as (t' & Hj' & Hd'). specialize (C3 _ Hj'). rewrite job_target, job_way in C3 by done. done.
Qed.
(** a schema and a directory that is called like its output *)
Lemma clash E f path out base dirs s c more s' c' f' : sane E f -> input_dir E f path base -> fault E 0 base = false -> no_blind E ->
  schema_at f base dirs s c -> schema_at f base (dirs ++ (s +:+ ".ts") :: more) s' c' -> run E path out f ≠ (f', Ok ()).
Proof.
  intros Hs Hin Hf0 Hnb H1 H2 Hrun. pose proof (ok_unobstructed E f path out base f' Hs Hin Hf0 Hnb Hrun) as Hu.
  destruct (Hu _ _ _ H2) as (_ & _ & H3). apply (H3 _ _ _ H1). exists (length (pieces out) + length dirs + 1).
  destruct (schema_proper E f base Hs _ _ _ H2) as (_ & Hp & _). apply Forall_app in Hp as [Hp1 Hp2]. apply Forall_cons in Hp2 as [Hp2 _].
  assert (take (length (pieces out) + length dirs + 1) (pieces out ++ dirs ++ (s +:+ ".ts") :: more) = pieces out ++ dirs ++ [s +:+ ".ts"]) as ->.
  { change (dirs ++ (s +:+ ".ts") :: more) with (dirs ++ [s +:+ ".ts"] ++ more).
    rewrite !app_assoc. rewrite take_app_alt; [done|]. rewrite !app_length. cbn. lia. }
  rewrite foldl_app. fold (leads_to E out). rewrite foldl_proper; [done|]. apply Forall_app. split; [done|by constructor].
Qed.

(** ** Output paths *)
Lemma output_path E f path out base dirs s c : sane E f -> input_dir E f path base -> schema_at f base dirs s c ->
  exists p, format_path (foldl push path (dirs ++ [s +:+ ".pkt"])) path out true = Ok p /\ leads_to E p = target E out dirs s.
Proof.
  intros Hs Hin Hsch. destruct (schema_proper E f base Hs _ _ _ Hsch) as (Hn & Hd & Hx).
  destruct (format_path_spec E path out dirs s (path_ne E f path base Hin) Hd Hn Hx) as (p & Hp & Ho & Hpn & pre & Hpre & Hway). exists p. split; [done|].
  rewrite <- (job_target E out dirs s [] Hd). unfold leads_to, j_target. rewrite Ho, Hpre, foldl_app. cbn [foldl j_way j_name] in *.
  rewrite <- Hway, descend_proper by done. unfold plain_pieces. by rewrite <- foldl_filter.
Qed.
Lemma outputs_differ E f path out base dirs s c dirs' s' c' : sane E f -> input_dir E f path base -> schema_at f base dirs s c -> schema_at f base dirs' s' c' ->
  (dirs, s) ≠ (dirs', s') ->
  exists p p', format_path (foldl push path (dirs ++ [s +:+ ".pkt"])) path out true = Ok p /\ format_path (foldl push path (dirs' ++ [s' +:+ ".pkt"])) path out true = Ok p' /\
    leads_to E p ≠ leads_to E p'.
Proof.
  intros Hs Hin H1 H2 Hne. destruct (output_path E f path out base _ _ _ Hs Hin H1) as (p & Hp & Hl). destruct (output_path E f path out base _ _ _ Hs Hin H2) as (p' & Hp' & Hl').
  exists p, p'. split; [done|]. split; [done|]. rewrite Hl, Hl'. intros H. apply target_inj in H as [-> ->]. done.
Qed.

(** ** The language argument *)
Lemma lower_t c : lower c = "t"%char <-> c = "t"%char \/ c = "T"%char.
Proof. destruct c as [[] [] [] [] [] [] [] []]; vm_compute; split; try (intros H; discriminate H); try (intros [H|H]; discriminate H); auto. Qed.
Lemma lower_s c : lower c = "s"%char <-> c = "s"%char \/ c = "S"%char.
Proof. destruct c as [[] [] [] [] [] [] [] []]; vm_compute; split; try (intros H; discriminate H); try (intros [H|H]; discriminate H); auto. Qed.
Lemma lang_ok_iff s : lang_ok s = true <-> s ∈ ["ts"; "tS"; "Ts"; "TS"].
Proof.
  unfold lang_ok. rewrite bool_decide_eq_true. split.
  - destruct s as [|a [|b [|]]]; [done|done| |done]. cbn [list_ascii_of_string List.map]. intros [= H1%lower_t H2%lower_s].
    destruct H1 as [-> | ->], H2 as [-> | ->]; apply (bool_decide_unpack _); exact I.
  - rewrite !elem_of_cons, elem_of_nil. intros [->|[->|[->|[->|[]]]]]; by vm_compute.
Qed.

Lemma run_only_ts E f path out f' r : sane E f -> run E path out f = (f', r) -> only_ts f f'.
Proof. intros Hs Hrun. by apply (run_any E f path out f' r Hs) in Hrun as [? _]. Qed.
Lemma run_ends E f path out f' r : sane E f -> run E path out f = (f', r) -> r ≠ Diverge /\ (utf8 (txt path) -> (forall base, input_dir E f path base -> dirs_named f base) -> forall m, r ≠ Panic m).
Proof. intros Hs Hrun. by apply (run_any E f path out f' r Hs) in Hrun as [_ ?]. Qed.
