(** The writing half of the command. *)
From Verif Require Export CliRead.

Global Instance entry_eq_dec : EqDecision entry.
Proof. solve_decision. Defined.
Definition plain_pieces := List.filter (fun p => negb (junk p)).
(** the locations passed on the way along [ps] *)
Definition way (l : location) (ps : list string) (x : location) : Prop := exists k, x = foldl descend l (take k ps).
Lemma descend_junk l p : junk p = true -> descend l p = l.
Proof. unfold descend. by intros ->. Qed.
Lemma way_cons l p ps x : way l (p :: ps) x <-> x = l \/ way (descend l p) ps x.
Proof.
  split.
  - intros [[|k] ->]; [by left|right]. by exists k.
  - intros [->|[k ->]]; [by exists 0|by exists (S k)].
Qed.
Lemma way_here l ps : way l ps l.
Proof. by exists 0. Qed.
Lemma way_end l ps : way l ps (foldl descend l ps).
Proof. exists (length ps). by rewrite take_ge. Qed.
Lemma way_take l k ps x : way l (take k ps) x -> way l ps x.
Proof. intros [j ->]. exists (j `min` k). by rewrite take_take. Qed.
Lemma way_filter l ps x : way l (plain_pieces ps) x <-> way l ps x.
Proof.
  revert l. induction ps as [|p ps IH]; intros l; [done|]. cbn. rewrite way_cons. destruct (junk p) eqn:J; cbn.
  - rewrite (descend_junk l p J). rewrite IH. split; [by right|]. intros [->|H]; [apply way_here|done].
  - by rewrite way_cons, IH.
Qed.
Lemma foldl_filter l ps : foldl descend l (plain_pieces ps) = foldl descend l ps.
Proof. revert l. induction ps as [|p ps IH]; intros l; [done|]. cbn. destruct (junk p) eqn:J; cbn; [by rewrite (descend_junk l p J)|apply IH]. Qed.

(** ** mkdir *)
Lemma make_dirs_filter f l ps : entry_at f l = Some Dir -> make_dirs f l (plain_pieces ps) = make_dirs f l ps.
Proof.
  revert f l. induction ps as [|p ps IH]; intros f l Hl; [done|]. cbn. destruct (junk p) eqn:J; cbn.
  - rewrite (descend_junk l p J), Hl. by apply IH.
  - destruct (entry_at f (descend l p)) as [[]|] eqn:Hp; [done|by apply IH|]. apply IH. destruct (descend l p); [done|]. cbn. by rewrite lookup_insert.
Qed.
(** only directories are added, and only on the way *)
Definition grows (f f' : fs) (W : location -> Prop) : Prop := forall x, f' !! x = f !! x \/ made_dir f f' x /\ W x.
Lemma grows_refl f W : grows f f W.
Proof. by left. Qed.
Lemma grows_keeps f f' W x e : grows f f' W -> f !! x = Some e -> f' !! x = Some e.
Proof. intros H Hx. destruct (H x) as [->|[[H1 _] _]]; [done|]. by rewrite Hx in H1. Qed.
Lemma grows_entry f f' W x e : grows f f' W -> entry_at f x = Some e -> entry_at f' x = Some e.
Proof. intros H. destruct x; [done|]. by apply grows_keeps with (W := W). Qed.
Lemma grows_file f f' W x : grows f f' W -> is_file f' x -> is_file f x.
Proof. intros H [c Hc]. destruct (H x) as [E|[[_ E] _]]; [exists c; by rewrite <- E|]. by rewrite Hc in E. Qed.
Lemma make_dirs_grows f l ps : grows f (make_dirs f l ps).1 (way l ps).
Proof.
  revert f l. induction ps as [|p ps IH]; intros f l; [apply grows_refl|]. cbn. destruct (entry_at f (descend l p)) as [[c|]|] eqn:Hp.
  - apply grows_refl.
  - intros x. destruct (IH f (descend l p) x) as [H|[H1 H2]]; [by left|]. right. split; [done|]. apply way_cons. by right.
  - assert (f !! descend l p = None) as Hn by (destruct (descend l p); done).
    intros x. destruct (decide (x = descend l p)) as [->|Hx].
    + right. split; [|apply way_cons; right; apply way_here]. split; [done|]. eapply grows_keeps; [apply IH|]. apply lookup_insert.
    + destruct (IH (<[descend l p:=Dir]> f) (descend l p) x) as [H|[[H1 H2] H3]].
      * left. rewrite H. by rewrite lookup_insert_ne.
      * right. rewrite lookup_insert_ne in H1 by done. split; [done|]. apply way_cons. by right.
Qed.
Lemma make_dirs_ok f l ps x : entry_at f l = Some Dir -> (make_dirs f l ps).2 = true -> way l ps x -> entry_at (make_dirs f l ps).1 x = Some Dir.
Proof.
  revert f l. induction ps as [|p ps IH]; intros f l Hl.
  - cbn. intros _ [k ->]. by rewrite take_nil.
  - intros Hok Hw. pose proof (make_dirs_grows f l (p :: ps)) as Hg. apply way_cons in Hw as [->|Hw]; [by eapply grows_entry|]. clear Hg. cbn in *.
    destruct (entry_at f (descend l p)) as [[c|]|] eqn:Hp; [done|by apply IH|]. apply IH; [|done..]. destruct (descend l p); [done|]. apply lookup_insert.
Qed.
Lemma make_dirs_iff f l ps : entry_at f l = Some Dir -> (make_dirs f l ps).2 = true <-> forall x, way l ps x -> ~ is_file f x \/ x = [].
Proof.
  intros Hl. split.
  - intros Hok x Hw. pose proof (make_dirs_ok f l ps x Hl Hok Hw) as Hd. destruct x; [by right|]. left. intros [c Hc]. 
    eapply (grows_keeps f) in Hc; [|apply (make_dirs_grows f l ps)]. cbn in Hd. by rewrite Hc in Hd.
  - revert f l Hl. induction ps as [|p ps IH]; intros f l Hl H; [done|]. cbn.
    assert (way l (p :: ps) (descend l p)) as Hw by (apply way_cons; right; apply way_here).
    destruct (entry_at f (descend l p)) as [[c|]|] eqn:Hp.
    + exfalso. destruct (H _ Hw) as [Hn|Hn]; [|by rewrite Hn in Hp]. apply Hn. exists c. by destruct (descend l p).
    + apply IH; [done|]. intros x Hx. apply H. apply way_cons. by right.
    + apply IH; [destruct (descend l p); [done|apply lookup_insert]|]. intros x Hx. destruct (H x) as [Hn|Hn]; [apply way_cons; by right| |by right]. left.
      intros [c Hc]. destruct (decide (x = descend l p)) as [->|Hne]; [by rewrite lookup_insert in Hc|]. rewrite lookup_insert_ne in Hc by done. apply Hn. by exists c.
Qed.
Lemma removelast_parent f l : tree f -> entry_at f l = Some Dir -> entry_at f (removelast l) = Some Dir.
Proof.
  intros Ht Hl. destruct l as [|n l _] using rev_ind; [done|]. rewrite removelast_last. rewrite entry_ne in Hl. by eapply tree_parent.
Qed.
Lemma plain_proper p : plainb p -> junk p = false -> p ≠ ".." -> proper_name p.
Proof. intros H1 [H2 H3]%junk_false H4. done. Qed.
Lemma tree_insert f l n e : tree f -> entry_at f l = Some Dir -> proper_name n -> entry_at f (l ++ [n]) ≠ Some Dir -> tree (<[l ++ [n] := e]> f).
Proof.
  intros Ht Hl Hn Hnd. split.
  - rewrite lookup_insert_ne by (by destruct l). apply Ht.
  - intros x e'. destruct (decide (x = l ++ [n])) as [->|Hx].
    + intros _. apply Forall_app. split; [|by constructor]. apply entry_some in Hl as [[-> _]|Hl]; [constructor|]. by apply (tree_names f Ht) in Hl.
    + rewrite lookup_insert_ne by done. apply (tree_names f Ht).
  - intros x m e'. destruct (decide (x = l ++ [n])) as [->|Hx].
    + intros H. exfalso. apply Hnd. rewrite lookup_insert_ne in H; [by apply (tree_parent f Ht) in H|]. intros E. apply (f_equal length) in E. rewrite !app_length in E. cbn in E. lia.
    + assert (forall y, entry_at f y = Some Dir -> y ≠ l ++ [n] -> entry_at (<[l ++ [n] := e]> f) y = Some Dir) as Hk.
      { intros [|a y] Hy Hne; [done|]. cbn in *. by rewrite lookup_insert_ne. }
      destruct (decide (x ++ [m] = l ++ [n])) as [E|Hne].
      * apply app_inj_2 in E as [-> _]; [|done]. intros _. apply Hk; [done|]. intros E. apply (f_equal length) in E. rewrite !app_length in E. cbn in E. lia.
      * rewrite lookup_insert_ne by done. intros H. apply Hk; [by eapply tree_parent|done].
Qed.
Lemma make_dirs_tree f l ps : tree f -> entry_at f l = Some Dir -> Forall plainb ps -> tree (make_dirs f l ps).1.
Proof.
  revert f l. induction ps as [|p ps IH]; intros f l Ht Hl; [done|]. intros [Hp Hps]%Forall_cons. cbn.
  destruct (entry_at f (descend l p)) as [[c|]|] eqn:Hd; [done|by apply IH|].
  unfold descend in *. destruct (junk p) eqn:J; [by rewrite Hl in Hd|]. destruct (decide (p = "..")) as [->|Hpp].
  { by rewrite removelast_parent in Hd. }
  apply IH; [|rewrite entry_ne; apply lookup_insert|done]. apply tree_insert; [done..|by apply plain_proper|]. by rewrite Hd.
Qed.

(** ** open for writing *)
Lemma follow_dirs f l ps : entry_at f l = Some Dir -> (forall x, way l ps x -> entry_at f x = Some Dir) -> follow f l ps = Some (foldl descend l ps).
Proof.
  revert l. induction ps as [|p ps IH]; intros l Hl H; [done|]. cbn. rewrite Hl. apply IH; [apply H; apply way_cons; right; apply way_here|].
  intros x Hx. apply H. apply way_cons. by right.
Qed.
Lemma resolve_new E f s l : tree f -> entry_at f (cwd E) = Some Dir -> resolve E f s = Some l -> entry_at f l ≠ Some Dir ->
  exists m pre p, l = m ++ [p] /\ proper_name p /\ pieces s = pre ++ [p] /\ entry_at f m = Some Dir.
Proof.
  intros Ht Hc. unfold resolve. destruct (decide (s = "")); [done|]. destruct (pieces s) as [|p pre _] eqn:P using rev_ind; [by apply pieces_ne in P|].
  rewrite walk_app. destruct (follow f _ pre) as [m|] eqn:W; [|done]. cbn. destruct (entry_at f m) as [[]|] eqn:Em; [done| |done]. intros [= <-] Hnd.
  pose proof (pieces_plain s) as Hp. rewrite P in Hp. apply Forall_app in Hp as [_ Hp]. apply Forall_cons in Hp as [Hp _].
  unfold descend in *. destruct (junk p) eqn:J; [done|]. destruct (decide (p = "..")); [by rewrite removelast_parent in Hnd|].
  exists m, pre, p. split; [done|]. split; [by apply plain_proper|]. done.
Qed.

(** ** One output *)
Section save.
  Context (E : env).
  Record job := Job { j_way : list string; j_name : string; j_code : text }.
  Context (start : location).
  Definition j_target (j : job) : location := foldl descend start (j_way j) ++ [j_name j].
  Definition clear_for (f : fs) (j : job) : Prop :=
    (forall x, way start (j_way j) x -> ~ is_file f x \/ x = []) /\ f !! j_target j ≠ Some Dir /\ ~ way start (j_way j) (j_target j).
  (** [p] is the path for the job [j] *)
  Definition path_for (p : string) (j : job) : Prop :=
    origin E p = start /\ proper_name (j_name j) /\ exists pre, pieces p = pre ++ [j_name j] /\ plain_pieces pre = j_way j.
  Record saved (f : fs) (j : job) (f' : fs) (r : res unit) : Prop := {
    s_other : forall x, x ≠ j_target j -> f' !! x = f !! x \/ made_dir f f' x /\ way start (j_way j) x;
    s_ok : r = Ok () -> f' !! j_target j = Some (File (j_code j)) /\ clear_for f j /\ forall x, way start (j_way j) x -> entry_at f' x = Some Dir;
    s_bad : r ≠ Ok () -> (exists m, r = Err m) /\
      (f' !! j_target j = f !! j_target j \/ made_dir f f' (j_target j) \/ exists k, f' !! j_target j = Some (File (take k (j_code j))));
    s_tree : tree f' }.
  Lemma target_ne j : j_target j ≠ [].
  Proof. unfold j_target. by destruct (foldl descend _ _). Qed.
  Lemma save_one_spec f s p j op w r : tree f -> entry_at f (cwd E) = Some Dir -> path_for p j -> j_code j = T (s_generated s) ->
    save_one E s p (World f op) = (w, r) ->
    saved f j (w_fs w) r /\ (torn E op = None -> torn E (S op) = None -> clear_for f j -> r = Ok ()).
  Proof.
    intros Ht Hcwd (Ho & Hn & pre & Hp & Hpre) Hcode. unfold save_one, ibind.
    destruct (parent_last p pre (j_name j) Hp) as (q & -> & Hq1 & Hq2); [by apply proper_good|]. fold plain_pieces in Hq1. rewrite Hpre in Hq1.
    assert (entry_at f start = Some Dir) as Hst by (rewrite <- Ho; unfold origin; by destruct (has_root p)).
    set (ps := if decide (q = "") then [] else pieces q).
    assert (plain_pieces ps = j_way j) as Hps.
    { unfold ps. rewrite <- Hq1. unfold names_of. by destruct (decide (q = "")) as [->|]. }
    assert (Forall plainb ps) as Hplain by (unfold ps; destruct (decide (q = "")); [constructor|apply pieces_plain]).
    assert ((if has_root q then [] else cwd E) = start) as Hstart by (rewrite Hq2; exact Ho).
    assert (forall x, way start ps x <-> way start (j_way j) x) as Hway by (intros x; rewrite <- Hps; symmetry; apply way_filter).
    assert (forall x, way start pre x <-> way start (j_way j) x) as Hway' by (intros x; rewrite <- Hpre; symmetry; apply way_filter).
    unfold create_dir_all, tick. cbn [w_op w_fs]. rewrite Hstart. fold ps. destruct (torn E op) as [k|] eqn:T1.
    { intros [= <- <-]. cbn [w_fs]. split; [|done].
      assert (grows f (make_dirs f start (take k ps)).1 (way start (j_way j))) as Hg.
      { intros x. destruct (make_dirs_grows f start (take k ps) x) as [H|[H1 H2]]; [by left|]. right. split; [done|]. apply Hway. by eapply way_take. }
      split; [intros x _; apply Hg|done| |].
      - intros _. split; [by eexists|]. destruct (Hg (j_target j)) as [H|[H _]]; [by left|by right; left].
      - apply make_dirs_tree; [done..|by apply Forall_take]. }
    pose proof (make_dirs_grows f start ps) as Hg0. pose proof (make_dirs_tree f start ps Ht Hst Hplain) as Htr.
    pose proof (make_dirs_iff f start ps Hst) as Hiff. pose proof (fun x => make_dirs_ok f start ps x Hst) as Hok.
    destruct (make_dirs f start ps) as [f1 b] eqn:M. cbn [fst snd] in *.
    assert (grows f f1 (way start (j_way j))) as Hg.
    { intros x. destruct (Hg0 x) as [H|[H1 H2]]; [by left|]. right. split; [done|]. by apply Hway. }
    destruct b.
    2:{ intros [= <- <-]. cbn [w_fs]. split.
        - split; [intros x _; apply Hg|done| |done]. intros _. split; [by eexists|]. destruct (Hg (j_target j)) as [H|[H _]]; [by left|by right; left].
        - intros _ _ (Hc & _). assert (false = true); [|done]. apply Hiff. intros x Hx. apply Hc. by apply Hway. }
    assert (forall x, way start (j_way j) x -> ~ is_file f x \/ x = []) as Hnf.
    { intros x Hx. apply Hiff; [done|]. by apply Hway. }
    assert (forall x, way start (j_way j) x -> entry_at f1 x = Some Dir) as Hdirs.
    { intros x Hx. apply Hok; [done|]. by apply Hway. }
    unfold write_file, tick. cbn [w_op w_fs].
    assert (resolve E f1 p = Some (j_target j)) as Hres.
    { unfold resolve. rewrite decide_False.
      2:{ intros ->. cbn in Hp. destruct pre as [|? [|]]; [|done..]. injection Hp as Hp. apply proj1 in Hn. done. }
      fold (origin E p). rewrite Ho, Hp, walk_app. rewrite (follow_dirs f1 start pre).
      - cbn. rewrite Hdirs by (apply Hway', way_end). rewrite descend_proper by done. unfold j_target. by rewrite <- Hpre, foldl_filter.
      - apply Hdirs, way_here.
      - intros x Hx. apply Hdirs. by apply Hway'. }
    rewrite Hres. rewrite (entry_ne' f1 (j_target j)) by apply target_ne.
    assert (f1 !! j_target j = Some Dir <-> ~ (f !! j_target j ≠ Some Dir /\ ~ way start (j_way j) (j_target j))) as Hdir.
    { split.
      - intros H [H1 H2]. destruct (Hg (j_target j)) as [H3|[_ H3]]; [|done]. apply H1. by rewrite <- H3.
      - intros H. destruct (decide (f !! j_target j = Some Dir)) as [H1|H1]; [by eapply grows_keeps|].
        destruct (decide (f1 !! j_target j = Some Dir)) as [|H2]; [done|]. exfalso. apply H. split; [done|]. intros Hw. apply H2. apply Hdirs in Hw.
        rewrite entry_ne' in Hw; [done|apply target_ne]. }
    destruct (decide (f1 !! j_target j = Some Dir)) as [Hd|Hd].
    { rewrite Hd. intros [= <- <-]. cbn [w_fs]. split.
      - split; [intros x _; apply Hg|done| |done]. intros _. split; [by eexists|]. destruct (Hg (j_target j)) as [H|[H _]]; [by left|by right; left].
      - intros _ _ [_ Hc]. by apply Hdir in Hd. }
    assert (f !! j_target j ≠ Some Dir /\ ~ way start (j_way j) (j_target j)) as Hfree.
    { split; [intros H; apply Hd; by eapply grows_keeps|]. intros Hw. apply Hdirs in Hw. rewrite entry_ne' in Hw; [done|apply target_ne]. }
    assert (forall c, tree (<[j_target j := File c]> f1)) as Htree.
    { intros c. apply tree_insert; [done|apply Hdirs, way_end|done|]. by rewrite entry_ne. }
    assert (forall c x, x ≠ j_target j -> <[j_target j := File c]> f1 !! x = f !! x \/ made_dir f (<[j_target j := File c]> f1) x /\ way start (j_way j) x) as Hoth.
    { intros c x Hx. unfold made_dir. rewrite lookup_insert_ne by done. apply Hg. }
    intros H. assert ((match torn E (S op) with
               | None => (<[j_target j := File (T (s_generated s))]> f1, Ok ())
               | Some 0 => (f1, Err "I/O error")
               | Some (S k) => (<[j_target j := File (take k (T (s_generated s)))]> f1, Err "I/O error")
               end) = (w_fs w, r)) as H'.
    { destruct (f1 !! j_target j) as [[]|]; [|done|]; repeat case_match; injection H as <- <-; done. }
    clear H. rewrite <- Hcode in H'. destruct (torn E (S op)) as [[|k]|]; injection H' as <- <-.
    - split; [|done]. split; [intros x _; apply Hg|done| |done]. intros _. split; [by eexists|]. destruct (Hg (j_target j)) as [H|[H _]]; [by left|by right; left].
    - split; [|done]. split; [apply Hoth|done| |apply Htree]. intros _. split; [by eexists|]. right. right. exists k. apply lookup_insert.
    - split; [|done]. split; [apply Hoth| |done|apply Htree]. intros _. split; [apply lookup_insert|]. split; [done|].
      intros x Hx. assert (x ≠ j_target j) as Hne by (intros ->; by apply Hfree). apply Hdirs in Hx. destruct x; [done|]. cbn in *. by rewrite lookup_insert_ne.
  Qed.
End save.

(** ** The output paths *)
Lemma plain_ts : plainb "ts".
Proof. unfold plainb. apply (bool_decide_unpack _). by vm_compute. Qed.
Lemma proper_ts n : n ≠ "" -> plainb n -> proper_name (n +:+ ".ts").
Proof.
  intros Hn Hp. split; [by apply app_ne|]. split; [|split].
  1,2: intros E; apply (f_equal (fun x => rev (txt x))) in E; rewrite txt_app, rev_app_distr in E; cbn in E; done.
  apply plainb_app. split; [done|]. unfold plainb. apply (bool_decide_unpack _). by vm_compute.
Qed.
Lemma collect_path E out dirs x e : Forall proper_name dirs -> proper_name x ->
  plainb e -> proper_name (name_stem x +:+ "." +:+ e) ->
  path_for E (origin E out) (with_extension (collect (components out ++ List.map Normal (dirs ++ [x]))) e) (Job (names_of out ++ dirs) (name_stem x +:+ "." +:+ e) []).
Proof.
  intros Hd Hx He Hn. assert (Forall good dirs) as Hgd by (eapply Forall_impl; [exact Hd|]; apply proper_good).
  assert (Forall good (dirs ++ [x])) as Hg by (apply Forall_app; split; [done|]; constructor; [by apply proper_good|done]).
  destruct (collect_names out (dirs ++ [x]) Hg) as [H1 H2].
  assert (collect (components out ++ List.map Normal (dirs ++ [x])) = push (collect (components out ++ List.map Normal dirs)) x) as Hc.
  { rewrite !collect_app, !map_normal_str, foldl_app. done. }
  destruct (pieces_push (collect (components out ++ List.map Normal dirs)) x) as (pre & Hp & _); [apply Hx|]. rewrite <- Hc in Hp.
  destruct (with_extension_last _ pre x e Hp) as [W1 W2]; [by apply proper_good|apply Hx|done|].
  split; [|split; [done|]].
  - unfold origin. by rewrite W2, H2.
  - exists pre. split; [done|]. cbn [j_way]. unfold names_of in H1 at 1. rewrite Hp, List.filter_app, (filter_one x), app_assoc in H1; [|by apply proper_good].
    by apply app_inj_2 in H1 as [H1 _].
Qed.
Lemma plainb_stem n e : proper_name (n +:+ e) -> plainb n.
Proof. intros (_ & _ & _ & H). by apply plainb_app in H as [? _]. Qed.
Lemma format_path_spec E base out dirs n : base ≠ "" -> Forall proper_name dirs -> n ≠ "" -> proper_name (n +:+ ".pkt") ->
  exists p, format_path (foldl push base (dirs ++ [n +:+ ".pkt"])) base out true = Ok p /\ path_for E (origin E out) p (Job (names_of out ++ dirs) (n +:+ ".ts") []).
Proof.
  intros Hb Hd Hn Hx. assert (Forall proper_name (dirs ++ [n +:+ ".pkt"])) as Hall by (apply Forall_app; split; [done|by constructor]).
  unfold format_path. rewrite components_pushes, strip_base_app by done. eexists. split; [done|].
  assert (name_stem (n +:+ ".pkt") = n) as Hst by (change ".pkt" with ("." +:+ "pkt"); by apply name_stem_ext).
  pose proof (collect_path E out dirs (n +:+ ".pkt") "ts" Hd Hx plain_ts) as H. rewrite Hst in H. apply H. apply proper_ts; [done|]. by eapply plainb_stem.
Qed.
Lemma path_for_code E start p way name code code' : path_for E start p (Job way name code) -> path_for E start p (Job way name code').
Proof. done. Qed.
Lemma foldl_proper l dirs : Forall proper_name dirs -> foldl descend l dirs = l ++ dirs.
Proof.
  revert l. induction dirs as [|d dirs IH]; intros l; [by rewrite app_nil_r|]. intros [Hd Hds]%Forall_cons. cbn [foldl].
  rewrite IH, descend_proper, <- app_assoc by done. done.
Qed.
Lemma leads_names E s : leads_to E s = foldl descend (origin E s) (names_of s).
Proof. unfold leads_to, names_of. by rewrite <- foldl_filter. Qed.
Lemma job_target E out dirs n code : Forall proper_name dirs -> j_target (origin E out) (Job (names_of out ++ dirs) (n +:+ ".ts") code) = target E out dirs n.
Proof. intros Hd. unfold j_target, target. cbn [j_way j_name]. rewrite foldl_app, <- leads_names, foldl_proper, <- app_assoc by done. done. Qed.
Lemma job_way E out dirs x : Forall proper_name dirs -> way (origin E out) (names_of out ++ dirs) x <-> on_way E out dirs x.
Proof.
  intros Hd. assert (names_of out ++ dirs = plain_pieces (pieces out ++ dirs)) as ->.
  { unfold plain_pieces. rewrite List.filter_app. f_equal. induction Hd as [|d dirs Hd Hds IH]; [done|]. cbn. destruct (proper_good d Hd) as [_ ->]. cbn. by rewrite <- IH. }
  apply way_filter.
Qed.

(** ** All outputs *)
Section all.
  Context (E : env) (start : location).
  Definition keeps (js : list job) (f f' : fs) : Prop := forall x, (forall j, j ∈ js -> x ≠ j_target start j) ->
    f' !! x = f !! x \/ made_dir f f' x /\ exists j, j ∈ js /\ way start (j_way j) x.
  Definition all_clear (f : fs) (js : list job) : Prop := forall j, j ∈ js ->
    (forall x, way start (j_way j) x -> ~ is_file f x \/ x = []) /\ f !! j_target start j ≠ Some Dir /\
    forall j', j' ∈ js -> ~ way start (j_way j) (j_target start j').
  (** the outputs [js] were written, turning [f] into [f'] *)
  Record written (js : list job) (f f' : fs) : Prop := {
    wr_files : forall j, j ∈ js -> f' !! j_target start j = Some (File (j_code j));
    wr_keeps : keeps js f f';
    wr_tree : tree f';
    wr_dirs : forall j x, j ∈ js -> way start (j_way j) x -> entry_at f' x = Some Dir;
    wr_clear : all_clear f js }.
  Lemma made_trans f g h x : made_dir f g x -> h !! x = g !! x -> made_dir f h x.
  Proof. intros [H1 H2] H3. split; [done|]. by rewrite H3. Qed.
  Lemma written_nil f : tree f -> written [] f f.
  Proof. intros Ht. split; [by intros j ?%elem_of_nil|by left|done|by intros j x ?%elem_of_nil|by intros j ?%elem_of_nil]. Qed.
  Lemma written_cons j js f g h : NoDup (List.map (j_target start) (j :: js)) -> saved start f j g (Ok ()) -> written js g h -> written (j :: js) f h.
  Proof.
    intros Hnd [S1 S2 _ S4] [W1 W2 W3 W4 W5]. destruct (S2 eq_refl) as (S5 & (C1 & C2 & C3) & S6). apply NoDup_cons in Hnd as [Hnd _].
    assert (forall j', j' ∈ js -> j_target start j ≠ j_target start j') as Hne.
    { intros j' Hj' Heq. apply Hnd. rewrite Heq. apply elem_of_list_In, in_map, elem_of_list_In, Hj'. }
    assert (forall j' x, j' ∈ j :: js -> way start (j_way j') x -> entry_at h x = Some Dir) as Hdirs.
    { intros j' x [->|Hj']%elem_of_cons Hw; [|by eapply W4].
      apply S6 in Hw. destruct x as [|a x]; [done|]. cbn in Hw |- *. destruct (W2 (a :: x)) as [H|[[H _] _]]; [|by rewrite H|by rewrite Hw in H].
      intros j' Hj' Heq. destruct (W5 j' Hj') as (_ & Hd & _). apply Hd. by rewrite <- Heq. }
    assert (forall j', j' ∈ j :: js -> h !! j_target start j' = Some (File (j_code j'))) as Hfiles.
    { intros j' [->|Hj']%elem_of_cons; [|by apply W1]. destruct (W2 (j_target start j) Hne) as [H|[[H _] _]]; [by rewrite H|]. by rewrite S5 in H. }
    split; [done| |done|done|].
    - intros x Hx. assert (x ≠ j_target start j) as Hxj by (apply Hx; left). destruct (W2 x) as [H|[[H1 H2] (j' & Hj' & Hw)]]; [intros; apply Hx; by right| |].
      + destruct (S1 x Hxj) as [H'|[H1 H2]]; [left; by rewrite H|]. right. split; [by eapply made_trans|]. exists j. split; [left|done].
      + right. destruct (S1 x Hxj) as [H'|[[_ H'] _]]; [|by rewrite H1 in H']. split; [split; [by rewrite <- H'|done]|]. exists j'. split; [by right|done].
    - intros j' Hj'. split; [|split].
      + apply elem_of_cons in Hj' as [->|Hj']; [done|]. intros x Hx. destruct (proj1 (W5 j' Hj') x Hx) as [H|H]; [|by right].
        destruct (decide (x = [])) as [|Hxe]; [by right|]. left. intros [c Hc]. destruct (decide (x = j_target start j)) as [->|Hxj].
        * apply H. by eexists.
        * apply H. exists c. destruct (S1 x Hxj) as [E'|[[E' _] _]]; [by rewrite E'|by rewrite E' in Hc].
      + apply elem_of_cons in Hj' as [->|Hj']; [done|]. intros Hd. destruct (W5 j' Hj') as (_ & Hd' & _). apply Hd'.
        destruct (S1 (j_target start j')) as [H|[[H _] _]]; [by apply not_eq_sym, Hne|by rewrite H|by rewrite Hd in H].
      + intros k Hk Hw. apply Hdirs in Hw; [|done]. rewrite entry_ne' in Hw by apply target_ne. rewrite Hfiles in Hw by done. done.
  Qed.
  (** How a run over the jobs [js] ends. *)
  Inductive ended (js : list job) (f f' : fs) : res unit -> Prop :=
  | end_all : written js f f' -> ended js f f' (Ok ())
  | end_at done j rest g m : js = done ++ j :: rest -> written done f g -> saved start g j f' (Err m) -> ended js f f' (Err m).
  Lemma clear_first f j js g : NoDup (List.map (j_target start) (j :: js)) -> all_clear f (j :: js) -> saved start f j g (Ok ()) -> all_clear g js.
  Proof.
    intros Hnd Hc [S1 S2 _ _] j' Hj'. destruct (Hc j' (elem_of_list_further _ _ _ Hj')) as (C1 & C2 & C3). split; [|split].
    - intros x Hx. destruct (decide (x = [])) as [|Hxe]; [by right|]. left. intros [c Hf]. destruct (decide (x = j_target start j)) as [->|Hxj].
      + eapply C3; [apply elem_of_list_here|done].
      + destruct (C1 x Hx) as [Hn|]; [|done]. apply Hn. exists c. destruct (S1 x Hxj) as [H|[[_ H] _]]; [by rewrite <- H|by rewrite Hf in H].
    - intros Hd. apply NoDup_cons in Hnd as [Hnd _].
      assert (j_target start j' ≠ j_target start j) as Hne. { intros Heq. apply Hnd. rewrite <- Heq. apply elem_of_list_In, in_map, elem_of_list_In, Hj'. }
      destruct (S1 _ Hne) as [H|[_ H]]; [apply C2; by rewrite <- H|]. destruct (Hc j (elem_of_list_here _ _)) as (_ & _ & C4). eapply C4; [|exact H]. by right.
    - intros k Hk. apply C3. by right.
  Qed.
  Lemma save_all_spec base out found js f op w r :
    Forall2 (fun j s => exists p, format_path (s_path s) base out true = Ok p /\ path_for E start p j /\ j_code j = T (s_generated s)) js found ->
    NoDup (List.map (j_target start) js) -> tree f -> entry_at f (cwd E) = Some Dir -> start = origin E out ->
    save_all E base out found (World f op) = (w, r) ->
    ended js f (w_fs w) r /\ ((forall n, torn E n = None) -> all_clear f js -> r = Ok ()).
  Proof.
    intros Hall. revert f op w r. induction Hall as [|j s js found (p & Hp & Hpf & Hcode) Hall IH]; intros f op w r Hnd Ht Hcwd Hst.
    - cbn. intros [= <- <-]. split; [|done]. constructor. by apply written_nil.
    - cbn [save_all]. unfold ibind at 1, ilift. rewrite Hp. unfold ibind at 1.
      destruct (save_one E s p (World f op)) as [[g op1] r1] eqn:Hsv. apply (save_one_spec E start f s p j op) in Hsv as [Hs Hok]; [|done..]. cbn [w_fs] in Hs.
      destruct r1 as [[]|m|m|].
      2:{ intros [= <- <-]. cbn [w_fs]. split; [by eapply (end_at _ _ _ [] j js f); [done|apply written_nil|]|].
          intros Hn Hc. exfalso. assert (Err m = Ok ()); [|done]. apply Hok; [done..|]. destruct (Hc j (elem_of_list_here _ _)) as (C1 & C2 & C3). split; [done|]. split; [done|]. apply C3. left. }
      2:{ exfalso. destruct (s_bad _ _ _ _ _ Hs) as [[? ?] _]; done. }
      2:{ exfalso. destruct (s_bad _ _ _ _ _ Hs) as [[? ?] _]; done. }
      assert (entry_at g (cwd E) = Some Dir) as Hcwd'.
      { destruct (cwd E) as [|a l] eqn:Ec; [done|]. cbn in Hcwd |- *. destruct (s_other _ _ _ _ _ Hs (a :: l)) as [H|[[H _] _]]; [|by rewrite H|by rewrite Hcwd in H].
        intros Heq. destruct (s_ok _ _ _ _ _ Hs eq_refl) as (_ & (_ & Hd & _) & _). apply Hd. by rewrite <- Heq. }
      intros H. apply IH in H as [He Hk]; [|by apply NoDup_cons in Hnd as [_ ?]|by eapply s_tree|done|done]. split.
      + destruct He as [Hw|done j' rest h m -> Hw Hs']; [constructor; by eapply written_cons|].
        eapply (end_at _ _ _ (j :: done) j' rest h); [done| |done]. eapply written_cons; [|done..].
        assert (j :: done ++ j' :: rest = (j :: done) ++ j' :: rest) as Eq by done. rewrite Eq, List.map_app in Hnd. by apply NoDup_app in Hnd as [? _].
      + intros Hn Hc. apply Hk; [done|]. by eapply clear_first.
  Qed.
End all.
