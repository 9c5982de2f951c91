(** If no other process changes anything, the command of CliShared.v does what the command of Cli.v does. *)
From Verif Require Export CliSharedEnds CliLinkRunSpec CliWrite.

Definition alone : nat -> fs -> fs := fun _ f => f.
(** a path whose last piece is a name *)
Definition neat (s : string) : Prop := exists pre m, pieces s = pre ++ [m] /\ junk m = false.
Lemma parent_neat s q : parent s = Some q -> names_of q = [] \/ neat q.
Proof.
  unfold parent. destruct (drop_while junk (rev (pieces s))) as [|x before] eqn:D.
  - destruct (pieces s) as [|p ps]; [done|]. destruct (decide (p = ".")) as [->|Hp]; [intros [= <-]; by left|]. intros H. exfalso. revert H. repeat case_match; done.
  - destruct (drop_while_split junk before) as (ju & Hs & _ & H2). destruct (drop_while junk before) as [|y ys] eqn:D2.
    + intros [= <-]. left. by repeat case_match.
    + intros [= <-]. right. exists (rev ys), y. split; [|done]. apply pieces_join; [cbn; by destruct (rev ys)|].
      destruct (drop_while_split junk (rev (pieces s))) as (ju2 & Hs2 & _ & _). rewrite D in Hs2.
      assert (Forall plainb (rev (pieces s))) as Hp by (apply List.Forall_rev, pieces_plain). rewrite Hs2 in Hp. apply Forall_app in Hp as [_ Hp]. apply Forall_cons in Hp as [_ Hp].
      rewrite Hs in Hp. apply Forall_app in Hp as [_ Hp]. by apply (List.Forall_rev Hp).
Qed.
Lemma follow_stuck f l ps p : entry_at f l ≠ Some Dir -> follow f l (ps ++ [p]) = None.
Proof. intros H. by destruct ps; cbn; destruct (entry_at f l) as [[|]|]. Qed.
Lemma missing_stuck f l ps p : entry_at f l ≠ Some Dir -> missing f l (ps ++ [p]) = match entry_at f l with None => true | _ => false end.
Proof. intros H. by destruct ps; cbn; destruct (entry_at f l) as [[|]|]. Qed.
Lemma follow_neat f m : junk m = false -> forall pre l, entry_at f l = Some Dir -> follow f l (pre ++ [m]) = follow f l (plain_pieces pre ++ [m]).
Proof.
  intros Hm. induction pre as [|p pre IH]; intros l Hl; [done|]. cbn [app follow plain_pieces List.filter]. rewrite Hl. destruct (junk p) eqn:J; cbn [negb].
  - rewrite (descend_junk l p J). by apply IH.
  - cbn [app follow]. rewrite Hl. destruct (decide (entry_at f (descend l p) = Some Dir)) as [H|H]; [by apply IH|]. by rewrite !follow_stuck.
Qed.
Lemma missing_neat f m : junk m = false -> forall pre l, entry_at f l = Some Dir -> missing f l (pre ++ [m]) = missing f l (plain_pieces pre ++ [m]).
Proof.
  intros Hm. induction pre as [|p pre IH]; intros l Hl; [done|]. cbn [app missing plain_pieces List.filter]. rewrite Hl. destruct (junk p) eqn:J; cbn [negb].
  - rewrite (descend_junk l p J). by apply IH.
  - cbn [app missing]. rewrite Hl. destruct (decide (entry_at f (descend l p) = Some Dir)) as [H|H]; [by apply IH|]. by rewrite !missing_stuck.
Qed.
Lemma make_dirs_app a b : forall f l, make_dirs f l (a ++ b) = if (make_dirs f l a).2 then make_dirs (make_dirs f l a).1 (foldl descend l a) b else make_dirs f l a.
Proof. induction a as [|p a IH]; intros f l; [done|]. cbn [app make_dirs foldl]. destruct (entry_at f (descend l p)) as [[c|]|]; [done|apply IH..]. Qed.
Lemma follow_there f m ns : forall l x, follow f l (ns ++ [m]) = Some x -> make_dirs f l ns = (f, true) /\ x = descend (foldl descend l ns) m.
Proof.
  induction ns as [|p ns IH]; intros l x; cbn [app follow make_dirs foldl].
  - destruct (entry_at f l) as [[|]|]; [done| |done]. by intros [= <-].
  - destruct (entry_at f l) as [[|]|]; [done| |done]. intros H. destruct (IH _ _ H) as [-> ->].
    destruct (entry_at f (descend l p)) as [[|]|] eqn:Hp; [|done|]; destruct ns; cbn [app follow] in H; by rewrite Hp in H.
Qed.
Lemma blocked f m ns : forall l, entry_at f l = Some Dir -> follow f l (ns ++ [m]) = None -> missing f l (ns ++ [m]) = false -> make_dirs f l ns = (f, false).
Proof.
  induction ns as [|p ns IH]; intros l Hl; cbn [app follow missing make_dirs]; rewrite Hl; [done|].
  destruct (entry_at f (descend l p)) as [[c|]|] eqn:Hp; [done|by apply IH|]. intros _. destruct ns; cbn [app missing]; by rewrite Hp.
Qed.
Lemma follow_ways f m ns : forall l, (forall x, way l ns x -> entry_at f x = Some Dir) -> follow f l (ns ++ [m]) = Some (descend (foldl descend l ns) m).
Proof.
  induction ns as [|p ns IH]; intros l H; cbn [app follow foldl]; (rewrite (H l); [|apply way_here]); [done|]. apply IH. intros x Hx. apply H. apply way_cons. by right.
Qed.
Lemma follow_junk f ps : forall l, entry_at f l = Some Dir -> plain_pieces ps = [] -> follow f l ps = Some l.
Proof.
  induction ps as [|p ps IH]; intros l Hl; [done|]. cbn [plain_pieces List.filter follow]. rewrite Hl. destruct (junk p) eqn:J; [|done]. cbn [negb]. rewrite (descend_junk l p J). by apply IH.
Qed.

Definition alike {A : Type} (r r' : res A) : Prop := forall a, r = Ok a <-> r' = Ok a.
Section alone.
  Context (E : env) (HE : calm_env E).
  Definition from (s : string) : location := if has_root s then [] else cwd E.
  Definition mkdir_at (f : fs) (x : location) : fs * mkdir_result := match entry_at f x with None => (<[x := Dir]> f, Made) | _ => (f, Refused) end.
  Lemma mkdir_alone f s x n ev : resolve E f s = Some x -> exists ev', hmkdir E alone s (Place f n ev) = (Place (mkdir_at f x).1 (S n) ev', Ok (mkdir_at f x).2).
  Proof. intros R. unfold hmkdir, htick, alone, mkdir_at. cbn [p_op p_fs p_events]. rewrite R, (calm_torn E HE n). by destruct (entry_at f x) as [[|]|]; eexists. Qed.
  Lemma is_dir_alone f s x n ev : resolve E f s = Some x -> exists ev', his_dir E alone s (Place f n ev) = (Place f (S n) ev', Ok (bool_decide (entry_at f x = Some Dir))).
  Proof.
    intros R. unfold his_dir, htick, alone. cbn [p_op p_fs p_events]. rewrite R, (calm_blind E HE n). destruct (entry_at f x) as [[|]|]; eexists; done.
  Qed.
  Lemma make_one f l m : make_dirs f l [m] = match entry_at f (descend l m) with Some Dir => (f, true) | None => (<[descend l m := Dir]> f, true) | Some (File _) => (f, false) end.
  Proof. done. Qed.
  Lemma there_alone f s x n ev : resolve E f s = Some x -> exists n' ev' r,
    hbind (his_dir E alone s) (fun d : bool => if d then hret () else hlift (Err "I/O error")) (Place f n ev) = (Place f n' ev', r) /\ (r = Ok () <-> entry_at f x = Some Dir).
  Proof.
    intros R. unfold hbind. destruct (is_dir_alone f s x n ev R) as [ev' ->]. destruct (bool_decide _) eqn:B; [apply bool_decide_eq_true in B|apply bool_decide_eq_false in B]; by eexists _, _, _.
  Qed.
  Lemma create_alone fuel : forall s f n ev, entry_at f (from s) = Some Dir -> String.length s < fuel -> names_of s = [] \/ neat s -> exists n' ev' r,
    hcreate_dir_all E alone fuel s (Place f n ev) = (Place (make_dirs f (from s) (names_of s)).1 n' ev', r) /\ (r = Ok () <-> (make_dirs f (from s) (names_of s)).2 = true).
  Proof.
    induction fuel as [|fuel IH]; intros s f n ev Hf Hl Hs; [lia|]. cbn [hcreate_dir_all]. cbn zeta. destruct (decide (s = "")) as [->|Hne]; [by eexists _, _, _|].
    assert (resolve E f s = follow f (from s) (pieces s)) as Hr by (unfold resolve; by rewrite decide_False).
    destruct Hs as [Hs|(pre & m & Hp & Hm)].
    - rewrite Hs. cbn [make_dirs fst snd]. rewrite (follow_junk f _ _ Hf Hs) in Hr. unfold hbind at 1. destruct (mkdir_alone f s _ n ev Hr) as [ev1 ->]. unfold mkdir_at. rewrite Hf. cbn [fst snd].
      destruct (there_alone f s _ (S n) ev1 Hr) as (n' & ev' & r & -> & H). eexists _, _, _. split; [done|]. split; [done|]. intros _. by apply H.
    - assert (names_of s = plain_pieces pre ++ [m]) as Hn by (unfold names_of; rewrite Hp, List.filter_app; f_equal; by apply filter_one).
      set (ns := plain_pieces pre) in *. rewrite Hn, make_dirs_app, Hp, (follow_neat f m Hm _ _ Hf) in *. fold ns in Hr.
      assert (forall g k ev1, resolve E g s = Some (descend (foldl descend (from s) ns) m) -> exists n' ev' r,
        hbind (hmkdir E alone s) (fun r => match r with Made => hret () | _ => hbind (his_dir E alone s) (fun d : bool => if d then hret () else hlift (Err "I/O error")) end) (Place g k ev1) =
        (Place (make_dirs g (foldl descend (from s) ns) [m]).1 n' ev', r) /\ (r = Ok () <-> (make_dirs g (foldl descend (from s) ns) [m]).2 = true)) as Hstep.
      { intros g k ev1 R. rewrite make_one. unfold hbind at 1. destruct (mkdir_alone g s _ k ev1 R) as [ev2 ->]. unfold mkdir_at. destruct (there_alone g s _ (S k) ev2 R) as (n' & ev' & r & H1 & H2).
        destruct (entry_at g _) as [[c|]|]; cbn [fst snd].
        - rewrite H1. eexists _, _, _. split; [done|]. rewrite H2. by split.
        - rewrite H1. eexists _, _, _. split; [done|]. rewrite H2. by split.
        - by eexists _, _, _. }
      destruct (follow f (from s) (ns ++ [m])) as [x|] eqn:Hx.
      + destruct (follow_there _ _ _ _ _ Hx) as [-> ->]. cbn [fst snd]. destruct (Hstep f n ev Hr) as (n' & ev' & r & H1 & H2). exists n', ev', r. split; [|done]. rewrite <- H1.
        unfold hbind. destruct (mkdir_alone f s _ n ev Hr) as [ev1 ->]. unfold mkdir_at. destruct (entry_at f (descend (foldl descend (from s) ns) m)) as [[|]|]; reflexivity.
      + unfold hbind at 1. assert (hmkdir E alone s (Place f n ev) = (Place f (S n) (ev ++ []), Ok (if missing f (from s) (ns ++ [m]) then Absent else Refused))) as ->.
        { unfold hmkdir, htick, alone. cbn [p_op p_fs p_events]. rewrite Hr, Hp. fold (from s). by rewrite (missing_neat f m Hm _ _ Hf). }
        destruct (missing f (from s) (ns ++ [m])) eqn:Hmi.
        * destruct (parent_last s pre m Hp Hm) as (q & Hq & Nq & Rq). rewrite Hq. assert (from q = from s) as Fq by (unfold from; by rewrite Rq).
          destruct (IH q f (S n) (ev ++ [])) as (n1 & ev1 & r1 & H1 & H2); [by rewrite Fq|pose proof (parent_shorter s q Hne Hq); lia|by eapply parent_neat|].
          rewrite Fq, Nq in H1, H2. fold (plain_pieces pre) in H1, H2. fold ns in H1, H2. unfold hbind at 1. rewrite H1. destruct (make_dirs f (from s) ns) as [f1 ok] eqn:M. cbn [fst snd] in H2 |- *. destruct ok.
          -- assert (r1 = Ok ()) as -> by by apply H2. apply (Hstep f1). unfold resolve. rewrite decide_False by done. fold (from s). rewrite Hp. rewrite (follow_neat f1 m Hm).
             ++ apply follow_ways. intros y Hy. replace f1 with (make_dirs f (from s) ns).1 by by rewrite M. apply make_dirs_ok; [done|by rewrite M|done].
             ++ replace f1 with (make_dirs f (from s) ns).1 by by rewrite M. apply make_dirs_ok; [done|by rewrite M|apply way_here].
          -- destruct r1 as [[]| | |]; [discriminate (proj1 H2 eq_refl)|by eexists _, _, _..].
        * rewrite (blocked f m ns _ Hf Hx Hmi). cbn [fst snd]. unfold hbind at 1, his_dir, htick, alone. cbn [p_op p_fs p_events]. rewrite Hr. by eexists _, _, _.
  Qed.

  Definition like {A : Type} (I : fs -> Prop) (m : io A) (h : shio A) : Prop := forall f n n' ev, I f -> exists f1 n1 n1' ev1 r r',
    m (World f n) = (World f1 n1, r) /\ h (Place f n' ev) = (Place f1 n1' ev1, r') /\ I f1 /\ alike r r'.
  Lemma like_same {A : Type} (I : fs -> Prop) (r : res A) : like I (ilift r) (hlift r).
  Proof. intros f n n' ev Hf. by eexists _, _, _, _, _, _. Qed.
  Lemma like_ret {A : Type} (I : fs -> Prop) (a : A) : like I (iret a) (hret a).
  Proof. apply (like_same I (Ok a)). Qed.
  Lemma like_bind {A B : Type} (I : fs -> Prop) (m : io A) (h : shio A) (k : A -> io B) (k' : A -> shio B) : like I m h -> (forall a, like I (k a) (k' a)) -> like I (ibind m k) (hbind h k').
  Proof.
    intros Hm Hk f n n' ev Hf. destruct (Hm f n n' ev Hf) as (f1 & n1 & n1' & ev1 & r & r' & H1 & H2 & Hf1 & H). unfold ibind, hbind. rewrite H1, H2. destruct r as [a| | |].
    - assert (r' = Ok a) as -> by by apply H. by apply Hk.
    - destruct r' as [b| | |]; [discriminate (proj2 (H b) eq_refl)|by eexists _, _, _, _, _, _..].
    - destruct r' as [b| | |]; [discriminate (proj2 (H b) eq_refl)|by eexists _, _, _, _, _, _..].
    - destruct r' as [b| | |]; [discriminate (proj2 (H b) eq_refl)|by eexists _, _, _, _, _, _..].
  Qed.
  Lemma inspect_calm n f s : inspect E n f s = inspect E 0 f s.
  Proof. unfold inspect. destruct (resolve E f s) as [l|]; [|done]. destruct (entry_at f l); [|done]. by rewrite (calm_fault E HE n), (calm_fault E HE 0). Qed.
  Lemma inspect_ok n f s l e : resolve E f s = Some l -> entry_at f l = Some e -> inspect E n f s = Ok (l, e).
  Proof. intros H1 H2. unfold inspect. by rewrite H1, H2, (calm_fault E HE n). Qed.
  Lemma like_metadata I s : like I (metadata E s) (hmetadata E alone s).
  Proof. intros f n n' ev Hf. unfold metadata, tick, hmetadata, htick, alone. cbn [p_op p_fs w_op w_fs]. rewrite (inspect_calm n), (inspect_calm n'). by eexists _, _, _, _, _, _. Qed.
  Lemma like_is_dir I s : like I (is_dir E s) (his_dir E alone s).
  Proof.
    intros f n n' ev Hf. unfold is_dir, tick, his_dir, htick, alone. cbn [p_op p_fs w_op w_fs]. eexists _, _, _, _, _, _. split; [done|]. split; [done|]. split; [done|].
    destruct (resolve E f s) as [l|]; [|done]. destruct (entry_at f l) as [[|]|]; [done| |done]. by rewrite (calm_blind E HE n), (calm_blind E HE n').
  Qed.
  Lemma like_read_dir I s : like I (read_dir E s) (hread_dir E alone s).
  Proof. intros f n n' ev Hf. unfold read_dir, tick, hread_dir, htick, alone. cbn [p_op p_fs w_op w_fs]. rewrite (inspect_calm n), (inspect_calm n'), (calm_listing E HE n), (calm_listing E HE n'). by eexists _, _, _, _, _, _. Qed.
  Lemma like_read I s : like I (read_to_string E s) (hread_to_string E alone s).
  Proof.
    intros f n n' ev Hf. unfold read_to_string, tick, hread_to_string, htick, alone. cbn [p_op p_fs w_op w_fs]. rewrite (inspect_calm n), (inspect_calm n').
    destruct (inspect E 0 f s) as [[l [c|]]| | |]; cbn [rbind snd]; try (by eexists _, _, _, _, _, _). by destruct (from_utf8 c); eexists _, _, _, _, _, _.
  Qed.
  Lemma like_compile I c : like I (compile_io E c) (hcompile E alone c).
  Proof.
    intros f n n' ev Hf. unfold compile_io, tick, hcompile, htick, alone. cbn [p_op p_fs w_op w_fs]. unfold compile_io, tick. cbn [w_op w_fs].
    rewrite (calm_hash1 E HE n), (calm_hash2 E HE n), (calm_clock E HE n), (calm_hash1 E HE n'), (calm_hash2 E HE n'), (calm_clock E HE n'). by eexists _, _, _, _, _, _.
  Qed.
  Lemma like_run_one I s : like I (run_one E s) (hrun_one E alone s).
  Proof. apply like_bind; [apply like_read|]. intros c. apply like_bind; [apply like_compile|]. intros t. apply like_ret. Qed.
  Lemma like_entries f0 visit hvisit dir names : is_Some (resolve E f0 dir ≫= entry_at f0) -> (forall d, like (eq f0) (visit d) (hvisit d)) ->
    like (eq f0) (visit_entries E visit dir names) (hvisit_entries E alone hvisit dir names).
  Proof.
    intros Hd Hv. induction names as [|x names IH]; [apply like_ret|]. cbn [visit_entries hvisit_entries]. apply like_bind.
    - intros f n n' ev <-. unfold next_entry, tick, hnext_entry, htick, alone. cbn [p_op p_fs w_op w_fs]. destruct (resolve E f0 dir) as [l|] eqn:R; [|by destruct Hd]. destruct Hd as [e He]. cbn in He.
      rewrite (inspect_ok n f0 dir l e R He), (calm_fault E HE n'). by eexists _, _, _, _, _, _.
    - intros _. cbn zeta. apply like_bind; [apply like_is_dir|]. intros d. apply like_bind.
      + destruct d; [destruct (to_str_ok _); [apply Hv|apply (like_same (eq f0) (Panic _))]|]. destruct (decide _); [|apply like_ret]. unfold visit_one. destruct (to_str_ok _).
        * apply like_bind; [apply like_run_one|]. intros s. apply like_ret.
        * intros f n n' ev Hf. by eexists _, _, _, _, _, _.
      + intros found. apply like_bind; [apply IH|]. intros more. apply like_ret.
  Qed.
  Lemma like_visit f0 fuel : forall d, like (eq f0) (visit_files E fuel d) (hvisit_files E alone fuel d).
  Proof.
    induction fuel as [|fuel IH]; intros d; [apply (like_same (eq f0) Diverge)|]. cbn [visit_files hvisit_files].
    destruct (resolve E f0 d ≫= entry_at f0) as [e|] eqn:He.
    - apply like_bind; [apply like_metadata|]. intros [c|]; [apply like_ret|]. apply like_bind; [apply like_read_dir|]. intros names. apply like_entries; [by rewrite He|apply IH].
    - intros f n n' ev <-. unfold ibind, metadata, tick, hbind, hmetadata, htick, alone. cbn [p_op p_fs w_op w_fs].
      assert (forall k, exists msg, inspect E k f0 d = Err msg) as H. { intros k. unfold inspect. destruct (resolve E f0 d) as [l|]; [|by eexists]. cbn in He. rewrite He. by eexists. }
      destruct (H n) as [m1 ->], (H n') as [m2 ->]. by eexists _, _, _, _, _, _.
  Qed.
  Definition at_home (f : fs) : Prop := entry_at f (cwd E) = Some Dir.
  Lemma home_from f s : at_home f -> entry_at f (from s) = Some Dir.
  Proof. unfold from. by destruct (has_root s). Qed.
  Lemma like_save s p : like at_home (save_one E s p) (hsave_one E alone s p).
  Proof.
    apply like_bind.
    - destruct (parent p) as [q|] eqn:Hq; [|apply like_ret]. intros f n n' ev Hf. destruct (create_alone (S (String.length q)) q f n' ev (home_from f q Hf) ltac:(lia) (parent_neat _ _ Hq)) as (n1' & ev1 & r' & H1 & H2).
      unfold create_dir_all, tick. cbn [w_op w_fs]. rewrite (calm_torn E HE n). fold (from q).
      assert (make_dirs f (from q) (if decide (q = "") then [] else pieces q) = make_dirs f (from q) (names_of q)) as ->.
      { destruct (decide (q = "")) as [->|]; [done|]. symmetry. apply make_dirs_filter. by apply home_from. }
      rewrite H1. pose proof (make_dirs_grows f (from q) (names_of q)) as Hg. destruct (make_dirs _ _ _) as [f1 ok]. cbn [fst snd] in *. eexists _, _, _, _, _, _. split; [done|]. split; [done|]. split; [by eapply grows_entry|].
      intros []. rewrite H2. by destruct ok.
    - intros _ f n n' ev Hf. unfold write_file, tick, hwrite, htick, alone. cbn [p_op p_fs w_op w_fs]. destruct (resolve E f p) as [l|]; [|by eexists _, _, _, _, _, _].
      rewrite (calm_torn E HE n), (calm_torn E HE n'). assert (entry_at f l ≠ Some Dir -> forall e, at_home (<[l := e]> f)) as Hw.
      { intros Hl e. unfold at_home in *. destruct (cwd E) as [|x xs] eqn:C; [done|]. cbn in *. destruct (decide (l = x :: xs)) as [->|]; [by destruct Hl|]. by rewrite lookup_insert_ne. }
      destruct (entry_at f l) as [[c|]|]; eexists _, _, _, _, _, _; (split; [done|]); (split; [done|]); (split; [|done]); try done; by apply Hw.
  Qed.
  Lemma like_save_all base out found : like at_home (save_all E base out found) (hsave_all E alone base out found).
  Proof.
    induction found as [|s found IH]; [apply like_ret|]. cbn [save_all hsave_all]. apply like_bind; [apply like_same|]. intros p. apply like_bind; [apply like_save|]. intros _. apply IH.
  Qed.
  Lemma like_then {A : Type} f0 (m : io A) (h : shio A) (k : A -> io ()) (k' : A -> shio ()) n n' ev : like (eq f0) m h -> at_home f0 -> (forall a, like at_home (k a) (k' a)) -> exists f1 n1 n1' ev1 r r',
    ibind m k (World f0 n) = (World f1 n1, r) /\ hbind h k' (Place f0 n' ev) = (Place f1 n1' ev1, r') /\ alike r r'.
  Proof.
    intros Hm Hf Hk. destruct (Hm f0 n n' ev eq_refl) as (f1 & n1 & n1' & ev1 & r & r' & H1 & H2 & <- & H). unfold ibind, hbind. rewrite H1, H2. destruct r as [a| | |].
    - assert (r' = Ok a) as -> by by apply H. destruct (Hk a f0 n1 n1' ev1 Hf) as (f2 & n2 & n2' & ev2 & r & r' & H3 & H4 & _ & H5). by eexists _, _, _, _, _, _.
    - destruct r' as [b| | |]; [discriminate (proj2 (H b) eq_refl)|by eexists _, _, _, _, _, _..].
    - destruct r' as [b| | |]; [discriminate (proj2 (H b) eq_refl)|by eexists _, _, _, _, _, _..].
    - destruct r' as [b| | |]; [discriminate (proj2 (H b) eq_refl)|by eexists _, _, _, _, _, _..].
  Qed.
  Lemma run_alone f path out f' r : sane E f -> run E path out f = (f', r) -> exists w r', hrun E (fun _ f => f) (S (depth f)) path out f = (w, r') /\ p_fs w = f' /\ (r' = Ok () <-> r = Ok ()).
  Proof.
    intros Hs. pose proof (sane_cwd E f Hs) as Hc. change (fun _ f => f) with alone. unfold run, hrun, main, hmain, start. destruct (like_metadata (eq f) path f 0 0 [] eq_refl) as (f1 & n1 & n1' & ev1 & a & a' & H1 & H2 & <- & H).
    rewrite H1, H2. destruct a as [[c|]| | |].
    - assert (a' = Ok (File c)) as -> by by apply H.
      destruct (like_then f (run_one E path) (hrun_one E alone path) (fun s => bring p <- ilift (format_path (s_path s) path out false); save_one E s p) (fun s => fetch p <- hlift (format_path (s_path s) path out false); hsave_one E alone s p) n1 n1' ev1) as (f2 & n2 & n2' & ev2 & b & b' & B1 & B2 & B3).
      + apply like_run_one. + done. + intros s. apply like_bind; [apply like_same|]. intros p. apply like_save.
      + rewrite B1, B2. intros [= <- <-]. eexists _, _. split; [done|]. split; [done|]. by rewrite (B3 ()).
    - assert (a' = Ok Dir) as -> by by apply H. unfold run_all.
      destruct (like_then f (visit_files E (S (depth f)) path) (hvisit_files E alone (S (depth f)) path) (fun found => save_all E path out found) (fun found => hsave_all E alone path out found) n1 n1' ev1) as (f2 & n2 & n2' & ev2 & b & b' & B1 & B2 & B3).
      + apply like_visit. + done. + intros found. apply like_save_all.
      + unfold ibind in B1 |- *. cbn [w_fs]. rewrite B1, B2. intros [= <- <-]. eexists _, _. split; [done|]. split; [done|]. by rewrite (B3 ()).
    - intros [= <- <-]. destruct a' as [b| | |]; [discriminate (proj2 (H b) eq_refl)|by eexists _, _..].
    - intros [= <- <-]. destruct a' as [b| | |]; [discriminate (proj2 (H b) eq_refl)|by eexists _, _..].
    - intros [= <- <-]. destruct a' as [b| | |]; [discriminate (proj2 (H b) eq_refl)|by eexists _, _..].
  Qed.
End alone.
