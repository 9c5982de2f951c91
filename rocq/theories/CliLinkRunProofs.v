(** Proofs for C111. *)
From Verif Require Export CliLinkRunSpec CliLinksProofs CliProofs.

Lemma touched_refl Q f : touched Q f f. Proof. by left. Qed.
Lemma touched_trans Q f g h : touched Q f g -> touched Q g h -> touched Q f h.
Proof.
  intros H1 H2 x. destruct (H1 x) as [A|[[A1 A2]|(t & A1 & A2 & A3)]], (H2 x) as [B|[[B1 B2]|(u & B1 & B2 & B3)]].
  - left. by rewrite B.
  - right. left. split; [by rewrite <- A|done].
  - right. right. exists u. split; [done|]. split; [done|]. by rewrite <- A.
  - right. left. split; [done|]. by rewrite B.
  - by rewrite A2 in B1.
  - rewrite A2 in B3. by destruct B3 as [?|[? ?]].
  - right. right. exists t. split; [done|]. split; [by rewrite B|done].
  - by rewrite A2 in B1.
  - right. right. by exists u.
Qed.
Lemma touched_weaken (Q R : location -> text -> Prop) f g : (forall x t, Q x t -> R x t) -> touched Q f g -> touched R f g.
Proof. intros HQ H x. destruct (H x) as [?|[?|(t & ? & ?)]]; [by left|by right; left|right; right; exists t; split; [by apply HQ|done]]. Qed.
Lemma touched_dir Q f g l : touched Q f g -> node_at f l = Some LDir -> node_at g l = Some LDir.
Proof.
  intros H. destruct l as [|a l]; [done|]. change (f !! (a :: l) = Some LDir -> g !! (a :: l) = Some LDir). intros Hl. destruct (H (a :: l)) as [->|[[? _]|(t & _ & _ & [?|[c ?]])]]; [done|congruence..].
Qed.
Lemma touched_link Q f g l to : touched Q f g -> g !! l = Some (LLink to) <-> f !! l = Some (LLink to).
Proof.
  intros H. destruct (H l) as [->|[[E1 E2]|(t & _ & E1 & E2)]]; [done|..].
  - rewrite E1, E2. done.
  - rewrite E1. split; [done|]. destruct E2 as [->|[c ->]]; done.
Qed.
Lemma touched_ts Q f g : touched Q f g -> no_ts_links f -> no_ts_links g.
Proof. intros H Hf l s to Hs Hl. apply (touched_link _ _ _ _ _ H) in Hl. by apply Hf in Hl. Qed.
Lemma node_snoc (f : lfs) l n : node_at f (l ++ [n]) = f !! (l ++ [n]). Proof. by destruct l. Qed.
Lemma in_dirs_dir f l : in_dirs f -> node_at f l = Some LDir -> node_at f (removelast l) = Some LDir.
Proof.
  intros [_ Hf] Hl. destruct l as [|n l _] using rev_ind; [done|]. rewrite removelast_last. rewrite node_snoc in Hl. by eapply Hf.
Qed.
Lemma in_dirs_insert f l n e : in_dirs f -> node_at f l = Some LDir -> f !! (l ++ [n]) ≠ Some LDir -> in_dirs (<[l ++ [n] := e]> f).
Proof.
  intros [H0 Hf] Hl Hn. split; [rewrite lookup_insert_ne; [done|by destruct l]|]. intros l' n' e' H.
  assert (node_at f l' = Some LDir) as Hl'.
  { apply lookup_insert_Some in H as [[H _]|[_ H]]; [apply app_inj_2 in H as [<- _]; done|by eapply Hf]. }
  destruct (decide (l' = l ++ [n])) as [->|Hne]; [by rewrite node_snoc in Hl'|]. destruct l'; [done|]. change (<[l ++ [n]:=e]> f !! (s :: l') = Some LDir). by rewrite lookup_insert_ne.
Qed.
Lemma touched_insert f l e (Q : location -> text -> Prop) : e = LDir /\ f !! l = None \/ (exists t, e = LFile t /\ Q l t /\ (f !! l = None \/ exists c, f !! l = Some (LFile c))) -> touched Q f (<[l := e]> f).
Proof.
  intros H x. destruct (decide (x = l)) as [->|Hx]; [|left; by rewrite lookup_insert_ne]. right. rewrite lookup_insert.
  destruct H as [[-> H]|(t & -> & H1 & H2)]; [by left|right; by exists t].
Qed.

(** Where a path ends: at a directory, or in one, not at a link. *)
Definition lands (f : lfs) (l : location) : Prop := node_at f l = Some LDir \/ exists m q, l = m ++ [q] /\ node_at f m = Some LDir /\ forall to, f !! l ≠ Some (LLink to).
Lemma lgo_lands f next k l ps k' l' : in_dirs f -> (forall w, next = Some w -> forall l ps k' l', lands f l -> w l ps = Some (k', l') -> lands f l') ->
  lands f l -> lgo f next k l ps = Some (k', l') -> lands f l'.
Proof.
  intros Hr Hn. revert l. induction ps as [|p ps IH]; intros l Hl; [cbn; by intros [= _ <-]|]. cbn. destruct (node_at f l) as [[| |]|] eqn:E; [done| |done|done].
  destruct (junk p); [by apply IH|]. destruct (decide (p = "..")); [apply IH; left; by apply in_dirs_dir|].
  destruct (f !! (l ++ [p])) as [[| |to]|] eqn:F; [apply IH..| |apply IH].
  - right. exists l, p. split; [done|]. split; [done|]. by rewrite F.
  - left. by rewrite node_snoc.
  - destruct next as [w|]; [|done]. destruct (decide (to = "")); [done|]. apply (Hn w eq_refl). left. by destruct (has_root to).
  - right. exists l, p. split; [done|]. split; [done|]. by rewrite F.
Qed.
Lemma lwalk_lands f k l ps k' l' : in_dirs f -> lands f l -> lwalk f k l ps = Some (k', l') -> lands f l'.
Proof.
  intros Hr. revert l ps k' l'. induction k as [|k IH]; intros l ps k' l' Hl; cbn [lwalk]; apply lgo_lands; try done.
  intros w [= <-] l1 ps1 k1 l1'. apply IH.
Qed.
(** directories and links stay, so paths lead where they led *)
Lemma arrives_mono Q f g k l ps k' l' : touched Q f g -> arrives f k l ps k' l' -> arrives g k l ps k' l'.
Proof.
  intros H. pose proof (touched_dir Q f g) as Hd. induction 1; [constructor|..].
  - eapply ar_stay; eauto.
  - eapply ar_top; eauto.
  - eapply ar_up; eauto.
  - eapply ar_down; [done|by apply (Hd _ H)| |done]. intros to Hto. apply (touched_link _ _ _ _ _ H) in Hto. naive_solver.
  - eapply ar_link; [done|by apply (Hd _ H)|by apply (touched_link _ _ _ _ _ H)|done..].
  - eapply ar_root_link; [done|by apply (Hd _ H)|by apply (touched_link _ _ _ _ _ H)|done..].
Qed.
(** the last step *)
Lemma lwalk_last f k l q k' l' : lwalk f k l [q] = Some (k', l') -> node_at f l = Some LDir /\
  (junk q = true /\ l' = l \/ q = ".." /\ l' = removelast l \/ proper_name q /\ (l' = l ++ [q] \/ exists to, f !! (l ++ [q]) = Some (LLink to)) \/ ~ plainb q).
Proof.
  intros H. assert (node_at f l = Some LDir) as Hl.
  { destruct k; cbn [lwalk lgo] in H; destruct (node_at f l) as [[| |]|]; done. }
  split; [done|]. destruct (junk q) eqn:J.
  { left. split; [done|]. destruct k; cbn [lwalk lgo] in H; rewrite Hl, J in H; by injection H as <- <-. }
  right. destruct (decide (q = "..")) as [->|Hq].
  { left. split; [done|]. destruct k; cbn [lwalk lgo] in H; rewrite Hl in H; cbn in H; by injection H as <- <-. }
  right. destruct (decide (SLASH ∈ txt q)) as [Hs|Hs]; [right; intros Hp; by apply Hp|]. left.
  apply junk_false in J as [J1 J2]. assert (proper_name q) as Hp by done. split; [done|]. rewrite walk_step in H by done.
  destruct (f !! (l ++ [q])) as [[| |to]|]; [left; by injection H..| |left; by injection H]. right. by exists to.
Qed.

Section run.
  Context (links : nat) (here : location) (order : string -> list string -> list string) (gen : string -> text -> res string).
  Local Notation lead := (lead links here).
  Lemma lead_lands f s k l : in_dirs f -> node_at f here = Some LDir -> lead f s = Some (k, l) -> lands f l.
  Proof.
    intros Hr Hh. unfold CliLinks.lead. destruct (decide (s = "")); [done|]. apply lwalk_lands; [done|]. left. by destruct (has_root s).
  Qed.
  (** a path with extension ts that leads to something that is no directory *)
  Lemma lead_ts f X k l : in_dirs f -> node_at f here = Some LDir -> no_ts_links f -> lead f (with_extension X "ts") = Some (k, l) -> node_at f l ≠ Some LDir -> ts_name l.
  Proof.
    intros Hr Hh Ht. unfold CliLinks.lead. destruct (decide _); [done|]. set (p := with_extension X "ts").
    destruct (pieces p) as [|q pre _] eqn:E using rev_ind; [by apply pieces_ne in E|]. rewrite lwalk_app.
    destruct (lwalk f links _ pre) as [[k1 l1]|] eqn:W; [|done]. cbn [mbind option_bind fst snd]. intros H Hn.
    apply lwalk_last in H as [Hd [[_ ->]|[[_ ->]|[[Hq H]|H]]]]; [done|by apply in_dirs_dir in Hd|..].
    - destruct (with_ts_last X pre q E Hq) as (s & Hs & ->). destruct H as [->|[to H]]; [by exists l1, s|by apply Ht in H].
    - destruct H. pose proof (pieces_plain p) as Hp. rewrite E in Hp. apply Forall_app in Hp as [_ Hp]. by apply Forall_cons in Hp as [? _].
  Qed.
  Lemma make_dirs_touched f k l ps Q : in_dirs f -> node_at f l = Some LDir -> in_dirs (lmake_dirs f k l ps).1 /\ touched Q f (lmake_dirs f k l ps).1.
  Proof.
    revert f k l. induction ps as [|p ps IH]; intros f k l Hr Hl; cbn [lmake_dirs]; [split; [done|apply touched_refl]|].
    destruct (junk p); [by apply IH|]. destruct (decide (p = "..")); [apply IH; [done|by apply in_dirs_dir]|].
    destruct (f !! (l ++ [p])) as [e|] eqn:F.
    - destruct (lwalk f k l [p]) as [[k' l']|]; [|split; [done|apply touched_refl]].
      destruct (node_at f l') as [[| |]|] eqn:N; [split; [done|apply touched_refl]|by apply IH|split; [done|apply touched_refl]..].
    - destruct (IH (<[l ++ [p] := LDir]> f) k (l ++ [p])) as [H1 H2].
      + apply in_dirs_insert; [done|done|by rewrite F].
      + rewrite node_snoc. apply lookup_insert.
      + split; [done|]. eapply touched_trans; [|exact H2]. apply touched_insert. by left.
  Qed.
  Lemma lead_mono Q f g s k l : touched Q f g -> lead f s = Some (k, l) -> lead g s = Some (k, l).
  Proof. unfold CliLinks.lead. destruct (decide (s = "")); [done|]. rewrite !lwalk_arrives. apply arrives_mono. Qed.
  Definition put_at (f h : lfs) (code p : string) (x : location) (t : text) : Prop := t = txt code /\ (exists k, lead h p = Some (k, x)) /\ (no_ts_links f -> ts_name x).
  Lemma save_touched f code X : in_dirs f -> node_at f here = Some LDir ->
    let '(h, ok) := lsave_one links here f code (with_extension X "ts") in in_dirs h /\ touched (put_at f h code (with_extension X "ts")) f h /\
      (ok = true -> exists k x, lead h (with_extension X "ts") = Some (k, x) /\ h !! x = Some (LFile (txt code))).
  Proof.
    intros Hr Hh. unfold lsave_one. set (p := with_extension X "ts") in *.
    assert (exists g ok, match parent p with Some q => lcreate_dir_all links here f q | None => (f, true) end = (g, ok) /\ in_dirs g /\ forall Q, touched Q f g) as (g & ok & -> & Hg & Hw).
    { destruct (parent p) as [q|]; [|exists f, true; split; [done|]; split; [done|intros Q; apply touched_refl]]. unfold lcreate_dir_all.
      match goal with |- context [lmake_dirs f links ?l ?ps] => pose proof (fun Q H => make_dirs_touched f links l ps Q Hr H) as H1; destruct (lmake_dirs f links l ps) as [g ok] end.
      exists g, ok. split; [done|]. cbn [fst] in H1. split; [apply (H1 (fun _ _ => True)); by destruct (has_root q)|]. intros Q. apply H1. by destruct (has_root q). }
    destruct ok; [|done]. unfold lwrite. pose proof (touched_dir _ _ _ _ (Hw (fun _ _ => True)) Hh) as Hgh.
    destruct (lead g p) as [[k l]|] eqn:L; [|done].
    destruct (dir_or_not g l) as [Hd|Hd]; [by rewrite Hd|].
    destruct (lead_lands g p k l Hg Hgh L) as [?|(m & q & -> & Hm & Hlk)]; [done|].
    set (h := <[m ++ [q] := LFile (T code)]> g).
    assert (in_dirs h /\ touched (put_at f h code p) f h /\ (true = true -> exists k x, lead h p = Some (k, x) /\ h !! x = Some (LFile (txt code)))) as Hput.
    { rewrite node_snoc in Hd. assert (forall Q : location -> text -> Prop, Q (m ++ [q]) (txt code) -> touched Q g h) as Hgt.
      { intros Q HQ. apply touched_insert. right. exists (T code). split; [done|]. split; [done|]. destruct (g !! (m ++ [q])) as [[c| |to]|]; [right; by exists c|done|by destruct (Hlk to)|by left]. }
      assert (lead h p = Some (k, m ++ [q])) as Lh by (apply (lead_mono (fun _ _ => True) g); [by apply Hgt|done]).
      split; [by apply in_dirs_insert|]. split.
      - eapply touched_trans; [apply Hw|]. apply Hgt. split; [done|]. split; [by exists k|]. intros Ht. eapply (lead_ts g X k); [done|done| |done|by rewrite node_snoc].
        eapply touched_ts; [apply (Hw (fun _ _ => True))|done].
      - intros _. exists k, (m ++ [q]). split; [done|]. apply lookup_insert. }
    rewrite node_snoc in Hd |- *. destruct (g !! (m ++ [q])) as [[c| |to]|]; [done|done|by destruct (Hlk to)|done].
  Qed.
  Definition allowed (f g : lfs) (path out : string) (x : location) (t : text) : Prop := output_of links here gen f g path out x t /\ (no_ts_links f -> ts_name x).
  Lemma allowed_mono Q f g h path out x t : touched Q g h -> allowed f g path out x t -> allowed f h path out x t.
  Proof.
    intros H [(p & k & l & c & code & pr & q & k' & H1 & H2 & H3 & H4 & H5 & H6) Ht]. split; [|done]. exists p, k, l, c, code, pr, q, k'. split_and!; try done.
    apply lead_path. eapply lead_mono; [done|]. by apply lead_path.
  Qed.
  Lemma format_ts path base out preserve p : format_path path base out preserve = Ok p -> exists X, p = with_extension X "ts".
  Proof.
    unfold format_path. destruct preserve.
    - destruct (strip_base _ _); [|done]. intros [= <-]. by eexists.
    - destruct (file_stem path); [|done]. intros [= <-]. by eexists.
  Qed.
  (** the code of a file of [f] *)
  Definition code_of (f : lfs) (s : string * string) : Prop := exists k l c, path_to links here f s.1 k l /\ f !! l = Some (LFile c) /\ gen s.1 c = Ok s.2 /\ utf8 c.
  Lemma save_allowed f0 f s base out preserve p : in_dirs f -> node_at f here = Some LDir -> touched (allowed f0 f base out) f0 f -> code_of f0 s -> format_path s.1 base out preserve = Ok p ->
    let '(h, ok) := lsave_one links here f s.2 p in in_dirs h /\ touched (allowed f0 h base out) f h /\ touched (allowed f0 h base out) f0 h /\ node_at h here = Some LDir /\
      (ok = true -> exists k x, lead h p = Some (k, x) /\ h !! x = Some (LFile (txt s.2)) /\ allowed f0 h base out x (txt s.2)).
  Proof.
    intros Hr Hh Hw (k & l & c & C1 & C2 & C3 & _) Hp. pose proof (format_ts _ _ _ _ _ Hp) as [X ->]. pose proof (save_touched f s.2 X Hr Hh) as H.
    destruct (lsave_one _ _ _ _ _) as [h ok]. destruct H as (H1 & H2 & H3).
    assert (forall x t, put_at f h s.2 (with_extension X "ts") x t -> allowed f0 h base out x t) as Hput.
    { intros x t (-> & [k' L] & Ht). split; [|intros H0; apply Ht; by eapply touched_ts]. exists s.1, k, l, c, s.2, preserve, (with_extension X "ts"), k'. split_and!; try done. by apply lead_path. }
    assert (touched (allowed f0 h base out) f h) as H4 by (eapply touched_weaken; [|exact H2]; done).
    split; [done|]. split; [done|]. split; [eapply touched_trans; [|exact H4]; eapply touched_weaken; [|exact Hw]; intros x t; by eapply allowed_mono|].
    split; [by eapply touched_dir|]. intros Hok. destruct (H3 Hok) as (k' & x & L & Hx). exists k', x. split; [done|]. split; [done|].
    split. { exists s.1, k, l, c, s.2, preserve, (with_extension X "ts"), k'. split_and!; try done. by apply lead_path. }
    intros H0. eapply (lead_ts h X k'); [done|by eapply touched_dir|eapply touched_ts; [exact H4|by eapply touched_ts]|done|]. destruct x; [by rewrite (proj1 H1) in Hx|]. change (h !! (s0 :: x) ≠ Some LDir). by rewrite Hx.
  Qed.
  Lemma node_file f l c : node_at f l = Some (LFile c) -> f !! l = Some (LFile c). Proof. by destruct l. Qed.
  Lemma run_one_code f path s : lrun_one links here gen f path = Ok s -> s.1 = path /\ code_of f s.
  Proof.
    unfold lrun_one, lread. destruct (lead f path) as [[k l]|] eqn:L; [|done]. destruct (node_at f l) as [[c| |]|] eqn:N; [|done..]. destruct (from_utf8 c) eqn:U; [|done]. cbn [rbind].
    destruct (gen path c) as [t| | |] eqn:G; [|done..]. cbn [rbind]. intros [= <-]. split; [done|]. exists k, l, c. split_and!; [by apply lead_path|by apply node_file|done|by apply from_utf8_spec].
  Qed.
  Lemma run_each_code f paths found : lrun_each links here gen f paths = Ok found -> found.*1 = paths /\ Forall (code_of f) found.
  Proof.
    revert found. induction paths as [|p paths IH]; intros found; cbn [lrun_each]; [intros [= <-]; split; [done|constructor]|].
    destruct (to_str_ok p); [|done]. destruct (lrun_one links here gen f p) as [s| | |] eqn:R; [|done..]. cbn [rbind]. apply run_one_code in R as [R1 R2].
    destruct (lrun_each links here gen f paths) as [ss| | |]; [|done..]. cbn [rbind]. intros [= <-]. destruct (IH ss eq_refl) as [<- H]. split; [by rewrite <- R1|by constructor].
  Qed.
  Lemma save_all_allowed f0 found base out : Forall (code_of f0) found -> forall f, in_dirs f -> node_at f here = Some LDir -> touched (allowed f0 f base out) f0 f ->
    let '(g, r) := lsave_all links here f base out found in touched (allowed f0 g base out) f0 g /\ touched (allowed f0 g base out) f g /\
      (r = Ok () -> forall s, s ∈ found -> exists q k x t, format_path s.1 base out true = Ok q /\ lead g q = Some (k, x) /\ g !! x = Some (LFile t) /\ allowed f0 g base out x t).
  Proof.
    induction 1 as [|[path code] found Hs _ IH]; intros f Hr Hh Hw; cbn [lsave_all].
    { split; [done|]. split; [apply touched_refl|]. intros _ s Hs. by apply elem_of_nil in Hs. }
    destruct (format_path path base out true) as [p| | |] eqn:F; [|split; [done|]; split; [apply touched_refl|done]..]. pose proof (save_allowed f0 f (path, code) base out true p Hr Hh Hw Hs F) as H.
    cbn [snd] in H. destruct (lsave_one links here f code p) as [h []].
    - destruct H as (H1 & H2 & H3 & H4 & H5). specialize (IH h H1 H4 H3). destruct (lsave_all links here h base out found) as [g r]. destruct IH as (I1 & I2 & I3).
      assert (touched (allowed f0 g base out) f g) as Hfg by (eapply touched_trans; [|exact I2]; eapply touched_weaken; [|exact H2]; intros x t; by eapply allowed_mono).
      split; [done|]. split; [done|]. intros Hok s [->|Hin]%elem_of_cons; [|by apply I3]. destruct (H5 eq_refl) as (k & x & L & Hx & Ha). exists p, k, x.
      destruct (I2 x) as [E|[[E _]|(t & Ht & E & _)]]; [|congruence|].
      + exists (txt code). split_and!; [done|by apply (lead_mono _ _ _ _ _ _ I2)|by rewrite E|by eapply allowed_mono; [exact I2|]].
      + exists t. split_and!; [done|by apply (lead_mono _ _ _ _ _ _ I2)|done|done].
    - destruct H as (H1 & H2 & H3 & H4 & H5). done.
  Qed.
  Lemma run_changes f path out f' r : in_dirs f -> node_at f here = Some LDir -> lrun links here order gen path out f = (f', r) -> touched (allowed f f' path out) f f'.
  Proof.
    intros Hr Hh. unfold lrun. assert (forall Q, touched Q f f) as Href by (intros Q; apply touched_refl). destruct (_ ≫= _) as [e|]; [|by intros [= <- <-]].
    assert (forall x, (match (do s <- lrun_one links here gen f path; do p <- format_path path path out false; Ok (s.2, p)) with
        | Ok (code, p) => match lsave_one links here f code p with (f, true) => (f, Ok ()) | (f, false) => (f, Err "I/O error") end
        | Err m => (f, Err m) | Panic m => (f, Panic m) | Diverge => (f, Diverge) end) = (f', x) -> touched (allowed f f' path out) f f') as Hone.
    { intros x. destruct (lrun_one links here gen f path) as [s| | |] eqn:R; cbn [rbind]; [|by intros [= <- <-]..]. destruct (format_path path path out false) as [p| | |] eqn:F; cbn [rbind]; [|by intros [= <- <-]..].
      apply run_one_code in R as [R1 R2]. pose proof (save_allowed f f s path out false p Hr Hh (Href _) R2) as H. rewrite R1 in H. specialize (H F). destruct (lsave_one links here f s.2 p) as [g []]; intros [= <- <-]; apply H. }
    destruct e; [apply Hone| |apply Hone].
    destruct (search _ _ _ _ _ _) as [paths| | |]; cbn [rbind]; [|by intros [= <- <-]..]. destruct (lrun_each _ _ _ _ _) as [found| | |] eqn:R; [|by intros [= <- <-]..].
    apply run_each_code in R as [_ R]. intros H. pose proof (save_all_allowed f found path out R f Hr Hh (Href _)) as H'. rewrite H in H'. apply H'.
  Qed.
  Lemma run_stays f path out f' r : in_dirs f -> node_at f here = Some LDir -> lrun links here order gen path out f = (f', r) -> touched (output_of links here gen f f' path out) f f'.
  Proof. intros Hr Hh H%run_changes; [|done..]. eapply touched_weaken; [|done]. by intros x t [? _]. Qed.
  Lemma run_ts f path out f' r : in_dirs f -> node_at f here = Some LDir -> no_ts_links f -> lrun links here order gen path out f = (f', r) ->
    touched (fun x t => ts_name x /\ output_of links here gen f f' path out x t) f f'.
  Proof. intros Hr Hh Ht H%run_changes; [|done..]. eapply touched_weaken; [|done]. intros x t [? Hx]. split; [by apply Hx|done]. Qed.
  Lemma run_outputs f path out f' k l : ltree f -> node_at f here = Some LDir -> (forall d names, order d names ≡ₚ names) -> utf8 (txt path) -> path_to links here f path k l -> node_at f l = Some LDir ->
    lrun links here order gen path out f = (f', Ok ()) -> forall rel, finds f k l rel ->
    exists q k' x t, format_path (foldl push path rel) path out true = Ok q /\ path_to links here f' q k' x /\ f' !! x = Some (LFile t) /\ output_of links here gen f f' path out x t.
  Proof.
    intros Ht Hh Ho Hu Hp Hd. destruct (search_finds links here order f path k l Ht Ho Hu Hp Hd) as (rels & R1 & _ & R3). unfold lrun. apply lead_path in Hp. rewrite Hp.
    cbn [mbind option_bind snd]. rewrite Hd, R1. cbn [rbind]. destruct (lrun_each _ _ _ _ _) as [found| | |] eqn:R; [|done..]. apply run_each_code in R as [Rf R].
    intros H rel Hrel. assert (in_dirs f) as Hin by (split; [apply Ht|apply (ltree_parent f Ht)]). pose proof (save_all_allowed f found path out R f Hin Hh (touched_refl _ _)) as H'. rewrite H in H'. destruct H' as (_ & _ & H').
    assert (foldl push path rel ∈ found.*1) as Hf. { rewrite Rf. apply elem_of_list_fmap. exists rel. split; [done|]. by apply R3. }
    apply elem_of_list_fmap in Hf as (s & Es & Hs). destruct (H' eq_refl s Hs) as (q & k' & x & t & F & L & X & [A _]). rewrite <- Es in F. exists q, k', x, t. split_and!; try done. by apply lead_path.
  Qed.
  Lemma run_nothing f path out k l rel : ltree f -> (forall d names, order d names ≡ₚ names) -> utf8 (txt path) -> path_to links here f path k l -> node_at f l = Some LDir -> finds f k l rel ->
    (forall k' x c t, path_to links here f (foldl push path rel) k' x -> f !! x = Some (LFile c) -> utf8 c -> gen (foldl push path rel) c ≠ Ok t) ->
    exists r, lrun links here order gen path out f = (f, r) /\ r ≠ Ok ().
  Proof.
    intros Ht Ho Hu Hp Hd Hrel Hbad. destruct (search_finds links here order f path k l Ht Ho Hu Hp Hd) as (rels & R1 & _ & R3). unfold lrun. apply lead_path in Hp. rewrite Hp.
    cbn [mbind option_bind snd]. rewrite Hd, R1. cbn [rbind]. destruct (lrun_each _ _ _ _ _) as [found| | |] eqn:R; [|by eexists..]. exfalso. apply run_each_code in R as [Rf R].
    assert (foldl push path rel ∈ found.*1) as Hf. { rewrite Rf. apply elem_of_list_fmap. exists rel. split; [done|]. by apply R3. }
    apply elem_of_list_fmap in Hf as (s & Es & Hs). rewrite Forall_forall in R. destruct (R s Hs) as (k' & x & c & C1 & C2 & C3 & C4). rewrite <- Es in C1, C3. by eapply Hbad.
  Qed.
End run.
