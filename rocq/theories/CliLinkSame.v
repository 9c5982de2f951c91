(** Without links, the command of CliLinkRun.v does what the command of Cli.v does. *)
From Verif Require Export CliLinkRunProofs.

Lemma lnode_raise f l : node_at (with_links f) l = raise_node <$> entry_at f l.
Proof. destruct l; [done|]. cbn. apply lookup_fmap. Qed.
Lemma raise_dir f l : node_at (with_links f) l = Some LDir <-> entry_at f l = Some Dir.
Proof. rewrite lnode_raise. by destruct (entry_at f l) as [[|]|]. Qed.
Lemma raise_no_link f l to : with_links f !! l ≠ Some (LLink to).
Proof. unfold with_links. rewrite lookup_fmap. by destruct (f !! l) as [[|]|]. Qed.
Lemma lgo_raise f next k ps : forall l, lgo (with_links f) next k l ps = pair k <$> follow f l ps.
Proof.
  induction ps as [|p ps IH]; intros l; [done|]. cbn [lgo follow]. rewrite lnode_raise. destruct (entry_at f l) as [[c|]|]; [done| |done]. cbn [fmap option_fmap option_map raise_node].
  unfold descend. destruct (junk p); [apply IH|]. destruct (decide (p = "..")); [apply IH|].
  destruct (with_links f !! (l ++ [p])) as [[c| |to]|] eqn:H; [apply IH|apply IH|by apply raise_no_link in H|apply IH].
Qed.
Lemma lwalk_raise f k l ps : lwalk (with_links f) k l ps = pair k <$> follow f l ps.
Proof. destruct k; apply lgo_raise. Qed.
Lemma skeleton_raise f : skeleton (with_links f) = (fun _ => Dir) <$> f.
Proof. unfold skeleton, with_links. by rewrite <- map_fmap_compose. Qed.
Lemma names_raise f l : names_in (with_links f) l ≡ₚ children f l.
Proof.
  unfold names_in. rewrite skeleton_raise. apply NoDup_Permutation; [apply children_nodup..|]. intros n. by rewrite !elem_of_children, lookup_fmap, fmap_is_Some.
Qed.
Lemma depth_raise f : depth (skeleton (with_links f)) = depth f.
Proof.
  apply Nat.le_antisymm.
  - destruct (decide (f = ∅)) as [->|Hf]; [by rewrite skeleton_raise, fmap_empty|].
    rewrite skeleton_raise. assert (forall L : list (location * entry), (forall p, p ∈ L -> S (length p.1) <= depth f) -> foldr (fun p d => S (length p.1) `max` d) 1 L <= depth f) as H.
    { induction L as [|p L IH]; intros HL; cbn [foldr]; [apply depth_pos|]. apply Nat.max_lub; [apply HL; by left|apply IH; intros q Hq; apply HL; by right]. }
    apply H. intros [l e] Hp%elem_of_map_to_list. rewrite lookup_fmap in Hp. destruct (f !! l) eqn:Hl; [|done]. by eapply depth_spec.
  - assert (forall L : list (location * entry), (forall p, p ∈ L -> S (length p.1) <= depth (skeleton (with_links f))) -> foldr (fun p d => S (length p.1) `max` d) 1 L <= depth (skeleton (with_links f))) as H.
    { induction L as [|p L IH]; intros HL; cbn [foldr]; [apply depth_pos|]. apply Nat.max_lub; [apply HL; by left|apply IH; intros q Hq; apply HL; by right]. }
    apply H. intros [l e] Hp%elem_of_map_to_list. apply (depth_spec _ l Dir). by rewrite skeleton_raise, lookup_fmap, Hp.
Qed.

(** [S] says what [R] says, except for the kind of a failure *)
Definition says {A B} (h : A -> B) (R : res A) (S : res B) : Prop := match R with Ok a => S = Ok (h a) | _ => forall b, S ≠ Ok b end.
Definition as_pair (s : schema) : string * string := (s_path s, s_generated s).

Section same.
  Context (links : nat) (E : env) (HE : calm_env E) (f : fs) (Hs : sane E f).
  Notation g := (with_links f).
  Definition same_order (d : string) (names : list string) : list string :=
    match resolve E f d with Some l => if decide (names = names_in g l) then listing E 0 (children f l) else names | None => names end.
  Lemma same_order_perm d names : same_order d names ≡ₚ names.
  Proof.
    unfold same_order. destruct (resolve E f d) as [l|]; [|done]. destruct (decide _) as [->|]; [|done]. rewrite names_raise. apply (sane_order E f Hs).
  Qed.
  Notation gen := (compiler E).
  Lemma lead_raise h s : lead links (cwd E) (with_links h) s = pair links <$> resolve E h s.
  Proof. unfold CliLinks.lead, resolve. destruct (decide (s = "")); [done|]. apply lwalk_raise. Qed.
  Lemma compile_raise path c op : exists op', compile_io E c (World f op) = (World f op', gen path c).
  Proof.
    eexists. unfold compiler, compile_io, tick. cbn [w_op w_fs]. rewrite (calm_hash1 E HE op), (calm_hash2 E HE op), (calm_clock E HE op). done.
  Qed.
  Lemma read_raise h s op : exists r, read_to_string E s (World h op) = (World h (S op), r) /\ says id r (lread links (cwd E) (with_links h) s).
  Proof.
    unfold read_to_string, tick. cbn [w_op w_fs]. eexists. split; [done|]. unfold inspect, lread. rewrite lead_raise. destruct (resolve E h s) as [l|]; [|done].
    cbn [fmap option_fmap option_map]. rewrite lnode_raise. destruct (entry_at h l) as [e|]; [|done]. rewrite (calm_fault E HE op). cbn [rbind fmap option_fmap option_map snd].
    destruct e; [|done]. cbn [raise_node]. by destruct (from_utf8 _).
  Qed.
  Lemma run_one_raise path op : exists op' r, run_one E path (World f op) = (World f op', r) /\ says as_pair r (lrun_one links (cwd E) gen g path).
  Proof.
    destruct (read_raise f path op) as (r & R1 & R2). unfold run_one, ibind, lrun_one. rewrite R1. destruct r as [c| | |].
    - cbn in R2. rewrite R2. destruct (compile_raise path c (S op)) as [op' ->]. cbn [rbind]. unfold id.
      destruct (gen path c) as [t| | |]; eexists _, _; (split; [done|]); done.
    - eexists _, _. split; [done|]. cbn in R2. intros b. destruct (lread _ _ _ _); [by destruct (R2 a)|done..].
    - eexists _, _. split; [done|]. cbn in R2. intros b. destruct (lread _ _ _ _); [by destruct (R2 a)|done..].
    - eexists _, _. split; [done|]. cbn in R2. intros b. destruct (lread _ _ _ _); [by destruct (R2 a)|done..].
  Qed.
  Lemma run_each_app a b : lrun_each links (cwd E) gen g (a ++ b) = do x <- lrun_each links (cwd E) gen g a; do y <- lrun_each links (cwd E) gen g b; Ok (x ++ y).
  Proof.
    induction a as [|p a IH]; cbn [app lrun_each rbind]; [by destruct (lrun_each _ _ _ _ b)|]. destruct (if to_str_ok p then _ else _); [|done..]. cbn [rbind]. rewrite IH.
    destruct (lrun_each _ _ _ _ a); [|done..]. cbn [rbind]. by destruct (lrun_each _ _ _ _ b).
  Qed.
  Definition found_in (r : res (list string)) : res (list (string * string)) := do paths <- r; lrun_each links (cwd E) gen g paths.
  Definition mirrors (visit : string -> io (list schema)) (look : string -> res (list string)) : Prop := forall d op, exists op' r,
    visit d (World f op) = (World f op', r) /\ says (fmap as_pair) r (found_in (look d)).
  Lemma says_bind (a : res (list schema)) (b : res (list schema)) x y : says (fmap as_pair) a (found_in x) -> says (fmap as_pair) b (found_in y) ->
    says (fmap as_pair) (do u <- a; do v <- b; Ok (u ++ v)) (found_in (do u <- x; do v <- y; Ok (u ++ v))).
  Proof.
    unfold says, found_in. destruct x as [u| | |], y as [v| | |]; cbn [rbind]; rewrite ?run_each_app.
    1: destruct (lrun_each _ _ _ _ u), (lrun_each _ _ _ _ v).
    all: destruct a as [a| | |], b as [b| | |]; cbn [rbind]; intros H1 H2; simplify_eq; try done; try (by intros c Hc; simplify_eq; naive_solver); try (by rewrite fmap_app); naive_solver.
  Qed.
  Lemma entries_raise visit look dir names : mirrors visit look -> forall op, is_Some (resolve E f dir ≫= entry_at f) -> exists op' r,
    visit_entries E visit dir names (World f op) = (World f op', r) /\ says (fmap as_pair) r (found_in (search_entries links (cwd E) g look dir names)).
  Proof.
    intros Hv. induction names as [|n names IH]; intros op Hd; [by eexists op, (Ok [])|]. cbn [visit_entries search_entries]. unfold ibind at 1.
    assert (next_entry E dir (World f op) = (World f (S op), Ok ())) as ->.
    { unfold next_entry, tick, inspect. cbn [w_op w_fs]. destruct (resolve E f dir) as [l|]; cbn in Hd; [|by destruct Hd]. destruct Hd as [e ->]. by rewrite (calm_fault E HE op). }
    cbn zeta. unfold ibind at 1. assert (is_dir E (push dir n) (World f (S op)) = (World f (S (S op)), Ok (dir_there links (cwd E) g (push dir n)))) as ->.
    { unfold is_dir, tick, dir_there. cbn [w_op w_fs]. rewrite lead_raise. destruct (resolve E f (push dir n)) as [l|]; [|done]. cbn [fmap option_fmap option_map]. rewrite lnode_raise.
      destruct (entry_at f l) as [[c|]|]; [done| |done]. by rewrite (calm_blind E HE (S op)). }
    match goal with |- context [ibind ?m ?k (World f (S (S op)))] => assert (exists op' r, m (World f (S (S op))) = (World f op', r) /\ says (fmap as_pair) r (found_in (
      if dir_there links (cwd E) g (push dir n) then if to_str_ok (push dir n) then look (push dir n) else Panic "called `Option::unwrap()` on a `None` value"
      else if decide (extension_of (push dir n) = Some "pkt") then Ok [push dir n] else Ok []))) as (op1 & r1 & H1 & H2) end.
    { destruct (dir_there _ _ _ _); [destruct (to_str_ok _); [apply Hv|]|]; [by eexists _, _| ].
      destruct (decide _); [|by eexists _, (Ok [])]. unfold ibind, visit_one, found_in. cbn [rbind lrun_each]. destruct (to_str_ok _); [|by eexists _, _].
      destruct (run_one_raise (push dir n) (S (S op))) as (op' & r & -> & R). destruct r as [s| | |]; cbn in R.
      - rewrite R. by eexists _, _.
      - eexists _, _. split; [done|]. intros b. by destruct (lrun_one _ _ _ _ _); [destruct (R a)|..].
      - eexists _, _. split; [done|]. intros b. by destruct (lrun_one _ _ _ _ _); [destruct (R a)|..].
      - eexists _, _. split; [done|]. intros b. by destruct (lrun_one _ _ _ _ _); [destruct (R a)|..]. }
    unfold ibind at 1. rewrite H1. destruct (IH op1 Hd) as (op2 & r2 & H3 & H4). pose proof (says_bind _ _ _ _ H2 H4) as H.
    destruct r1 as [u| | |]; [|by eexists _, _..]. unfold ibind. rewrite H3. destruct r2; by eexists _, _.
  Qed.
  Lemma visit_raise fuel : mirrors (visit_files E fuel) (search links (cwd E) same_order g fuel).
  Proof.
    induction fuel as [|fuel IH]; intros d op; [by eexists _, _|]. cbn [visit_files search]. unfold ibind at 1, metadata, tick. cbn [w_op w_fs]. unfold inspect. rewrite lead_raise.
    destruct (resolve E f d) as [l|] eqn:R; [|by eexists _, _]. cbn [fmap option_fmap option_map]. rewrite lnode_raise. destruct (entry_at f l) as [e|] eqn:He; [|by eexists _, _].
    rewrite (calm_fault E HE op). cbn [rbind snd fmap option_fmap option_map]. destruct e as [c|]; [by eexists _, (Ok [])|]. cbn [raise_node]. unfold ibind, read_dir, tick. cbn [w_op w_fs]. unfold inspect.
    rewrite R, He, (calm_fault E HE (S op)). cbn [rbind fst snd]. rewrite (calm_listing E HE (S op)).
    assert (same_order d (names_in g l) = listing E 0 (children f l)) as -> by (unfold same_order; rewrite R; by destruct (decide _)).
    apply entries_raise; [done|]. rewrite R. cbn. by rewrite He.
  Qed.
  (** more steps change nothing once the walk ends *)
  Definition more {A} (m m' : io A) : Prop := forall w w' r, m w = (w', r) -> r ≠ Diverge -> m' w = (w', r).
  Lemma more_refl {A} (m : io A) : more m m. Proof. intros w w' r H _. exact H. Qed.
  Lemma more_bind {A B} (m m' : io A) (k k' : A -> io B) : more m m' -> (forall a, more (k a) (k' a)) -> more (ibind m k) (ibind m' k').
  Proof.
    intros Hm Hk w w' r. unfold ibind. destruct (m w) as [w1 r1] eqn:M. intros H Hr. assert (r1 ≠ Diverge) as Hr1 by (by destruct r1; simplify_eq). rewrite (Hm _ _ _ M Hr1). destruct r1; [by apply Hk|done..].
  Qed.
  Lemma entries_more (v v' : string -> io (list schema)) dir names : (forall d, more (v d) (v' d)) -> more (visit_entries E v dir names) (visit_entries E v' dir names).
  Proof.
    intros Hv. induction names as [|n names IH]; [apply more_refl|]. cbn [visit_entries]. apply more_bind; [apply more_refl|intros _]. apply more_bind; [apply more_refl|intros d]. apply more_bind.
    - destruct d; [|apply more_refl]. destruct (to_str_ok _); [apply Hv|apply more_refl].
    - intros found. apply more_bind; [exact IH|]. intros rest. apply more_refl.
  Qed.
  Lemma visit_more fuel fuel' : fuel <= fuel' -> forall d, more (visit_files E fuel d) (visit_files E fuel' d).
  Proof.
    revert fuel'. induction fuel as [|fuel IH]; intros fuel' Hf d; [by intros w w' r [= <- <-]|]. destruct fuel' as [|fuel']; [lia|]. cbn [visit_files]. apply more_bind; [apply more_refl|].
    intros [c|]; [apply more_refl|]. apply more_bind; [apply more_refl|]. intros names. apply entries_more. apply IH. lia.
  Qed.
  Lemma run_all_raise path l op : resolve E f path = Some l -> entry_at f l = Some Dir -> exists op' r, run_all E path (World f op) = (World f op', r) /\
    says (fmap as_pair) r (found_in (search links (cwd E) same_order g (steps links g) path)).
  Proof.
    intros Hr Hd. destruct (run_all E path (World f op)) as [w r] eqn:R. pose proof (run_all_spec E f Hs path l op w r Hr Hd R) as Hsp. unfold run_all in R. cbn [w_fs] in R.
    assert (visit_files E (steps links g) path (World f op) = (w, r)) as R' by (eapply visit_more; [|exact R|apply Hsp]; unfold steps; rewrite depth_raise; nia).
    destruct (visit_raise (steps links g) path op) as (op' & r' & V1 & V2). rewrite V1 in R'. injection R' as <- <-. by exists op', r'.
  Qed.
End same.

Lemma raise_insert f l e : with_links (<[l := e]> f) = <[l := raise_node e]> (with_links f).
Proof. apply fmap_insert. Qed.
Lemma make_dirs_raise k ps : forall f l, in_dirs (with_links f) -> entry_at f l = Some Dir ->
  lmake_dirs (with_links f) k l ps = (with_links (make_dirs f l ps).1, (make_dirs f l ps).2).
Proof.
  induction ps as [|p ps IH]; intros f l Hf Hl; [done|]. cbn [lmake_dirs make_dirs]. unfold descend. destruct (junk p) eqn:J; [rewrite Hl; by apply IH|].
  destruct (decide (p = "..")) as [_|Hp].
  - assert (entry_at f (removelast l) = Some Dir) as Hup.
    { destruct (decide (l = [])) as [->|Hne]; [done|]. rewrite (app_removelast_last "" Hne) in Hl. apply raise_dir. eapply (proj2 Hf). apply raise_dir in Hl.
      rewrite node_snoc in Hl. exact Hl. }
    rewrite Hup. by apply IH.
  - rewrite entry_ne. assert (with_links f !! (l ++ [p]) = raise_node <$> f !! (l ++ [p])) as -> by apply lookup_fmap.
    destruct (f !! (l ++ [p])) as [e|] eqn:H; cbn [fmap option_fmap option_map].
    + rewrite lwalk_raise. cbn [follow]. rewrite Hl. unfold descend. rewrite J. destruct (decide (p = "..")); [done|]. cbn [fmap option_fmap option_map]. rewrite lnode_raise, entry_ne, H.
      destruct e; cbn [fmap option_fmap option_map raise_node]; [done|]. apply IH; [done|]. by rewrite entry_ne.
    + change LDir with (raise_node Dir). rewrite <- (raise_insert f (l ++ [p]) Dir). apply IH; [|rewrite entry_ne; apply lookup_insert]. rewrite raise_insert. apply in_dirs_insert; [done|by apply raise_dir|]. destruct (with_links f !! (l ++ [p])) eqn:Hz; [|done]. exfalso. unfold with_links in Hz. by rewrite lookup_fmap, H in Hz.
Qed.

Section save.
  Context (links : nat) (E : env) (HE : calm_env E).
  Lemma lead_raise' h s : lead links (cwd E) (with_links h) s = pair links <$> resolve E h s.
  Proof. unfold CliLinks.lead, resolve. destruct (decide (s = "")); [done|]. apply lwalk_raise. Qed.
  Lemma write_raise h s c op : exists h' r, write_file E s c (World h op) = (World h' (S op), r) /\ exists ok, lwrite links (cwd E) (with_links h) s c = (with_links h', ok) /\ (ok = true <-> r = Ok ()).
  Proof.
    unfold write_file, tick, lwrite. cbn [w_op w_fs]. rewrite lead_raise'. destruct (resolve E h s) as [l|]; [|eexists _, _; split; [done|]; by eexists]. cbn [fmap option_fmap option_map].
    rewrite lnode_raise, (calm_torn E HE op). destruct (entry_at h l) as [[c'|]|]; cbn [fmap option_fmap option_map raise_node]; eexists _, _; (split; [done|]); eexists; try (split; [|done]); rewrite ?raise_insert; done.
  Qed.
  Lemma save_raise h s p op : in_dirs (with_links h) -> entry_at h (cwd E) = Some Dir -> exists h' op' r, save_one E s p (World h op) = (World h' op', r) /\
    exists ok, lsave_one links (cwd E) (with_links h) (s_generated s) p = (with_links h', ok) /\ (ok = true <-> r = Ok ()).
  Proof.
    intros Hh Hc. unfold save_one, lsave_one, ibind. destruct (parent p) as [q|].
    - unfold create_dir_all, tick, lcreate_dir_all. cbn [w_op w_fs]. rewrite (calm_torn E HE op). rewrite make_dirs_raise; [|done|by destruct (has_root q)].
      destruct (make_dirs _ _ _) as [h1 []]; cbn [fst snd].
      + destruct (write_raise h1 p (T (s_generated s)) (S op)) as (h' & r & W & ok & L1 & L2). rewrite W. exists h', (S (S op)), r. split; [done|]. by exists ok.
      + eexists _, _, _. split; [done|]. by exists false.
    - cbn. destruct (write_raise h p (T (s_generated s)) op) as (h' & r & W & ok & L1 & L2). rewrite W. exists h', (S op), r. split; [done|]. by exists ok.
  Qed.
  Lemma save_all_raise base out found : forall h op, in_dirs (with_links h) -> entry_at h (cwd E) = Some Dir -> exists h' op' r, save_all E base out found (World h op) = (World h' op', r) /\
    exists r', lsave_all links (cwd E) (with_links h) base out (as_pair <$> found) = (with_links h', r') /\ (r' = Ok () <-> r = Ok ()).
  Proof.
    induction found as [|s found IH]; intros h op Hh Hc; [eexists _, _, _; split; [done|]; by eexists|]. cbn [save_all fmap list_fmap lsave_all as_pair]. unfold ibind at 1, ilift.
    change (as_pair s) with (s_path s, s_generated s). cbn iota beta. destruct (format_path (s_path s) base out true) as [p| | |] eqn:F; [|by (eexists _, _, _; split; [done|]; by eexists)..].
    destruct (save_raise h s p op Hh Hc) as (h1 & op1 & r1 & S1 & ok & S2 & S3). unfold ibind. rewrite S1, S2.
    destruct (format_ts _ _ _ _ _ F) as [X ->]. pose proof (save_touched links (cwd E) (with_links h) (s_generated s) X Hh) as Ht. rewrite S2 in Ht.
    destruct Ht as (T1 & T2 & _); [by apply raise_dir|]. destruct ok.
    - assert (r1 = Ok ()) as -> by by apply S3. apply IH; [done|]. apply raise_dir. eapply touched_dir; [exact T2|]. by apply raise_dir.
    - destruct r1 as [[]| | |]; [discriminate (proj2 S3 eq_refl)|..]; by (eexists _, _, _; split; [done|]; by eexists).
  Qed.
End save.
(** the same file system, and success together *)
Lemma run_raise links E f path out : calm_env E -> sane E f -> exists order, (forall d names, order d names ≡ₚ names) /\
  forall f' r, run E path out f = (f', r) -> exists r', lrun links (cwd E) order (compiler E) path out (with_links f) = (with_links f', r') /\ (r' = Ok () <-> r = Ok ()).
Proof.
  intros HE Hs. exists (same_order E f). split; [by apply same_order_perm|]. intros f' r. unfold run, lrun, main, metadata, tick, start, inspect. cbn [w_op w_fs]. rewrite lead_raise.
  assert (in_dirs (with_links f)) as Hin.
  { split; [unfold with_links; by rewrite lookup_fmap, (tree_root f (sane_tree E f Hs))|]. intros l n e H. unfold with_links in H. rewrite lookup_fmap in H. destruct (f !! (l ++ [n])) as [e'|] eqn:Hl; [|done].
    apply raise_dir. by eapply (tree_parent f (sane_tree E f Hs)). }
  pose proof (sane_cwd E f Hs) as Hc. destruct (resolve E f path) as [l|] eqn:R; [|intros [= <- <-]; by eexists]. cbn [fmap option_fmap option_map mbind option_bind snd].
  rewrite lnode_raise. destruct (entry_at f l) as [e|] eqn:He; [|intros [= <- <-]; by eexists]. rewrite (calm_fault E HE 0). cbn [rbind snd fmap option_fmap option_map]. destruct e as [c|]; cbn [raise_node].
  - unfold ibind, ilift. destruct (run_one_raise links E HE f path 1) as (op & r1 & R1 & R2). rewrite R1. destruct r1 as [s| | |].
    + assert (s_path s = path) as Ep.
      { unfold run_one, ibind in R1. destruct (read_to_string _ _ _) as [w [t| | |]]; [|done..]. destruct (compile_io _ _ _) as [w' [t'| | |]]; [|done..]. unfold iret in R1. by simplify_eq. }
      cbn in R2. rewrite R2. cbn [rbind]. rewrite Ep. destruct (format_path path path out false) as [p| | |]; cbn [rbind]; [|intros [= <- <-]; by eexists..].
      destruct (save_raise links E HE f s p op Hin Hc) as (h & op' & r2 & S1 & ok & S2 & S3). rewrite S1. cbn [w_fs snd as_pair]. change ((as_pair s).2) with (s_generated s). rewrite S2. intros [= <- <-].
      destruct ok; eexists; (split; [done|]); naive_solver.
    + intros [= <- <-]. cbn in R2. destruct (lrun_one _ _ _ _ _) as [a| | |]; cbn [rbind]; [by destruct (R2 a)|by eexists..].
    + intros [= <- <-]. cbn in R2. destruct (lrun_one _ _ _ _ _) as [a| | |]; cbn [rbind]; [by destruct (R2 a)|by eexists..].
    + intros [= <- <-]. cbn in R2. destruct (lrun_one _ _ _ _ _) as [a| | |]; cbn [rbind]; [by destruct (R2 a)|by eexists..].
  - unfold ibind. destruct (run_all_raise links E HE f Hs path l 1 R He) as (op & r1 & R1 & R2). rewrite R1. unfold found_in in R2. destruct r1 as [found| | |].
    + unfold says in R2; cbv iota beta in R2. rewrite R2. destruct (save_all_raise links E HE path out found f op Hin Hc) as (h & op' & r2 & S1 & r' & S2 & S3). rewrite S1. intros [= <- <-]. exists r'. by rewrite S2.
    + intros [= <- <-]. unfold says in R2; cbv iota beta in R2. match goal with |- context [match ?x with _ => _ end] => destruct x as [a| | |] end; [by destruct (R2 a)|by eexists..].
    + intros [= <- <-]. unfold says in R2; cbv iota beta in R2. match goal with |- context [match ?x with _ => _ end] => destruct x as [a| | |] end; [by destruct (R2 a)|by eexists..].
    + intros [= <- <-]. unfold says in R2; cbv iota beta in R2. match goal with |- context [match ?x with _ => _ end] => destruct x as [a| | |] end; [by destruct (R2 a)|by eexists..].
Qed.
