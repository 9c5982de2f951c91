(** Proofs for C110. *)
From Verif Require Export CliLinksSpec CliNames.

Lemma go_app f next k l ps qs : (forall w, next = Some w -> forall l ps qs, w l (ps ++ qs) = w l ps ≫= (fun r => lwalk f r.1 r.2 qs)) ->
  (forall l qs, lgo f next k l qs = lwalk f k l qs) -> lgo f next k l (ps ++ qs) = lgo f next k l ps ≫= (fun r => lwalk f r.1 r.2 qs).
Proof.
  intros Hn Hw. revert l. induction ps as [|p ps IH]; intros l; [cbn; apply Hw|]. cbn. destruct (node_at f l) as [[| |]|]; [done| |done|done].
  destruct (junk p); [apply IH|]. destruct (decide (p = "..")); [apply IH|]. destruct (f !! (l ++ [p])) as [[| |to]|]; [apply IH|apply IH| |apply IH].
  destruct next as [w|]; [|done]. destruct (decide (to = "")); [done|]. rewrite app_assoc. by apply Hn.
Qed.
Lemma lwalk_app f k l ps qs : lwalk f k l (ps ++ qs) = lwalk f k l ps ≫= (fun r => lwalk f r.1 r.2 qs).
Proof.
  revert l ps qs. induction k as [|k IH]; intros l ps qs; cbn [walk]; (apply go_app; [|done]).
  - done.
  - intros w [= <-]. apply IH.
Qed.
Lemma go_le f next k l ps k' l' : (forall w, next = Some w -> forall l ps k' l', w l ps = Some (k', l') -> k' < k) -> lgo f next k l ps = Some (k', l') -> k' <= k.
Proof.
  intros Hn. revert l. induction ps as [|p ps IH]; intros l; [cbn; intros [= <- _]; lia|]. cbn. destruct (node_at f l) as [[| |]|]; [done| |done|done].
  destruct (junk p); [apply IH|]. destruct (decide (p = "..")); [apply IH|]. destruct (f !! (l ++ [p])) as [[| |to]|]; [apply IH|apply IH| |apply IH].
  destruct next as [w|]; [|done]. destruct (decide (to = "")); [done|]. intros H. apply (Hn w eq_refl) in H. lia.
Qed.
Lemma walk_le f k l ps k' l' : lwalk f k l ps = Some (k', l') -> k' <= k.
Proof.
  revert l ps k' l'. induction k as [|k IH]; intros l ps k' l'; cbn [walk]; apply go_le.
  - done.
  - intros w [= <-] l1 ps1 k1 l1' H. apply IH in H. lia.
Qed.
Lemma walk_step f k l n : proper_name n -> node_at f l = Some LDir ->
  lwalk f k l [n] = match f !! (l ++ [n]) with
    | Some (LLink to) => match k with O => None | S k' => if decide (to = "") then None else lwalk f k' (if has_root to then [] else l) (pieces to) end
    | _ => Some (k, l ++ [n]) end.
Proof.
  intros Hn Hl. destruct (proper_good n Hn) as [_ Hj]. destruct Hn as (_ & _ & Hn & _).
  destruct k as [|k]; cbn [lwalk lgo]; rewrite Hl, Hj, decide_False by done; destruct (f !! (l ++ [n])) as [[| |to]|]; try done.
  by rewrite app_nil_r.
Qed.
Lemma walk_one f k l n k' l' : proper_name n -> node_at f l = Some LDir -> lwalk f k l [n] = Some (k', l') -> (k' = k /\ l' = l ++ [n]) \/ k' < k.
Proof.
  intros Hn Hl. rewrite walk_step by done. destruct (f !! (l ++ [n])) as [[| |to]|]; try (intros [= <- <-]; by left).
  destruct k as [|k]; [done|]. destruct (decide (to = "")); [done|]. intros H%walk_le. right. lia.
Qed.
Lemma walk_junk f k l : node_at f l = Some LDir -> lwalk f k l [""] = Some (k, l).
Proof. intros Hl. destruct k; cbn [lwalk lgo]; by rewrite Hl. Qed.

(** [finds] with [lwalk] *)
Inductive found_by (f : lfs) : nat -> location -> list string -> Prop :=
| found_file k l n s : is_Some (f !! (l ++ [n])) -> (forall k' l', lwalk f k l [n] = Some (k', l') -> node_at f l' ≠ Some LDir) ->
    s ≠ "" -> n = s +:+ ".pkt" -> found_by f k l [n]
| found_dir k l n k' l' rel : is_Some (f !! (l ++ [n])) -> lwalk f k l [n] = Some (k', l') -> node_at f l' = Some LDir -> found_by f k' l' rel -> found_by f k l (n :: rel).
Lemma join_pieces s : join "/" (pieces s) = s.
Proof.
  induction s as [|c s IH]; [done|]. cbn [pieces]. destruct (decide (c = SLASH)) as [->|Hc].
  - destruct (pieces s) as [|p ps] eqn:E; [by apply pieces_ne in E|]. change (join "/" ("" :: p :: ps)) with ("/" +:+ join "/" (p :: ps)). by rewrite IH.
  - destruct (pieces s) as [|p ps] eqn:E; [by apply pieces_ne in E|]. destruct ps as [|q ps]; [cbn in IH |- *; by rewrite IH|].
    change (join "/" (String c p :: q :: ps)) with (String c (join "/" (p :: q :: ps))). by rewrite IH.
Qed.
Lemma parts_pieces s : path_parts s (pieces s).
Proof. split; [apply pieces_ne|]. split; [apply pieces_plain|]. symmetry. apply join_pieces. Qed.
Lemma pieces_parts s ps : path_parts s ps -> pieces s = ps.
Proof. intros (H1 & H2 & ->). by apply pieces_join. Qed.
Lemma root_absolute s : has_root s = true <-> absolute s.
Proof. apply pieces_root. Qed.
Lemma lgo_arrives f next k l ps k' l' : (forall w, next = Some w -> exists k0, k = S k0 /\ forall l ps k' l', w l ps = Some (k', l') -> arrives f k0 l ps k' l') ->
  lgo f next k l ps = Some (k', l') -> arrives f k l ps k' l'.
Proof.
  intros Hn. revert l. induction ps as [|p ps IH]; intros l; cbn [lgo]; [intros [= <- <-]; constructor|]. destruct (node_at f l) as [[| |]|] eqn:E; [done| |done|done].
  destruct (junk p) eqn:J. { intros H. apply ar_stay; [|done|by apply IH]. unfold junk in J. by apply bool_decide_eq_true in J. }
  destruct (decide (p = "..")) as [->|Hp].
  { intros H. destruct l as [|n l _] using rev_ind; [apply ar_top; by apply IH|]. rewrite removelast_last in H. apply ar_up; [done|by apply IH]. }
  apply junk_false in J as [J1 J2]. assert (p ∉ [""; "."; ".."]) as Hnp by (rewrite !elem_of_cons, elem_of_nil; tauto).
  destruct (f !! (l ++ [p])) as [[| |to]|] eqn:F; [| | |]; try (intros H; apply ar_down; [done|done|by rewrite F|by apply IH]).
  destruct next as [w|]; [|done]. destruct (Hn w eq_refl) as (k0 & -> & Hw). destruct (decide (to = "")); [done|]. intros H%Hw.
  destruct (has_root to) eqn:R; [eapply ar_root_link|eapply ar_link]; [done|done|done|by apply root_absolute|apply parts_pieces|done|done|done|done|done|by rewrite <- root_absolute, R|apply parts_pieces|done].
Qed.
Lemma lwalk_arrives f k l ps k' l' : lwalk f k l ps = Some (k', l') <-> arrives f k l ps k' l'.
Proof.
  split.
  - revert l ps k' l'. induction k as [|k IH]; intros l ps k' l'; cbn [lwalk]; apply lgo_arrives; [done|]. intros w [= <-]. exists k. split; [done|]. apply IH.
  - induction 1 as [k l|k l p ps k' l' Hp Hl _ IH|k ps k' l' _ IH|k l n ps k' l' Hl _ IH|k l p ps k' l' Hp Hl Hto _ IH|k l p to qs ps k' l' Hp Hl Hf Hto Ha Hq _ IH|k l p to qs ps k' l' Hp Hl Hf Ha Hq _ IH].
    + by destruct k.
    + destruct k; cbn [lwalk lgo] in *; rewrite Hl; unfold junk; by rewrite bool_decide_eq_true_2.
    + destruct k; by cbn [lwalk lgo] in *.
    + destruct k; cbn [lwalk lgo] in *; rewrite Hl; cbn; by rewrite removelast_last.
    + rewrite !elem_of_cons, elem_of_nil in Hp. assert (junk p = false) as J by (unfold junk; apply bool_decide_eq_false; tauto).
      destruct k; cbn [lwalk lgo] in *; rewrite Hl, J, decide_False by tauto; destruct (f !! (l ++ [p])) as [[| |to]|]; try done; by destruct (Hto to).
    + rewrite !elem_of_cons, elem_of_nil in Hp. assert (junk p = false) as J by (unfold junk; apply bool_decide_eq_false; tauto).
      cbn [lwalk lgo]. rewrite Hl, J, decide_False, Hf, decide_False by tauto. rewrite <- root_absolute in Ha. apply not_true_is_false in Ha. rewrite Ha. by rewrite (pieces_parts to qs).
    + rewrite !elem_of_cons, elem_of_nil in Hp. assert (junk p = false) as J by (unfold junk; apply bool_decide_eq_false; tauto).
      cbn [lwalk lgo]. rewrite Hl, J, decide_False, Hf by tauto. rewrite decide_False by (intros ->; by destruct Ha). apply root_absolute in Ha. rewrite Ha. by rewrite (pieces_parts to qs).
Qed.
Lemma lead_path links here f s k l : lead links here f s = Some (k, l) <-> path_to links here f s k l.
Proof.
  unfold lead, path_to. destruct (decide (s = "")) as [->|Hs]; [split; [done|by intros [? _]]|]. rewrite lwalk_arrives. split.
  - intros H. split; [done|]. exists (pieces s). split; [apply parts_pieces|]. destruct (has_root s) eqn:R; [left|right]; (split; [|done]); rewrite <- root_absolute, R; done.
  - intros (_ & ps & Hp & H). rewrite (pieces_parts s ps Hp). rewrite <- root_absolute in H. destruct H as [[-> ?]|[R ?]]; [done|]. apply not_true_is_false in R. by rewrite R.
Qed.
Lemma finds_found f k l rel : finds f k l rel <-> found_by f k l rel.
Proof.
  split.
  - induction 1 as [k l n s H1 H2 H3 H4|k l n k' l' rel H1 H2 H3 _ IH]; [eapply found_file; [done| |done|done]; intros k' l' W; by apply (H2 k'), lwalk_arrives|].
    eapply found_dir; [done|by apply lwalk_arrives|done|done].
  - induction 1 as [k l n s H1 H2 H3 H4|k l n k' l' rel H1 H2 H3 _ IH]; [eapply finds_file; [done| |done|done]; intros k' l' W; by apply (H2 k'), lwalk_arrives|].
    eapply finds_dir; [done|by apply lwalk_arrives|done|done].
Qed.
Lemma dir_or_not f l : {node_at f l = Some LDir} + {node_at f l ≠ Some LDir}.
Proof. destruct (node_at f l) as [[]|]; by (left + right). Qed.
Lemma skeleton_lookup (f : lfs) l : skeleton f !! l = Some Dir <-> is_Some (f !! l).
Proof. unfold skeleton. split; [intros (e & _ & H)%lookup_fmap_Some; by exists e|intros [e H]; apply lookup_fmap_Some; by exists e]. Qed.
Lemma skeleton_some (f : lfs) l : is_Some (skeleton f !! l) <-> is_Some (f !! l).
Proof. unfold skeleton. rewrite lookup_fmap. apply fmap_is_Some. Qed.

Section search.
  Context (links : nat) (here : location) (order : string -> list string -> list string) (f : lfs) (Hf : ltree f) (Ho : forall d l, order d l ≡ₚ l).
  Local Notation lead := (lead links here f).
  Local Notation search := (search links here order f).
  Local Notation D := (depth (skeleton f)).
  Lemma node_depth l e : node_at f l = Some e -> length l < D.
  Proof.
    destruct l as [|a l]; [intros _; apply depth_pos|]. intros H. apply (depth_spec _ _ Dir). apply skeleton_lookup. by exists e.
  Qed.
  Lemma lead_push d n k l : d ≠ "" -> proper_name n -> lead d = Some (k, l) -> node_at f l = Some LDir -> lead (push d n) = lwalk f k l [n].
  Proof.
    intros Hd Hn. pose proof Hn as (Hn1 & _ & _ & Hn2). unfold CliLinks.lead. rewrite !decide_False by (done || by apply push_ne). rewrite root_push by done.
    intros Hw Hl. destruct (pieces_push d n Hn2) as (pre & E1 & H). rewrite E1, lwalk_app.
    destruct H as [[? _]|[[_ H]|(_ & _ & H)]]; [done|..]; rewrite H in Hw.
    - by rewrite Hw.
    - rewrite lwalk_app in Hw. destruct (lwalk f links _ pre) as [[k1 l1]|]; [|done]. cbn [mbind option_bind fst snd] in Hw |- *.
      destruct (node_at f l1) as [[| |]|] eqn:E2.
      2: { rewrite walk_junk in Hw by done. by injection Hw as -> ->. }
      all: destruct k1; cbn [lwalk lgo] in Hw; by rewrite E2 in Hw.
  Qed.
  Definition rest (k : nat) (l : location) : nat := k * S D + (D - length l).
  Lemma elem_names l n : n ∈ names_in f l <-> is_Some (f !! (l ++ [n])).
  Proof. unfold names_in. rewrite elem_of_children. apply skeleton_some. Qed.
  Lemma name_fine l n : is_Some (f !! (l ++ [n])) -> proper_name n /\ utf8 (txt n).
  Proof. intros [e He]. apply (ltree_names f Hf) in He as [H1 H2]. apply Forall_app in H1 as [_ H1]. apply Forall_app in H2 as [_ H2]. apply Forall_cons in H1 as [? _]. by apply Forall_cons in H2 as [? _]. Qed.

  Lemma entries_found fuel dir k l names :
    (forall d k l, d ≠ "" -> to_str_ok d = true -> lead d = Some (k, l) -> node_at f l = Some LDir -> rest k l < fuel ->
       exists rels, search fuel d = Ok (foldl push d <$> rels) /\ NoDup rels /\ forall rel, rel ∈ rels <-> found_by f k l rel) ->
    dir ≠ "" -> to_str_ok dir = true -> lead dir = Some (k, l) -> node_at f l = Some LDir -> rest k l < S fuel ->
    NoDup names -> (forall n, n ∈ names -> is_Some (f !! (l ++ [n]))) ->
    exists rels, search_entries links here f (search fuel) dir names = Ok (foldl push dir <$> rels) /\ NoDup rels /\
      forall rel, rel ∈ rels <-> exists n rel', rel = n :: rel' /\ n ∈ names /\ found_by f k l rel.
  Proof.
    intros IH Hd Hu Hl Hdir Hm. induction names as [|n names IHn]; intros Hnd Hex.
    { exists []. split; [done|]. split; [constructor|]. intros rel. split; [by intros ?%elem_of_nil|]. by intros (n & rel' & _ & ?%elem_of_nil & _). }
    apply NoDup_cons in Hnd as [Hn Hnd]. destruct IHn as (rels & R1 & R2 & R3); [done|intros m ?; apply Hex; by right|].
    pose proof (Hex n (elem_of_list_here _ _)) as Hin. destruct (name_fine l n Hin) as [Hp Hun]. pose proof (lead_push dir n k l Hd Hp Hl Hdir) as Hpush.
    cbn [search_entries].
    assert (exists rs, (if dir_there links here f (push dir n) then if to_str_ok (push dir n) then search fuel (push dir n) else Panic "called `Option::unwrap()` on a `None` value"
      else if decide (extension_of (push dir n) = Some "pkt") then Ok [push dir n] else Ok []) = Ok (foldl push dir <$> rs) /\ NoDup rs /\
      forall rel, rel ∈ rs <-> exists rel', rel = n :: rel' /\ found_by f k l rel) as (rs & S1 & S2 & S3).
    { unfold dir_there. rewrite Hpush. destruct (lwalk f k l [n]) as [[k' l']|] eqn:W; [destruct (dir_or_not f l') as [Hd'|Hd']|].
      - rewrite Hd'. rewrite to_str_push by done. destruct (IH (push dir n) k' l') as (rs & Q1 & Q2 & Q3); [apply push_ne, Hp|by apply to_str_push|done|done| |].
        { pose proof (node_depth l' _ Hd') as H1. pose proof (node_depth l _ Hdir) as H2. destruct (walk_one f k l n k' l' Hp Hdir W) as [[-> ->]|Hk].
          - unfold rest in *. rewrite app_length in *. cbn in *. lia.
          - unfold rest in *. assert (S k' * S D <= k * S D) by (apply Nat.mul_le_mono_r; lia). lia. }
        exists (cons n <$> rs). split; [|split].
        + rewrite Q1. f_equal. rewrite <- list_fmap_compose. done.
        + apply NoDup_fmap_2; [|done]. by intros ? ? [= ?].
        + intros rel. rewrite elem_of_list_fmap. split.
          * intros (rel' & -> & Hr%Q3). exists rel'. split; [done|]. by eapply found_dir.
          * intros (rel' & -> & Hr). inversion Hr as [? ? ? s _ Hno|? ? ? k2 l2 ? _ W2 Hd2 Hr2]; subst; [by destruct (Hno k' l')|].
            rewrite W in W2. injection W2 as <- <-. exists rel'. split; [done|]. by apply Q3.
      - assert (forall A (x y : A), (match node_at f l' with Some LDir => x | _ => y end) = y) as Hy by (intros; destruct (node_at f l') as [[]|]; done). rewrite !Hy.
        assert (forall k2 l2, lwalk f k l [n] = Some (k2, l2) -> node_at f l2 ≠ Some LDir) as Hno by (rewrite W; by intros ? ? [= <- <-]).
        rewrite extension_push by done. destruct (decide (name_ext n = Some "pkt")) as [Hx|Hx].
        + apply name_ext_spec in Hx as Hx'; [|by vm_compute]. destruct Hx' as (s & Hs & Hns). exists [[n]]. split; [done|]. split; [apply NoDup_singleton|].
          intros rel. rewrite elem_of_list_singleton. split.
          * intros ->. exists []. split; [done|]. by apply (found_file f k l n s).
          * intros (rel' & -> & Hr). inversion Hr as [|? ? ? k2 l2 ? _ W2 Hd2 Hr2]; subst; [done|]. by apply Hno in W2.
        + exists []. split; [done|]. split; [constructor|]. intros rel. split; [by intros ?%elem_of_nil|]. intros (rel' & -> & Hr).
          inversion Hr as [? ? ? s _ _ Hs Hns|? ? ? k2 l2 ? _ W2 Hd2 Hr2]; subst; [|by apply Hno in W2]. exfalso. apply Hx. apply name_ext_spec; [by vm_compute|]. by exists s.
      - assert (forall k2 l2, lwalk f k l [n] = Some (k2, l2) -> node_at f l2 ≠ Some LDir) as Hno by (by rewrite W).
        rewrite extension_push by done. destruct (decide (name_ext n = Some "pkt")) as [Hx|Hx].
        + apply name_ext_spec in Hx as Hx'; [|by vm_compute]. destruct Hx' as (s & Hs & Hns). exists [[n]]. split; [done|]. split; [apply NoDup_singleton|].
          intros rel. rewrite elem_of_list_singleton. split.
          * intros ->. exists []. split; [done|]. by apply (found_file f k l n s).
          * intros (rel' & -> & Hr). inversion Hr as [|? ? ? k2 l2 ? _ W2 Hd2 Hr2]; subst; [done|]. by apply Hno in W2.
        + exists []. split; [done|]. split; [constructor|]. intros rel. split; [by intros ?%elem_of_nil|]. intros (rel' & -> & Hr).
          inversion Hr as [? ? ? s _ _ Hs Hns|? ? ? k2 l2 ? _ W2 Hd2 Hr2]; subst; [|by apply Hno in W2]. exfalso. apply Hx. apply name_ext_spec; [by vm_compute|]. by exists s. }
    rewrite S1. cbn [rbind]. rewrite R1. cbn [rbind]. exists (rs ++ rels). split; [by rewrite fmap_app|]. split.
    - apply NoDup_app. split; [done|]. split; [|done]. intros rel (rel' & -> & _)%S3 (m & rel2 & [= <- <-] & Hm' & _)%R3. done.
    - intros rel. rewrite elem_of_app, S3, R3. split.
      + intros [(rel' & -> & Hr)|(m & rel' & -> & Hm' & Hr)]; [exists n, rel'; split; [done|]; split; [left|done]|exists m, rel'; split; [done|]; split; [by right|done]].
      + intros (m & rel' & -> & [->|Hm']%elem_of_cons & Hr); [left; by exists rel'|right; by exists m, rel'].
  Qed.
  Lemma search_found fuel dir k l : dir ≠ "" -> to_str_ok dir = true -> lead dir = Some (k, l) -> node_at f l = Some LDir -> rest k l < fuel ->
    exists rels, search fuel dir = Ok (foldl push dir <$> rels) /\ NoDup rels /\ forall rel, rel ∈ rels <-> found_by f k l rel.
  Proof.
    revert dir k l. induction fuel as [|fuel IH]; intros dir k l Hd Hu Hl Hdir Hm; [lia|]. cbn [CliLinks.search]. rewrite Hl, Hdir.
    destruct (entries_found fuel dir k l (order dir (names_in f l)) IH Hd Hu Hl Hdir Hm) as (rels & R1 & R2 & R3).
    - rewrite Ho. apply children_nodup.
    - intros n Hn. rewrite Ho in Hn. by apply elem_names.
    - exists rels. split; [done|]. split; [done|]. intros rel. rewrite R3. split; [by intros (n & rel' & _ & _ & ?)|].
      intros Hr. destruct rel as [|n rel]; [inversion Hr|]. exists n, rel. split; [done|]. split; [|done]. rewrite Ho, elem_names. by inversion Hr.
  Qed.
  Lemma search_all dir k l : utf8 (txt dir) -> lead dir = Some (k, l) -> node_at f l = Some LDir ->
    exists rels, search (steps links f) dir = Ok (foldl push dir <$> rels) /\ NoDup rels /\ forall rel, rel ∈ rels <-> found_by f k l rel.
  Proof.
    intros Hu Hl Hdir. apply search_found; [|by apply from_utf8_spec|done|done|].
    - intros ->. done.
    - assert (k <= links) as Hk by (unfold CliLinks.lead in Hl; destruct (decide (dir = "")); [done|]; by eapply walk_le). unfold rest, steps.
      assert (k * S D <= links * S D) by (apply Nat.mul_le_mono_r; lia). cbn [Nat.mul]. lia.
  Qed.
End search.
(** ** Without links *)
Lemma found_plain f k l rel : ltree f -> no_links f -> node_at f l = Some LDir -> found_by f k l rel <-> exists dirs s c, s ≠ "" /\ rel = dirs ++ [s +:+ ".pkt"] /\ f !! (l ++ rel) = Some (LFile c).
Proof.
  intros Hf Hn Hl. assert (forall l n e, f !! (l ++ [n]) = Some e -> lwalk f k l [n] = Some (k, l ++ [n])) as Hw.
  { intros l1 n e He. rewrite walk_step; [|apply (ltree_names f Hf) in He as [H1 _]; apply Forall_app in H1 as [_ H1]; by apply Forall_cons in H1 as [? _]|by eapply ltree_parent].
    rewrite He. destruct e as [| |to]; [done..|]. by destruct (Hn (l1 ++ [n]) to). }
  split.
  - intros H. induction H as [k l n s [e He] Hno Hs ->|k l n k' l' rel [e He] W Hd Hr IH].
    + exists [], s. pose proof (Hno k _ (Hw _ _ _ He)) as Hx. assert (node_at f (l ++ [s +:+ ".pkt"]) = f !! (l ++ [s +:+ ".pkt"])) as E by by destruct l. rewrite E, He in Hx.
      destruct e as [c| |to]; [|done|by apply Hn in He]. by exists c.
    + rewrite (Hw _ _ _ He) in W. injection W as <- <-. destruct (IH Hd Hw) as (dirs & s & c & H1 & -> & H3). exists (n :: dirs), s, c. rewrite <- app_assoc in H3. done.
  - intros (dirs & s & c & Hs & -> & Hc). revert l Hl Hc. induction dirs as [|n dirs IH]; intros l Hl Hc; cbn [app] in *.
    + apply (found_file f k l _ s); [by eexists| |done|done]. intros k' l' W. rewrite (Hw _ _ _ Hc) in W. injection W as <- <-. assert (node_at f (l ++ [s +:+ ".pkt"]) = f !! (l ++ [s +:+ ".pkt"])) as -> by by destruct l. by rewrite Hc.
    + assert (forall more e, f !! ((l ++ [n]) ++ more) = Some e -> more ≠ [] -> f !! (l ++ [n]) = Some LDir) as Hup.
      { intros more. induction more as [|x more IHm] using rev_ind; [done|]. intros e He _. rewrite app_assoc in He. apply (ltree_parent f Hf) in He.
        destruct more as [|y more]; [rewrite app_nil_r in He; by destruct l|]. eapply IHm; [|done]. by destruct l. }
      assert (f !! (l ++ [n]) = Some LDir) as Hd by (apply (Hup (dirs ++ [s +:+ ".pkt"]) (LFile c)); [by rewrite <- app_assoc|by destruct dirs]).
      assert (node_at f (l ++ [n]) = Some LDir) as Hd' by by destruct l.
      eapply found_dir; [by eexists|by eapply Hw|done|]. apply IH; [done|]. by rewrite <- app_assoc.
Qed.
Lemma search_finds links here order f dir k l : ltree f -> (forall d names, order d names ≡ₚ names) -> utf8 (txt dir) ->
  path_to links here f dir k l -> node_at f l = Some LDir ->
  exists rels, search links here order f (steps links f) dir = Ok (foldl push dir <$> rels) /\ NoDup rels /\ forall rel, rel ∈ rels <-> finds f k l rel.
Proof.
  intros Hf Ho Hu Hl Hd. apply lead_path in Hl. destruct (search_all links here order f Hf Ho dir k l Hu Hl Hd) as (rels & R1 & R2 & R3). exists rels. split; [done|]. split; [done|].
  intros rel. by rewrite R3, finds_found.
Qed.
Lemma search_plain links here order f dir k l : ltree f -> no_links f -> (forall d names, order d names ≡ₚ names) -> utf8 (txt dir) ->
  path_to links here f dir k l -> node_at f l = Some LDir ->
  exists rels, search links here order f (steps links f) dir = Ok (foldl push dir <$> rels) /\ NoDup rels /\
    forall rel, rel ∈ rels <-> exists dirs s c, s ≠ "" /\ rel = dirs ++ [s +:+ ".pkt"] /\ f !! (l ++ rel) = Some (LFile c).
Proof.
  intros Hf Hn Ho Hu Hl Hd. apply lead_path in Hl. destruct (search_all links here order f Hf Ho dir k l Hu Hl Hd) as (rels & R1 & R2 & R3). exists rels. split; [done|]. split; [done|].
  intros rel. rewrite R3. by apply found_plain.
Qed.
