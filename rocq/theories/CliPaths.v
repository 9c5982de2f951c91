(** Lemmas on paths. *)
From Verif Require Export CompileProofs CliSpec.

Definition plainb (p : string) : Prop := SLASH ∉ txt p.
Definition good (p : string) : Prop := plainb p /\ junk p = false.
Lemma junk_spec p : junk p = true <-> p = "" \/ p = ".".
Proof. unfold junk. by rewrite bool_decide_eq_true. Qed.
Lemma junk_false p : junk p = false <-> p ≠ "" /\ p ≠ ".".
Proof. unfold junk. rewrite bool_decide_eq_false. tauto. Qed.
Lemma proper_good n : proper_name n -> good n.
Proof. intros (? & ? & ? & ?). split; [done|]. by apply junk_false. Qed.

Lemma txt_app a b : txt (a +:+ b) = txt a ++ txt b.
Proof. induction a as [|c a IH]; [done|]. rewrite sapp_cons. cbn. f_equal. exact IH. Qed.
Lemma plainb_cons c p : plainb (String c p) <-> c ≠ SLASH /\ plainb p.
Proof. unfold plainb. cbn. rewrite elem_of_cons. naive_solver. Qed.
Lemma plainb_app a b : plainb (a +:+ b) <-> plainb a /\ plainb b.
Proof. unfold plainb. rewrite txt_app, elem_of_app. tauto. Qed.

Lemma pieces_ne s : pieces s ≠ [].
Proof. destruct s as [|c s]; [done|]. cbn. destruct (decide _); [done|]. by destruct (pieces s). Qed.
Lemma pieces_plain s : Forall plainb (pieces s).
Proof.
  induction s as [|c s IH]; cbn; [constructor; [by apply not_elem_of_nil|done]|].
  destruct (decide (c = SLASH)) as [->|Hc]; [constructor; [by apply not_elem_of_nil|done]|].
  destruct (pieces s) as [|p ps] eqn:E; [by apply pieces_ne in E|]. inversion IH; subst. constructor; [by apply plainb_cons|done].
Qed.
Lemma pieces_one p : plainb p -> pieces p = [p].
Proof.
  induction p as [|c p IH]; [done|]. intros [Hc Hp]%plainb_cons. cbn. by rewrite decide_False, IH.
Qed.
Lemma pieces_slash a b : pieces (a +:+ String SLASH b) = pieces a ++ pieces b.
Proof.
  induction a as [|c a IH]; [rewrite sapp_nil_l; done|]. rewrite sapp_cons. cbn [pieces]. destruct (decide (c = SLASH)); [by rewrite IH|].
  rewrite IH. destruct (pieces a) eqn:E; [by apply pieces_ne in E|]. done.
Qed.
Lemma pieces_join ps : ps ≠ [] -> Forall plainb ps -> pieces (join "/" ps) = ps.
Proof.
  induction ps as [|p ps IH]; [done|]. intros _ [Hp Hps]%Forall_cons. destruct ps as [|q ps]; [by apply pieces_one|].
  change (join "/" (p :: q :: ps)) with (p +:+ String SLASH ("" +:+ join "/" (q :: ps))). rewrite pieces_slash, sapp_nil_l, (pieces_one p) by done.
  cbn [app]. f_equal. by apply IH.
Qed.
Lemma pieces_root s : has_root s = true <-> exists t, s = String SLASH t.
Proof. destruct s as [|c s]; cbn; [naive_solver|]. rewrite bool_decide_eq_true. naive_solver. Qed.
Lemma plain_no_root s : plainb s -> has_root s = false.
Proof. destruct s as [|c s]; [done|]. intros [H _]%plainb_cons. cbn. by rewrite bool_decide_eq_false. Qed.
(** a path has a root iff its first piece is empty and there are others *)
Lemma root_pieces s : has_root s = true <-> exists p ps, pieces s = "" :: p :: ps.
Proof.
  destruct s as [|c s]; cbn; [naive_solver|]. rewrite bool_decide_eq_true. destruct (decide (c = SLASH)) as [->|Hc].
  - destruct (pieces s) eqn:E; [by apply pieces_ne in E|]. naive_solver.
  - split; [done|]. destruct (pieces s) eqn:E; naive_solver.
Qed.
Lemma root_by_pieces s t : pieces s = pieces t -> has_root s = has_root t.
Proof.
  assert (forall s t, pieces s = pieces t -> has_root s = true -> has_root t = true) as Hg.
  { intros s' t' H Hr. apply root_pieces. apply root_pieces in Hr. by rewrite H in Hr. }
  intros H. destruct (has_root s) eqn:A; [by rewrite (Hg s t H A)|]. destruct (has_root t) eqn:B; [|done]. symmetry in H. by rewrite (Hg t s H B) in A.
Qed.

Lemma ends_in_slash_spec s : ends_in_slash s = true <-> exists d, s = d +:+ "/".
Proof.
  unfold ends_in_slash. split.
  - destruct (rev (list_ascii_of_string s)) as [|c r] eqn:E; [done|]. intros ->%bool_decide_eq_true. exists (string_of_list_ascii (rev r)).
    rewrite <- (string_of_list_ascii_of_string s). rewrite <- (rev_involutive (list_ascii_of_string s)), E. cbn [rev].
    clear E s. induction (rev r) as [|a l IH]; [done|]. cbn [string_of_list_ascii app]. by rewrite sapp_cons, <- IH.
  - intros [d ->]. change (list_ascii_of_string (d +:+ "/")) with (txt (d +:+ "/")). rewrite txt_app, rev_app_distr. done.
Qed.
Lemma root_app a b : a ≠ "" -> has_root (a +:+ b) = has_root a.
Proof. destruct a; [done|]. by rewrite sapp_cons. Qed.
Lemma app_ne a b : a ≠ "" -> a +:+ b ≠ "".
Proof. destruct a; [done|]. by rewrite sapp_cons. Qed.
Lemma app_ne_r a b : b ≠ "" -> a +:+ b ≠ "".
Proof. destruct a; [by rewrite sapp_nil_l|]. by rewrite sapp_cons. Qed.
(** the pieces of a path that was extended *)
Lemma pieces_push d n : plainb n -> exists pre, pieces (push d n) = pre ++ [n] /\
  ((d = "" /\ pre = []) \/ (d ≠ "" /\ pieces d = pre) \/ (d ≠ "" /\ pre ≠ [] /\ pieces d = pre ++ [""])).
Proof.
  intros Hn. unfold push. rewrite (plain_no_root n) by done. destruct (decide _) as [[->|Hd]|Hd].
  - exists []. rewrite sapp_nil_l, pieces_one by done. eauto.
  - apply ends_in_slash_spec in Hd as [e ->]. exists (pieces e).
    rewrite sapp_assoc, sapp_cons, sapp_nil_l. change "/"%char with SLASH. rewrite pieces_slash, (pieces_one n) by done. split; [done|].
    right. right. split; [by apply app_ne_r|]. split; [apply pieces_ne|]. by rewrite pieces_slash.
  - exists (pieces d). rewrite sapp_cons, sapp_nil_l. change "/"%char with SLASH. rewrite pieces_slash, (pieces_one n) by done. split; [done|].
    right. left. split; [|done]. intros ->. apply Hd. by left.
Qed.
Lemma root_push d n : plainb n -> has_root (push d n) = has_root d.
Proof.
  intros Hn. unfold push. rewrite (plain_no_root n) by done. destruct (decide _) as [[->|Hd]|Hd].
  - rewrite sapp_nil_l. by apply plain_no_root.
  - apply ends_in_slash_spec in Hd as [e ->]. rewrite (root_app (e +:+ "/")); [done|]. by apply app_ne_r.
  - rewrite root_app; [done|]. intros ->. apply Hd. by left.
Qed.
Lemma push_ne d n : n ≠ "" -> push d n ≠ "".
Proof.
  intros Hn. unfold push. destruct (has_root n); [done|]. destruct (decide _); repeat apply app_ne_r; done.
Qed.

(** ** the pieces that matter *)
Definition names_of (s : string) : list string := List.filter (fun p => negb (junk p)) (pieces s).
Lemma filter_one (n : string) : junk n = false -> List.filter (fun p => negb (junk p)) [n] = [n].
Proof. intros H. cbn. by rewrite H. Qed.
Lemma names_push d n : good n -> names_of (push d n) = names_of d ++ [n].
Proof.
  intros [Hn Hj]. destruct (pieces_push d n Hn) as (pre & E & H). unfold names_of. rewrite E, List.filter_app, (filter_one n Hj). f_equal.
  destruct H as [[-> ->]|[[_ ->]|(_ & _ & ->)]]; [done|done|]. rewrite List.filter_app. cbn. by rewrite app_nil_r.
Qed.
Lemma names_pushes ns d : Forall good ns -> names_of (foldl push d ns) = names_of d ++ ns.
Proof.
  revert d. induction ns as [|n ns IH]; intros d; [by rewrite app_nil_r|]. intros [Hn Hns]%Forall_cons. cbn [foldl].
  by rewrite IH, names_push, <- app_assoc by done.
Qed.
Lemma root_pushes ns d : Forall good ns -> has_root (foldl push d ns) = has_root d.
Proof.
  revert d. induction ns as [|n ns IH]; intros d; [done|]. intros [[Hn _] Hns]%Forall_cons. cbn [foldl]. rewrite IH by done. by apply root_push.
Qed.
Lemma names_of_good s : Forall good (names_of s).
Proof.
  unfold names_of. pose proof (pieces_plain s) as H. induction H as [|p ps Hp Hps IH]; [constructor|]. cbn. destruct (junk p) eqn:E; [done|].
  cbn. constructor; [by split|done].
Qed.
(** components and names *)
Definition head_of (s : string) : list component := if has_root s then [Root] else match pieces s with "." :: _ => [CurDir] | _ => [] end.
Definition conv (p : string) : component := if decide (p = "..") then ParentDir else Normal p.
Lemma components_names s : components s = head_of s ++ List.map conv (names_of s).
Proof.
  unfold components, head_of, names_of. f_equal. induction (pieces s) as [|p ps IH]; [done|]. cbn. unfold to_component, junk, conv in *.
  destruct (decide (p = "" \/ p = ".")) as [H|H]; [rewrite bool_decide_true by done; exact IH|]. rewrite bool_decide_false by done. cbn.
  rewrite <- IH. by destruct (decide (p = "..")).
Qed.
Lemma conv_str p : comp_str (conv p) = p.
Proof. unfold conv. by destruct (decide (p = "..")) as [->|]. Qed.
Lemma conv_proper n : proper_name n -> conv n = Normal n.
Proof. intros (_ & _ & H & _). unfold conv. by rewrite decide_False. Qed.
Lemma head_push d n : plainb n -> d ≠ "" -> head_of (push d n) = head_of d.
Proof.
  intros Hn Hd. unfold head_of. rewrite root_push by done. destruct (has_root d); [done|].
  destruct (pieces_push d n Hn) as (pre & E & H). rewrite E. destruct H as [[? _]|[[_ H]|(_ & Hp & H)]]; [done|..]; rewrite H.
  - destruct pre; [by apply pieces_ne in H|done].
  - by destruct pre.
Qed.
Lemma components_push d n : proper_name n -> d ≠ "" -> components (push d n) = components d ++ [Normal n].
Proof.
  intros Hn Hd. pose proof (proper_good n Hn) as Hg. rewrite !components_names, head_push, names_push by (done || apply Hg).
  rewrite List.map_app, <- app_assoc. cbn. by rewrite conv_proper.
Qed.
Lemma pushes_ne ns d : d ≠ "" -> Forall proper_name ns -> foldl push d ns ≠ "".
Proof. revert d. induction ns as [|n ns IH]; intros d Hd; [done|]. intros [Hn Hns]%Forall_cons. cbn [foldl]. apply IH; [|done]. apply push_ne, Hn. Qed.
Lemma components_pushes ns d : Forall proper_name ns -> d ≠ "" -> components (foldl push d ns) = components d ++ List.map Normal ns.
Proof.
  revert d. induction ns as [|n ns IH]; intros d; [by rewrite app_nil_r|]. intros [Hn Hns]%Forall_cons Hd. cbn [foldl].
  rewrite IH, components_push, <- app_assoc by (done || by apply push_ne, Hn). done.
Qed.
Lemma strip_base_app cs ds : strip_base (cs ++ ds) cs = Some ds.
Proof. induction cs as [|[] cs IH]; cbn [strip_base app]; try done; [by destruct ds|]. by rewrite decide_True. Qed.

(** ** the output path *)
Lemma map_conv_str ns : List.map comp_str (List.map conv ns) = ns.
Proof. induction ns as [|n ns IH]; [done|]. cbn. by rewrite conv_str, IH. Qed.
Lemma map_normal_str ns : List.map comp_str (List.map Normal ns) = ns.
Proof. induction ns as [|n ns IH]; [done|]. cbn. by rewrite IH. Qed.
(** the directory part, extended by [ns] *)
Definition stem_path (out : string) : string := collect (components out).
Lemma collect_app cs ds : collect (cs ++ ds) = foldl push (collect cs) (List.map comp_str ds).
Proof. unfold collect. by rewrite List.map_app, foldl_app. Qed.
Lemma collect_head out : collect (head_of out) = (if has_root out then "/" else match pieces out with "." :: _ => "." | _ => "" end).
Proof. unfold head_of. destruct (has_root out); [done|]. by repeat case_match. Qed.
Lemma stem_names out : names_of (stem_path out) = names_of out /\ has_root (stem_path out) = has_root out.
Proof.
  unfold stem_path. rewrite components_names, collect_app, map_conv_str. pose proof (names_of_good out) as Hg.
  rewrite names_pushes, root_pushes, collect_head by done. destruct (has_root out); [done|]. by repeat case_match.
Qed.
Lemma collect_names out ns : Forall good ns ->
  names_of (collect (components out ++ List.map Normal ns)) = names_of out ++ ns /\
  has_root (collect (components out ++ List.map Normal ns)) = has_root out.
Proof.
  intros Hn. destruct (stem_names out) as [H1 H2]. rewrite collect_app, map_normal_str, names_pushes, root_pushes by done.
  fold (stem_path out). by rewrite H1, H2.
Qed.

(** ** file names *)
Lemma split_last_dot_app b a : DOT ∉ txt a -> split_last_dot (b +:+ String DOT a) = Some (b, a).
Proof.
  intros Ha. assert (split_last_dot a = None) as Hn.
  { induction a as [|c a IH]; [done|]. cbn in Ha |- *. apply not_elem_of_cons in Ha as [H1 H2]. rewrite IH by done. by rewrite decide_False. }
  induction b as [|c b IH]; [rewrite sapp_nil_l; cbn [split_last_dot]; by rewrite Hn, decide_True|]. rewrite sapp_cons. cbn [split_last_dot]. by rewrite IH.
Qed.
Lemma split_last_dot_some n b a : split_last_dot n = Some (b, a) -> n = b +:+ String DOT a /\ DOT ∉ txt a.
Proof.
  assert (forall n, split_last_dot n = None -> DOT ∉ txt n) as Hn.
  { clear. induction n as [|c n IH]; cbn [split_last_dot txt list_ascii_of_string]; [intros _; apply not_elem_of_nil|].
    destruct (split_last_dot n) as [[]|]; [done|]. destruct (decide (c = DOT)); [done|]. intros _. apply not_elem_of_cons. split; [by apply not_eq_sym|by apply IH]. }
  revert b. induction n as [|c n IH]; intros b; cbn [split_last_dot]; [done|]. destruct (split_last_dot n) as [[b' a']|] eqn:E.
  - intros [= <- <-]. destruct (IH b' eq_refl) as [-> H]. split; [by rewrite sapp_cons|done].
  - destruct (decide (c = DOT)) as [->|]; [|done]. intros [= <- <-]. split; [by rewrite sapp_nil_l|by apply Hn].
Qed.
Lemma split_last_dot_ext b e : DOT ∉ txt e -> split_last_dot (b +:+ "." +:+ e) = Some (b, e).
Proof. intros H. rewrite sapp_cons, sapp_nil_l. by apply split_last_dot_app. Qed.
Definition dotless (e : string) : bool := bool_decide (DOT ∉ txt e).
Lemma name_ext_spec n e : dotless e = true -> name_ext n = Some e <-> exists s, s ≠ "" /\ n = s +:+ "." +:+ e.
Proof.
  intros He%bool_decide_eq_true. unfold name_ext. split.
  - destruct (split_last_dot n) as [[b a]|] eqn:E; [|done]. apply split_last_dot_some in E as [-> _].
    destruct (decide (b = "")); [done|]. intros [= ->]. exists b. split; [done|]. by rewrite sapp_cons, sapp_nil_l.
  - intros (s & Hs & ->). rewrite split_last_dot_ext by done. by rewrite decide_False.
Qed.
Lemma name_stem_ext s e : dotless e = true -> s ≠ "" -> name_stem (s +:+ "." +:+ e) = s.
Proof. intros He%bool_decide_eq_true Hs. unfold name_stem. rewrite split_last_dot_ext by done. by rewrite decide_False. Qed.
Lemma name_stem_part n : exists r, n = name_stem n +:+ r.
Proof.
  unfold name_stem. destruct (split_last_dot n) as [[b a]|] eqn:E; [|exists ""; by rewrite sapp_nil_r].
  destruct (decide (b = "")); [exists ""; by rewrite sapp_nil_r|]. apply split_last_dot_some in E as [-> _]. eauto.
Qed.
Lemma name_stem_ne n : n ≠ "" -> name_stem n ≠ "".
Proof. intros Hn. unfold name_stem. destruct (split_last_dot n) as [[b a]|]; [|done]. by destruct (decide (b = "")). Qed.

Lemma drop_junk_last pre n : junk n = false -> drop_while junk (rev (pre ++ [n])) = n :: rev pre.
Proof. intros H. rewrite rev_app_distr. cbn. by rewrite H. Qed.
Definition before (pre : list string) : string := match pre with [] => "" | _ => join "/" pre +:+ "/" end.
Lemma split_file_name_last s pre n : pieces s = pre ++ [n] -> junk n = false -> n ≠ ".." -> split_file_name s = Some (before pre, n).
Proof.
  intros E Hj Hd. unfold split_file_name. rewrite E, drop_junk_last, decide_False by done. f_equal. f_equal.
  destruct (rev pre) eqn:R; [by rewrite <- (rev_involutive pre), R|]. rewrite <- R, rev_involutive. destruct pre; [done|]. done.
Qed.
Lemma before_pieces pre m : Forall plainb pre -> plainb m -> pieces (before pre +:+ m) = pre ++ [m].
Proof.
  intros Hp Hm. destruct pre as [|p pre]; [rewrite sapp_nil_l; by apply pieces_one|]. unfold before.
  rewrite sapp_assoc, sapp_cons, sapp_nil_l. change "/"%char with SLASH. by rewrite pieces_slash, pieces_join, (pieces_one m).
Qed.
Lemma file_name_push d n : proper_name n -> file_name (push d n) = Some n.
Proof.
  intros Hn. destruct (pieces_push d n) as (pre & E & _); [apply Hn|]. unfold file_name. rewrite (split_file_name_last _ pre n); [done|done| |apply Hn].
  by apply proper_good.
Qed.
Lemma extension_push d n : proper_name n -> extension_of (push d n) = name_ext n.
Proof. intros Hn. unfold extension_of. by rewrite file_name_push. Qed.
Lemma proper_ext n s e : n = s +:+ "." +:+ e -> s ≠ "" -> proper_name n -> forall e', e' ≠ "" -> plainb e' -> proper_name (s +:+ "." +:+ e').
Proof.
  intros -> Hs (_ & _ & _ & Hn) e' He Hp. split; [by apply app_ne|]. destruct s as [|c s]; [done|].
  assert (forall x, plainb (String c s +:+ "." +:+ x) <-> plainb (String c s) /\ plainb x) as Hx.
  { intros x. rewrite !plainb_app. assert (plainb ".") by (unfold plainb; apply (bool_decide_unpack _); by vm_compute). tauto. }
  split; [|split].
  - rewrite sapp_cons. intros [= _ H]. by apply app_ne_r in H.
  - rewrite sapp_cons. intros [= -> H]. destruct s as [|c s]; [rewrite sapp_nil_l, sapp_cons, sapp_nil_l in H; by injection H|].
    rewrite sapp_cons in H. injection H as _ H. by apply app_ne_r in H.
  - apply Hx. apply Hx in Hn as [? _]. done.
Qed.
(** the path with its extension replaced *)
Lemma with_extension_last s pre n e : pieces s = pre ++ [n] -> junk n = false -> n ≠ ".." -> plainb e ->
  pieces (with_extension s e) = pre ++ [name_stem n +:+ "." +:+ e] /\ has_root (with_extension s e) = has_root s.
Proof.
  intros E Hj Hd He. unfold with_extension. rewrite (split_file_name_last _ pre n) by done.
  pose proof (pieces_plain s) as Hp. rewrite E in Hp. apply Forall_app in Hp as [Hp Hn]. apply Forall_cons in Hn as [Hn _].
  assert (plainb (name_stem n +:+ "." +:+ e)) as Hm.
  { rewrite !plainb_app. destruct (name_stem_part n) as [r Hr]. rewrite Hr, plainb_app in Hn. split; [apply Hn|]. split; [|done].
    unfold plainb. apply (bool_decide_unpack _). by vm_compute. }
  assert (pieces (before pre +:+ name_stem n +:+ "." +:+ e) = pre ++ [name_stem n +:+ "." +:+ e]) as Hq by by apply before_pieces.
  split; [done|]. apply junk_false in Hj as [Hj1 _]. destruct pre as [|p pre].
  - rewrite (plain_no_root (before _ +:+ _)); [|by rewrite sapp_nil_l]. cbn [app] in E. symmetry.
    destruct (has_root s) eqn:R; [|done]. apply root_pieces in R as (? & ? & R). by rewrite E in R.
  - assert (forall s t x y, pieces s = (p :: pre) ++ [x] -> pieces t = (p :: pre) ++ [y] -> has_root s = true -> has_root t = true) as Hg.
    { intros s1 s2 x y E1 E2 R. apply root_pieces. apply root_pieces in R as (q & qs & R). rewrite E1 in R. cbn [app] in R, E2. injection R as -> R. rewrite E2.
      destruct pre; [by eexists _, []|]. by eexists _, _. }
    destruct (has_root s) eqn:A; [by rewrite (Hg _ _ _ _ E Hq A)|]. destruct (has_root (before _ +:+ _)) eqn:B; [|done].
    by rewrite (Hg _ _ _ _ Hq E B) in A.
Qed.
Lemma drop_while_split {A} (f : A -> bool) l : exists pre, l = pre ++ drop_while f l /\ Forall (fun x => f x = true) pre /\
  match drop_while f l with x :: _ => f x = false | [] => True end.
Proof.
  induction l as [|a l (pre & E & H1 & H2)]; [by exists []|]. cbn. destruct (f a) eqn:Ha; [|by exists []].
  exists (a :: pre). split; [cbn; by rewrite <- E|]. split; [by constructor|done].
Qed.
Lemma filter_junk ps : Forall (fun p => junk p = true) ps -> List.filter (fun p => negb (junk p)) ps = [].
Proof. induction 1 as [|p ps Hp _ IH]; [done|]. cbn. by rewrite Hp. Qed.
(** the directory of a path *)
Lemma parent_last s pre m : pieces s = pre ++ [m] -> junk m = false ->
  exists q, parent s = Some q /\ names_of q = List.filter (fun p => negb (junk p)) pre /\ has_root q = has_root s.
Proof.
  intros E Hj. unfold parent. rewrite E, drop_junk_last by done.
  pose proof (pieces_plain s) as Hp. rewrite E in Hp. apply Forall_app in Hp as [Hp _].
  destruct (drop_while_split junk (rev pre)) as (ju & Hs & H1 & H2). destruct (drop_while junk (rev pre)) as [|x xs] eqn:D.
  - eexists. split; [done|]. rewrite rev_involutive. rewrite app_nil_r in Hs.
    assert (List.filter (fun p => negb (junk p)) pre = []) as ->.
    { apply filter_junk. rewrite <- (rev_involutive pre), Hs. by apply List.Forall_rev. }
    destruct (has_root s) eqn:R; [done|]. by repeat case_match.
  - assert (pre = rev (x :: xs) ++ rev ju) as Hpre by by rewrite <- (rev_involutive pre), Hs, rev_app_distr.
    assert (pieces (join "/" (rev (x :: xs))) = rev (x :: xs)) as Hq.
    { apply pieces_join; [cbn; by destruct (rev xs)|]. rewrite Hpre in Hp. by apply Forall_app in Hp as [Hp _]. }
    eexists. split; [done|]. split.
    + unfold names_of. rewrite Hq, Hpre, List.filter_app, (filter_junk (rev ju)), app_nil_r; [done|]. by apply List.Forall_rev.
    + destruct (rev (x :: xs)) as [|y ys] eqn:Y; [cbn in Y; by destruct (rev xs)|].
      assert (ys = [] -> junk y = false) as Hone.
      { intros ->. apply (f_equal (@rev string)) in Y. rewrite rev_involutive in Y. by injection Y as -> ->. }
      rewrite Hpre in E. cbn [app] in E.
      destruct (has_root s) eqn:A.
      * apply root_pieces in A as (p & ps & A). rewrite E in A. injection A as -> A. apply root_pieces. rewrite Hq. destruct ys; [|by eexists _, _].
        by specialize (Hone eq_refl).
      * destruct (has_root (join _ _)) eqn:B; [|done]. apply root_pieces in B as (p & ps & B). rewrite Hq in B. injection B as -> ->.
        rewrite <- A. symmetry. apply root_pieces. rewrite E. by eexists _, _.
Qed.
