(** When the command panics: exactly if a directory below the input has a name that is not UTF-8 and the walk gets there. *)
From Verif Require Export CliProofs CliWitness.

Lemma file_calm E f : sane E f -> forall path out l c f' r, input_file E f path l c -> run E path out f = (f', r) -> forall t, r ≠ Panic t.
Proof.
  intros Hs path out l c f' r Hin Hrun. destruct (fault E 0 l) eqn:Ff.
  { destruct Hin as [R He]. unfold run, main, start, metadata, tick in Hrun. cbn [w_op w_fs] in Hrun. rewrite (inspect_eq E f 0 path l _ R He), Ff in Hrun. by injection Hrun as <- <-. }
  destruct (file_stem_some E f path l c Hs Hin) as (m & n & pre & -> & _).
  destruct (file_run E f path out m n c f' r Hs Hin Ff Hrun) as [[_ [? ->]]|(_ & t & _ & s & op & w & _ & Sv & _)]; [done|].
  apply save_one_any in Sv as ([[? ->]|[? ->]] & _); [done..|apply Hs|apply Hs].
Qed.

(** ** A walk that gets there *)
Definition to_front (d : string) (l : list string) : list string := filter (fun x => x = d) l ++ filter (fun x => x ≠ d) l.
Lemma to_front_perm d l : to_front d l ≡ₚ l.
Proof.
  unfold to_front. induction l as [|x l IH]; [done|]. rewrite !filter_cons. destruct (decide (x = d)) as [Hx|Hx].
  - rewrite decide_False by naive_solver. cbn. by rewrite IH.
  - rewrite decide_True by done. rewrite <- Permutation_middle. by rewrite IH.
Qed.
Lemma to_front_in d l : d ∈ l -> exists rest, to_front d l = d :: rest.
Proof.
  intros H. unfold to_front. destruct (filter (fun x => x = d) l) as [|x xs] eqn:F.
  - assert (d ∈ filter (fun x => x = d) l) as Hf by by apply elem_of_list_filter. rewrite F in Hf. by apply elem_of_nil in Hf.
  - assert (x ∈ filter (fun x => x = d) l) as Hx by (rewrite F; left). apply elem_of_list_filter in Hx as [-> _]. by eexists.
Qed.
(** nothing fails, and each directory on the way [ds] is listed first *)
Definition led (E : env) (ds : list string) : env :=
  {| cwd := cwd E; fault := fun _ _ => false; blind := fun _ _ => false; torn := fun _ => None;
     listing := fun n => to_front (nth ((n - 2) / 4) ds "");
     hash1 := hash1 E; hash2 := hash2 E; version := version E; clock := clock E |}.
Lemma led_sane E f ds : sane E f -> sane (led E ds) f.
Proof. intros [H1 H2 H3 H4 H5]. split; [done|done| |done|done]. intros n l. apply to_front_perm. Qed.

Section led.
  Context (E : env) (f : fs) (Hs : sane E f) (ds : list string).
  Lemma led_panic bad good i dir l fuel : drop i ds = good ++ [bad] -> Forall (fun n => utf8 (txt n)) good -> ~ utf8 (txt bad) ->
    f !! (l ++ good ++ [bad]) = Some Dir -> to_str_ok dir = true -> dir ≠ "" -> resolve E f dir = Some l -> length good < fuel ->
    exists w m, visit_files (led E ds) fuel dir (World f (1 + 4 * i)) = (w, Panic m).
  Proof.
    revert i dir l fuel. induction good as [|g good IH]; intros i dir l fuel Hdrop Hg Hb Hd Hu Hne Hl Hf.
    all: destruct fuel as [|fuel]; [cbn in Hf; lia|].
    all: match type of Hdrop with _ = ?x => assert (exists n rest, x = n :: rest /\ nth i ds "" = n) as (n & rest & Hx & Hnth) end.
    1, 3: match type of Hdrop with _ = ?x => destruct x as [|n rest] eqn:Hx; [done|] end; exists n, rest; (split; [done|]);
      apply nth_lookup_Some; rewrite <- (Nat.add_0_r i), <- lookup_drop; by rewrite Hdrop.
    all: injection Hx as -> Hrest.
    all: assert (entry_at f l = Some Dir) as Hdir
      by (eapply tree_up; [apply Hs| |rewrite <- (entry_ne' f) in Hd; [exact Hd|by destruct l]]; done).
    all: assert (entry_at f (l ++ [n]) = Some Dir) as Hn.
    1: by rewrite entry_ne.
    2: { destruct good as [|h good]; cbn [app] in Hd.
         - eapply (tree_up f (l ++ [n]) [bad]); [apply Hs|done|]. rewrite <- app_assoc, entry_ne' by by destruct l. exact Hd.
         - eapply (tree_up f (l ++ [n]) (h :: good ++ [bad])); [apply Hs|done|]. rewrite <- app_assoc, entry_ne' by by destruct l. exact Hd. }
    all: pose proof (child_proper E f Hs l n Dir Hn) as Hp; pose proof (resolve_push E f dir n l Hne Hp Hl Hdir) as Hpush.
    all: cbn [visit_files]; unfold ibind at 1; unfold metadata, tick; cbn [w_op w_fs]; rewrite (inspect_eq (led E ds) f _ dir l Dir Hl Hdir); cbn [led fault rbind snd].
    all: unfold ibind at 1; unfold read_dir, tick; cbn [w_op w_fs]; rewrite (inspect_eq (led E ds) f _ dir l Dir Hl Hdir); cbn [led fault rbind fst snd listing].
    all: assert ((S (1 + 4 * i) - 2) / 4 = i) as -> by (replace (S (1 + 4 * i) - 2) with (i * 4) by lia; by apply Nat.div_mul).
    all: rewrite Hnth; destruct (to_front_in n (children f l)) as [more Hmore]; [apply elem_of_children; rewrite <- entry_ne, Hn; by eexists|]; rewrite Hmore.
    all: cbn [visit_entries]; unfold ibind at 1; unfold next_entry, tick; cbn [w_op w_fs]; rewrite (inspect_eq (led E ds) f _ dir l Dir Hl Hdir); cbn [led fault rbind].
    all: unfold ibind at 1; unfold is_dir, tick; cbn [w_op w_fs]; change (resolve (led E ds) f) with (resolve E f); rewrite Hpush, Hn; cbn [led blind negb].
    all: rewrite to_str_push_iff by done; unfold ibind at 1.
    - destruct (from_utf8 (txt n)) eqn:U; [by apply from_utf8_spec in U|]. by eexists _, _.
    - apply Forall_cons in Hg as [Hg1 Hg2]. assert (from_utf8 (txt n) = true) as U by by apply from_utf8_spec. rewrite U.
      destruct (IH (S i) (push dir n) (l ++ [n]) fuel) as (w & m & Hv); [|done|done| | | | | |].
      + rewrite <- Nat.add_1_r, <- drop_drop, Hdrop. done.
      + by rewrite <- app_assoc.
      + by rewrite to_str_push_iff.
      + apply push_ne, Hp.
      + done.
      + cbn in Hf. lia.
      + replace (S (S (S (S (1 + 4 * i))))) with (1 + 4 * S i) by lia. rewrite Hv. by eexists _, _.
  Qed.
End led.

Lemma first_bad ns : Forall (fun n => utf8 (txt n)) ns \/ exists good bad rest, ns = good ++ bad :: rest /\ Forall (fun n => utf8 (txt n)) good /\ ~ utf8 (txt bad).
Proof.
  induction ns as [|n ns IH]; [by left|]. destruct (from_utf8 (txt n)) eqn:U.
  - apply from_utf8_spec in U. destruct IH as [IH|(good & bad & rest & -> & H1 & H2)]; [left; by constructor|]. right. exists (n :: good), bad, rest. split; [done|]. split; [by constructor|done].
  - right. exists [], n, ns. split; [done|]. split; [constructor|]. rewrite <- from_utf8_spec. by rewrite U.
Qed.
Lemma panic_iff E f path out base : sane E f -> input_dir E f path base -> utf8 (txt path) ->
  (forall E' f' r t, sane E' f -> cwd E' = cwd E -> run E' path out f = (f', r) -> r ≠ Panic t) <-> dirs_named f base.
Proof.
  intros Hs [R He] Hu. split.
  - intros H dirs Hd. destruct (first_bad dirs) as [Hn|(good & bad & rest & -> & Hg & Hb)]; [done|exfalso].
    assert (f !! (base ++ good ++ [bad]) = Some Dir) as Hbad.
    { destruct rest as [|x rest]; [done|]. rewrite app_assoc, <- entry_ne, <- app_assoc. eapply (tree_up f _ (x :: rest)); [apply Hs|done|].
      rewrite <- !app_assoc. cbn [app]. rewrite entry_ne'; [exact Hd|]. by destruct base, good. }
    destruct (led_panic E f Hs (good ++ [bad]) bad good 0 path base (S (depth f))) as (w & m & Hv); [done..|by apply from_utf8_spec|by intros ->|done| |].
    { apply depth_spec in Hbad. rewrite !app_length in Hbad. cbn in Hbad. lia. }
    destruct (run (led E (good ++ [bad])) path out f) as [f' r] eqn:Hrun.
    apply (H (led E (good ++ [bad])) f' r m); [by apply led_sane|done|done|].
    unfold run, main, start, metadata, tick in Hrun. cbn [w_op w_fs] in Hrun. rewrite (inspect_eq (led E (good ++ [bad])) f 0 path base _ R He) in Hrun. cbn [led fault rbind snd] in Hrun.
    unfold ibind at 1, run_all in Hrun. cbn [w_fs] in Hrun. cbn [Nat.add Nat.mul] in Hv. rewrite Hv in Hrun. by injection Hrun as <- <-.
  - intros Hw E' f' r t Hs' Hc Hrun. eapply (run_any E' f path out f' r); [done..|].
    intros base' [R' _]. unfold resolve in *. rewrite Hc, R in R'. by injection R' as <-.
Qed.

(** a file with such a name, and beside the input a directory *)
Definition rough_tree : fs := list_to_map [(["in"], Dir); (["in"; odd_name +:+ ".pkt"], File good_text); (["in"; "sub"], Dir); ([odd_name], Dir)].
Lemma rough_named : dirs_named rough_tree ["in"].
Proof.
  intros dirs Hd. apply elem_of_map_to_list in Hd.
  assert (Forall (fun p => p.2 = Dir -> p.1 = [odd_name] \/ Forall (fun n => from_utf8 (txt n) = true) p.1) (map_to_list rough_tree)) as H.
  { assert (Forall (fun p : location * entry => match p.2 with Dir => bool_decide (p.1 = [odd_name]) || bool_decide (Forall (fun n => from_utf8 (txt n) = true) p.1) | _ => true end = true) (map_to_list rough_tree)) as H
      by (apply (bool_decide_unpack _); by vm_compute).
    eapply Forall_impl; [exact H|]. intros [p e] Hp He. cbn in *. subst e. apply orb_true_iff in Hp as [Hp%bool_decide_eq_true|Hp%bool_decide_eq_true]; [by left|by right]. }
  rewrite Forall_forall in H. destruct (H _ Hd eq_refl) as [Hx|Hx]; cbn [fst app] in Hx; [done|]. apply Forall_cons in Hx as [_ Hx].
  eapply Forall_impl; [exact Hx|]. intros n Hn. by apply from_utf8_spec.
Qed.
Lemma odd_unnamed : ~ dirs_named odd_tree ["in"].
Proof.
  intros H. assert (Forall (fun n => utf8 (txt n)) [odd_name]) as Hf by (apply H; by vm_compute). apply Forall_cons in Hf as [Hf _].
  apply from_utf8_spec in Hf. by vm_compute in Hf.
Qed.
