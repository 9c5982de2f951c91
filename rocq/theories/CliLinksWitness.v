(** A directory with one schema and two links to itself. *)
From Verif Require Export CliLinksProofs CliWitness.

Definition twin : lfs := <[["in"] := LDir]> (<[["in"; "a.pkt"] := LFile good_text]> (<[["in"; "x"] := LLink "/in"]> (<[["in"; "y"] := LLink "."]> ∅))).
Lemma twin_at l e : twin !! l = Some e <-> (l, e) ∈ [(["in"], LDir); (["in"; "a.pkt"], LFile good_text); (["in"; "x"], LLink "/in"); (["in"; "y"], LLink ".")].
Proof.
  unfold twin. rewrite !lookup_insert_Some, lookup_empty. rewrite !elem_of_cons, elem_of_nil. split.
  - intros [[<- <-]|[_ [[<- <-]|[_ [[<- <-]|[_ [[<- <-]|[_ H]]]]]]]]; [tauto..|done].
  - intros [[= -> ->]|[[= -> ->]|[[= -> ->]|[[= -> ->]|[]]]]]; [by left|right; split; [done|by left]|right; split; [done|right; split; [done|by left]]|right; split; [done|right; split; [done|right; split; [done|by left]]]].
Qed.
Lemma twin_tree : ltree twin.
Proof.
  split.
  - by vm_compute.
  - intros l e H%twin_at. rewrite !elem_of_cons, elem_of_nil in H.
    assert (forall n, n ∈ ["in"; "a.pkt"; "x"; "y"] -> proper_name n /\ utf8 (txt n)) as Hn.
    { intros n Hn. rewrite !elem_of_cons, elem_of_nil in Hn. destruct Hn as [->|[->|[->|[->|[]]]]]; (split; [by apply proper_nameb_spec|by apply from_utf8_spec]). }
    destruct H as [[= -> ->]|[[= -> ->]|[[= -> ->]|[[= -> ->]|[]]]]]; (split; repeat (apply Forall_cons; split; [apply Hn; set_solver|]); constructor).
  - intros l n e H%twin_at. rewrite !elem_of_cons, elem_of_nil in H. destruct H as [[= H _]|[[= H _]|[[= H _]|[[= H _]|[]]]]].
    + by destruct l as [|? [|? ?]]; simplify_eq/=.
    + by destruct l as [|? [|? [|? ?]]]; simplify_eq/=.
    + by destruct l as [|? [|? [|? ?]]]; simplify_eq/=.
    + by destruct l as [|? [|? [|? ?]]]; simplify_eq/=.
Qed.
Fixpoint words (k : nat) : list (list string) :=
  ["a.pkt"] :: match k with O => [] | S k => (cons "x" <$> words k) ++ (cons "y" <$> words k) end.
Lemma words_length k : S (length (words k)) = 2 ^ S k.
Proof. induction k as [|k IH]; [done|]. cbn [words]. cbn [length]. rewrite app_length, !fmap_length. rewrite (Nat.pow_succ_r' 2 (S k)), <- IH. lia. Qed.
Lemma words_nodup k : NoDup (words k).
Proof.
  induction k as [|k IH]; [apply NoDup_singleton|]. cbn [words]. apply NoDup_cons. split.
  - rewrite elem_of_app, !elem_of_list_fmap. by intros [(? & ? & _)|(? & ? & _)].
  - apply NoDup_app. split; [apply NoDup_fmap_2; [by intros ? ? [= ?]|done]|]. split; [|apply NoDup_fmap_2; [by intros ? ? [= ?]|done]].
    intros w (w1 & -> & _)%elem_of_list_fmap (w2 & ? & _)%elem_of_list_fmap. done.
Qed.
Lemma twin_step k n : lwalk twin (S k) ["in"] [n] = if decide (n = "x" \/ n = "y") then Some (k, ["in"]) else lwalk twin (S k) ["in"] [n].
Proof.
  destruct (decide _) as [[-> | ->]|]; [..|done].
  - cbn [lwalk]. destruct k; by vm_compute.
  - cbn [lwalk]. destruct k; by vm_compute.
Qed.
Lemma twin_finds k rel : found_by twin k ["in"] rel <-> rel ∈ words k.
Proof.
  assert (forall n, is_Some (twin !! (["in"] ++ [n])) -> n = "a.pkt" \/ n = "x" \/ n = "y") as Hn.
  { intros n [e H%twin_at]. rewrite !elem_of_cons, elem_of_nil in H. cbn [app] in H. destruct H as [[= ? _]|[[= -> _]|[[= -> _]|[[= -> _]|[]]]]]; tauto. }
  assert (forall k, lwalk twin k ["in"] ["a.pkt"] = Some (k, ["in"; "a.pkt"])) as Ha by (intros [|k']; by vm_compute).
  assert (forall k, found_by twin k ["in"] ["a.pkt"]) as Hf.
  { intros k'. apply (found_file twin k' _ _ "a"); [by eexists| |done|done]. intros k1 l1. rewrite Ha. intros [= <- <-]. by vm_compute. }
  assert (forall s, s ≠ "" -> s +:+ ".pkt" ≠ "x" /\ s +:+ ".pkt" ≠ "y") as Hs.
  { intros [|c [|c' s]] _; [split..|]; try done; split; done. }
  revert rel. induction k as [|k IH]; intros rel; cbn [words].
  - rewrite elem_of_list_singleton. split; [|by intros ->]. intros H. inversion H as [? ? n s Hi _ Hs' ->|? ? n k' l' rel' Hi W Hd Hr]; subst.
    + destruct (Hn _ Hi) as [->|[Hx|Hy]]; [done|by destruct (Hs s Hs')..].
    + destruct (Hn _ Hi) as [->|[-> | ->]]; [rewrite Ha in W; injection W as <- <-; done|by vm_compute in W..].
  - rewrite elem_of_cons, elem_of_app, !elem_of_list_fmap. split.
    + intros H. inversion H as [? ? n s Hi _ Hs' ->|? ? n k' l' rel' Hi W Hd Hr]; subst.
      * destruct (Hn _ Hi) as [->|[Hx|Hy]]; [by left|by destruct (Hs s Hs')..].
      * destruct (Hn _ Hi) as [->|[-> | ->]]; [rewrite Ha in W; injection W as <- <-; done|..]; right; [left|right]; exists rel'; (split; [done|]); apply IH;
          rewrite twin_step in W; rewrite decide_True in W by tauto; by injection W as <- <-.
    + intros [->|[(w & -> & Hw%IH)|(w & -> & Hw%IH)]]; [done|..]; (eapply found_dir; [by eexists|rewrite twin_step, decide_True by tauto; done|done|done]).
Qed.
Lemma twin_search links order : (forall d l, order d l ≡ₚ l) -> exists found, search links [] order twin (steps links twin) "in" = Ok found /\ S (length found) = 2 ^ S links.
Proof.
  intros Ho. destruct (search_all links [] order twin twin_tree Ho "in" links ["in"]) as (rels & R1 & R2 & R3); [by apply from_utf8_spec|destruct links; by vm_compute|done|].
  exists (foldl push "in" <$> rels). split; [done|]. rewrite fmap_length. rewrite <- words_length. f_equal. apply Permutation_length. apply NoDup_Permutation; [done|apply words_nodup|].
  intros rel. by rewrite R3, twin_finds.
Qed.
Lemma once_false : exists f dir only, ltree f /\ (forall l c, f !! l = Some (LFile c) -> l = only) /\ size f = 4 /\
  forall links order, (forall d names, order d names ≡ₚ names) -> path_to links [] f dir links [dir] /\ node_at f [dir] = Some LDir /\
    exists found, search links [] order f (steps links f) dir = Ok found /\ S (length found) = 2 ^ S links.
Proof.
  exists twin, "in", ["in"; "a.pkt"]. split; [apply twin_tree|]. split.
  { intros l c H%twin_at. rewrite !elem_of_cons, elem_of_nil in H. naive_solver. }
  split; [by vm_compute|]. intros links order Ho. split; [apply lead_path; destruct links; by vm_compute|]. split; [done|]. by apply twin_search.
Qed.
(** No links. *)
Definition unlinked : lfs := <[["in"] := LDir]> (<[["in"; "a.pkt"] := LFile good_text]> (<[["in"; "b.txt"] := LFile (T "")]> ∅)).
Lemma unlinked_at l e : unlinked !! l = Some e <-> (l, e) ∈ [(["in"], LDir); (["in"; "a.pkt"], LFile good_text); (["in"; "b.txt"], LFile (T ""))].
Proof.
  unfold unlinked. rewrite !lookup_insert_Some, lookup_empty. rewrite !elem_of_cons, elem_of_nil. split.
  - intros [[<- <-]|[_ [[<- <-]|[_ [[<- <-]|[_ H]]]]]]; [tauto..|done].
  - intros [[= -> ->]|[[= -> ->]|[[= -> ->]|[]]]]; [by left|right; split; [done|by left]|right; split; [done|right; split; [done|by left]]].
Qed.
Lemma unlinked_tree : ltree unlinked.
Proof.
  split.
  - by vm_compute.
  - intros l e H%unlinked_at. rewrite !elem_of_cons, elem_of_nil in H.
    assert (forall n, n ∈ ["in"; "a.pkt"; "b.txt"] -> proper_name n /\ utf8 (txt n)) as Hn.
    { intros n Hn. rewrite !elem_of_cons, elem_of_nil in Hn. destruct Hn as [->|[->|[->|[]]]]; (split; [by apply proper_nameb_spec|by apply from_utf8_spec]). }
    destruct H as [[= -> ->]|[[= -> ->]|[[= -> ->]|[]]]]; (split; repeat (apply Forall_cons; split; [apply Hn; set_solver|]); constructor).
  - intros l n e H%unlinked_at. rewrite !elem_of_cons, elem_of_nil in H. destruct H as [[= H _]|[[= H _]|[[= H _]|[]]]].
    + by destruct l as [|? [|? ?]]; simplify_eq/=.
    + by destruct l as [|? [|? [|? ?]]]; simplify_eq/=.
    + by destruct l as [|? [|? [|? ?]]]; simplify_eq/=.
Qed.
Lemma unlinked_links : no_links unlinked.
Proof. intros l to H%unlinked_at. rewrite !elem_of_cons, elem_of_nil in H. naive_solver. Qed.
