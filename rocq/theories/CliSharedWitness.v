(** Another process for the Examples of C112: it spoils a schema once that has been read, and removes nothing. *)
From Verif Require Export CliSharedEnds CliWitness.

Definition rival (n : nat) (f : fs) : fs :=
  if decide (6 <= n /\ entry_at f ["in"] = Some Dir /\ f !! ["in"; "a.pkt"] ≠ Some Dir) then <[["in"; "a.pkt"] := File bad_text]> f else f.
Definition shared_tree : fs := list_to_map [(["in"], Dir); (["in"; "a.pkt"], File good_text)].
Lemma rival_tree : keeps_tree rival.
Proof. intros n f Hf. unfold rival. destruct (decide _) as [(_ & Hd & Hn)|]; [|done]. apply (tree_insert f ["in"] "a.pkt"); [done|done|by apply proper_nameb_spec|done]. Qed.
Lemma rival_ts : spares_ts rival.
Proof.
  intros n f l (m & s & Hs & ->). unfold rival. destruct (decide _); [|done]. apply lookup_insert_ne. intros H. change ["in"; "a.pkt"] with (["in"] ++ ["a.pkt"]) in H. apply app_inj_tail in H as [_ H].
  assert (name_ext (s +:+ ".ts") = Some "ts") as Hx by (apply name_ext_spec; [done|by exists s]). by rewrite <- H in Hx.
Qed.
Lemma depth_le (f : fs) D : 0 < D -> (forall l e, f !! l = Some e -> length l < D) -> depth f <= D.
Proof.
  intros HD H. unfold depth. assert (forall L : list (location * entry), (forall p, p ∈ L -> length p.1 < D) -> foldr (fun p d => S (length p.1) `max` d) 1 L <= D) as HL.
  { induction L as [|p L IH]; intros HL; cbn [foldr]; [done|]. apply Nat.max_lub; [apply HL; by left|apply IH; intros q Hq; apply HL; by right]. }
  apply HL. intros [l e] Hp%elem_of_map_to_list. by eapply H.
Qed.
Lemma rival_depth D : 3 <= D -> keeps_depth D rival.
Proof.
  intros HD n f Hf. unfold rival. destruct (decide _); [|done]. apply depth_le; [lia|]. intros l e [[<- _]|[_ Hl]]%lookup_insert_Some; [cbn; lia|]. apply depth_spec in Hl. lia.
Qed.
Definition wrote_good (w : CliShared.place) : bool :=
  match p_events w, compile_io calm good_text (World ∅ 0) with
  | [Read _ c; Mkdir l; Wrote m t], (_, Ok code) => bool_decide (c = good_text /\ l = ["out"] /\ m = ["out"; "a.ts"] /\ t = txt code)
  | _, _ => false
  end.
(** A process that makes a directory in the deepest one before each operation. *)
Definition chain (n : nat) : fs := list_to_map ((fun i => (replicate (S i) "d", Dir)) <$> seq 0 (S n)).
Definition digger (n : nat) (_ : fs) : fs := chain n.
Lemma chain_at n l e : chain n !! l = Some e <-> e = Dir /\ exists i, i <= n /\ l = replicate (S i) "d".
Proof.
  unfold chain. assert (NoDup ((fun i => (replicate (S i) "d", Dir)) <$> seq 0 (S n)).*1) as Hn.
  { rewrite <- list_fmap_compose. apply NoDup_fmap_2; [|apply NoDup_seq]. intros i j H. apply (f_equal length) in H. unfold compose in H. cbn [fst] in H. rewrite !replicate_length in H. lia. }
  rewrite <- elem_of_list_to_map by done. rewrite elem_of_list_fmap. split.
  - intros (i & [= -> ->] & Hi%elem_of_seq). split; [done|]. exists i. split; [lia|done].
  - intros (-> & i & Hi & ->). exists i. split; [done|]. apply elem_of_seq. lia.
Qed.
Lemma chain_dir n i : i <= S n -> entry_at (chain n) (replicate i "d") = Some Dir.
Proof. destruct i as [|i]; [done|]. intros Hi. apply chain_at. split; [done|]. exists i. split; [lia|done]. Qed.
Lemma chain_children n i : i <= n -> children (chain n) (replicate i "d") = ["d"].
Proof.
  intros Hi. apply Permutation_singleton_r. apply NoDup_Permutation; [apply children_nodup|apply NoDup_singleton|]. intros x. rewrite elem_of_children, elem_of_list_singleton. split.
  - intros [e H]. apply chain_at in H as (_ & j & _ & H). destruct j as [|j].
    + destruct i as [|i]; [by injection H|]. by destruct i.
    + change (replicate (S (S j)) "d") with ("d" :: replicate (S j) "d") in H. rewrite (replicate_cons_app (S j)) in H. by apply app_inj_tail in H as [_ ->].
  - intros ->. exists Dir. apply chain_at. split; [done|]. exists i. split; [done|]. by rewrite <- replicate_cons_app.
Qed.
Lemma digger_tree : keeps_tree digger.
Proof.
  intros n f _. unfold digger. split.
  - destruct (chain n !! []) eqn:H; [|done]. by apply chain_at in H as (_ & i & _ & H).
  - intros l e (_ & i & _ & ->)%chain_at. apply Forall_replicate. by apply proper_nameb_spec.
  - intros l x e (_ & i & Hi & H)%chain_at. change (replicate (S i) "d") with ("d" :: replicate i "d") in H. rewrite (replicate_cons_app i) in H. apply app_inj_tail in H as [-> _]. apply chain_dir. lia.
Qed.
Fixpoint deep (k : nat) : string := match k with O => "d" | S k => push (deep k) "d" end.
Lemma deep_ne k : deep k ≠ "". Proof. destruct k; [done|]. by apply push_ne. Qed.
Lemma deep_resolves k n : k <= n -> resolve calm (chain n) (deep k) = Some (replicate (S k) "d").
Proof.
  induction k as [|k IH]; intros Hk; [done|]. cbn [deep]. rewrite (resolve_push _ _ _ _ (replicate (S k) "d")); [by rewrite <- replicate_cons_app|apply deep_ne|by apply proper_nameb_spec|apply IH; lia|].
  apply chain_dir. lia.
Qed.
Lemma deep_str k : to_str_ok (deep k) = true.
Proof. induction k as [|k IH]; [done|]. cbn [deep]. apply to_str_push; [done|]. by apply from_utf8_spec. Qed.
Lemma deep_inspect k n m : k <= m -> inspect calm n (chain m) (deep k) = Ok (replicate (S k) "d", Dir).
Proof. intros Hk. by rewrite (inspect_eq calm (chain m) n _ _ _ (deep_resolves k m Hk) (chain_dir m (S k) ltac:(lia))). Qed.
Definition dug (w : CliShared.place) : CliShared.place := Place (chain (p_op w)) (S (p_op w)) (p_events w ++ []).
Lemma dig_metadata k w : k <= p_op w -> hmetadata calm digger (deep k) w = (dug w, Ok Dir).
Proof. intros Hk. unfold hmetadata, htick, digger. by rewrite deep_inspect. Qed.
Lemma dig_read_dir k w : k < p_op w -> hread_dir calm digger (deep k) w = (dug w, Ok ["d"]).
Proof. intros Hk. unfold hread_dir, htick, digger. rewrite deep_inspect by lia. cbn [rbind fst snd listing calm]. by rewrite chain_children by lia. Qed.
Lemma dig_is_dir k w : k <= p_op w -> his_dir calm digger (deep k) w = (dug w, Ok true).
Proof. intros Hk. unfold his_dir, htick, digger. rewrite deep_resolves by done. cbn iota beta. by rewrite chain_dir by lia. Qed.
Lemma dig_next w : hnext_entry calm digger w = (dug w, Ok ()).
Proof. done. Qed.
Lemma dig fuel : forall k w, k <= p_op w -> (hvisit_files calm digger fuel (deep k) w).2 = Diverge.
Proof.
  induction fuel as [|fuel IH]; intros k w Hk; [done|]. cbn [hvisit_files]. unfold hbind at 1. rewrite dig_metadata by done. cbv iota beta.
  unfold hbind at 1. rewrite dig_read_dir by (cbn; lia). cbv iota beta. cbn [hvisit_entries]. unfold hbind at 1. rewrite dig_next. cbv iota beta zeta. change (push (deep k) "d") with (deep (S k)).
  unfold hbind at 1. rewrite dig_is_dir by (cbn; lia). cbv iota beta. rewrite deep_str. cbv iota beta.
  unfold hbind at 1. specialize (IH (S k) (dug (dug (dug (dug w)))) ltac:(cbn; lia)).
  destruct (hvisit_files calm digger fuel (deep (S k)) _) as [w2 r2]. cbn [snd] in IH. by rewrite IH.
Qed.
Lemma never_ends : exists E meddle path out f, sane E f /\ keeps_tree meddle /\ forall fuel, (hrun E meddle fuel path out f).2 = Diverge.
Proof.
  exists calm, digger, (deep 0), "out", (chain 0). split; [apply calm_sane; by vm_compute|]. split; [apply digger_tree|]. intros fuel. unfold hrun, hmain, hmetadata, htick. cbn [p_op p_fs p_events]. unfold digger at 1.
  rewrite deep_inspect by lia. cbn [rbind snd app]. unfold hbind at 1.
  pose proof (dig fuel 0 (Place (chain 0) 1 []) ltac:(cbn; lia)) as H. destruct (hvisit_files calm digger fuel (deep 0) _) as [w r]. cbn [snd] in H. by rewrite H.
Qed.
(** nothing deeper than three can be opened *)
Definition shallow : env := {| cwd := cwd calm; listing := listing calm; fault := fun _ l => bool_decide (3 < length l); blind := blind calm; torn := torn calm; hash1 := hash1 calm; hash2 := hash2 calm; version := version calm; clock := clock calm |}.
