(** No object in the result of read is found in two places (C105). *)
From Verif Require Export WireResults WireWitness PartsSpec.
From Verif Require Import TsRead.

(** ** the stretches of a chain *)
Lemma chain_at {B} (P : nat -> nat -> B -> Prop) vs : forall lo hi i v, chain P lo hi vs -> vs !! i = Some v ->
  exists l m, lo <= l /\ m <= hi /\ P l m v.
Proof.
  induction vs as [|w vs IH]; intros lo hi i v H Hi; [by apply lookup_nil_None in Hi || done|]. destruct H as (mid & H1 & H2 & H3).
  destruct i as [|i]; [injection Hi as ->; exists lo, mid; split; [done|]; split; [by eapply chain_le|done]|].
  destruct (IH _ _ _ _ H3 Hi) as (l & m & H4 & H5). exists l, m. split; [lia|done].
Qed.
Lemma chain_two {B} (P : nat -> nat -> B -> Prop) vs : forall lo hi i j v w, chain P lo hi vs -> vs !! i = Some v -> vs !! j = Some w -> i < j ->
  exists l m l' m', m <= l' /\ P l m v /\ P l' m' w.
Proof.
  induction vs as [|u vs IH]; intros lo hi i j v w H Hi Hj Hij; [done|]. destruct H as (mid & H1 & H2 & H3).
  destruct j as [|j]; [lia|]. destruct i as [|i].
  - injection Hi as ->. destruct (chain_at _ _ _ _ _ _ H3 Hj) as (l & m & H4 & _ & H5). by exists lo, mid, l, m.
  - apply (IH _ _ i j _ _ H3 Hi Hj). lia.
Qed.
Lemma chain_zip {A B} (P : nat -> nat -> A -> B -> Prop) vs : forall ys lo hi, chain2 P lo hi ys vs -> chain (fun l m x => P l m x.1 x.2) lo hi (zip ys vs).
Proof. induction vs as [|v vs IH]; intros [|y ys] lo hi H; [done..|]. destruct H as (mid & H1 & H2 & H3). exists mid. split; [done|]. split; [done|by apply IH]. Qed.

Global Instance key_eq_dec : EqDecision key.
Proof. solve_decision. Defined.
Definition smaller (w v : value) : Prop := match v with VArr l => w ∈ l | VRec fs => exists f, (f, w) ∈ fs | _ => False end.
Lemma value_smaller_ind (P : value -> Prop) : (forall v, (forall w, smaller w v -> P w) -> P v) -> forall v, P v.
Proof.
  intros H. induction v as [n|s| |l IH|fs IH] using value_ind'; apply H; cbn [smaller]; [done..| |]; rewrite Forall_forall in IH.
  - exact IH.
  - intros w [f Hf]. exact (IH _ Hf).
Qed.

Lemma part_loc h x k z : part h x k z -> exists p, x = JLoc p.
Proof. destruct x; try done. by eexists. Qed.
Lemma part_det h x k z z' : part h x k z -> part h x k z' -> z = z'.
Proof.
  destruct x as [| | | |p|], k; try done.
  - intros (? & ? & H1 & H2) (? & ? & H3 & H4). congruence.
  - intros (? & H1 & H2) (? & H3 & H4). congruence.
Qed.
(** two parts of one object lie in different stretches *)
Lemma parts_apart lo hi h x v k k' z z' : rep_in lo hi h x v -> part h x k z -> part h x k' z' -> k ≠ k' ->
  exists w w' l m l' m', smaller w v /\ smaller w' v /\ rep_in l m h z w /\ rep_in l' m' h z' w' /\ (m <= l' \/ m' <= l).
Proof.
  intros Hr Hk Hk' Hne. destruct (part_loc _ _ _ _ Hk) as [p ->]. destruct v as [n|s|l|fs|]; [done|done| | |done].
  - apply rep_in_arr in Hr as (q & items & [= <-] & _ & Hh & Hc). pose proof (chain2_length _ _ _ _ _ Hc) as HL. apply chain_zip in Hc.
    destruct k as [f|i], k' as [f'|i']; cbn [part] in *; [naive_solver congruence..|].
    destruct Hk as (? & Hi & Hz), Hk' as (? & Hi' & Hz'). rewrite Hh in Hi, Hi'. injection Hi as <-. injection Hi' as <-.
    destruct (lookup_lt_is_Some_2 l i) as [w Hw]; [rewrite <- HL; by eapply lookup_lt_Some|].
    destruct (lookup_lt_is_Some_2 l i') as [w' Hw']; [rewrite <- HL; by eapply lookup_lt_Some|].
    assert (zip items l !! i = Some (z, w)) as Ez by (apply lookup_zip_with_Some; eauto).
    assert (zip items l !! i' = Some (z', w')) as Ez' by (apply lookup_zip_with_Some; eauto).
    assert (i ≠ i') as Hii by congruence. exists w, w'. destruct (decide (i < i')) as [Hlt|Hge].
    + destruct (chain_two _ _ _ _ _ _ _ _ Hc Ez Ez' Hlt) as (a & b & a' & b' & H1 & H2 & H3). exists a, b, a', b'.
      split; [by eapply elem_of_list_lookup_2|]. split; [by eapply elem_of_list_lookup_2|]. split; [done|]. split; [done|by left].
    + destruct (chain_two _ _ _ _ _ _ _ _ Hc Ez' Ez ltac:(lia)) as (a & b & a' & b' & H1 & H2 & H3). exists a', b', a, b.
      split; [by eapply elem_of_list_lookup_2|]. split; [by eapply elem_of_list_lookup_2|]. split; [done|]. split; [done|by right].
  - apply rep_in_rec in Hr as (q & pr & props & [= <-] & _ & Hh & Hn & Hc).
    destruct k as [f|i], k' as [f'|i']; cbn [part] in *; [|naive_solver congruence..].
    destruct Hk as (? & ? & Hi & Hz), Hk' as (? & ? & Hi' & Hz'). rewrite Hh in Hi, Hi'. injection Hi as <- <-. injection Hi' as <- <-.
    assert (forall g y, own g props = Some y -> exists i w, fs !! i = Some (g, w)) as Hin.
    { intros g y Hg. destruct (decide (g ∈ List.map fst fs)) as [H|H]; [|by rewrite (Hn _ H) in Hg].
      apply elem_of_list_In, in_map_iff in H as ([g' w] & Hg' & H). cbn in Hg'. subst g'. apply elem_of_list_In, elem_of_list_lookup in H as [i Hi]. eauto. }
    destruct (Hin _ _ Hz) as (i & w & Ei). destruct (Hin _ _ Hz') as (i' & w' & Ei').
    assert (i ≠ i') as Hii by (intros ->; congruence). exists w, w'. destruct (decide (i < i')) as [Hlt|Hge].
    + destruct (chain_two _ _ _ _ _ _ _ _ Hc Ei Ei' Hlt) as (a & b & a' & b' & H1 & (y & Hy & H2) & (y' & Hy' & H3)). cbn [fst snd] in *.
      rewrite Hz in Hy. rewrite Hz' in Hy'. injection Hy as <-. injection Hy' as <-. exists a, b, a', b'.
      split; [eexists; by eapply elem_of_list_lookup_2|]. split; [eexists; by eapply elem_of_list_lookup_2|]. split; [done|]. split; [done|by left].
    + destruct (chain_two _ _ _ _ _ _ _ _ Hc Ei' Ei ltac:(lia)) as (a & b & a' & b' & H1 & (y & Hy & H2) & (y' & Hy' & H3)). cbn [fst snd] in *.
      rewrite Hz' in Hy. rewrite Hz in Hy'. injection Hy as <-. injection Hy' as <-. exists a', b', a, b.
      split; [eexists; by eapply elem_of_list_lookup_2|]. split; [eexists; by eapply elem_of_list_lookup_2|]. split; [done|]. split; [done|by right].
Qed.
Lemma part_in lo hi h p v k z : rep_in lo hi h (JLoc p) v -> part h (JLoc p) k z ->
  exists w l m, smaller w v /\ p < l /\ lo <= l /\ m <= hi /\ rep_in l m h z w.
Proof.
  intros Hr Hk. destruct v as [n|s|l|fs|]; [done|done| | |done].
  - apply rep_in_arr in Hr as (q & items & [= <-] & Hp & Hh & Hc). pose proof (chain2_length _ _ _ _ _ Hc) as HL. apply chain_zip in Hc.
    destruct k as [f|i]; cbn [part] in *; [naive_solver congruence|]. destruct Hk as (? & Hi & Hz). rewrite Hh in Hi. injection Hi as <-.
    destruct (lookup_lt_is_Some_2 l i) as [w Hw]; [rewrite <- HL; by eapply lookup_lt_Some|].
    assert (zip items l !! i = Some (z, w)) as Ez by (apply lookup_zip_with_Some; eauto).
    destruct (chain_at _ _ _ _ _ _ Hc Ez) as (a & b & H1 & H2 & H3). exists w, a, b. split; [by eapply elem_of_list_lookup_2|]. split; [lia|]. split; [lia|done].
  - apply rep_in_rec in Hr as (q & pr & props & [= <-] & Hp & Hh & Hn & Hc).
    destruct k as [f|i]; cbn [part] in *; [|naive_solver congruence]. destruct Hk as (? & ? & Hi & Hz). rewrite Hh in Hi. injection Hi as <- <-.
    destruct (decide (f ∈ List.map fst fs)) as [H|H]; [|by rewrite (Hn _ H) in Hz].
    apply elem_of_list_In, in_map_iff in H as ([g' w] & Hg' & H). cbn in Hg'. subst g'. apply elem_of_list_In in H.
    destruct (chain_props _ _ _ _ _ _ _ Hc H) as (y & a & b & H1 & H2 & H3 & H4). rewrite Hz in H3. injection H3 as <-.
    exists w, a, b. split; [by eexists|]. split; [lia|]. split; [lia|done].
Qed.

Lemma path_in h v : forall lo hi x ks p, rep_in lo hi h x v -> at_path h x ks (JLoc p) -> lo <= p < hi.
Proof.
  induction v as [v IH] using value_smaller_ind. intros lo hi x [|k ks] p Hr Hp.
  - cbn in Hp. subst x. destruct v as [n|s|l|fs|]; [done|done| | |done].
    + by apply rep_in_arr in Hr as (q & items & [= <-] & Hq & _).
    + by apply rep_in_rec in Hr as (q & pr & props & [= <-] & Hq & _).
  - destruct Hp as (z & Hz & Hp). destruct (part_loc _ _ _ _ Hz) as [q ->].
    destruct (part_in _ _ _ _ _ _ _ Hr Hz) as (w & l & m & Hw & _ & Hl & Hm & Hrw). specialize (IH _ Hw _ _ _ _ _ Hrw Hp). lia.
Qed.
Lemma path_unique h v : forall lo hi x ks ks' p, rep_in lo hi h x v -> at_path h x ks (JLoc p) -> at_path h x ks' (JLoc p) -> ks = ks'.
Proof.
  induction v as [v IH] using value_smaller_ind. intros lo hi x [|k ks] [|k' ks'] p Hr Hp Hp'; [done| | |].
  - cbn in Hp. subst x. destruct Hp' as (z & Hz & Hp'). destruct (part_in _ _ _ _ _ _ _ Hr Hz) as (w & l & m & Hw & Hpl & Hl & Hm & Hrw).
    pose proof (path_in _ _ _ _ _ _ _ Hrw Hp'). lia.
  - cbn in Hp'. subst x. destruct Hp as (z & Hz & Hp). destruct (part_in _ _ _ _ _ _ _ Hr Hz) as (w & l & m & Hw & Hpl & Hl & Hm & Hrw).
    pose proof (path_in _ _ _ _ _ _ _ Hrw Hp). lia.
  - destruct Hp as (z & Hz & Hp), Hp' as (z' & Hz' & Hp'). destruct (decide (k = k')) as [<-|Hne].
    + rewrite <- (part_det _ _ _ _ _ Hz Hz') in Hp'. destruct (part_loc _ _ _ _ Hz) as [q ->].
      destruct (part_in _ _ _ _ _ _ _ Hr Hz) as (w & l & m & Hw & _ & Hl & Hm & Hrw). f_equal. by eapply IH.
    + destruct (parts_apart _ _ _ _ _ _ _ _ _ Hr Hz Hz' Hne) as (w & w' & l & m & l' & m' & _ & _ & H1 & H2 & H3).
      pose proof (path_in _ _ _ _ _ _ _ H1 Hp). pose proof (path_in _ _ _ _ _ _ _ H2 Hp'). lia.
Qed.
Lemma rep_in_unshared lo hi h x v : rep_in lo hi h x v -> unshared h lo x.
Proof. intros Hr ks ks' p H1 H2. split; [by eapply path_unique|exact (proj1 (path_in _ _ _ _ _ _ _ Hr H1))]. Qed.

Lemma result_unshared a rt str_ok : rt_ok rt str_ok -> forall iter r, fair_order iter -> no_builtin_decl a -> type_check iter a = Ok r ->
  let k := class_of (r_export r) in names_fine a k -> forall h data l M, reads rt k h data (Done (JLoc l, M)) -> unshared (m_heap M) (length h) (JLoc l).
Proof.
  intros Hrt iter r Hf Hn Hr k Hk h data l M HM.
  destruct (fine_reads _ _ _ Hf Hn Hr rt str_ok h data Hrt Hk) as (M' & props & H1 & _ & _ & _ & _ & H6). cbn zeta in *.
  destruct (r_failed (dec rt _ (RState data false 0)).2); pose proof (reads_det _ _ _ _ _ _ HM H1) as E; [discriminate E|].
  injection E as -> ->. eapply rep_in_unshared. by apply H6.
Qed.
Lemma code_unshared a rt str_ok : rt_ok rt str_ok -> for_code a (fun k t => names_fine a k -> forall h data l M,
  reads rt k h data (Done (JLoc l, M)) -> unshared (m_heap M) (length h) (JLoc l)).
Proof. intros Hrt. apply for_code_intro. intros iter r Hf Hn Hr. by eapply result_unshared. Qed.

(** ** changes of one part *)
Lemma path_app h ks : forall x ks' y z, at_path h x ks y -> at_path h y ks' z -> at_path h x (ks ++ ks') z.
Proof. induction ks as [|k ks IH]; intros x ks' y z H H'; [by cbn in H; subst|]. destruct H as (u & Hu & H). exists u. split; [done|]. by eapply IH. Qed.
Lemma inherited_not_loc p f l : inherited p f ≠ Done (JLoc l).
Proof. unfold inherited. destruct p; repeat case_decide; done. Qed.
Lemma rep_frame h h' v : forall x, (forall ks p o, at_path h x ks (JLoc p) -> h !! p = Some o -> h' !! p = Some o) -> rep h x v -> rep h' x v.
Proof.
  induction v as [n|s| |l IH|fs IH] using value_ind'; intros x HF; [done..| |].
  - intros (p & items & -> & Hi & H). exists p, items. split; [done|]. split; [by apply (HF [] p)|].
    assert (forall y, y ∈ items -> forall ks q o, at_path h y ks (JLoc q) -> h !! q = Some o -> h' !! q = Some o) as Hy.
    { intros y [i Hy]%elem_of_list_lookup ks q o Hq. apply (HF (KElem i :: ks)). exists y. split; [by exists items|done]. }
    clear HF Hi. revert items Hy H. induction l as [|v l IHl]; intros [|y items] Hy H; [done..|]. apply Forall_cons in IH as [IH1 IH2].
    destruct H as [H1 H2]. split; [apply IH1; [apply Hy; by left|done]|]. apply IHl; [done| |done]. intros z Hz. apply Hy. by right.
  - intros (p & pr & props & -> & Hi & H). exists p, pr, props. split; [done|]. pose proof (HF [] p _ eq_refl Hi) as Hi'. split; [done|].
    induction fs as [|[f v] fs IHfs]; [done|]. apply Forall_cons in IH as [IH1 IH2]. destruct H as [(y & Hy & Hr) H2].
    split; [|by apply IHfs]. exists y. split; [cbn [get_prop] in *; by rewrite Hi'; rewrite Hi in Hy|]. apply IH1; [|done].
    intros ks q o Hq. cbn [get_prop] in Hy. rewrite Hi in Hy. destruct (own f props) as [y'|] eqn:Ho.
    + injection Hy as ->. apply (HF (KProp f :: ks)). exists y. split; [by exists pr, props|done].
    + destruct y as [| | | |q'|]; try (by destruct ks as [|k ks]; [discriminate Hq|destruct Hq as (? & [] & _)]). by apply inherited_not_loc in Hy.
Qed.
Lemma unshared_local h lo x ks ks' y y' v h' : unshared h lo x -> at_path h x ks y -> at_path h x ks' y' -> apart_places ks ks' ->
  rep h y v -> changed_in y' h h' -> rep h' y v.
Proof.
  intros Hu Hy Hy' [H1 H2] Hr Hc. eapply rep_frame; [|exact Hr]. intros ks1 p o Hp Ho. destruct (Hc p o Ho) as [?|[ks2 Hp2]]; [done|].
  destruct (Hu (ks ++ ks1) (ks' ++ ks2) p) as [E _]; [by eapply path_app..|].
  destruct (prefix_weak_total ks ks' (ks ++ ks1)) as [?|?]; [by eexists|by exists ks2|done..].
Qed.
Lemma code_local a rt str_ok : rt_ok rt str_ok -> for_code a (fun k t => names_fine a k -> forall h data l M,
  reads rt k h data (Done (JLoc l, M)) -> forall ks ks' y y' v h', at_path (m_heap M) (JLoc l) ks y -> at_path (m_heap M) (JLoc l) ks' y' -> apart_places ks ks' ->
  rep (m_heap M) y v -> changed_in y' (m_heap M) h' -> rep h' y v).
Proof.
  intros Hrt. apply for_code_intro. intros iter r Hf Hn Hr Hk h data l M HM ks ks' y y' v h'. eapply unshared_local. by eapply result_unshared.
Qed.

(** ** a packet with two equal elements *)
Definition twice_bytes : list byte := take 18 demo_bytes ++ [ascii_of_N 2] ++ take 3 (drop 19 demo_bytes) ++ drop 22 demo_bytes ++ drop 22 demo_bytes.
Definition twice_value : value := VRec [("a", VNum (NInt 7)); ("b", VNum (NInt (-1))); ("c", VNum (NInt 255)); ("d", VNum (NInt 0))].
Definition twice_mach : mach := Eval vm_compute in
  match call_read latin1 20 (class_of demo_export) demo_heap twice_bytes with Some (Done (_, M)) => M | _ => Mach [] [] (RState [] false 0) [] end.
Lemma twice_witness : accepted demo_schema /\ plain_names demo_schema /\ export_of demo_schema = Ok demo_export /\
  exists h M p q, call_read latin1 20 (class_of demo_export) demo_heap twice_bytes = Some (Done (JLoc 5, M)) /\
    at_path (m_heap M) (JLoc 5) [KProp "inner"; KProp "values"; KElem 0] (JLoc p) /\ rep (m_heap M) (JLoc p) twice_value /\
    at_path (m_heap M) (JLoc 5) [KProp "inner"; KProp "values"; KElem 1] (JLoc q) /\ rep (m_heap M) (JLoc q) twice_value /\ p ≠ q /\
    apart_places [KProp "inner"; KProp "values"; KElem 0] [KProp "inner"; KProp "values"; KElem 1] /\
    set_prop (m_heap M) (JLoc p) "a" (jnum 8) = Done h /\ h ≠ m_heap M /\ changed_in (JLoc p) (m_heap M) h.
Proof.
  destruct demo_facts as (_ & Ha & Hp & _). split; [done|]. split; [done|]. split; [by vm_compute|].
  eexists _, twice_mach, 9, 10. split; [by vm_compute|]. cbn [twice_mach m_heap].
  split; [repeat (eexists; split; [repeat (eexists; try split); reflexivity|]); done|].
  split; [eexists _, _, _; repeat (split; [reflexivity|]); repeat (split; [eexists; split; reflexivity|]); done|].
  split; [repeat (eexists; split; [repeat (eexists; try split); reflexivity|]); done|].
  split; [eexists _, _, _; repeat (split; [reflexivity|]); repeat (split; [eexists; split; reflexivity|]); done|].
  split; [done|]. split; [split; intros [l [=]]|]. split; [reflexivity|]. split; [by vm_compute|].
  intros p o Hpo. destruct (decide (p = 9)) as [->|Hne]; [right; by exists []|left]. by rewrite list_lookup_insert_ne.
Qed.
