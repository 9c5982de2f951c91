(** Which schemas give code that can exchange packets whatever the runs were (for PropRuns.v). *)
From Verif Require Export RunsTypes OrderProofs.

(** ** a run that keeps the declared order of one struct *)
Lemma loop_upto D C0 (HD : forall n t, D !! n = Some t -> exists fs, t = AStruct fs) (HC : named C0) fuel order s :
  (forall n t, (n, t) ∈ order -> D !! n = Some t) -> goodD D C0 -> inv D C0 ∅ ∅ s -> size D < fuel ->
  exists s', second_pass_loop fuel order s = Ok s' /\ inv D C0 ∅ ∅ s' /\
    (forall n t, (n, t) ∈ order -> is_Some (cache s' !! n)) /\ cache s ⊆ cache s' /\
    forall k, is_Some (cache s' !! k) -> is_Some (cache s !! k) \/ exists n t, (n, t) ∈ order /\ rtc (refD D C0) n k.
Proof.
  revert s. induction order as [|[n t] order IH]; intros s Hord Hg Hinv Hf; cbn [second_pass_loop].
  - exists s. split; [done|]. split; [done|]. split; [by intros ?? ?%elem_of_nil|]. split; [done|]. auto.
  - pose proof (Hord n t ltac:(left)) as Hn.
    destruct (second_pass_one D C0 HD HC fuel n t ∅ s) as [(s1 & -> & (Hi & Hc & Hu) & Hk & Hup & _)|(m & -> & Hbad)].
    + done.
    + eapply (inv_weaken D C0 HD HC); [|done]. set_solver.
    + pose proof (map_subseteq_size _ _ (i_unres _ _ _ _ _ Hinv)). lia.
    + cbn [rbind]. destruct (IH s1) as (s2 & H1 & H2 & H3 & H4 & H5); [intros; apply Hord; by right|done..|].
      exists s2. split; [done|]. split; [done|]. split; [|split; [by etrans|]].
      * intros n' t' [[= -> ->]|Hin]%elem_of_cons; [|by eapply H3]. destruct Hk as [x Hx]. exists x. by eapply lookup_weaken.
      * intros k [Hk'|(n' & t' & Hin & Hr)]%H5; [|right; exists n', t'; split; [by right|done]]. apply Hup in Hk' as [?|Hr]; [auto|]. right. exists n, t. split; [by left|done].
    + exfalso. apply Hbad. split; [done|]. set_solver.
Qed.
Lemma declared_possible a e n fs : valid_schema a -> no_builtin_decl a -> declares_struct a n fs -> exports a = [e] -> needed a e n ->
  exists iter r, fair_order iter /\ type_check iter a = Ok r /\ keeps_order (r_types r) n fs.
Proof.
  intros V Hnb Hd He Hneed.
  destruct (front_complete a e He (vs_decls _ V)) as (C0 & D & HF).
  { intros. by eapply valid_fp_ok. }
  pose proof (front_ok _ _ _ _ HF) as F.
  destruct (valid_good a Hnb e C0 D F V) as [Hgood Hexg].
  pose proof (ff_struct _ _ _ _ F) as HD. pose proof (ff_named _ _ _ _ F) as HC.
  set (order := filter (fun d => d.1 ∈ map (fun d : string * unresolved => u_name d.2) fs) (map_to_list D)).
  destruct (loop_upto D C0 HD HC (Datatypes.S (size D)) order (Sp C0 ∅ D)) as (s1 & _ & Hi1 & Hk1 & Hc1 & Hup1).
  { intros m t [_ Hin]%elem_of_list_filter. by apply elem_of_map_to_list. }
  { done. }
  { constructor; simpl; try done; set_solver. }
  { lia. }
  cbn [cache] in *. pose proof (inv_closed D C0 _ _ _ Hi1) as Hcl.
  assert (is_Some (C0 !! n) \/ active D C0 n fs) as Hn.
  { destruct (C0 !! n) eqn:E; [left; by eexists|]. right. apply (active_iff a Hnb e C0 D F). split; [done|]. intros Hall.
    assert (is_Some (C0 !! n)) as [? ?]; [|congruence]. apply (known_C0 a Hnb e C0 D F). right. right. by exists fs. }
  assert (forall d, d ∈ fs -> u_name d.2 ∈ dom (cache s1)) as Hall.
  { intros [f u] Hin. apply elem_of_dom. cbn [snd]. assert (is_Some (C0 !! u_name u) \/ is_Some (D !! u_name u)) as [[y Hy]|[t Ht]].
    - destruct Hn as [Hn|Hn]; [|by eapply (gd_known _ _ Hgood)]. left. apply (known_C0 a Hnb e C0 D F). left.
      apply (known_C0 a Hnb e C0 D F) in Hn as [Hn|[[vs Hv]|(fs' & Hd' & Hn)]].
      + by destruct (decl_not_builtin a Hnb n _ Hd).
      + by pose proof (decl_unique _ _ _ _ (vs_decls _ V) Hd Hv).
      + pose proof (decl_unique _ _ _ _ (vs_decls _ V) Hd Hd') as [= <-]. rewrite Forall_forall in Hn. by apply (Hn (f, u)).
    - exists y. by eapply lookup_weaken.
    - apply (Hk1 _ t). apply elem_of_list_filter. split; [|by apply elem_of_map_to_list]. cbn [fst]. apply (elem_of_list_fmap_1 (fun d : string * unresolved => u_name d.2)) in Hin. exact Hin. }
  assert (done_before a n (dom (cache s1))) as HS.
  { split.
    - intros m Hm. apply (shallow_C0 a e C0 D Hnb F) in Hm as [y Hy]. apply elem_of_dom. exists y. by eapply lookup_weaken.
    - intros m m' Hm Hr. apply elem_of_dom in Hm. apply elem_of_dom. destruct (decide (m' ∈ builtin_names)) as [Hb|Hb].
      + assert (is_Some (C0 !! m')) as [y Hy]; [|exists y; by eapply lookup_weaken]. apply (known_C0 a Hnb e C0 D F). by left.
      + eapply Hcl; [exact Hm|]. by apply (refers_refD a Hnb e C0 D F).
    - intros Hs%elem_of_dom. apply (shallow_C0 a e C0 D Hnb F). apply Hup1 in Hs as [?|(m & t & Hin & Hr)]; [done|]. destruct Hn as [Hn|Hn]; [done|]. exfalso.
      apply elem_of_list_filter in Hin as [Hin _]. cbn [fst] in Hin. apply elem_of_list_fmap in Hin as ([f u] & -> & Hin). cbn [snd] in Hr.
      apply (gd_acyclic _ _ Hgood n). eapply tc_rtc_r; [|exact Hr]. apply tc_once. exists fs, f, u. done. }
  destruct (layout_possible a e n fs _ V Hnb Hd He Hneed HS) as (iter & r & H1 & H2 & H3). exists iter, r. split; [done|]. split; [done|]. by rewrite arrangement_all in H3.
Qed.

(** ** runs with the same export *)
Lemma entries_same iter1 iter2 a r1 r2 : fair_order iter1 -> fair_order iter2 -> no_builtin_decl a -> type_check iter1 a = Ok r1 -> type_check iter2 a = Ok r2 ->
  forall n m, needed a n m -> forall t, r_types r1 !! n = Some (n, t) -> r_types r2 !! n = Some (n, t) -> exists t', r_types r1 !! m = Some (m, t') /\ r_types r2 !! m = Some (m, t').
Proof.
  intros Hf1 Hf2 Hnb Hr1 Hr2 n m Hneed. induction Hneed as [m|n n' m (gs & g & w & Hg & Hgw & <-) _ IH]; intros t H1 H2; [by exists t|].
  destruct (entry_field _ _ _ Hf1 Hnb Hr1 _ _ _ _ _ Hg Hgw H1) as (rs & f1 & -> & Hf & (E1 & E2 & _ & _ & E5)). cbn [snd] in *.
  destruct (entry_struct _ _ _ Hf2 Hnb Hr2 _ _ _ H2 Hf) as (_ & _ & _ & _ & _ & _ & _ & E). rewrite E2 in E. by eapply IH.
Qed.
Lemma same_fixed a : valid_schema a -> no_builtin_decl a ->
  (forall iter1 iter2 r1 r2, fair_order iter1 -> fair_order iter2 -> type_check iter1 a = Ok r1 -> type_check iter2 a = Ok r2 -> r_export r1 = r_export r2) -> all_fixed a.
Proof.
  intros V Hnb Hsame e n fs He Hneed Hd. apply (keeps_order_fixed a n fs V Hnb Hd); [by exists e|]. intros iter r Hf Hr.
  destruct (declared_possible a e n fs V Hnb Hd He Hneed) as (iter0 & r0 & Hf0 & Hr0 & (rs & Hrs & Hm)).
  pose proof (Hsame _ _ _ _ Hf0 Hf Hr0 Hr) as E. pose proof (export_entry _ _ _ Hf0 Hnb Hr0) as E0. pose proof (export_entry _ _ _ Hf Hnb Hr) as E1. rewrite <- E in E1.
  destruct (type_check_result _ _ _ Hf0 Hnb Hr0) as (He0 & _). rewrite He in He0. injection He0 as Ee. rewrite <- Ee in E0, E1.
  destruct (entries_same _ _ _ _ _ Hf0 Hf Hnb Hr0 Hr e n Hneed _ E0 E1) as (t & T0 & T1). rewrite Hrs in T0. injection T0 as <-. exists rs. split; [done|].
  apply Forall2_same_length_lookup_2; [by eapply Forall2_length|]. intros i d f Hi Hj. destruct (Forall2_lookup_lr _ _ _ _ _ _ Hm Hi Hj) as (K1 & K2 & K3 & K4 & K5).
  repeat split; [done..|]. destruct (entry_struct _ _ _ Hf Hnb Hr _ _ _ T1 ltac:(by eapply elem_of_list_lookup_2)) as (_ & _ & _ & _ & _ & _ & _ & E'). by rewrite K2 in E'.
Qed.

(** ** from the classes to the types *)
Lemma denotes_distinct a t : forall n, (forall m fs, needed a n m -> declares_struct a m fs -> NoDup fs.*1) -> denotes Permutation a n t -> distinct t.
Proof.
  induction t as [b|e|rs IH] using rtype_ind'; intros n Hp H; [done..|]. inversion H as [| |? fs ds ? Hd Ha Hm]; subst. apply distinct_struct. split.
  - assert (List.map f_name rs = ds.*1) as ->; [|rewrite Ha; exact (Hp _ _ (rtc_refl _ _) Hd)]. clear - Hm. induction Hm as [|d r ds rs Hf _ IH]; [done|]. cbn. rewrite IH. by inversion Hf.
  - intros f Hf. rewrite Forall_forall in IH. apply elem_of_list_lookup in Hf as Hi. destruct Hi as (i & Hi). destruct (Forall2_lookup_r _ _ _ _ _ Hm Hi) as (d & Hdi & Hdf). inversion Hdf as [g u t' Ht']; subst.
    eapply (IH _ Hf); [|exact Ht']. intros m gs Hneed. apply Hp. eapply rtc_l; [|exact Hneed]. exists fs, g, u. split; [done|]. split; [|done]. rewrite <- Ha. by eapply elem_of_list_lookup_2.
Qed.
Section pair.
  Context (a : ast) (Hnb : no_builtin_decl a) (Hnames : plain_names a) (Hse : small_enums a) (Hvar : varied a).
  Context (rt : runtime) (str_ok : jstr -> Prop) (Hrt : rt_ok rt str_ok) (Hex : exact_on rt str_ok) (Hfl : local_floats rt) (H2s : two_strings str_ok).
  Notation ty r := (TStruct (x_fields (r_export r))).
  Notation cl r := (class_of (r_export r)).

  Lemma export_fine_type iter r : fair_order iter -> type_check iter a = Ok r -> fine (ty r).
  Proof.
    intros Hf Hr. destruct (type_check_result _ _ _ Hf Hnb Hr) as (He & _ & Hdom & Hent).
    assert (forall n e, r_types r !! n = Some (n, TEnum e) -> exists vs, needed a (x_name (r_export r)) n /\ declares_enum a n vs /\ length (e_variants e) = length vs) as Hen.
    { intros n e Hn. destruct (entry_declared_enum _ _ _ Hf Hnb Hr n e Hn) as (vs & Hd & HL). exists vs. split; [apply Hdom; by eexists|done]. }
    split.
    - apply (export_enums _ _ _ Hf Hnb Hr). intros n e Hn. destruct (Hen n e Hn) as (vs & _ & Hd & HL). split; [exact (entry_leaf _ _ _ Hf Hnb Hr _ _ Hn)|]. rewrite HL. by eapply Hse.
    - apply (export_distinct _ _ _ Hf Hnb Hr). intros n gs HN Hd. by eapply (pn_fields _ Hnames _ _ _ He HN).
    - assert (forall t n, r_types r !! n = Some (n, t) -> inhabited t) as H; [|eapply H; by eapply export_entry].
      induction t as [b|e|gs IH] using rtype_ind'; intros n Hn; [done..|]. apply inhabited_struct. split.
      + destruct (Hent _ _ _ Hn) as [_ [(? & _ & [=])|[(? & ? & _ & _ & [=])|(fs & ds & rs & Hd & Hpm & Hm & [= ->])]]]. intros ->.
        destruct (Hvar _ n He) as [_ Hv]; [apply Hdom; by eexists|]. apply (Hv fs Hd). inversion Hm; subst. by apply Permutation_nil in Hpm.
      + intros f Hin. rewrite Forall_forall in IH. eapply IH; [done|]. by destruct (entry_struct _ _ _ Hf Hnb Hr _ _ _ Hn Hin) as (? & ? & _ & _ & _ & _ & _ & HH).
    - apply (export_enums _ _ _ Hf Hnb Hr). intros n e Hn. destruct (Hen n e Hn) as (vs & Hneed & Hd & HL). rewrite HL. by eapply (Hvar _ n He Hneed).
  Qed.
  Lemma export_denotes iter r : fair_order iter -> type_check iter a = Ok r -> denotes Permutation a (x_name (r_export r)) (ty r).
  Proof. intros Hf Hr. eapply entry_denotes; [done..|]. by eapply export_entry. Qed.
  Lemma talks_accepts iter1 iter2 r1 r2 t : fair_order iter1 -> fair_order iter2 -> type_check iter1 a = Ok r1 -> type_check iter2 a = Ok r2 ->
    denotes Permutation a (x_name (r_export r1)) t -> talks rt str_ok (cl r1) (cl r2) t ->
    forall v1 v2, has_type str_ok (ty r1) v1 -> has_type str_ok (ty r2) v2 -> same v1 v2 -> exists R rest, accepts rt (ty r2) v2 (wire (rt_enc rt) (rt_encs rt) (ty r1) v1 ++ R) rest.
  Proof.
    intros Hf1 Hf2 Hr1 Hr2 Ht Htalk v1 v2 T1 T2 Hs.
    assert (NoDup (decl_names a)) as Hnd by by eapply vs_decls, (result_valid iter1).
    pose proof (type_check_result _ _ _ Hf1 Hnb Hr1) as (He1 & _).
    assert (forall n fs, needed a (x_name (r_export r1)) n -> declares_struct a n fs -> NoDup fs.*1) as Hp by (intros n fs HN Hd; by eapply (pn_fields _ Hnames _ _ _ He1 HN)).
    destruct (arrange a Hnd Hnb str_ok (ty r1) (x_name (r_export r1)) t v1) as (v & Tv & Sv); [exact (export_denotes _ _ Hf1 Hr1)|done|exact (fi_distinct _ (export_fine_type _ _ Hf1 Hr1))|by eapply denotes_distinct|done|].
    destruct (typed_built _ _ (ty r1) (fi_distinct _ (export_fine_type _ _ Hf1 Hr1)) v1 T1 []) as (h & x & Hx). cbn [app] in Hx.
    pose proof (plain_fine _ _ _ Hf1 Hnb Hr1 Hnames) as N1. pose proof (plain_fine _ _ _ Hf2 Hnb Hr2 Hnames) as N2.
    destruct (writes_wire rt _ _ _ Hf1 Hnb Hr1 (nf_ready _ _ N1) v1 h x (any_typed _ _ _ _ T1) Hx) as (M & Hw & _).
    destruct (Htalk v h x _ M [] Tv (proj1 (Sv h x) Hx) Hw) as (l & M' & Hrd & Hrep).
    destruct (reads_typed rt str_ok _ _ _ Hf2 Hnb Hr2 Hrt N2 _ _ _ _ Hrd) as (v' & R1 & R2 & R3 & R4 & R5).
    assert (v' = v2) as ->. { eapply rep_unique; [exact R2|exact T2|exact R1|]. apply Hs, Sv, Hrep. }
    exists [], (r_rest (m_rd M')). rewrite app_nil_r. eapply (export_taken a rt str_ok Hrt Hse _ _ Hf2 Hnb Hr2 _ 0). exists (r_calls (m_rd M')).
    rewrite R3. rewrite R5 in *. rewrite <- (state_ok _ R4). apply surjective_pairing.
  Qed.
  Lemma talks_same iter1 iter2 r1 r2 t t' : fair_order iter1 -> fair_order iter2 -> type_check iter1 a = Ok r1 -> type_check iter2 a = Ok r2 ->
    denotes Permutation a (x_name (r_export r1)) t -> denotes Permutation a (x_name (r_export r1)) t' ->
    talks rt str_ok (cl r1) (cl r2) t -> talks rt str_ok (cl r2) (cl r1) t' -> r_export r1 = r_export r2.
  Proof.
    intros Hf1 Hf2 Hr1 Hr2 Ht Ht' H1 H2.
    assert (forall x y : export, x_name x = x_name y -> x_fields x = x_fields y -> x = y) as Hx by (intros [] []; cbn; congruence).
    pose proof (type_check_result _ _ _ Hf1 Hnb Hr1) as (He1 & _). pose proof (type_check_result _ _ _ Hf2 Hnb Hr2) as (He2 & _).
    assert (x_name (r_export r1) = x_name (r_export r2)) as Heq by congruence. apply Hx; [done|].
    assert (ty r1 = ty r2) as [= ->]; [|done].
    eapply (swap_types a) with (n := x_name (r_export r1)) (str_ok := str_ok) (rt := rt); [by eapply vs_decls, (result_valid iter1)|done|done|done|done|done|exact (export_denotes _ _ Hf1 Hr1)| |exact (export_fine_type _ _ Hf1 Hr1)|exact (export_fine_type _ _ Hf2 Hr2)|].
    - rewrite Heq. exact (export_denotes _ _ Hf2 Hr2).
    - intros v1 v2 T1 T2 Hs. split; [exact (talks_accepts _ _ _ _ _ Hf1 Hf2 Hr1 Hr2 Ht H1 v1 v2 T1 T2 Hs)|].
      refine (talks_accepts _ _ _ _ t' Hf2 Hf1 Hr2 Hr1 _ H2 v2 v1 T2 T1 _); [by rewrite <- Heq|by symmetry].
  Qed.
End pair.

(** ** statements *)
Lemma talks_self a rt str_ok iter r : rt_ok rt str_ok -> small_enums a -> no_builtin_decl a -> plain_names a -> fair_order iter -> type_check iter a = Ok r ->
  talks rt str_ok (class_of (r_export r)) (class_of (r_export r)) (TStruct (x_fields (r_export r))).
Proof.
  intros Hrt Hs Hnb Hp Hf Hr v h this bytes M h' Hv Hrep Hw. pose proof (plain_fine _ _ _ Hf Hnb Hr Hp) as N.
  destruct (writes_wire rt _ _ _ Hf Hnb Hr (nf_ready _ _ N) v h this (any_typed _ _ _ _ Hv) Hrep) as (M' & Hw' & _).
  pose proof (writes_det _ _ _ _ _ _ Hw Hw') as [= -> ->].
  destruct (reads_wire rt str_ok _ _ _ Hf Hnb Hr Hrt Hs N v h' [] Hv) as (l & M2 & H1 & H2 & _). rewrite app_nil_r in H1. by exists l, M2.
Qed.
Lemma runs_same_class a rt str_ok iter1 iter2 : rt_ok rt str_ok -> exact_on rt str_ok -> local_floats rt -> two_strings str_ok -> plain_names a -> small_enums a -> varied a ->
  fair_order iter1 -> fair_order iter2 -> for_runs iter1 iter2 a (fun k1 k2 t => talks rt str_ok k1 k2 t /\ talks rt str_ok k2 k1 t <-> k1 = k2).
Proof.
  intros Hrt Hex Hfl H2s Hp Hs Hv Hf1 Hf2. apply for_runs_intro; [done..|]. intros r1 r2 Hn Hr1 Hr2. split.
  - intros [H1 H2]. f_equal. eapply (talks_same a Hn Hp Hs Hv rt str_ok Hrt Hex Hfl H2s iter1 iter2); [done..|exact (export_denotes a Hn _ _ Hf1 Hr1)|exact (export_denotes a Hn _ _ Hf1 Hr1)|done|done].
  - intros E. rewrite <- E. split; by eapply (talks_self a rt str_ok iter1).
Qed.
Lemma runs_talk_fixed a rt str_ok : rt_ok rt str_ok -> exact_on rt str_ok -> local_floats rt -> two_strings str_ok -> accepted a -> plain_names a -> small_enums a -> varied a ->
  ((forall iter1 iter2, fair_order iter1 -> fair_order iter2 -> for_runs iter1 iter2 a (fun k1 k2 t => talks rt str_ok k1 k2 t)) <-> all_fixed a).
Proof.
  intros Hrt Hex Hfl H2s [Hl Hacc] Hp Hs Hv. pose proof (legal_no_builtin _ Hl) as Hnb. split.
  - intros H. apply same_fixed; [|done|].
    { destruct (Hacc (fun m => map_to_list m)) as [r Hr]; [by intros m|]. eapply (result_valid (fun m => map_to_list m)); [by intros m|done..]. }
    intros iter1 iter2 r1 r2 Hf1 Hf2 Hr1 Hr2.
    assert (fair_types (fun m => map_to_list m)) as Hft by by intros m. assert (on_one_line "") as Hone by by vm_compute.
    assert (forall i j ri rj, fair_order i -> fair_order j -> type_check i a = Ok ri -> type_check j a = Ok rj ->
      exists e t, exports a = [e] /\ denotes Permutation a e t /\ talks rt str_ok (class_of (r_export ri)) (class_of (r_export rj)) t) as Hget.
    { intros i j ri rj Fi Fj Ri Rj. destruct (H i j Fi Fj ri rj "" "" "" "" _ _ Hl Hft Hft Hone Hone Hone Hone Ri Rj) as (t1 & t2 & ds1 & ds2 & k1 & k2 & e & t & G1 & G2 & T1 & T2 & He & Hd & Ht).
      destruct (read_generated i a ri Fi Hnb Hl Ri "" "" _ Hft Hone Hone) as (x1 & y1 & G1' & T1' & _). destruct (read_generated j a rj Fj Hnb Hl Rj "" "" _ Hft Hone Hone) as (x2 & y2 & G2' & T2' & _).
      rewrite G1 in G1'. injection G1' as <-. rewrite G2 in G2'. injection G2' as <-. rewrite T1 in T1'. injection T1' as -> ->. rewrite T2 in T2'. injection T2' as -> ->. eauto. }
    destruct (Hget _ _ _ _ Hf1 Hf2 Hr1 Hr2) as (e & t & He & Hd & Ht). destruct (Hget _ _ _ _ Hf2 Hf1 Hr2 Hr1) as (e' & t' & He' & Hd' & Ht').
    pose proof (type_check_result _ _ _ Hf1 Hnb Hr1) as (He1 & _). rewrite He in He1, He'. injection He1 as ->. injection He' as <-.
    exact (talks_same a Hnb Hp Hs Hv rt str_ok Hrt Hex Hfl H2s iter1 iter2 r1 r2 t t' Hf1 Hf2 Hr1 Hr2 Hd Hd' Ht Ht').
  - intros Hfix iter1 iter2 Hf1 Hf2. apply for_runs_intro; [done..|]. intros r1 r2 Hn Hr1 Hr2. pose proof (fixed_same_code _ _ _ _ _ Hf1 Hf2 Hnb Hr1 Hr2 Hfix) as E. rewrite <- E.
    by eapply (talks_self a rt str_ok iter1).
Qed.
