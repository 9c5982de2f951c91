(** Which orders of the fields of a struct the checker can choose. *)
From Verif Require Export OrderSpec CheckProofs4 CheckWitness.

Lemma arrangement_arranged c fs : arrangement (dom c) fs = arranged c fs.
Proof.
  unfold arrangement, arranged, known. f_equal; apply list_filter_iff; intros d; [by rewrite elem_of_dom|by rewrite not_elem_of_dom, eq_None_not_Some].
Qed.
Lemma arrangement_ext S T fs : (forall d, d ∈ fs -> u_name d.2 ∈ S <-> u_name d.2 ∈ T) -> arrangement S fs = arrangement T fs.
Proof.
  intros H. unfold arrangement. f_equal; induction fs as [|d fs IH]; try done; rewrite !filter_cons; (rewrite IH by (intros; apply H; by right)); specialize (H d ltac:(left)); repeat case_decide; try done; tauto.
Qed.
Lemma arrangement_all S fs : (forall d, d ∈ fs -> u_name d.2 ∈ S) -> arrangement S fs = fs.
Proof.
  intros H. unfold arrangement. rewrite filter_all by (by apply Forall_forall). rewrite filter_none; [by rewrite app_nil_r|]. apply Forall_forall. intros d Hd Hn. by apply Hn, H.
Qed.

(** every run chooses one of them *)
Lemma layout_chosen iter a r n fs : fair_order iter -> no_builtin_decl a -> type_check iter a = Ok r ->
  needed a (x_name (r_export r)) n -> declares_struct a n fs ->
  exists S, done_before a n S /\ keeps_order (r_types r) n (arrangement S fs).
Proof.
  intros Hfair Hnb Htc Hneed Hd.
  pose proof (type_check_result _ _ _ Hfair Hnb Htc) as (Hexp & _ & Hdom & Hent).
  destruct (type_check_inv _ _ _ Hfair Htc) as (e & C0 & D & c & _ & F & _ & S & Hex).
  pose proof (c_wf a Hnb e C0 D F c S) as Hwf.
  apply resolve_export_ok in Hex as (He & Hx & Hty); [|done].
  destruct (proj2 (Hdom n) Hneed) as [[m t] Hn].
  destruct (Hent _ _ _ Hn) as [-> Hm].
  assert (c !! n = Some (n, t)) as Hc.
  { rewrite Hty in Hn. by apply map_filter_lookup_Some in Hn as [? _]. }
  assert (exists T rs, done_before a n T /\ t = TStruct rs /\ Forall2 (field_matches c) (arrangement T fs) rs) as (T & rs & HT & -> & Hrs).
  { assert (forall c0, C0 ⊆ c0 -> closed D C0 c0 -> forall m m', m ∈ dom c0 -> refers a m m' -> m' ∈ dom c0) as Hclosed.
    { intros c0 Hs1 Hcl m m' Hm0 Href. destruct (decide (m' ∈ builtin_names)) as [Hb|Hb].
      - assert (is_Some (C0 !! m')) as [y Hy] by (apply (shallow_C0 a e C0 D); [done..|by left]). apply elem_of_dom. exists y. by eapply lookup_weaken.
      - apply elem_of_dom. apply (Hcl m m'); [by apply elem_of_dom|]. by apply (refers_refD a Hnb e C0 D F). }
    assert (forall c0, C0 ⊆ c0 -> forall m, shallow a m -> m ∈ dom c0) as Hsh.
    { intros c0 Hs m Hm0. apply (shallow_C0 a e C0 D) in Hm0 as [y Hy]; [|done..]. apply elem_of_dom. exists y. by eapply lookup_weaken. }
    destruct (sr_new _ _ _ S _ _ _ Hc) as [HC0|(fs' & c0 & rs & Ha & Hs1 & Hs2 & [Hcl Hself] & _ & Hrs & ->)].
    - exists (dom C0). assert (exists rs, t = TStruct rs /\ Forall2 (field_matches c) fs rs /\ shallow a n) as (rs & -> & Hrs & Hshn).
      { apply (C0_lookup a Hnb e C0 D F) in HC0 as HC1. destruct HC1 as [_ [(u & Hu & Ho)|(b & Hb & ->)]].
        + pose proof (decl_unique _ _ _ _ (ff_nodup _ _ _ _ F) Hd Hu) as <-.
          apply fp_one_struct in Ho as (_ & _ & [(_ & rs & Hrs & [= ->])|[_ [=]]]).
          exists rs. split; [done|]. split; [eapply Forall2_fm_mono; [by eapply builtins_sub_c|done]|]. apply (shallow_C0 a e C0 D); [done..|]. by eexists.
        + exfalso. apply (decl_not_builtin a Hnb n _ Hd). apply builtin_names_spec. eauto. }
      exists rs. split.
      + constructor; [by apply Hsh| |by intros _].
        intros m m' Hm0 Href. apply elem_of_dom in Hm0. apply (shallow_C0 a e C0 D) in Hm0; [|done..].
        destruct Href as (fs' & f & u & Hd' & Hin & <-). apply (Hsh C0); [done|]. destruct Hm0 as [Hb|[[vs Hv]|(fs'' & Hd'' & Hb)]].
        * exfalso. by apply (decl_not_builtin a Hnb m _ Hd').
        * by pose proof (decl_unique _ _ _ _ (ff_nodup _ _ _ _ F) Hd' Hv).
        * pose proof (decl_unique _ _ _ _ (ff_nodup _ _ _ _ F) Hd' Hd'') as [= <-]. left. by apply (Hb (f, u)).
      + split; [done|]. rewrite arrangement_all; [done|]. intros d Hin. apply (Hsh C0); [done|]. destruct Hshn as [Hb|[[vs Hv]|(fs'' & Hd'' & Hb)]].
        * exfalso. by apply (decl_not_builtin a Hnb n _ Hd).
        * by pose proof (decl_unique _ _ _ _ (ff_nodup _ _ _ _ F) Hd Hv).
        * pose proof (decl_unique _ _ _ _ (ff_nodup _ _ _ _ F) Hd Hd'') as [= <-]. left. by apply Hb.
    - apply (active_iff a Hnb e C0 D F) in Ha as [Ha _].
      pose proof (decl_unique _ _ _ _ (ff_nodup _ _ _ _ F) Hd Ha) as [= <-].
      exists (dom c0), rs. rewrite arrangement_arranged. split; [|done]. constructor; [by apply Hsh|by apply Hclosed|].
      intros Hin. apply elem_of_dom in Hin. rewrite Hself in Hin. by destruct Hin. }
  exists T. split; [done|]. exists rs. split; [done|].
  destruct Hm as [(b & Hb & [=])|[(vs & ? & Hvs & _ & [=])|(fs' & ds & rs' & Hd' & Hp & Hrs' & [= <-])]].
  assert (arrangement T fs = ds) as <- by by eapply Forall2_fm_inj. done.
Qed.

(** each of them is chosen by a run *)
Lemma loop_closed D C0 (HD : forall n t, D !! n = Some t -> exists fs, t = AStruct fs) (HC : named C0) fuel (S : gset string) order s :
  (forall n m, n ∈ S -> refD D C0 n m -> m ∈ S) -> (forall n t, (n, t) ∈ order -> D !! n = Some t /\ n ∈ S) -> goodD D C0 -> inv D C0 ∅ ∅ s -> size D < fuel ->
  exists s', second_pass_loop fuel order s = Ok s' /\ inv D C0 ∅ ∅ s' /\
    (forall n t, (n, t) ∈ order -> is_Some (cache s' !! n)) /\ cache s ⊆ cache s' /\ forall k, is_Some (cache s' !! k) -> is_Some (cache s !! k) \/ k ∈ S.
Proof.
  intros HS. revert s. induction order as [|[n t] order IH]; intros s Hord Hg Hinv Hf; cbn [second_pass_loop].
  - exists s. split; [done|]. split; [done|]. split; [by intros ?? ?%elem_of_nil|]. split; [done|]. auto.
  - destruct (Hord n t ltac:(left)) as [Hn HnS].
    destruct (second_pass_one D C0 HD HC fuel n t ∅ s) as [(s1 & -> & (Hi & Hc & Hu) & Hk & Hup & _)|(m & -> & Hbad)].
    + done.
    + eapply (inv_weaken D C0 HD HC); [|done]. set_solver.
    + pose proof (map_subseteq_size _ _ (i_unres _ _ _ _ _ Hinv)). lia.
    + cbn [rbind]. destruct (IH s1) as (s2 & H1 & H2 & H3 & H4 & H5); [intros; apply Hord; by right|done..|].
      exists s2. split; [done|]. split; [done|]. split; [|split; [by etrans|]].
      * intros n' t' [[= -> ->]|Hin]%elem_of_cons; [|by eapply H3]. destruct Hk as [x Hx]. exists x. by eapply lookup_weaken.
      * intros k [Hk'|?]%H5; [|auto]. apply Hup in Hk' as [?|Hr]; [auto|]. right. clear -HS HnS Hr. revert HnS. induction Hr; [done|]. eauto.
    + exfalso. apply Hbad. split; [done|]. set_solver.
Qed.
Lemma layout_possible a e n fs S : valid_schema a -> no_builtin_decl a -> declares_struct a n fs -> exports a = [e] -> needed a e n -> done_before a n S ->
  exists iter r, fair_order iter /\ type_check iter a = Ok r /\ keeps_order (r_types r) n (arrangement S fs).
Proof.
  intros V Hnb Hd He Hneed HS.
  destruct (front_complete a e He (vs_decls _ V)) as (C0 & D & HF).
  { intros. by eapply valid_fp_ok. }
  pose proof (front_ok _ _ _ _ HF) as F.
  destruct (valid_good a Hnb e C0 D F V) as [Hgood Hexg].
  pose proof (ff_struct _ _ _ _ F) as HD. pose proof (ff_named _ _ _ _ F) as HC.
  destruct (decide (is_Some (C0 !! n))) as [Hsh|Hns].
  { (* no other order is possible *)
    destruct (proj2 (type_check_valid (fun m => map_to_list m) a ltac:(by intros m) Hnb) V) as [r Hr]. exists (fun m => map_to_list m), r. split; [by intros m|]. split; [done|].
    apply (shallow_C0 a e C0 D) in Hsh as Hsh'; [|done..].
    assert (forall d, d ∈ fs -> u_name d.2 ∈ builtin_names) as Hb.
    { destruct Hsh' as [Hb|[[vs Hv]|(fs'' & Hd'' & Hb)]].
      - exfalso. by apply (decl_not_builtin a Hnb n _ Hd).
      - by pose proof (decl_unique _ _ _ _ (ff_nodup _ _ _ _ F) Hd Hv).
      - pose proof (decl_unique _ _ _ _ (ff_nodup _ _ _ _ F) Hd Hd'') as [= <-]. done. }
    rewrite arrangement_all by (intros d Hin; apply (db_shallow _ _ _ HS); left; by apply Hb).
    pose proof (type_check_result _ _ _ ltac:(by intros m) Hnb Hr) as (He' & _). rewrite He in He'. injection He' as ->.
    eapply (order_fixed_keeps (fun m => map_to_list m)); [by intros m|done..|]. intros i j di dj _ Hi _. left. left. apply Hb. by eapply elem_of_list_lookup_2. }
  assert (~ shallow a n) as Hnsh by (by rewrite <- (shallow_C0 a e C0 D)). assert (n ∉ S) as HnS by (intros H; by apply Hnsh, (db_self _ _ _ HS)).
  assert (active D C0 n fs) as Hact.
  { apply (active_iff a Hnb e C0 D F). split; [done|]. intros Hall. apply Hnsh. right. right. exists fs. split; [done|]. intros d Hin. rewrite Forall_forall in Hall. by apply Hall. }
  set (pre := filter (fun d => d.1 ∈ S) (map_to_list D)).
  destruct (loop_closed D C0 HD HC (Datatypes.S (size D)) S pre (Sp C0 ∅ D)) as (s1 & Hpre & Hi1 & Hk1 & Hc1 & Hup1).
  { intros m k Hm Hr. apply (db_closed _ _ _ HS m); [done|]. by apply (refD_refers a Hnb e C0 D F). }
  { intros m t [Hm Hin]%elem_of_list_filter. split; [by apply elem_of_map_to_list|done]. }
  { done. }
  { constructor; simpl; try done; set_solver. }
  { lia. }
  assert (forall k, is_Some (C0 !! k) \/ is_Some (D !! k) -> (is_Some (cache s1 !! k) <-> k ∈ S)) as Hkeys.
  { intros k Hk. split.
    - intros [H|H]%Hup1; [|done]. cbn [cache] in H. apply (db_shallow _ _ _ HS). by apply (shallow_C0 a e C0 D).
    - intros HkS. destruct Hk as [[y Hy]|[t Ht]]; [exists y; by eapply lookup_weaken|]. apply (Hk1 k t). apply elem_of_list_filter. split; [done|]. by apply elem_of_map_to_list. }
  assert (cache s1 !! n = None) as Hn1.
  { apply eq_None_not_Some. intros H. apply HnS, Hkeys; [right; exists (AStruct fs); apply Hact|done]. }
  assert (arrangement S fs = arranged (cache s1) fs) as ->.
  { rewrite <- arrangement_arranged. apply arrangement_ext. intros [f u] Hin. cbn [snd]. rewrite elem_of_dom. symmetry. apply Hkeys. by apply (gd_known _ _ Hgood n fs f). }
  assert (exists l, pre ++ (n, AStruct fs) :: l ≡ₚ map_to_list D) as [l Hl].
  { pose proof (filter_split (fun d => d.1 ∈ S) (map_to_list D)) as Hsp. fold pre in Hsp. cbn beta in Hsp.
    assert ((n, AStruct fs) ∈ filter (fun d => d.1 ∉ S) (map_to_list D)) as [l Hl]%elem_of_Permutation.
    { apply elem_of_list_filter. split; [done|]. apply elem_of_map_to_list, Hact. }
    exists l. by rewrite <- Hl. }
  set (iter := two_first D (pre ++ (n, AStruct fs) :: l)).
  assert (fair_order iter) as Hfair by by apply two_first_fair.
  assert (is_ok (type_check iter a)) as [r Hr] by by apply type_check_valid.
  exists iter, r. split; [done|]. split; [done|].
  destruct (type_check_inv _ _ _ Hfair Hr) as (e' & C0' & D' & c & HF' & _ & Hsp & SR & Hex).
  rewrite HF in HF'. injection HF' as <- <- <-.
  pose proof (type_check_result _ _ _ Hfair Hnb Hr) as (He' & _ & Hdom & Hent). rewrite He in He'. injection He' as E. rewrite E in *. clear E.
  assert (r_types r ⊆ c) as Hrc.
  { pose proof (c_wf a Hnb _ C0 D F c SR) as Hwf.
    apply resolve_export_ok in Hex as (_ & _ & ->); [|done]. apply map_filter_subseteq. }
  unfold resolve_second_pass in Hsp. apply rbind_ok in Hsp as (sf & Hloop & [= <-]).
  replace (iter D) with (pre ++ (n, AStruct fs) :: l) in Hloop
    by (unfold iter, two_first; by rewrite decide_True).
  assert (forall pre s, second_pass_loop (Datatypes.S (size D)) (pre ++ (n, AStruct fs) :: l) s =
            rbind (second_pass_loop (Datatypes.S (size D)) pre s)
                  (second_pass_loop (Datatypes.S (size D)) ((n, AStruct fs) :: l))) as Happ.
  { clear. induction pre as [|[x t] pre IH]; intros s; [done|].
    cbn [app second_pass_loop]. destruct (resolve_one_second_pass (Datatypes.S (size D)) x t s); try done.
    apply IH. }
  rewrite Happ, Hpre in Hloop. cbn [rbind second_pass_loop] in Hloop.
  destruct (second_pass_one D C0 HD HC (Datatypes.S (size D)) n (AStruct fs) ∅ s1) as
    [(s2 & Hs2 & (Hi2 & Hc2 & _) & _ & _ & Hent2)|(m & Hs2 & _)].
  - apply Hact.
  - eapply (inv_weaken D C0 HD HC); [|done]. set_solver.
  - pose proof (map_subseteq_size _ _ (i_unres _ _ _ _ _ Hi1)). lia.
  - rewrite Hs2 in Hloop. cbn [rbind] in Hloop.
    destruct (Hent2 fs eq_refl Hn1) as (rs' & Hl' & Hrs').
    assert (cache s2 ⊆ cache sf) as Hmono.
    { destruct (second_pass_loop_spec D C0 HD HC (Datatypes.S (size D)) l s2) as [(s' & E & _ & ? & _)|(m & E & _)].
      - intros x t Hin. apply elem_of_map_to_list. rewrite <-Hl.
        apply elem_of_app. right. by right.
      - done.
      - lia.
      - assert (s' = sf) as <- by congruence. done.
      - congruence. }
    destruct (proj2 (Hdom n) Hneed) as [[n' t] Hn]. destruct (Hent _ _ _ Hn) as [-> Hm].
    assert (t = TStruct rs') as ->.
    { pose proof (lookup_weaken _ _ _ _ Hl' Hmono) as E1. pose proof (lookup_weaken _ _ _ _ Hn Hrc) as E2. congruence. }
    exists rs'. split; [done|].
    destruct Hm as [(b & Hb & [=])|[(vs & ? & Hvs & _ & [=])|(fs' & ds & rs2 & Hd' & Hp & Hrs2 & [= <-])]].
    assert (arranged (cache s1) fs = ds) as -> by by eapply Forall2_fm_inj. done.
  - rewrite Hs2 in Hloop. done.
Qed.

Lemma layouts a e n fs ds : valid_schema a -> no_builtin_decl a -> declares_struct a n fs -> exports a = [e] -> needed a e n ->
  (exists iter r, fair_order iter /\ type_check iter a = Ok r /\ keeps_order (r_types r) n ds) <-> exists S, done_before a n S /\ ds = arrangement S fs.
Proof.
  intros V Hnb Hd He Hneed. split.
  - intros (iter & r & Hf & Hr & rs & Hrs & Hm). pose proof (type_check_result _ _ _ Hf Hnb Hr) as (He' & _). rewrite He in He'. injection He' as ->.
    destruct (layout_chosen _ _ _ _ _ Hf Hnb Hr Hneed Hd) as (S & HS & rs' & Hrs' & Hm'). exists S. split; [done|]. rewrite Hrs in Hrs'. injection Hrs' as <-. by eapply Forall2_fm_inj.
  - intros (S & HS & ->). by eapply layout_possible.
Qed.

Local Ltac solve_names := by apply (bool_decide_unpack _); vm_compute.
(** ** An example: the types of order_schema *)
Lemma order_before (S : gset string) : S = list_to_set ("C" :: builtin_names) \/ S = list_to_set ("B" :: "C" :: builtin_names) -> done_before order_schema "A" S.
Proof.
  assert (forall n fs, declares_struct order_schema n fs -> (n, fs) ∈ [("A", [("b", plain "B"); ("x", plain "uint8")]); ("B", [("c", plain "C")]); ("C", [("v", plain "uint8")])]) as Hd.
  { intros n fs H. unfold declares_struct in H. rewrite !elem_of_cons. unfold order_schema in H. repeat (apply elem_of_cons in H as [H|H]; [first [discriminate H|injection H as -> ->; tauto]|]). by apply elem_of_nil in H. }
  assert (forall n vs, ~ declares_enum order_schema n vs) as He.
  { intros n vs H. unfold declares_enum, order_schema in H. repeat (apply elem_of_cons in H as [H|H]; [discriminate H|]). by apply elem_of_nil in H. }
  assert (forall m m', refers order_schema m m' -> (m, m') ∈ [("A", "B"); ("A", "uint8"); ("B", "C"); ("C", "uint8")]) as Hr.
  { intros m m' (fs & f & u & Hs%Hd & Hin & <-). rewrite !elem_of_cons. repeat (apply elem_of_cons in Hs as [[= -> ->]|Hs]); [..|by apply elem_of_nil in Hs];
      repeat (apply elem_of_cons in Hin as [[= -> ->]|Hin]; [cbn; tauto|]); by apply elem_of_nil in Hin. }
  assert (forall m, shallow order_schema m -> m ∈ "C" :: builtin_names) as Hsh.
  { intros m [Hb|[[vs Hv]|(fs & Hs%Hd & Hb)]]; [by right|by apply He in Hv|]. repeat (apply elem_of_cons in Hs as [[= -> ->]|Hs]); [..|by apply elem_of_nil in Hs].
    - specialize (Hb ("b", plain "B") ltac:(left)). apply (bool_decide_pack _) in Hb. by vm_compute in Hb.
    - specialize (Hb ("c", plain "C") ltac:(left)). apply (bool_decide_pack _) in Hb. by vm_compute in Hb.
    - left. }
  intros HS. constructor.
  - intros m Hm%Hsh. destruct HS as [-> | ->]; rewrite elem_of_list_to_set; [done|by right].
  - intros m m' Hm Hmm%Hr. assert (m = "A" \/ m' ∈ S) as [->|]; [|exfalso; revert Hm|done].
    + repeat (apply elem_of_cons in Hmm as [[= -> ->]|Hmm]); [..|by apply elem_of_nil in Hmm]; first [by left|right]; destruct HS as [-> | ->]; rewrite elem_of_list_to_set; solve_names.
    + destruct HS as [-> | ->]; rewrite elem_of_list_to_set; solve_names.
  - intros Hm. exfalso. revert Hm. destruct HS as [-> | ->]; rewrite elem_of_list_to_set; solve_names.
Qed.
Lemma order_example : done_before order_schema "A" (list_to_set ("C" :: builtin_names)) /\ done_before order_schema "A" (list_to_set ("B" :: "C" :: builtin_names)) /\
  arrangement (list_to_set ("C" :: builtin_names)) [("b", plain "B"); ("x", plain "uint8")] = [("x", plain "uint8"); ("b", plain "B")] /\
  arrangement (list_to_set ("B" :: "C" :: builtin_names)) [("b", plain "B"); ("x", plain "uint8")] = [("b", plain "B"); ("x", plain "uint8")].
Proof. split; [apply order_before; by left|]. split; [apply order_before; by right|]. split; by vm_compute. Qed.
