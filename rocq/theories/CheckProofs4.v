(** Proofs about the checker model, part 4: when the order of fields survives. *)
From Verif Require Export CheckProofs3.

Lemma filter_all {A} (P : A -> Prop) `{!forall x, Decision (P x)} (l : list A) :
  Forall P l -> filter P l = l.
Proof. induction 1; [done|]. rewrite filter_cons_True by done. by f_equal. Qed.
Lemma filter_none {A} (P : A -> Prop) `{!forall x, Decision (P x)} (l : list A) :
  Forall (fun x => ~ P x) l -> filter P l = [].
Proof. induction 1; [done|]. by rewrite filter_cons_False. Qed.

Lemma arranged_id c fs :
  (forall i j di dj, i < j -> fs !! i = Some di -> fs !! j = Some dj -> known c dj -> known c di) ->
  arranged c fs = fs.
Proof.
  unfold arranged. induction fs as [|d fs IH]; intros H; [done|].
  destruct (decide (known c d)) as [Hk|Hk].
  - rewrite (filter_cons_True (known c)) by done.
    rewrite (filter_cons_False (fun d => ~ known c d)) by (intros Hno; by apply Hno).
    simpl. f_equal. apply IH. intros i j di dj Hij Hi Hj. apply (H (S i) (S j)); [lia|done..].
  - assert (Forall (fun d => ~ known c d) (d :: fs)) as Hall.
    { apply Forall_cons. split; [done|]. apply Forall_forall. intros x [j Hj]%elem_of_list_lookup Hx.
      apply Hk. apply (H 0 (S j) d x); [lia|done..]. }
    rewrite filter_none by done. rewrite filter_all by done. done.
Qed.

Lemma arranged_id_inv c fs : arranged c fs = fs ->
  forall i j di dj, i < j -> fs !! i = Some di -> fs !! j = Some dj -> known c dj -> known c di.
Proof.
  unfold arranged. intros E i j di dj Hij Hi Hj Hk.
  set (l1 := filter (known c) fs) in *. set (l2 := filter (fun d => ~ known c d) fs) in *.
  assert (j < length l1) as Hjl.
  { destruct (decide (j < length l1)); [done|]. rewrite <-E in Hj.
    rewrite lookup_app_r in Hj by lia. apply elem_of_list_lookup_2 in Hj.
    by apply elem_of_list_filter in Hj as [? _]. }
  rewrite <-E in Hi. rewrite lookup_app_l in Hi by lia. apply elem_of_list_lookup_2 in Hi.
  by apply elem_of_list_filter in Hi as [? _].
Qed.

Lemma field_matches_inj c c' d d' r : field_matches c d r -> field_matches c' d' r -> d = d'.
Proof.
  destruct d as [f [t a o]], d' as [f' [t' a' o']]. unfold field_matches. simpl.
  intros (<- & <- & <- & <- & _) (<- & <- & <- & <- & _). done.
Qed.
Lemma Forall2_fm_inj c c' ds ds' rs :
  Forall2 (field_matches c) ds rs -> Forall2 (field_matches c') ds' rs -> ds = ds'.
Proof.
  intros H. revert ds'. induction H as [|d r ds rs Hd H IH]; intros ds' H'.
  - by apply Forall2_nil_inv_r in H'.
  - apply Forall2_cons_inv_r in H' as (d' & ds'' & Hd' & H' & ->).
    f_equal; [by eapply field_matches_inj|by apply IH].
Qed.

Lemma shallow_C0 a e C0 D : no_builtin_decl a -> front_facts a e C0 D ->
  forall n, is_Some (C0 !! n) <-> shallow a n.
Proof.
  intros Hnb F n. rewrite (known_C0 a Hnb e C0 D F). unfold shallow, fld_builtin.
  setoid_rewrite Forall_forall. done.
Qed.

Lemma closed_rtc D C0 c n m : closed D C0 c -> rtc (refD D C0) n m -> is_Some (c !! n) -> is_Some (c !! m).
Proof. intros Hcl. induction 1; [done|]. intros Hx. apply IHrtc. by eapply Hcl. Qed.

(** Sufficient: every order keeps the declared arrangement. *)
Lemma order_fixed_keeps iter a r n fs :
  fair_order iter -> no_builtin_decl a -> type_check iter a = Ok r ->
  needed a (x_name (r_export r)) n -> declares_struct a n fs -> order_fixed a fs ->
  keeps_order (r_types r) n fs.
Proof.
  intros Hfair Hnb Htc Hneed Hd Hfix.
  pose proof (type_check_result _ _ _ Hfair Hnb Htc) as (Hexp & _ & Hdom & Hent).
  destruct (type_check_inv _ _ _ Hfair Htc) as (e & C0 & D & c & _ & F & _ & S & Hex).
  pose proof (c_wf a Hnb e C0 D F c S) as Hwf.
  apply resolve_export_ok in Hex as (He & Hx & Hty); [|done].
  destruct (proj2 (Hdom n) Hneed) as [[m t] Hn].
  destruct (Hent _ _ _ Hn) as [-> Hm].
  assert (c !! n = Some (n, t)) as Hc.
  { rewrite Hty in Hn. by apply map_filter_lookup_Some in Hn as [? _]. }
  assert (exists rs, t = TStruct rs /\ Forall2 (field_matches c) fs rs) as (rs & -> & Hrs).
  { destruct (sr_new _ _ _ S _ _ _ Hc) as [HC0|(fs' & c0 & rs & Ha & Hs1 & Hs2 & [Hcl _] & _ & Hrs & ->)].
    - apply (C0_lookup a Hnb e C0 D F) in HC0 as [_ [(u & Hu & Ho)|(b & Hb & ->)]].
      + pose proof (decl_unique _ _ _ _ (ff_nodup _ _ _ _ F) Hd Hu) as <-.
        apply fp_one_struct in Ho as (_ & _ & [(_ & rs & Hrs & [= ->])|[_ [=]]]).
        exists rs. split; [done|]. eapply Forall2_fm_mono; [by eapply builtins_sub_c|done].
      + exfalso. apply (decl_not_builtin a Hnb n _ Hd). apply builtin_names_spec. eauto.
    - apply (active_iff a Hnb e C0 D F) in Ha as [Ha _].
      pose proof (decl_unique _ _ _ _ (ff_nodup _ _ _ _ F) Hd Ha) as [= <-].
      exists rs. split; [done|]. rewrite <-(arranged_id c0 fs); [done|].
      intros i j di dj Hij Hi Hj Hk. unfold known in *.
      destruct (decide (is_Some (C0 !! u_name di.2))) as [[y Hy]|Hns].
      { exists y. by eapply lookup_weaken. }
      assert (~ shallow a (u_name di.2)) as Hnsh by by rewrite <-(shallow_C0 a e C0 D).
      destruct (Hfix i j di dj Hij Hi Hj) as [?|Hr]; [done|].
      eapply closed_rtc; [done| |exact Hk].
      apply rtc_tc in Hr as [<-|Ht]; [apply rtc_refl|].
      apply tc_rtc. apply (tc_refD a Hnb e C0 D F); [done|]. intros Hb. apply Hnsh. by left. }
  exists rs. split; [done|].
  destruct Hm as [(b & Hb & [=])|[(vs & ? & Hvs & _ & [=])|(fs' & ds & rs' & Hd' & Hp & Hrs' & [= <-])]].
  assert (fs = ds) as <- by by eapply Forall2_fm_inj. done.
Qed.

(** Necessary: the order that visits the later field's type, then the struct itself. *)
Definition two_first (D : gmap string atype) (l : list (string * atype)) (m : gmap string atype) :
  list (string * atype) :=
  if decide (m = D) then l else map_to_list m.
Lemma two_first_fair D l : l ≡ₚ map_to_list D -> fair_order (two_first D l).
Proof. intros Hl m. unfold two_first. case_decide; [by subst|done]. Qed.

Lemma map_to_list_first (D : gmap string atype) n t : D !! n = Some t ->
  exists l, (n, t) :: l ≡ₚ map_to_list D.
Proof.
  intros H. exists (map_to_list (delete n D)). rewrite <-map_to_list_insert by apply lookup_delete.
  by rewrite insert_delete.
Qed.

Lemma keeps_order_fixed a n fs :
  valid_schema a -> no_builtin_decl a -> declares_struct a n fs ->
  (exists e, exports a = [e] /\ needed a e n) ->
  (forall iter r, fair_order iter -> type_check iter a = Ok r -> keeps_order (r_types r) n fs) ->
  order_fixed a fs.
Proof.
  intros V Hnb Hd (e & He & Hneed) Hkeep i j di dj Hij Hi Hj.
  destruct (front_complete a e He (vs_decls _ V)) as (C0 & D & HF).
  { intros. by eapply valid_fp_ok. }
  pose proof (front_ok _ _ _ _ HF) as F.
  destruct (valid_good a Hnb e C0 D F V) as [Hgood Hexg].
  destruct (decide (is_Some (C0 !! u_name di.2))) as [Hk|Hnk].
  { left. by apply (shallow_C0 a e C0 D). }
  right.
  assert (di ∈ fs) as Hini by (by eapply elem_of_list_lookup_2).
  assert (dj ∈ fs) as Hinj by (by eapply elem_of_list_lookup_2).
  assert (active D C0 n fs) as Hact.
  { apply (active_iff a Hnb e C0 D F). split; [done|]. rewrite Forall_forall. intros Hall.
    apply Hnk. apply (known_C0 a Hnb e C0 D F). left. by apply (Hall di). }
  pose proof (ff_struct _ _ _ _ F) as HD. pose proof (ff_named _ _ _ _ F) as HC.
  assert (refD D C0 n (u_name dj.2)) as Hrj by (destruct dj as [f u]; exists fs, f, u; done).
  (* for any prefix [pre] of a fair order after which the map is [c1] and [n] is next *)
  assert (forall pre s1, (exists l, pre ++ (n, AStruct fs) :: l ≡ₚ map_to_list D) ->
            second_pass_loop (S (size D)) pre (Sp C0 ∅ D) = Ok s1 ->
            inv D C0 ∅ ∅ s1 -> cache s1 !! n = None ->
            arranged (cache s1) fs = fs) as Hrun.
  { intros pre s1 [l Hl] Hpre Hi1 Hn1.
    set (iter := two_first D (pre ++ (n, AStruct fs) :: l)).
    assert (fair_order iter) as Hfair by by apply two_first_fair.
    assert (is_ok (type_check iter a)) as [r Hr] by by apply type_check_valid.
    pose proof (Hkeep iter r Hfair Hr) as (rs & Hrs1 & Hrs2).
    destruct (type_check_inv _ _ _ Hfair Hr) as (e' & C0' & D' & c & HF' & _ & Hsp & SR & Hex).
    rewrite HF in HF'. injection HF' as <- <- <-.
    assert (r_types r ⊆ c) as Hrc.
    { pose proof (c_wf a Hnb e C0 D F c SR) as Hwf.
      apply resolve_export_ok in Hex as (_ & _ & ->); [|done]. apply map_filter_subseteq. }
    unfold resolve_second_pass in Hsp. apply rbind_ok in Hsp as (sf & Hloop & [= <-]).
    replace (iter D) with (pre ++ (n, AStruct fs) :: l) in Hloop
      by (unfold iter, two_first; by rewrite decide_True).
    assert (forall pre s, second_pass_loop (S (size D)) (pre ++ (n, AStruct fs) :: l) s =
              rbind (second_pass_loop (S (size D)) pre s)
                    (second_pass_loop (S (size D)) ((n, AStruct fs) :: l))) as Happ.
    { clear. induction pre as [|[x t] pre IH]; intros s; [done|].
      cbn [app second_pass_loop]. destruct (resolve_one_second_pass (S (size D)) x t s); try done.
      apply IH. }
    rewrite Happ, Hpre in Hloop. cbn [rbind second_pass_loop] in Hloop.
    destruct (second_pass_one D C0 HD HC (S (size D)) n (AStruct fs) ∅ s1) as
      [(s2 & Hs2 & (Hi2 & Hc2 & _) & _ & _ & Hent)|(m & Hs2 & _)].
    - apply Hact.
    - eapply (inv_weaken D C0 HD HC); [|done]. set_solver.
    - pose proof (map_subseteq_size _ _ (i_unres _ _ _ _ _ Hi1)). lia.
    - rewrite Hs2 in Hloop. cbn [rbind] in Hloop.
      destruct (Hent fs eq_refl Hn1) as (rs' & Hl' & Hrs').
      assert (cache s2 ⊆ cache sf) as Hmono.
      { destruct (second_pass_loop_spec D C0 HD HC (S (size D)) l s2) as [(s' & E & _ & ? & _)|(m & E & _)].
        - intros x t Hin. apply elem_of_map_to_list. rewrite <-Hl.
          apply elem_of_app. right. by right.
        - done.
        - lia.
        - assert (s' = sf) as <- by congruence. done.
        - congruence. }
      assert (TStruct rs = TStruct rs') as [= <-].
      { pose proof (lookup_weaken _ _ _ _ Hl' Hmono) as E1.
        pose proof (lookup_weaken _ _ _ _ Hrs1 Hrc) as E2. congruence. }
      by eapply Forall2_fm_inj.
    - rewrite Hs2 in Hloop. done. }
  destruct (decide (is_Some (C0 !! u_name dj.2))) as [Hkj|Hnkj].
  - exfalso. apply Hnk.
    assert (arranged C0 fs = fs) as Harr.
    { apply (Hrun [] (Sp C0 ∅ D)).
      - destruct (map_to_list_first D n (AStruct fs)) as [l Hl]; [apply Hact|]. by exists l.
      - done.
      - constructor; simpl; try done; set_solver.
      - apply Hact. }
    by eapply (arranged_id_inv C0 fs Harr i j).
  - assert (exists tj, D !! u_name dj.2 = Some tj) as [tj Htj].
    { destruct dj as [f u]. destruct (gd_known _ _ Hgood _ _ _ _ Hact Hinj) as [?|[? ?]]; [done|eauto]. }
    assert (u_name dj.2 ≠ n) as Hne.
    { intros E. rewrite E in Hrj. apply (gd_acyclic _ _ Hgood n). by apply tc_once. }
    destruct (second_pass_one D C0 HD HC (S (size D)) (u_name dj.2) tj ∅ (Sp C0 ∅ D)) as
      [(s1 & Hs1 & (Hi1 & Hc1 & _) & Hk1 & Hup & _)|(m & Hs1 & Hbad)].
    + done.
    + constructor; simpl; try done; set_solver.
    + simpl. lia.
    + assert (cache s1 !! n = None) as Hn1.
      { apply eq_None_not_Some. intros Hs. apply Hup in Hs as [[? Hs]|Hs].
        - simpl in Hs. destruct Hact as [_ ?]. congruence.
        - apply (gd_acyclic _ _ Hgood n). eapply tc_rtc_r; [by apply tc_once|done]. }
      assert (arranged (cache s1) fs = fs) as Harr.
      { apply (Hrun [(u_name dj.2, tj)] s1); [|cbn [second_pass_loop]; by rewrite Hs1|done|done].
        exists (map_to_list (delete n (delete (u_name dj.2) D))).
        simpl. rewrite <-(map_to_list_insert _ n) by apply lookup_delete.
        rewrite insert_delete by (rewrite lookup_delete_ne by done; apply Hact).
        rewrite <-(map_to_list_insert _ (u_name dj.2)) by apply lookup_delete.
        by rewrite insert_delete. }
      pose proof (arranged_id_inv _ _ Harr i j di dj Hij Hi Hj Hk1) as Hki.
      apply Hup in Hki as [?|Hr]; [done|].
      clear -Hr Hnb F. induction Hr; [apply rtc_refl|]. eapply rtc_l; [|done].
      by eapply (refD_refers a Hnb).
    + exfalso. apply Hbad. split; [done|]. set_solver.
Qed.
