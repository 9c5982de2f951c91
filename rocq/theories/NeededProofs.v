(** The possible results of the checker do not depend on declarations that the export does not need (C64), whatever the
    schema leaves to the order of the hash map. *)
From Verif Require Export EvolveProofs.

(** ** What a successful second pass does to the map of types *)
Inductive visits (D : gmap string atype) : tymap -> string -> tymap -> Prop :=
| v_known c n : is_Some (c !! n) -> visits D c n c
| v_new c n fs c1 rs : c !! n = None -> D !! n = Some (AStruct fs) -> visits_all D c ((fun d => u_name d.2) <$> filter (fun d => ~ known c d) fs) c1 ->
    c1 !! n = None -> Forall2 (field_matches c1) (arranged c fs) rs -> visits D c n (<[n := (n, TStruct rs)]> c1)
with visits_all (D : gmap string atype) : tymap -> list string -> tymap -> Prop :=
| va_nil c : visits_all D c [] c
| va_cons c n l c1 c2 : visits D c n c1 -> visits_all D c1 l c2 -> visits_all D c (n :: l) c2.
Scheme visits_ind2 := Minimality for visits Sort Prop with visits_all_ind2 := Minimality for visits_all Sort Prop.
Combined Scheme visits_both from visits_ind2, visits_all_ind2.

Lemma visits_some D c n c' : visits D c n c' -> is_Some (c' !! n).
Proof. destruct 1; [done|]. rewrite lookup_insert. eauto. Qed.
Lemma visits_mono_ D : (forall c n c', visits D c n c' -> c ⊆ c') /\ (forall c l c', visits_all D c l c' -> c ⊆ c').
Proof.
  apply visits_both; [done| |done|by intros; etrans].
  intros c n fs c1 rs Hn HD _ IH Hn1 _. etrans; [exact IH|]. by apply insert_subseteq.
Qed.
Definition visits_mono D := proj1 (visits_mono_ D).
Definition visits_all_mono D := proj2 (visits_mono_ D).
Lemma field_matches_fun c d r r' : field_matches c d r -> field_matches c d r' -> r = r'.
Proof. destruct r, r'. unfold field_matches. cbn. intros (<- & <- & <- & <- & H) (<- & <- & <- & <- & H'). rewrite H in H'. by injection H' as <-. Qed.
Lemma Forall2_fm_fun c ds rs rs' : Forall2 (field_matches c) ds rs -> Forall2 (field_matches c) ds rs' -> rs = rs'.
Proof.
  intros H. revert rs'. induction H as [|d r ds rs Hr _ IH]; intros rs' H'; inversion H'; subst; [done|]. f_equal; [by eapply field_matches_fun|by apply IH].
Qed.
Lemma visits_fun_ D : (forall c n c1, visits D c n c1 -> forall c2, visits D c n c2 -> c1 = c2) /\ (forall c l c1, visits_all D c l c1 -> forall c2, visits_all D c l c2 -> c1 = c2).
Proof.
  apply visits_both.
  - intros c n [x Hx] c2 H. inversion H; subst; [done|congruence].
  - intros c n fs c1 rs Hn HD _ IH Hn1 Hrs c2 H. inversion H as [? ? [? ?]|? ? fs2 c1' rs2 ? HD2 Ha ? Hrs2]; subst; [congruence|].
    assert (fs2 = fs) as -> by congruence. rewrite <- (IH _ Ha) in *. by rewrite (Forall2_fm_fun _ _ _ _ Hrs Hrs2).
  - intros c c2 H. by inversion H.
  - intros c n l c1 c2 _ IH1 _ IH2 c3 H. inversion H as [|? ? ? ? ? H1 H2]; subst. rewrite <- (IH1 _ H1) in H2. by apply IH2.
Qed.
Lemma visits_all_app D l k c c' : visits_all D c (l ++ k) c' <-> exists c1, visits_all D c l c1 /\ visits_all D c1 k c'.
Proof.
  revert c. induction l as [|n l IH]; intros c; cbn.
  - split; [intros H; exists c; split; [constructor|done]|]. intros (c1 & H & H1). inversion H; by subst.
  - split.
    + intros H. inversion H as [|? ? ? c1 ? H1 H2]; subst. apply IH in H2 as (c2 & H2 & H3). exists c2. split; [by econstructor|done].
    + intros (c2 & H & H3). inversion H as [|? ? ? c1 ? H1 H2]; subst. econstructor; [done|]. apply IH. eauto.
Qed.

(** ** A successful run does just that *)
Definition kept (s s' : sp) : Prop :=
  named (cache s') /\ unres s' ⊆ unres s /\ visited s ⊆ visited s' /\ forall m, m ∈ visited s -> cache s !! m = None -> cache s' !! m = None.
Lemma kept_trans s1 s2 s3 : kept s1 s2 -> kept s2 s3 -> kept s1 s3.
Proof. intros (N1 & U1 & V1 & K1) (N2 & U2 & V2 & K2). split; [done|]. split; [by etrans|]. split; [by etrans|]. intros m Hm Hc. apply K2; [by apply V1|by apply K1]. Qed.
Lemma finish_ok name c nr acc out : named c -> finish_fields name c nr acc = Ok out -> exists rs, out = acc ++ rs /\ Forall2 (field_matches c) nr rs.
Proof.
  intros Hn. revert acc. induction nr as [|[f u] nr IH]; intros acc; cbn.
  - intros [= <-]. exists []. by rewrite app_nil_r.
  - intros ([o|] & Ho & H)%rbind_ok; [|done]. destruct (IH _ H) as (rs & -> & Hrs). exists (o :: rs). split; [by rewrite <- app_assoc|].
    constructor; [by eapply rsf_matches|done].
Qed.
Lemma one_visits D fuel : forall n t s s', unres s ⊆ D -> named (cache s) -> D !! n = Some t -> resolve_one_second_pass fuel n t s = Ok s' ->
  visits D (cache s) n (cache s') /\ kept s s'.
Proof.
  induction fuel as [|fuel IH]; intros n t s s' Hu Hnm HD; cbn [resolve_one_second_pass]; [done|].
  destruct (cache s !! n) as [x|] eqn:Hc.
  { intros [= <-]. split; [constructor; eauto|]. by split. }
  destruct t as [|fs]; [done|]. case_decide as Hvis; [done|]. intros ([F nr] & Hsp & H)%rbind_ok. cbn [cache] in Hsp.
  destruct (split_fields_spec n (cache s) fs [] [] Hnm) as [(rs & E & Hrs & _)|(m & E & _)]; rewrite E in Hsp; [|done]. injection Hsp as <- <-. cbn [app] in H.
  assert (forall nr s1 s2, unres s1 ⊆ D -> named (cache s1) -> resolve_field_types (resolve_one_second_pass fuel) nr s1 = Ok s2 ->
    visits_all D (cache s1) ((fun d => u_name d.2) <$> nr) (cache s2) /\ kept s1 s2) as Hfs.
  { clear -IH. induction nr as [|[f u] nr IHn]; intros s1 s2 Hu Hnm; cbn [resolve_field_types fmap list_fmap snd].
    - intros [= <-]. split; [constructor|by split].
    - destruct (unres s1 !! u_name u) as [ut|] eqn:Hl.
      + intros (s3 & H3 & H)%rbind_ok. apply IH in H3 as [V3 K3]; cycle 1.
        { cbn. etrans; [apply delete_subseteq|done]. } { done. } { by eapply lookup_weaken. }
        cbn [cache] in V3.
        assert (kept s1 s3) as K3'.
        { destruct K3 as (A & B & C & E). split; [done|]. split; [etrans; [exact B|apply delete_subseteq]|]. by split. }
        destruct K3 as (A & B & _). apply IHn in H as [V K]; [|etrans; [exact B|]; etrans; [apply delete_subseteq|done]|done].
        split; [by econstructor|by eapply kept_trans].
      + destruct (cache s1 !! u_name u) as [y|] eqn:Hy; [|done]. intros H. destruct (IHn _ _ Hu Hnm H) as [V K]. split; [|done]. econstructor; [constructor; eauto|done]. }
  set (s1 := Sp (cache s) ({[n]} ∪ visited s) (unres s)) in *.
  assert (forall s2 rs2, visits_all D (cache s) ((fun d => u_name d.2) <$> filter (fun d => ~ known (cache s) d) fs) (cache s2) -> kept s1 s2 ->
    Forall2 (field_matches (cache s2)) (filter (fun d => ~ known (cache s) d) fs) rs2 ->
    let s3 := Sp (<[n := (n, TStruct (rs ++ rs2))]> (cache s2)) (visited s2) (unres s2) in visits D (cache s) n (cache s3) /\ kept s s3) as Hfin.
  { intros s2 rs2 V (Kn & Ku & Kv & Kk) Hrs2. cbn. assert (cache s2 !! n = None) as Hn2 by (apply Kk; [cbn; set_solver|done]). split.
    - econstructor; [done|done|exact V|done|]. unfold arranged. apply Forall2_app; [|done]. eapply Forall2_fm_mono; [|done]. by apply (visits_all_mono D) in V.
    - split; [|split; [exact Ku|split; [cbn in *; set_solver|]]].
      + intros m m' t. cbn. rewrite lookup_insert_Some. intros [[<- [= <- <-]]|[_ Hl]]; [done|]. by eapply Kn.
      + intros m Hm Hcm. cbn in *. rewrite lookup_insert_ne by (intros ->; done). apply Kk; [set_solver|done]. }
  destruct (filter (fun d => ~ known (cache s) d) fs) as [|d nr] eqn:Enr.
  - injection H as <-. specialize (Hfin s1 []). rewrite app_nil_r in Hfin. apply Hfin; [constructor| |constructor].
    split; [exact Hnm|]. split; [done|]. split; [done|]. done.
  - rewrite <- Enr in *. apply rbind_ok in H as (s2 & H2 & H). apply rbind_ok in H as (nw & Hnw & [= <-]).
    apply Hfs in H2 as [V K]; [|done..]. apply finish_ok in Hnw as (rs2 & -> & Hrs2); [|apply K]. by apply Hfin.
Qed.
Lemma loop_visits D fuel : forall order s s', unres s ⊆ D -> named (cache s) -> (forall n t, (n, t) ∈ order -> D !! n = Some t) -> second_pass_loop fuel order s = Ok s' ->
  visits_all D (cache s) order.*1 (cache s').
Proof.
  induction order as [|[n t] order IH]; intros s s' Hu Hnm Hord; cbn [second_pass_loop fmap list_fmap fst].
  - intros [= <-]. constructor.
  - intros (s1 & H1 & H)%rbind_ok. apply (one_visits D) in H1 as [V (K1 & K2 & _)]; [|done|done|apply Hord; left]. econstructor; [exact V|].
    apply IH; [by etrans|done| |done]. intros m u Hin. apply Hord. by right.
Qed.
Lemma second_visits iter C0 D c : fair_order iter -> named C0 -> resolve_second_pass iter C0 D = Ok c -> visits_all D C0 (iter D).*1 c.
Proof.
  intros Hf Hnm (s & Hs & [= <-])%rbind_ok. apply (loop_visits D) in Hs; [done|done|done|]. intros n t Hin. apply elem_of_map_to_list. by rewrite <- (Hf D).
Qed.

(** ** Two schemas that agree on what is needed *)
Section two.
  Context (D1 D2 : gmap string atype) (N : string -> Prop).
  Hypothesis (Hsame : forall n, N n -> D1 !! n = D2 !! n).
  Hypothesis (Hclosed : forall n fs d, N n -> D1 !! n = Some (AStruct fs) -> d ∈ fs -> N (u_name d.2)).
  Hypothesis (Ndec : forall n, N n \/ ~ N n).
  Definition agree (c d : tymap) : Prop := forall n, N n -> c !! n = d !! n.

  Lemma filter_agree (P Q : string * unresolved -> Prop) `{!forall x, Decision (P x)} `{!forall x, Decision (Q x)} (fs : list (string * unresolved)) : (forall d, d ∈ fs -> P d <-> Q d) -> filter P fs = filter Q fs.
  Proof.
    induction fs as [|d fs IH]; intros Hpq; [done|]. rewrite !filter_cons, IH by (intros x Hx; apply Hpq; by right).
    assert (P d <-> Q d) as E by (apply Hpq; left). do 2 case_decide; tauto.
  Qed.
  Lemma visits_local : (forall c n c', visits D1 c n c' -> forall d, agree c d -> N n -> exists d', visits D2 d n d' /\ agree c' d') /\
    (forall c l c', visits_all D1 c l c' -> forall d, agree c d -> Forall N l -> exists d', visits_all D2 d l d' /\ agree c' d').
  Proof.
    apply visits_both.
    - intros c n Hn d Ha HN. exists d. split; [constructor; by rewrite <- Ha|done].
    - intros c n fs c1 rs Hn HD _ IH Hn1 Hrs d Ha HN.
      assert (forall x, x ∈ fs -> N (u_name x.2)) as Hfs by (intros x Hx; by eapply Hclosed).
      assert (forall x, x ∈ fs -> known c x <-> known d x) as Hk by (intros x Hx; unfold known; by rewrite Ha by auto).
      assert (filter (fun x => ~ known c x) fs = filter (fun x => ~ known d x) fs) as Ef by (apply filter_agree; intros x Hx; by rewrite Hk).
      destruct (IH d Ha) as (d1 & V & Ha1).
      { apply Forall_fmap, Forall_forall. intros x [_ Hx]%elem_of_list_filter. by apply Hfs. }
      exists (<[n := (n, TStruct rs)]> d1). split.
      + econstructor; [by rewrite <- Ha|by rewrite <- Hsame| |by rewrite <- Ha1|].
        * rewrite <- Ef. exact V.
        * unfold arranged in *. rewrite <- Ef. erewrite <- (filter_agree (known c)); [|exact Hk]. eapply Forall2_impl_elem; [exact Hrs|].
          intros x y Hx. assert (x ∈ fs) as Hxf by (apply elem_of_app in Hx as [[_ Hx]%elem_of_list_filter|[_ Hx]%elem_of_list_filter]; done).
          unfold field_matches. rewrite (Ha1 (u_name x.2)) by auto. done.
      + intros m Hm. destruct (decide (m = n)) as [->|Hne]; [by rewrite !lookup_insert|]. rewrite !lookup_insert_ne by done. by apply Ha1.
    - intros c d Ha _. exists d. split; [constructor|done].
    - intros c n l c1 c2 _ IH1 _ IH2 d Ha [Hn Hl]%Forall_cons. destruct (IH1 _ Ha Hn) as (d1 & V1 & Ha1). destruct (IH2 _ Ha1 Hl) as (d2 & V2 & Ha2).
      exists d2. split; [by econstructor|done].
  Qed.
  (** What the first run does to the needed types, the second one does by a list of visits of its own. *)
  Definition fresh (c c' : tymap) (m : string) : Prop := N m /\ c !! m = None /\ is_Some (c' !! m) /\ is_Some (D2 !! m).
  Definition follows (c c' : tymap) : Prop :=
    exists l, NoDup l /\ Forall (fresh c c') l /\ forall d, agree c d -> exists d', visits_all D2 d l d' /\ agree c' d'.
  Lemma visits_follow : (forall c n c', visits D1 c n c' -> follows c c') /\ (forall c l c', visits_all D1 c l c' -> follows c c').
  Proof.
    apply visits_both.
    - intros c n _. exists []. split; [constructor|]. split; [constructor|]. intros d Ha. exists d. split; [constructor|done].
    - intros c n fs c1 rs Hn HD V (l & Hnd & Hfr & Hl) Hn1 Hrs. destruct (Ndec n) as [HN|HN].
      + exists [n]. split; [apply NoDup_singleton|]. split.
        * constructor; [|constructor]. split; [done|]. split; [done|]. rewrite lookup_insert. split; [eauto|]. rewrite <- Hsame by done. eauto.
        * intros d Ha. destruct (proj1 visits_local c n _ (v_new _ _ _ _ _ _ Hn HD V Hn1 Hrs) d Ha HN) as (d' & V' & Ha'). exists d'. split; [|done]. econstructor; [exact V'|constructor].
      + exists l. split; [done|]. split.
        * eapply Forall_impl; [exact Hfr|]. intros m (A & B & C & E). split; [done|]. split; [done|]. split; [|done]. rewrite lookup_insert_ne; [done|]. by intros ->.
        * intros d Ha. destruct (Hl d Ha) as (d' & V' & Ha'). exists d'. split; [done|]. intros m Hm. rewrite lookup_insert_ne by (by intros ->). by apply Ha'.
    - intros c. exists []. split; [constructor|]. split; [constructor|]. intros d Ha. exists d. split; [constructor|done].
    - intros c n l c1 c2 V1 (l1 & Hnd1 & Hf1 & Hl1) V2 (l2 & Hnd2 & Hf2 & Hl2). exists (l1 ++ l2). rewrite Forall_forall in Hf1, Hf2. split; [|split].
      + apply NoDup_app. split; [done|]. split; [|done]. intros m H1 H2. destruct (Hf1 m H1) as (_ & _ & [x Hx] & _), (Hf2 m H2) as (_ & Hy & _). congruence.
      + apply Forall_forall. intros m [Hm|Hm]%elem_of_app.
        * destruct (Hf1 m Hm) as (A & B & [x C] & E). split; [done|]. split; [done|]. split; [|done]. exists x. eapply lookup_weaken; [exact C|]. by eapply visits_all_mono.
        * destruct (Hf2 m Hm) as (A & B & C & E). split; [done|]. split; [|done]. destruct (c !! m) as [x|] eqn:Hx; [|done].
          rewrite (lookup_weaken _ _ _ _ Hx (visits_mono _ _ _ _ V1)) in B. done.
      + intros d Ha. destruct (Hl1 d Ha) as (d1 & W1 & Ha1). destruct (Hl2 d1 Ha1) as (d2 & W2 & Ha2). exists d2. split; [|done]. apply visits_all_app. eauto.
  Qed.
End two.

Lemma front_same a1 a2 e1 e2 C1 C2 D1 D2 n : front_facts a1 e1 C1 D1 -> front_facts a2 e2 C2 D2 -> same_decl a1 a2 n -> D1 !! n = D2 !! n /\ C1 !! n = C2 !! n.
Proof.
  intros F1 F2 Hs. unfold same_decl in Hs. split.
  - apply option_eq. intros t. by rewrite (ff_D _ _ _ _ F1), (ff_D _ _ _ _ F2), Hs.
  - apply option_eq. intros [m t]. rewrite (ff_C _ _ _ _ F1), (ff_C _ _ _ _ F2). by setoid_rewrite Hs.
Qed.
(** the declarations named in [l] first *)
Lemma order_from (D : gmap string atype) l : NoDup l -> Forall (fun m => is_Some (D !! m)) l -> exists k, k ≡ₚ map_to_list D /\ exists rest, k.*1 = l ++ rest.
Proof.
  intros Hnd Hl. assert (exists p, p.*1 = l /\ forall n t, (n, t) ∈ p -> D !! n = Some t) as (p & Ep & Hp).
  { clear Hnd. induction Hl as [|m l [t Ht] _ IH]; [exists []; split; [done|by intros ? ? ?%elem_of_nil]|]. destruct IH as (p & <- & Hp). exists ((m, t) :: p). split; [done|].
    intros n u [[= -> ->]|H]%elem_of_cons; [done|by apply Hp]. }
  exists (p ++ filter (fun x => x.1 ∉ l) (map_to_list D)). split.
  - apply NoDup_Permutation.
    + apply NoDup_app. split; [eapply (NoDup_fmap_1 fst); by rewrite Ep|]. split; [|apply NoDup_filter, NoDup_map_to_list].
      intros [n t] H1 [H2 _]%elem_of_list_filter. apply H2. rewrite <- Ep. apply elem_of_list_fmap. by exists (n, t).
    + apply NoDup_map_to_list.
    + intros [n t]. rewrite elem_of_app, elem_of_list_filter, elem_of_map_to_list. cbn. split; [intros [H|[_ H]]; [by apply Hp|done]|].
      intros H. destruct (decide (n ∈ l)) as [Hin|Hin]; [left|by right]. rewrite <- Ep in Hin. apply elem_of_list_fmap in Hin as ([n' t'] & -> & Hin). cbn in *.
      pose proof (Hp _ _ Hin). congruence.
  - exists (filter (fun x => x.1 ∉ l) (map_to_list D)).*1. by rewrite fmap_app, Ep.
Qed.
Lemma result_from iter a r e : fair_order iter -> no_builtin_decl a -> exports a = [e] -> type_check iter a = Ok r ->
  exists C0 D c, front a = Ok (e, C0, D) /\ front_facts a e C0 D /\ resolve_second_pass iter C0 D = Ok c /\ x_name (r_export r) = e /\
    c !! e = Some (e, TStruct (x_fields (r_export r))) /\ forall n y, r_types r !! n = Some y <-> c !! n = Some y /\ needed a e n.
Proof.
  intros Hf Hn He Hr. destruct (type_check_inv _ _ _ Hf Hr) as (e' & C0 & D & c & HF & F & Hc & SR & Hex).
  assert (e' = e) as -> by (pose proof (ff_export _ _ _ _ F); congruence). exists C0, D, c. split; [done|]. split; [done|]. split; [done|].
  pose proof (c_wf a Hn e C0 D F c SR) as Hwf. apply resolve_export_ok in Hex as (Hx & Ex & Et); [|done]. split; [done|]. split; [done|].
  intros n y. rewrite Et, map_filter_lookup_Some. cbn. rewrite (used_set_spec c _ _ Hwf Hx). by rewrite (rtc_succ_needed a Hn e C0 D F c SR).
Qed.
Lemma possible_same a1 a2 iter1 r : no_builtin_decl a1 -> no_builtin_decl a2 -> valid_schema a2 -> same_needed a1 a2 -> fair_order iter1 -> type_check iter1 a1 = Ok r ->
  exists iter2, fair_order iter2 /\ type_check iter2 a2 = Ok r.
Proof.
  intros Hn1 Hn2 V2 (e & He1 & He2 & Hs) Hf1 Hr1. destruct (result_from _ _ _ _ Hf1 Hn1 He1 Hr1) as (C1 & D1 & c1 & _ & F1 & Hc1 & Hx1 & Hxe1 & Ht1).
  destruct (front_complete a2 e He2 (vs_decls _ V2)) as (C2 & D2 & HF2); [intros; by eapply valid_fp_ok|]. pose proof (front_ok _ _ _ _ HF2) as F2.
  pose proof (needed_same a1 a2 e Hs) as Hneed.
  assert (forall n, is_Some (c1 !! n) -> needed a1 e n \/ ~ needed a1 e n) as Hdec_.
  { intros n [y Hy]. destruct (r_types r !! n) as [z|] eqn:Hz; [left; by apply Ht1 in Hz as [_ ?]|right]. intros H. assert (r_types r !! n = Some y) by (by apply Ht1). congruence. }
  destruct (type_check_result _ _ _ Hf1 Hn1 Hr1) as (_ & _ & Hdom & _). rewrite Hx1 in Hdom.
  assert (forall n, needed a1 e n \/ ~ needed a1 e n) as Hdec.
  { intros n. destruct (r_types r !! n) as [z|] eqn:Hz; [left; apply Hdom; eauto|right]. intros H%Hdom. rewrite Hz in H. by destruct H. }
  pose proof (second_visits _ _ _ _ Hf1 (ff_named _ _ _ _ F1) Hc1) as V1.
  destruct (proj2 (visits_follow D1 D2 (needed a1 e) (fun n Hn => proj1 (front_same _ _ _ _ _ _ _ _ n F1 F2 (Hs n Hn)))
    ltac:(intros n fs [f u] Hn HD Hd; apply (ff_D _ _ _ _ F1) in HD as [HD _]; eapply rtc_r; [exact Hn|]; exists fs, f, u; done) Hdec) _ _ _ V1) as (l & Hnd & Hfr & Hl).
  destruct (Hl C2) as (d1 & W1 & Ha1); [intros n Hn; by eapply front_same; [..|apply Hs]|].
  destruct (order_from D2 l Hnd) as (k & Hk & rest & Ek); [eapply Forall_impl; [exact Hfr|]; intros m (_ & _ & _ & ?); done|].
  set (iter2 := two_first D2 k). assert (fair_order iter2) as Hf2 by by apply two_first_fair.
  assert (is_ok (type_check iter2 a2)) as [r2 Hr2] by by apply type_check_valid.
  exists iter2. split; [done|]. rewrite Hr2. f_equal.
  destruct (result_from _ _ _ _ Hf2 Hn2 He2 Hr2) as (C2' & D2' & c2 & HF2' & _ & Hc2 & Hx2 & Hxe2 & Ht2). rewrite HF2 in HF2'. injection HF2' as <- <-.
  pose proof (second_visits _ _ _ _ Hf2 (ff_named _ _ _ _ F2) Hc2) as W. assert (iter2 D2 = k) as Ei by (unfold iter2, two_first; by rewrite decide_True). rewrite Ei, Ek in W.
  apply visits_all_app in W as (d1' & W1' & W2). rewrite (proj2 (visits_fun_ D2) _ _ _ W1' _ W1) in W2. apply visits_all_mono in W2.
  assert (forall n, needed a1 e n -> c1 !! n = c2 !! n) as Hag.
  { intros n Hn. destruct (proj2 (Hdom n) Hn) as [y Hy]. apply Ht1 in Hy as [Hy _]. rewrite Hy. symmetry. eapply lookup_weaken; [|exact W2]. by rewrite <- (Ha1 n Hn). }
  assert (r_types r2 = r_types r) as Et.
  { apply map_eq. intros n. apply option_eq. intros y. rewrite Ht1, Ht2, <- Hneed. split; intros [H1 H2]; (split; [|done]); [by rewrite Hag|by rewrite <- Hag]. }
  rewrite (Hag e) in Hxe1 by apply rtc_refl. rewrite Hxe1 in Hxe2. injection Hxe2 as Ef.
  destruct r as [[x1 fs1] ts1], r2 as [[x2 fs2] ts2]. cbn in Hx1, Hx2, Ef, Et. clear - Hx1 Hx2 Ef Et. by subst.
Qed.
Lemma same_possibilities a1 a2 r : no_builtin_decl a1 -> no_builtin_decl a2 -> valid_schema a1 -> valid_schema a2 -> same_needed a1 a2 ->
  (exists iter, fair_order iter /\ type_check iter a1 = Ok r) <-> (exists iter, fair_order iter /\ type_check iter a2 = Ok r).
Proof.
  intros N1 N2 V1 V2 Hs. split; intros (iter & Hf & Hr); [by eapply (possible_same a1 a2)|]. eapply (possible_same a2 a1); [done|done|done|by apply same_needed_sym|done|done].
Qed.
Lemma added_same a n t : valid_schema a -> addable a n t -> same_needed a (a ++ [NDecl n t]).
Proof.
  intros Hv Hadd. destruct (vs_export _ Hv) as (e & fs & He & Hd). exists e. split; [done|]. split; [by rewrite exports_app, He|].
  intros m Hm u. rewrite elem_decl_app. split; [by left|]. intros [?|[-> ->]]; [done|]. exfalso. destruct Hadd as (Hnew & Hnb & _).
  apply rtc_inv_r in Hm as [->|(k & _ & (gs & f & w & Hg & Hw & <-))]; [by apply Hnew; eapply decl_names_elem|].
  destruct (vs_types _ Hv _ _ _ _ Hg Hw); done.
Qed.
Lemma added_possibilities a n t r : valid_schema a -> no_builtin_decl a -> addable a n t ->
  (exists iter, fair_order iter /\ type_check iter a = Ok r) <-> (exists iter, fair_order iter /\ type_check iter (a ++ [NDecl n t]) = Ok r).
Proof.
  intros Hv Hn Hadd. destruct (added_valid _ _ _ Hv Hn Hadd) as [Hv2 Hn2]. apply same_possibilities; [done..|]. by apply added_same.
Qed.
