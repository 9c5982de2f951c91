(** The order of declarations, and declarations that the export does not need. *)
From Verif Require Export EvolveSpec WireResults.

(** ** The order of declarations *)
Lemma exports_perm a1 a2 : a1 ≡ₚ a2 -> exports a1 ≡ₚ exports a2.
Proof.
  induction 1 as [|[n t|n] l k _ IH|[n t|n] [m u|m] l|l1 l2 l3 _ IH1 _ IH2]; cbn; try done; [by constructor|constructor|by etrans].
Qed.
Lemma decl_names_perm a1 a2 : a1 ≡ₚ a2 -> decl_names a1 ≡ₚ decl_names a2.
Proof.
  induction 1 as [|[n t|n] l k _ IH|[n t|n] [m u|m] l|l1 l2 l3 _ IH1 _ IH2]; cbn; try done; [by constructor|constructor|by etrans].
Qed.
Lemma front_perm a1 a2 x : a1 ≡ₚ a2 -> front a1 = Ok x -> front a2 = Ok x.
Proof.
  intros Hp. destruct x as [[e C0] D]. intros H1. pose proof (front_ok _ _ _ _ H1) as F1.
  assert (forall x, x ∈ a1 <-> x ∈ a2) as Hin by (intros x; by rewrite Hp).
  destruct (front_complete a2 e) as (C2 & D2 & H2).
  - apply Permutation_singleton_r. rewrite <- (ff_export _ _ _ _ F1). by apply exports_perm.
  - rewrite <- (decl_names_perm _ _ Hp). apply (ff_nodup _ _ _ _ F1).
  - intros n t Ht. apply (ff_ok _ _ _ _ F1). by apply Hin.
  - rewrite H2. pose proof (front_ok _ _ _ _ H2) as F2. f_equal. f_equal; [f_equal|].
    + apply map_eq. intros n. apply option_eq. intros [m t]. rewrite (ff_C _ _ _ _ F1), (ff_C _ _ _ _ F2). by setoid_rewrite Hin.
    + apply map_eq. intros n. apply option_eq. intros t. by rewrite (ff_D _ _ _ _ F1), (ff_D _ _ _ _ F2), Hin.
Qed.
Lemma type_check_perm iter a1 a2 r : a1 ≡ₚ a2 -> type_check iter a1 = Ok r -> type_check iter a2 = Ok r.
Proof.
  intros Hp. rewrite !type_check_front. intros (x & Hx & Hr)%rbind_ok. rewrite (front_perm _ _ _ Hp Hx). exact Hr.
Qed.
Lemma declarations_move iter a1 a2 : a1 ≡ₚ a2 -> is_ok (type_check iter a1) \/ is_ok (type_check iter a2) -> type_check iter a1 = type_check iter a2.
Proof.
  intros Hp [[r Hr]|[r Hr]]; rewrite Hr.
  - symmetry. by eapply type_check_perm.
  - symmetry in Hp. by eapply type_check_perm.
Qed.

(** ** Declarations that the export does not need *)
Lemma refers_same a1 a2 n m : same_decl a1 a2 n -> refers a1 n m -> refers a2 n m.
Proof. intros Hs (fs & f & u & Hd & H). exists fs, f, u. split; [by apply Hs|done]. Qed.
Lemma needed_same a1 a2 e : (forall n, needed a1 e n -> same_decl a1 a2 n) -> forall n, needed a1 e n <-> needed a2 e n.
Proof.
  intros Hs n. split.
  - intros H. induction H as [x|x y z Hxy Hyz IH]; [apply rtc_refl|]. eapply rtc_l; [eapply refers_same; [apply Hs, rtc_refl|done]|]. apply IH. intros n Hn. apply Hs. by eapply rtc_l.
  - intros H. induction H as [x|x y z Hxy Hyz IH]; [apply rtc_refl|].
    assert (refers a1 x y) as Hxy' by (eapply refers_same; [|done]; intros t; symmetry; apply Hs, rtc_refl).
    eapply rtc_l; [done|]. apply IH. intros n Hn. apply Hs. by eapply rtc_l.
Qed.
Lemma same_needed_sym a1 a2 : same_needed a1 a2 -> same_needed a2 a1.
Proof. intros (e & H1 & H2 & H3). exists e. split; [done|]. split; [done|]. intros n Hn t. symmetry. apply H3. by apply (needed_same a1 a2). Qed.
Lemma shallow_same a1 a2 n : same_decl a1 a2 n -> shallow a1 n -> shallow a2 n.
Proof. intros Hs [H|[[vs H]|(fs & H & Hb)]]; [by left|right; left; exists vs; by apply Hs|right; right; exists fs; split; [by apply Hs|done]]. Qed.
Lemma all_fixed_same a1 a2 : same_needed a1 a2 -> all_fixed a1 -> all_fixed a2.
Proof.
  intros (e & H1 & H2 & H3) Hf e' n fs He Hn Hd. assert (e' = e) as -> by congruence.
  pose proof (needed_same a1 a2 e H3) as Hiff. apply Hiff in Hn. assert (declares_struct a1 n fs) as Hd1 by by apply H3.
  intros i j di dj Hij Hi Hj. assert (forall k d, fs !! k = Some d -> needed a1 e (u_name d.2)) as Hneed.
  { intros k [f u] Hk. eapply rtc_r; [exact Hn|]. exists fs, f, u. split; [done|]. split; [by eapply elem_of_list_lookup_2|done]. }
  destruct (Hf e n fs H1 Hn Hd1 i j di dj Hij Hi Hj) as [Hs|Hr].
  - left. eapply shallow_same; [|done]. eapply H3, Hneed, Hi.
  - right. apply (needed_same a1 a2 (u_name dj.2)); [|done]. intros m Hm. apply H3. eapply rtc_transitive; [by eapply Hneed|done].
Qed.
Lemma denotes_same (arr : list (string * unresolved) -> list (string * unresolved) -> Prop) a1 a2 : (forall ds fs, arr ds fs -> ds ≡ₚ fs) ->
  forall t n, denotes arr a1 n t -> (forall m, needed a1 n m -> same_decl a1 a2 m) -> denotes arr a2 n t.
Proof.
  intros Harr. induction t as [b|e|rs IH] using rtype_ind'; intros n H Hs; inversion H as [? ? Hb|? vs rp Hd Hrp|? fs ds ? Hd Ha Hm]; subst.
  - by constructor.
  - constructor; [|done]. apply Hs; [apply rtc_refl|done].
  - econstructor; [by apply Hs; [apply rtc_refl|]|exact Ha|].
    assert (forall d, d ∈ ds -> refers a1 n (u_name d.2)) as Hin.
    { intros [f u] Hd'. exists fs, f, u. split; [done|]. split; [|done]. by rewrite <- (Harr _ _ Ha). }
    clear H Hd Ha. induction Hm as [|d f ds rs Hf Hm IHm]; constructor; apply Forall_cons in IH as [IH1 IH2].
    + inversion Hf; subst. constructor. apply IH1; [done|]. intros m Hm'. apply Hs. eapply rtc_l; [|done]. apply (Hin (f0, u)). left.
    + apply IHm; [done|]. intros d' Hd'. apply Hin. by right.
Qed.
Lemma same_results a1 a2 iter1 iter2 r1 r2 : fair_order iter1 -> fair_order iter2 -> no_builtin_decl a1 -> no_builtin_decl a2 -> same_needed a1 a2 -> all_fixed a1 ->
  type_check iter1 a1 = Ok r1 -> type_check iter2 a2 = Ok r2 -> r1 = r2.
Proof.
  intros Hf1 Hf2 Hn1 Hn2 Hs Hfix1 Hr1 Hr2. pose proof (all_fixed_same _ _ Hs Hfix1) as Hfix2. destruct Hs as (e & He1 & He2 & Hs).
  destruct (type_check_result _ _ _ Hf1 Hn1 Hr1) as (Hx1 & Hl1 & Hdom1 & Hent1). destruct (type_check_result _ _ _ Hf2 Hn2 Hr2) as (Hx2 & Hl2 & Hdom2 & Hent2).
  assert (x_name (r_export r1) = e) as E1 by congruence. assert (x_name (r_export r2) = e) as E2 by congruence. rewrite E1 in Hl1, Hdom1. rewrite E2 in Hl2, Hdom2.
  assert (r_types r1 = r_types r2) as Et.
  { apply map_eq. intros n. destruct (r_types r1 !! n) as [[m1 t1]|] eqn:L1.
    - assert (needed a1 e n) as Hneed by (apply Hdom1; eauto). assert (needed a2 e n) as Hneed2 by by apply (needed_same a1 a2 e Hs).
      destruct (Hdom2 n) as [_ [[m2 t2] L2]]; [done|]. rewrite L2. destruct (Hent1 _ _ _ L1) as [-> _]. destruct (Hent2 _ _ _ L2) as [-> _]. do 2 f_equal.
      eapply (denotes_eq_unique a2); [by eapply vs_decls, result_valid|done| |].
      + eapply (denotes_same eq a1); [by intros ? ? ->| |].
        * apply (entry_denotes_fixed iter1 a1 r1 Hf1 Hn1 Hr1 Hfix1); [by rewrite E1|done].
        * intros m Hm. apply Hs. by eapply rtc_transitive.
      + apply (entry_denotes_fixed iter2 a2 r2 Hf2 Hn2 Hr2 Hfix2); [by rewrite E2|done].
    - destruct (r_types r2 !! n) as [x|] eqn:L2; [|done]. assert (is_Some (r_types r1 !! n)) as [? ?]; [|congruence].
      apply Hdom1, (needed_same a1 a2 e Hs), Hdom2. eauto. }
  destruct r1 as [[x1 fs1] ts1], r2 as [[x2 fs2] ts2]. cbn in *. subst. rewrite Hl1 in Hl2. injection Hl2 as ->. done.
Qed.
Lemma elem_decl_app a n t m u : NDecl m u ∈ a ++ [NDecl n t] <-> NDecl m u ∈ a \/ (m = n /\ u = t).
Proof. rewrite elem_of_app, elem_of_list_singleton. split; intros [H|H]; auto; [injection H as -> ->; auto|destruct H as [-> ->]; auto]. Qed.
Lemma exports_app a b : exports (a ++ b) = exports a ++ exports b.
Proof. induction a as [|[n t|n] a IH]; cbn; [done|done|by rewrite IH]. Qed.
Lemma decl_names_app a b : decl_names (a ++ b) = decl_names a ++ decl_names b.
Proof. induction a as [|[n t|n] a IH]; cbn; [done|by rewrite IH|done]. Qed.
Lemma compared_sub fs : compared_names fs `sublist_of` fs.*1.
Proof. induction fs as [|[f u] fs IH]; cbn; [done|]. constructor. case_decide; [done|apply sublist_nil_l]. Qed.
Lemma added_valid a n t : valid_schema a -> no_builtin_decl a -> addable a n t -> valid_schema (a ++ [NDecl n t]) /\ no_builtin_decl (a ++ [NDecl n t]).
Proof.
  intros [Vx Vd Ve Vt Vo Va Vf] Hnb (Hn & Hb & Ht).
  assert (forall m, m ∈ decl_names (a ++ [NDecl n t]) <-> m ∈ decl_names a \/ m = n) as Hnames.
  { intros m. rewrite decl_names_app. cbn. by rewrite elem_of_app, elem_of_list_singleton. }
  split; [|intros m [Hm| ->]%Hnames; [by apply Hnb|done]].
  assert (forall m k, refers (a ++ [NDecl n t]) m k -> refers a m k \/ m = n) as Href.
  { intros m k (fs & f & u & [Hd|[-> _]]%elem_decl_app & H); [left|by right]. exists fs, f, u. split; [exact Hd|exact H]. }
  assert (forall m, ~ refers (a ++ [NDecl n t]) m n) as Hnot.
  { intros m (fs & f & u & [Hd|[-> <-]]%elem_decl_app & Hu & Hk).
    - destruct (Vt _ _ _ _ Hd Hu) as [H|H]; rewrite Hk in H; done.
    - destruct Ht as [_ Ht]. destruct (Ht _ _ Hu) as [[H|H] _]; rewrite Hk in H; done. }
  constructor.
  - destruct Vx as (e & fs & He & Hd). exists e, fs. split; [by rewrite exports_app, He|]. apply elem_decl_app. by left.
  - rewrite decl_names_app. cbn. apply NoDup_app. split; [done|]. split; [|apply NoDup_singleton]. intros m Hm ->%elem_of_list_singleton. done.
  - intros m vs [Hd|[-> <-]]%elem_decl_app; [by eapply Ve|done].
  - intros m fs f u [Hd|[-> <-]]%elem_decl_app Hu; [destruct (Vt _ _ _ _ Hd Hu); [by left|right; apply Hnames; by left]|].
    destruct Ht as [_ Ht]. destruct (Ht _ _ Hu) as [[H|H] _]; [by left|right; apply Hnames; by left].
  - intros m fs f u [Hd|[-> <-]]%elem_decl_app Hu; [by eapply Vo|]. destruct Ht as [_ Ht]. by apply (Ht _ _ Hu).
  - intros m Hc. assert (forall x y, tc (refers (a ++ [NDecl n t])) x y -> x ≠ n -> tc (refers a) x y) as Htc.
    { intros x y H. induction H as [x y Hxy|x y z Hxy Hyz IH]; intros Hne.
      - destruct (Href _ _ Hxy); [by apply tc_once|done].
      - destruct (Href _ _ Hxy) as [H|]; [|done]. eapply tc_l; [exact H|]. apply IH. intros ->. by eapply Hnot. }
    destruct (decide (m = n)) as [->|Hne]; [|by eapply Va, Htc]. clear Htc.
    assert (forall x y, tc (refers (a ++ [NDecl n t])) x y -> y ≠ n) as H.
    { intros x y H. induction H as [x y Hxy|]; [|done]. intros ->. by eapply Hnot. }
    by eapply H.
  - intros m fs [Hd|[-> <-]]%elem_decl_app; [by eapply Vf|]. destruct Ht as [Ht _]. eapply sublist_NoDup_; [apply compared_sub|done].
Qed.
Lemma added_unused a n t iter1 iter2 : valid_schema a -> no_builtin_decl a -> all_fixed a -> addable a n t -> fair_order iter1 -> fair_order iter2 ->
  exists r, type_check iter1 a = Ok r /\ type_check iter2 (a ++ [NDecl n t]) = Ok r.
Proof.
  intros Hv Hn Hfix Hadd Hf1 Hf2. destruct (added_valid _ _ _ Hv Hn Hadd) as [Hv2 Hn2].
  apply (type_check_valid iter1 a Hf1 Hn) in Hv as Hok1. apply (type_check_valid iter2 _ Hf2 Hn2) in Hv2 as Hok2.
  destruct Hok1 as [r1 Hr1], Hok2 as [r2 Hr2]. exists r1. split; [done|]. rewrite Hr2. f_equal. symmetry.
  eapply (same_results a (a ++ [NDecl n t])); [exact Hf1|exact Hf2|done|done| |done|done|done].
  destruct (vs_export _ Hv) as (e & fs & He & Hd). exists e. split; [done|]. split; [by rewrite exports_app, He|].
  intros m Hm u. rewrite elem_decl_app. split; [by left|]. intros [?|[-> ->]]; [done|]. exfalso. destruct Hadd as (Hnew & Hnb & _).
  apply rtc_inv_r in Hm as [->|(k & _ & (gs & f & w & Hg & Hw & <-))]; [by apply Hnew; eapply decl_names_elem|].
  destruct (vs_types _ Hv _ _ _ _ Hg Hw); done.
Qed.
