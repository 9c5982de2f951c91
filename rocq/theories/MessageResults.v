(** Which messages the checker can give. *)
From Verif Require Export MessageProofs.
From Verif Require Import OrderProofs.

Section second.
  Context (a : ast) (Hnb : no_builtin_decl a) (e : string) (C0 : tymap) (D : gmap string atype) (F : front_facts a e C0 D).
  Notation inv := (inv D C0).
  Let HD := ff_struct _ _ _ _ F. Let HC := ff_named _ _ _ _ F.
  Lemma start_inv : inv ∅ ∅ (Sp C0 ∅ D).
  Proof. constructor; simpl; try done; set_solver. Qed.
  (** a call by the loop *)
  Lemma top_walk fuel n t s m (S : string -> Prop) : D !! n = Some t -> inv ∅ ∅ s -> size D < fuel -> (forall k, S k <-> is_Some (cache s !! k)) ->
    resolve_one_second_pass fuel n t s = Err m -> walk a n S [] n m.
  Proof.
    intros HDn Hinv Hf HS H. eapply (rec_walk a Hnb e C0 D F fuel n n t [] ∅ s m S HDn); [set_solver| | |set_solver|set_solver|by left| |done|done].
    - eapply inv_weaken; [done|done| |exact Hinv]. set_solver.
    - pose proof (map_subseteq_size _ _ (i_unres _ _ _ _ _ Hinv)). lia.
    - split; [set_solver|]. destruct (i_all _ _ _ _ _ Hinv n) as [Hc|[?|?]]; [by rewrite HDn| |done|set_solver]. exfalso. destruct Hc as [x Hx].
      destruct fuel as [|fuel]; [lia|]. cbn in H. by rewrite Hx in H.
  Qed.
  Lemma top_ok fuel n t s : D !! n = Some t -> inv ∅ ∅ s -> size D < fuel -> sound a n ->
    exists s', resolve_one_second_pass fuel n t s = Ok s' /\ inv ∅ ∅ s' /\ cache s ⊆ cache s' /\ is_Some (cache s' !! n) /\
      forall k, is_Some (cache s' !! k) -> is_Some (cache s !! k) \/ rtc (refers a) n k.
  Proof.
    intros HDn Hinv Hf Hs. destruct (second_pass_one D C0 HD HC fuel n t ∅ s HDn) as [(s1 & E & (Hi & Hc & Hu) & Hk & Hup & _)|(m & E & _)].
    - eapply inv_weaken; [done|done| |exact Hinv]. set_solver.
    - pose proof (map_subseteq_size _ _ (i_unres _ _ _ _ _ Hinv)). lia.
    - exists s1. split; [done|]. split; [done|]. split; [done|]. split; [done|]. intros k [?|?]%Hup; [by left|]. right. by eapply refD_sub.
    - exfalso. eapply walk_unsound; [|exact Hs]. by eapply (top_walk fuel n t s m (fun k => is_Some (cache s !! k))).
  Qed.
  Lemma loop_walk fuel order s m : (forall n t, (n, t) ∈ order -> D !! n = Some t) -> inv ∅ ∅ s -> size D < fuel -> second_pass_loop fuel order s = Err m ->
    exists n s1, inv ∅ ∅ s1 /\ walk a n (fun k => k ∈ dom (cache s1)) [] n m.
  Proof.
    revert s. induction order as [|[n t] order IH]; intros s Hord Hinv Hf; cbn [second_pass_loop]; [done|].
    assert (D !! n = Some t) as HDn by (apply Hord; by left).
    destruct (second_pass_one D C0 HD HC fuel n t ∅ s HDn) as [(s1 & E & (Hi & _) & _)|(m1 & E & _)].
    - eapply inv_weaken; [done|done| |exact Hinv]. set_solver.
    - pose proof (map_subseteq_size _ _ (i_unres _ _ _ _ _ Hinv)). lia.
    - rewrite E. cbn [rbind]. apply IH; [|done|done]. intros. apply Hord. by right.
    - rewrite E. intros [= <-]. exists n, s. split; [done|]. eapply top_walk; [done..| |done]. intros k. by rewrite elem_of_dom.
  Qed.
  Lemma dom_ready s : inv ∅ ∅ s -> ready a (dom (cache s)).
  Proof.
    intros Hinv. constructor.
    - intros m Hm. apply (shallow_C0 a e C0 D) in Hm as [y Hy]; [|done..]. apply elem_of_dom. exists y. eapply lookup_weaken; [done|apply (i_sub _ _ _ _ _ Hinv)].
    - intros m m' Hm Hr. apply elem_of_dom. apply elem_of_dom in Hm. by eapply cached_refers.
    - intros m Hm%elem_of_dom. by eapply cached_sound.
  Qed.
  Lemma loop_ready fuel (S : gset string) order s : ready a S -> (forall n t, (n, t) ∈ order -> D !! n = Some t /\ n ∈ S) -> inv ∅ ∅ s -> size D < fuel ->
    exists s', second_pass_loop fuel order s = Ok s' /\ inv ∅ ∅ s' /\ cache s ⊆ cache s' /\ (forall n t, (n, t) ∈ order -> is_Some (cache s' !! n)) /\
      forall k, is_Some (cache s' !! k) -> is_Some (cache s !! k) \/ k ∈ S.
  Proof.
    intros HS. revert s. induction order as [|[n t] order IH]; intros s Hord Hinv Hf; cbn [second_pass_loop].
    - exists s. split; [done|]. split; [done|]. split; [done|]. split; [by intros ?? ?%elem_of_nil|]. auto.
    - destruct (Hord n t ltac:(left)) as [Hn HnS].
      destruct (top_ok fuel n t s Hn Hinv Hf) as (s1 & -> & Hi & Hc & Hk & Hup); [by apply (rd_sound _ _ HS)|]. cbn [rbind].
      destruct (IH s1) as (s2 & H1 & H2 & H3 & H4 & H5); [intros; apply Hord; by right|done..|].
      exists s2. split; [done|]. split; [done|]. split; [by etrans|]. split.
      * intros n' t' [[= -> ->]|Hin]%elem_of_cons; [|by eapply H4]. destruct Hk as [x Hx]. exists x. by eapply lookup_weaken.
      * intros k [Hk'|?]%H5; [|auto]. apply Hup in Hk' as [?|Hr]; [auto|]. right. clear -HS HnS Hr. revert HnS. induction Hr as [|x y z Hxy _ IH]; [done|]. intros Hx. apply IH. by eapply (rd_closed _ _ HS).
  Qed.
  Lemma in_C0_D k : k ∈ builtin_names \/ k ∈ decl_names a -> is_Some (C0 !! k) \/ is_Some (D !! k).
  Proof.
    intros H. destruct (C0 !! k) as [x|] eqn:E1; [left; eauto|]. destruct (D !! k) as [x|] eqn:E2; [right; eauto|].
    destruct (front_unknown a e C0 D k F E1 E2). tauto.
  Qed.
  Lemma shallow_sound n : shallow a n -> sound a n.
  Proof. intros H. apply (shallow_C0 a e C0 D) in H; [|done..]. eapply (cached_sound a Hnb e C0 D F ∅ ∅ (Sp C0 ∅ D)); [apply start_inv|done]. Qed.
  Lemma walk_possible S n m : ready a S -> walk a n (fun k => k ∈ S) [] n m -> exists iter, fair_order iter /\ resolve_second_pass iter C0 D = Err m.
  Proof.
    intros HS Hw. pose proof (walk_unsound _ _ _ _ _ _ Hw) as Hbad. destruct (walk_declared _ _ _ _ _ _ Hw) as [fs Hd].
    assert (active D C0 n fs) as Hact.
    { apply (active_iff a Hnb e C0 D F). split; [done|]. intros Hall. apply Hbad, shallow_sound. right. right. exists fs. split; [done|]. intros d Hin. rewrite Forall_forall in Hall. by apply Hall. }
    assert (n ∉ S) as HnS by (intros H; by apply Hbad, (rd_sound _ _ HS)).
    set (pre := filter (fun d => d.1 ∈ S) (map_to_list D)).
    destruct (loop_ready (Datatypes.S (size D)) S pre (Sp C0 ∅ D)) as (s1 & Hpre & Hi1 & Hc1 & Hk1 & Hup1).
    { done. }
    { intros k t [Hk Hin]%elem_of_list_filter. split; [by apply elem_of_map_to_list|done]. }
    { apply start_inv. }
    { lia. }
    assert (forall k, k ∈ S <-> is_Some (cache s1 !! k)) as Hkeys.
    { intros k. split.
      - intros HkS. destruct (in_C0_D k) as [[y Hy]|[t Ht]]; [by destruct (rd_sound _ _ HS k HkS k (rtc_refl _ _))|exists y; by eapply lookup_weaken|].
        apply (Hk1 k t). apply elem_of_list_filter. split; [done|]. by apply elem_of_map_to_list.
      - intros [H|H]%Hup1; [|done]. cbn [cache] in H. apply (rd_shallow _ _ HS). by apply (shallow_C0 a e C0 D). }
    assert (exists l, pre ++ (n, AStruct fs) :: l ≡ₚ map_to_list D) as [l Hl].
    { pose proof (filter_split (fun d => d.1 ∈ S) (map_to_list D)) as Hsp. fold pre in Hsp. cbn beta in Hsp.
      assert ((n, AStruct fs) ∈ filter (fun d => d.1 ∉ S) (map_to_list D)) as [l Hl]%elem_of_Permutation.
      { apply elem_of_list_filter. split; [done|]. apply elem_of_map_to_list, Hact. }
      exists l. by rewrite <- Hl. }
    exists (two_first D (pre ++ (n, AStruct fs) :: l)). split; [by apply two_first_fair|]. unfold resolve_second_pass.
    replace (two_first D (pre ++ (n, AStruct fs) :: l) D) with (pre ++ (n, AStruct fs) :: l) by (unfold two_first; by rewrite decide_True).
    assert (forall pre s, second_pass_loop (Datatypes.S (size D)) (pre ++ (n, AStruct fs) :: l) s =
              rbind (second_pass_loop (Datatypes.S (size D)) pre s)
                    (second_pass_loop (Datatypes.S (size D)) ((n, AStruct fs) :: l))) as Happ.
    { clear. induction pre as [|[x t] pre IH]; intros s; [done|].
      cbn [app second_pass_loop]. destruct (resolve_one_second_pass (Datatypes.S (size D)) x t s); try done.
      apply IH. }
    rewrite Happ, Hpre. cbn [rbind second_pass_loop].
    destruct (second_pass_one D C0 HD HC (Datatypes.S (size D)) n (AStruct fs) ∅ s1) as [(s2 & E & (Hi2 & _) & Hk2 & _)|(m' & E & _)].
    - apply Hact.
    - eapply inv_weaken; [done|done| |exact Hi1]. set_solver.
    - pose proof (map_subseteq_size _ _ (i_unres _ _ _ _ _ Hi1)). lia.
    - exfalso. apply Hbad. by eapply cached_sound.
    - rewrite E. cbn [rbind]. f_equal. eapply (walk_unique a n _ [] n); [apply (ff_nodup _ _ _ _ F)|by left|by intros ? ?%elem_of_nil| |exact Hw].
      eapply top_walk; [apply Hact|exact Hi1| |done|exact E]. lia.
  Qed.
  (** all declarations are sound if and only if the second pass succeeds *)
  Lemma second_sound iter : fair_order iter -> (exists c, resolve_second_pass iter C0 D = Ok c) <-> forall n, n ∈ decl_names a -> sound a n.
  Proof.
    intros Hfair. unfold resolve_second_pass.
    destruct (second_pass_loop_spec D C0 HD HC (Datatypes.S (size D)) (iter D) (Sp C0 ∅ D)) as [(s' & E & Hi & Hc & Hk)|(m & E & _)].
    { intros n t. rewrite (Hfair D), elem_of_map_to_list. done. }
    { apply start_inv. }
    { lia. }
    - rewrite E. cbn [rbind]. split; [|eauto]. intros _ n Hn. eapply cached_sound; [exact Hnb|exact F|exact Hi|].
      destruct (in_C0_D n) as [[y Hy]|[t Ht]]; [by right|exists y; by eapply lookup_weaken|]. apply (Hk n t). by rewrite (Hfair D), elem_of_map_to_list.
    - rewrite E. cbn [rbind]. split; [by intros [? ?]|]. intros Hs. exfalso. apply loop_walk in E as (n & s1 & _ & Hw); [| |apply start_inv|lia].
      + eapply walk_unsound; [exact Hw|]. apply Hs. destruct (walk_declared _ _ _ _ _ _ Hw) as [fs Hd]. by eapply decl_names_elem.
      + intros n t. rewrite (Hfair D), elem_of_map_to_list. done.
  Qed.
  Lemma second_err iter m : fair_order iter -> resolve_second_pass iter C0 D = Err m -> exists S n, ready a S /\ walk a n (fun k => k ∈ S) [] n m.
  Proof.
    intros Hfair. unfold resolve_second_pass. destruct (second_pass_loop (S (size D)) (iter D) (Sp C0 ∅ D)) as [s|m'|m'|] eqn:E; cbn [rbind]; [done| |done|done].
    intros [= <-]. apply loop_walk in E as (n & s1 & Hi & Hw); [| |apply start_inv|lia].
    - exists (dom (cache s1)), n. split; [by apply dom_ready|done].
    - intros n t. rewrite (Hfair D), elem_of_map_to_list. done.
  Qed.
  Lemma export_err iter c m : fair_order iter -> resolve_second_pass iter C0 D = Ok c -> resolve_export e c = Err m <->
    ((e ∈ builtin_names \/ exists vs, declares_enum a e vs) /\ m = "Attempted to export '" +:+ e +:+ "', which is not a struct") \/
    (e ∉ builtin_names /\ e ∉ decl_names a /\ m = "Export '" +:+ e +:+ "' could not be resolved").
  Proof.
    intros Hfair Hsp. destruct (second_pass_spec D C0 HD HC iter Hfair) as [(c' & E & Hsr)|(m' & E & _)]; rewrite Hsp in E; [injection E as <-|done].
    unfold resolve_export. destruct (c !! e) as [[n t]|] eqn:Hc.
    - assert (e ∈ builtin_names \/ e ∈ decl_names a) as Hin.
      { destruct (second_dom _ _ _ Hsr _ _ _ Hc) as [H0|[u Hu]].
        - apply (C0_lookup a Hnb e C0 D F) in H0 as [_ [(u & Hu & _)|(b & Hb & _)]]; [right; by eapply decl_names_elem|left; apply builtin_names_spec; eauto].
        - right. apply (ff_D _ _ _ _ F) in Hu as [Hu _]. by eapply decl_names_elem. }
      assert ((e ∈ builtin_names \/ exists vs, declares_enum a e vs) <-> forall fs, t ≠ TStruct fs) as Hkind.
      { destruct (sr_new _ _ _ Hsr _ _ _ Hc) as [H0|(fs & c0 & rs & Hact & _ & _ & _ & _ & _ & ->)].
        - apply (C0_lookup a Hnb e C0 D F) in H0 as [_ [([vs|fs] & Hu & Ho)|(b & Hb & ->)]].
          + apply fp_one_enum in Ho as (_ & _ & r & _ & [= ->]). split; [done|]. intros _. right. by exists vs.
          + apply fp_one_struct in Ho as (_ & _ & [(_ & rs & _ & [= ->])|[_ [=]]]). split; [|intros H; by destruct (H rs)].
            intros [Hb|[vs Hv]]; [by apply (decl_not_builtin a Hnb e _ Hu) in Hb|]. by pose proof (decl_unique _ _ _ _ (ff_nodup _ _ _ _ F) Hv Hu).
          + split; [done|]. intros _. left. apply builtin_names_spec. eauto.
        - apply (active_iff a Hnb e C0 D F) in Hact as [Hd _]. split; [|intros H; by destruct (H rs)].
          intros [Hb|[vs Hv]]; [by apply (decl_not_builtin a Hnb e _ Hd) in Hb|]. by pose proof (decl_unique _ _ _ _ (ff_nodup _ _ _ _ F) Hv Hd). }
      rewrite Hkind. split.
      + intros H. left. destruct t; [| |done]; injection H as <-; done.
      + intros [[Hns ->]|(? & ? & _)]; [|tauto]. destruct t as [| |fs]; [done|done|by destruct (Hns fs)].
    - assert (C0 !! e = None /\ D !! e = None) as [H1 H2].
      { split; apply eq_None_not_Some; [intros [x Hx]|intros Hx].
        - rewrite (lookup_weaken _ _ _ _ Hx (sr_sub _ _ _ Hsr)) in Hc. done.
        - destruct (sr_all _ _ _ Hsr e Hx) as [? ?]. congruence. }
      destruct (front_unknown a e C0 D e F H1 H2) as [H3 H4]. split.
      + intros [= <-]. by right.
      + intros [[[?|[vs Hv]] _]|(_ & _ & ->)]; [done| |done]. by apply decl_names_elem in Hv.
  Qed.
End second.

Lemma possible_messages a m : no_builtin_decl a -> (exists iter, fair_order iter /\ type_check iter a = Err m) <-> possible a m.
Proof.
  intros Hnb. assert (fair_order (fun D => map_to_list D)) as Hfwd by by intros D.
  assert (forall iter, front a = Err m -> type_check iter a = Err m) as Hfr by (intros iter E; by rewrite type_check_front, E).
  assert (forall e, exports a = [e] -> NoDup (decl_names a) -> ~ own_faults a -> exists C0 D, front a = Ok (e, C0, D)) as Hfront.
  { intros e He Hnd Ho. apply front_complete; [done|done|]. by apply own_faults_ok. }
  split.
  - intros (iter & Hfair & H). rewrite type_check_front in H. destruct (front a) as [[[e C0] D]|m'|m'|] eqn:HF; cbn [rbind] in H; [| |done|done].
    2:{ injection H as <-. apply front_err_iff in HF as [[E ->]|[(e & e' & es & E & ->)|(e & E & [(n & Hn & ->)|(Hnd & pre & n & t & post & -> & Hp & Hf)])]].
        - by apply po_no_export.
        - by eapply po_exports.
        - by eapply po_twice.
        - by eapply po_own. }
    pose proof (front_ok _ _ _ _ HF) as F. pose proof (ff_export _ _ _ _ F) as He. pose proof (ff_nodup _ _ _ _ F) as Hnd.
    assert (~ own_faults a) as Ho by (apply own_faults_ok, (ff_ok _ _ _ _ F)).
    destruct (resolve_second_pass iter C0 D) as [c|m'|m'|] eqn:E; cbn [rbind] in H; [| |done|done].
    + destruct (resolve_export e c) as [x|m'|m'|] eqn:E2; cbn [rbind] in H; [done| |done|done]. injection H as <-.
      assert (forall n, n ∈ decl_names a -> sound a n) as Hs by (apply (second_sound a Hnb e C0 D F iter Hfair); eauto).
      apply (export_err a Hnb e C0 D F iter c m' Hfair E) in E2 as [[Hk ->]|(H1 & H2 & ->)]; [by apply po_export|by apply po_missing].
    + injection H as <-. apply (second_err a Hnb e C0 D F iter m' Hfair) in E as (S & n & HS & Hw). by eapply po_struct.
  - intros H. destruct H as [E|e e' es E|e n E Hn|e pre n t post m E Hnd Ea Hp Hf|e S n m E Hnd Ho HS Hw|e E Hnd Ho Hs Hk|e E Hnd Ho Hs H1 H2].
    1-4: exists (fun D => map_to_list D); (split; [done|]); apply Hfr, front_err_iff.
    + by left.
    + right; left. by exists e, e', es.
    + right; right. exists e. split; [done|]. left. by exists n.
    + right; right. exists e. split; [done|]. right. split; [done|]. by exists pre, n, t, post.
    + destruct (Hfront e E Hnd Ho) as (C0 & D & HF). destruct (walk_possible a Hnb e C0 D (front_ok _ _ _ _ HF) S n m HS Hw) as (iter & Hfair & H).
      exists iter. split; [done|]. by rewrite type_check_front, HF; cbn [rbind]; rewrite H.
    + destruct (Hfront e E Hnd Ho) as (C0 & D & HF). pose proof (front_ok _ _ _ _ HF) as F.
      destruct (proj2 (second_sound a Hnb e C0 D F _ Hfwd) Hs) as [c Hc]. eexists. split; [exact Hfwd|]. rewrite type_check_front, HF. cbn [rbind]. rewrite Hc. cbn [rbind].
      rewrite (proj2 (export_err a Hnb e C0 D F _ c _ Hfwd Hc) (or_introl (conj Hk eq_refl))). done.
    + destruct (Hfront e E Hnd Ho) as (C0 & D & HF). pose proof (front_ok _ _ _ _ HF) as F.
      destruct (proj2 (second_sound a Hnb e C0 D F _ Hfwd) Hs) as [c Hc]. eexists. split; [exact Hfwd|]. rewrite type_check_front, HF. cbn [rbind]. rewrite Hc. cbn [rbind].
      rewrite (proj2 (export_err a Hnb e C0 D F _ c _ Hfwd Hc) (or_intror (conj H1 (conj H2 eq_refl)))). done.
Qed.
