(** Proofs about the checker model, part 2: the second pass (check.rs:261-350). *)
From Verif Require Export CheckProofs.

Lemma map_subseteq_size {A} (m1 m2 : gmap string A) : m1 ⊆ m2 -> size m1 <= size m2.
Proof.
  intros H. rewrite <-!size_dom. apply subseteq_size. by apply subseteq_dom.
Qed.

Lemma field_matches_mono (c c' : tymap) d r : c ⊆ c' -> field_matches c d r -> field_matches c' d r.
Proof.
  unfold field_matches. intros Hs (?&?&?&?&?). split_and!; try done. by eapply lookup_weaken.
Qed.
Lemma Forall2_fm_mono (c c' : tymap) ds rs : c ⊆ c' ->
  Forall2 (field_matches c) ds rs -> Forall2 (field_matches c') ds rs.
Proof. intros Hs H. eapply Forall2_impl; [exact H|]. intros. by eapply field_matches_mono. Qed.

Lemma Forall2_elem_l {A B} (P : A -> B -> Prop) l k x :
  Forall2 P l k -> x ∈ l -> exists y, y ∈ k /\ P x y.
Proof.
  induction 1 as [|? ? ? ? ? ? IH]; [by intros ?%elem_of_nil|].
  intros [->|H1]%elem_of_cons; [eexists; split; [left|]; done|].
  destruct (IH H1) as (y' & ? & ?). exists y'. split; [by right|done].
Qed.
Lemma Forall2_elem_r {A B} (P : A -> B -> Prop) l k y :
  Forall2 P l k -> y ∈ k -> exists x, x ∈ l /\ P x y.
Proof.
  induction 1 as [|? ? ? ? ? ? IH]; [by intros ?%elem_of_nil|].
  intros [->|H1]%elem_of_cons; [eexists; split; [left|]; done|].
  destruct (IH H1) as (x' & ? & ?). exists x'. split; [by right|done].
Qed.

(** ** split_fields *)
Definition known (c : tymap) (d : string * unresolved) : Prop := is_Some (c !! u_name d.2).
#[export] Instance known_dec c d : Decision (known c d).
Proof. unfold known. apply _. Defined.

Lemma split_fields_spec name c fs F N : named c ->
  (exists rs, split_fields name c fs F N =
      Ok (F ++ rs, N ++ filter (fun d => ~ known c d) fs) /\
      Forall2 (field_matches c) (filter (known c) fs) rs /\
      Forall fld_ok (filter (known c) fs)) \/
  (exists m, split_fields name c fs F N = Err m /\ exists d, d ∈ fs /\ ~ fld_ok d).
Proof.
  intros Hn. revert F N. induction fs as [|[f u] fs IH]; intros F N; simpl.
  - left. exists []. rewrite !filter_nil, !app_nil_r. done.
  - destruct (resolve_struct_field f u c name) as [[o|]|m|m|] eqn:E; simpl.
    + pose proof (rsf_some _ _ _ _ _ E) as (Hok & _ & _ & _ & Hc).
      assert (known c (f, u)) as Hk by (unfold known; simpl; eauto).
      rewrite (filter_cons_True (known c)) by done. rewrite (filter_cons_False (fun d => ~ known c d)) by (intros Hno; by apply Hno).
      destruct (IH (F ++ [o]) N) as [(rs & -> & H1 & H2)|(m & -> & d & Hd & Hbad)].
      * left. exists (o :: rs). rewrite <-app_assoc. split; [done|].
        split; constructor; try done. by eapply rsf_matches.
      * right. exists m. split; [done|]. exists d. split; [set_solver|done].
    + apply rsf_none in E.
      assert (~ known c (f, u)) as Hk.
      { unfold known; simpl. rewrite E. by intros [? ?]. }
      rewrite (filter_cons_False (known c)) by done. rewrite (filter_cons_True (fun d => ~ known c d)) by done.
      destruct (IH F (N ++ [(f, u)])) as [(rs & -> & H1 & H2)|(m & -> & d & Hd & Hbad)].
      * left. exists rs. rewrite <-app_assoc. done.
      * right. exists m. split; [done|]. exists d. split; [set_solver|done].
    + right. exists m. split; [done|]. exists (f, u). split; [set_solver|].
      apply rsf_err in E. unfold fld_ok. simpl. tauto.
    + destruct (rsf_returns name f u c) as [[? ?]|[? ?]]; congruence.
    + destruct (rsf_returns name f u c) as [[? ?]|[? ?]]; congruence.
Qed.

Lemma filter_split {A} (P : A -> Prop) `{!forall x, Decision (P x)} (l : list A) :
  filter P l ++ filter (fun x => ~ P x) l ≡ₚ l.
Proof.
  induction l as [|x l IH]; [done|]. destruct (decide (P x)).
  - rewrite (filter_cons_True P) by done. rewrite (filter_cons_False (fun x => ~ P x)) by (intros Hno; by apply Hno). simpl. by rewrite IH.
  - rewrite (filter_cons_False P) by done. rewrite (filter_cons_True (fun x => ~ P x)) by done.
    rewrite <-Permutation_middle. by rewrite IH.
Qed.

(** ** finish_fields *)
Lemma finish_fields_spec name c nr acc : named c -> Forall (known c) nr ->
  (exists rs, finish_fields name c nr acc = Ok (acc ++ rs) /\
      Forall2 (field_matches c) nr rs /\ Forall fld_ok nr) \/
  (exists m, finish_fields name c nr acc = Err m /\ exists d, d ∈ nr /\ ~ fld_ok d).
Proof.
  intros Hn. revert acc. induction nr as [|[f u] nr IH]; intros acc Hk; simpl.
  - left. exists []. by rewrite !app_nil_r.
  - apply Forall_cons in Hk as [Hk1 Hk].
    destruct (resolve_struct_field f u c name) as [[o|]|m|m|] eqn:E; simpl.
    + pose proof (rsf_some _ _ _ _ _ E) as (Hok & _).
      destruct (IH (acc ++ [o]) Hk) as [(rs & -> & H1 & H2)|(m & -> & d & Hd & Hbad)].
      * left. exists (o :: rs). rewrite <-app_assoc. split; [done|].
        split; constructor; try done. by eapply rsf_matches.
      * right. exists m. split; [done|]. exists d. split; [set_solver|done].
    + apply rsf_none in E. unfold known in Hk1. simpl in Hk1. rewrite E in Hk1.
      by destruct Hk1.
    + right. exists m. split; [done|]. exists (f, u). split; [set_solver|].
      apply rsf_err in E. unfold fld_ok. simpl. tauto.
    + destruct (rsf_returns name f u c) as [[? ?]|[? ?]]; congruence.
    + destruct (rsf_returns name f u c) as [[? ?]|[? ?]]; congruence.
Qed.

(** The arrangement of fields that check.rs:286-325 produces when [c] is the map at the time of
    the visit: the fields with known types first, then the others, each group in order. *)
Definition arranged (c : tymap) (fs : list (string * unresolved)) : list (string * unresolved) :=
  filter (known c) fs ++ filter (fun d => ~ known c d) fs.
Lemma arranged_perm c fs : arranged c fs ≡ₚ fs.
Proof. apply filter_split. Qed.

Section second.
  (** [D]: the declarations that the first pass left; [C0]: the map it produced. *)
  Context (D : gmap string atype) (C0 : tymap).
  Hypothesis (HD : forall n t, D !! n = Some t -> exists fs, t = AStruct fs).
  Hypothesis (HC0 : named C0).

  (** A deferred declaration that is not shadowed by an entry of the initial map. *)
  Definition active (n : string) (fs : list (string * unresolved)) : Prop :=
    D !! n = Some (AStruct fs) /\ C0 !! n = None.
  Definition refD (n m : string) : Prop :=
    exists fs f u, active n fs /\ (f, u) ∈ fs /\ u_name u = m.
  Record goodD : Prop := {
    gd_ok : forall n fs d, active n fs -> d ∈ fs -> fld_ok d;
    gd_known : forall n fs f u, active n fs -> (f, u) ∈ fs ->
       is_Some (C0 !! u_name u) \/ is_Some (D !! u_name u);
    gd_acyclic : forall n, ~ tc refD n n }.

  Definition closed (c : tymap) : Prop :=
    forall n m, is_Some (c !! n) -> refD n m -> is_Some (c !! m).
  (** Entry [t] for [n] was made when the map was [c0]. *)
  Definition resolved_entry (c : tymap) (n : string) (t : rtype) : Prop :=
    exists fs c0 rs, active n fs /\ C0 ⊆ c0 /\ c0 ⊆ c /\ (closed c0 /\ c0 !! n = None) /\ Forall fld_ok fs /\
      Forall2 (field_matches c) (arranged c0 fs) rs /\ t = TStruct rs.

  Record inv (pend stk : gset string) (s : sp) : Prop := {
    i_sub : C0 ⊆ cache s;
    i_new : forall n m t, cache s !! n = Some (m, t) ->
        C0 !! n = Some (m, t) \/ (m = n /\ resolved_entry (cache s) n t);
    i_unres : unres s ⊆ D;
    i_all : forall n, is_Some (D !! n) ->
        is_Some (cache s !! n) \/ is_Some (unres s !! n) \/ n ∈ pend;
    i_vis : forall n, n ∈ visited s -> is_Some (cache s !! n) \/ n ∈ stk;
    i_stk : forall n, n ∈ stk -> cache s !! n = None;
    i_stkv : stk ⊆ visited s }.

  Lemma inv_named p k s : inv p k s -> named (cache s).
  Proof. intros H n m t Hc. destruct (i_new _ _ _ H n m t Hc) as [E|[-> _]]; [|done]. by apply HC0 in E. Qed.

  Lemma inv_weaken p p' k s : p ⊆ p' -> inv p k s -> inv p' k s.
  Proof.
    intros Hp [? ? ? Hall ? ? ?]. constructor; try done. intros n Hn.
    destruct (Hall n Hn) as [?|[?|?]]; [auto..|]. right; right. set_solver.
  Qed.

  Lemma inv_closed p k s : inv p k s -> closed (cache s).
  Proof.
    intros H n m [[n' t] Hn] (fs & f & u & Hact & Hin & <-).
    destruct (i_new _ _ _ H _ _ _ Hn) as [E|[-> (fs' & c0 & rs & Hact' & _ & _ & _ & _ & Hrs & _)]].
    { destruct Hact as [_ ?]. congruence. }
    assert (fs' = fs) as -> by (destruct Hact, Hact'; congruence).
    assert ((f, u) ∈ arranged c0 fs) as Hd by by rewrite arranged_perm.
    destruct (Forall2_elem_l _ _ _ _ Hrs Hd) as (r & _ & (_ & _ & _ & _ & E)). eauto.
  Qed.

  Definition step_ok (stk : gset string) (s s' : sp) : Prop :=
    inv stk stk s' /\ cache s ⊆ cache s' /\ unres s' ⊆ unres s.

  Definition rec_spec (fuel : nat) (rec : string -> atype -> sp -> res sp) : Prop :=
    forall name ty stk s,
      D !! name = Some ty -> inv ({[name]} ∪ stk) stk s -> size (unres s) < fuel ->
      (exists s', rec name ty s = Ok s' /\ step_ok stk s s' /\ is_Some (cache s' !! name) /\
         (forall k, is_Some (cache s' !! k) -> is_Some (cache s !! k) \/ rtc refD name k) /\
         (forall fs, ty = AStruct fs -> cache s !! name = None -> exists rs,
             cache s' !! name = Some (name, TStruct rs) /\
             Forall2 (field_matches (cache s')) (arranged (cache s) fs) rs)) \/
      (exists m, rec name ty s = Err m /\ ~ (goodD /\ forall m, m ∈ stk -> tc refD m name)).

  Lemma field_types_spec fuel rec name stk nr s :
    rec_spec fuel rec -> inv stk stk s -> name ∈ stk ->
    (forall f u, (f, u) ∈ nr -> refD name (u_name u)) -> size (unres s) <= fuel ->
    (exists s', resolve_field_types rec nr s = Ok s' /\ step_ok stk s s' /\
        Forall (known (cache s')) nr /\
        (forall k, is_Some (cache s' !! k) -> is_Some (cache s !! k) \/ rtc refD name k)) \/
    (exists m, resolve_field_types rec nr s = Err m /\
        ~ (goodD /\ forall m, m ∈ stk -> m = name \/ tc refD m name)).
  Proof.
    intros Hrec. revert s. induction nr as [|[f u] nr IH]; intros s Hinv Hname Hnr Hsz; simpl.
    - left. exists s. split; [done|]. split; [split; done|]. split; [done|auto].
    - assert (refD name (u_name u)) as Href by (apply (Hnr f); set_solver).
      assert (forall m, m ∈ stk -> m = name \/ tc refD m name -> tc refD m (u_name u)) as Htc.
      { intros m _ [->|Ht]; [by apply tc_once|]. eapply tc_r; done. }
      assert (forall f u, (f, u) ∈ nr -> refD name (u_name u)) as Hnr'
        by (intros f0 u0 H0; apply (Hnr f0); by right).
      destruct (unres s !! u_name u) as [ut|] eqn:Hu.
      + assert (D !! u_name u = Some ut) as HDu by (eapply lookup_weaken; [done|apply (i_unres _ _ _ Hinv)]).
        set (s0 := Sp (cache s) (visited s) (delete (u_name u) (unres s))).
        assert (inv ({[u_name u]} ∪ stk) stk s0) as Hinv0.
        { destruct Hinv as [? ? Hun Hall ? ? ?]. constructor; simpl; try done.
          - etrans; [apply delete_subseteq|done].
          - intros n Hn. destruct (Hall n Hn) as [?|[?|?]]; [auto| |set_solver].
            destruct (decide (n = u_name u)) as [->|Hne]; [set_solver|].
            rewrite lookup_delete_ne by done. auto. }
        assert (size (unres s0) < fuel) as Hsz0.
        { simpl. pose proof (map_size_delete_Some _ (unres s) (mk_is_Some _ _ Hu)) as E.
          assert (size (unres s) ≠ 0) by (intros E0%map_size_empty_inv; rewrite E0 in Hu; done). lia. }
        destruct (Hrec _ _ _ _ HDu Hinv0 Hsz0) as [(s1 & -> & (Hi & Hc & Hun) & Hk & Hup & _)|(m & -> & Hbad)]; simpl.
        * assert (unres s1 ⊆ unres s) as Hun1 by (etrans; [exact Hun|apply delete_subseteq]).
          destruct (IH s1 Hi Hname Hnr') as [(s2 & -> & (Hi2 & Hc2 & Hu2) & Hk2 & Hup2)|(m & -> & Hbad)].
          { apply map_subseteq_size in Hun1. lia. }
          -- left. exists s2. split; [done|]. split.
             ++ split; [done|]. split; [etrans; done|etrans; done].
             ++ split; [constructor; [|done]; unfold known; simpl; destruct Hk as [x Hx];
                exists x; by eapply lookup_weaken|].
                intros k [Hk1|?]%Hup2; [|auto]. apply Hup in Hk1 as [?|?]; [auto|].
                right. eapply rtc_l; done.
          -- right. exists m. done.
        * right. exists m. split; [done|]. intros [Hg Hs]. apply Hbad. split; [done|]. eauto.
      + destruct (cache s !! u_name u) as [x|] eqn:Hc.
        * destruct (IH s Hinv Hname Hnr' Hsz) as [(s2 & -> & (Hi2 & Hc2 & Hu2) & Hk2 & Hup2)|(m & -> & Hbad)].
          -- left. exists s2. split; [done|]. split; [done|]. split; [|done].
             constructor; [|done]. unfold known; simpl. exists x. by eapply lookup_weaken.
          -- right. eauto.
        * right. eexists. split; [done|]. intros [Hg Hs].
          destruct Href as (fs & f' & u' & Hact & Hin & Eu).
          destruct (gd_known Hg _ _ _ _ Hact Hin) as [[x Hx]|Hx].
          -- rewrite Eu in Hx. rewrite (lookup_weaken _ _ _ _ Hx (i_sub _ _ _ Hinv)) in Hc. done.
          -- rewrite Eu in Hx. destruct (i_all _ _ _ Hinv _ Hx) as [[? E]|[[? E]|Hstk]]; [congruence..|].
             apply (gd_acyclic Hg (u_name u)). apply Htc; auto.
  Qed.

  Local Arguments finish_fields : simpl never.
  Local Arguments resolve_field_types : simpl never.
  Local Arguments split_fields : simpl never.
  Lemma second_pass_one fuel : rec_spec fuel (resolve_one_second_pass fuel).
  Proof.
    induction fuel as [|fuel IH]; intros name ty stk s HDn Hinv Hsz; [lia|].
    simpl. destruct (cache s !! name) as [x|] eqn:Hc.
    { left. exists s. split; [done|]. split; [|rewrite Hc; split_and!; eauto; done]. split; [|done].
      destruct Hinv as [? ? ? Hall ? ? ?]. constructor; try done.
      intros n Hn. destruct (Hall n Hn) as [?|[?|Hp]]; auto.
      apply elem_of_union in Hp as [->%elem_of_singleton|]; [|auto]. left. rewrite Hc. eauto. }
    destruct (HD _ _ HDn) as [fs ->].
    assert (active name fs) as Hact.
    { split; [done|]. destruct (C0 !! name) eqn:E; [|done].
      rewrite (lookup_weaken _ _ _ _ E (i_sub _ _ _ Hinv)) in Hc. done. }
    case_decide as Hvis.
    { right. eexists. split; [done|]. intros [Hg Hs].
      destruct (i_vis _ _ _ Hinv _ Hvis) as [[? ?]|Hstk]; [congruence|].
      by apply (gd_acyclic Hg name), Hs. }
    assert (name ∉ stk) as Hnstk.
    { intros H. apply Hvis. by apply (i_stkv _ _ _ Hinv). }
    pose proof (inv_named _ _ _ Hinv) as Hnm.
    assert (forall d, d ∈ fs -> ~ fld_ok d -> ~ goodD) as Hbadf.
    { intros d Hd Hnok Hg. apply Hnok. by eapply gd_ok. }
    destruct (split_fields_spec name (cache s) fs [] [] Hnm) as [(rs & -> & Hrs & Hok)|(m & -> & d & Hd & Hnok)];
      simpl; [|right; exists m; split; [done|]; intros [Hg _]; by eapply Hbadf].
    set (s1 := Sp (cache s) ({[name]} ∪ visited s) (unres s)).
    assert (inv ({[name]} ∪ stk) ({[name]} ∪ stk) s1) as Hinv1.
    { destruct Hinv as [? ? ? ? Hv Hst Hsv]. constructor; simpl; try done.
      - intros n [->%elem_of_singleton|Hn]%elem_of_union; [set_solver|].
        destruct (Hv n Hn); [auto|set_solver].
      - intros n [->%elem_of_singleton|Hn]%elem_of_union; auto.
      - set_solver. }
    (* inserting the finished entry re-establishes the invariant for the caller's stack *)
    assert (forall s2 rs2, inv ({[name]} ∪ stk) ({[name]} ∪ stk) s2 -> cache s ⊆ cache s2 ->
              unres s2 ⊆ unres s -> Forall fld_ok (arranged (cache s) fs) ->
              Forall2 (field_matches (cache s2)) (arranged (cache s) fs) rs2 ->
              (forall k, is_Some (cache s2 !! k) -> is_Some (cache s !! k) \/ rtc refD name k) ->
              let s3 := Sp (<[name := (name, TStruct rs2)]> (cache s2)) (visited s2) (unres s2) in
              step_ok stk s s3 /\ is_Some (cache s3 !! name) /\
         (forall k, is_Some (cache s3 !! k) -> is_Some (cache s !! k) \/ rtc refD name k) /\
         (forall fs0, AStruct fs = AStruct fs0 -> @None (string * rtype) = None -> exists rs,
             cache s3 !! name = Some (name, TStruct rs) /\
             Forall2 (field_matches (cache s3)) (arranged (cache s) fs0) rs)) as Hfin.
    { intros s2 rs2 H2 Hcs Hun Hok2 Hrs2 Hup. simpl.
      assert (cache s2 !! name = None) as Hn2 by (apply (i_stk _ _ _ H2); set_solver).
      assert (cache s2 ⊆ <[name := (name, TStruct rs2)]> (cache s2)) as Hins by by apply insert_subseteq.
      split; [|split; [rewrite lookup_insert; eauto|split]].
      2:{ intros k. destruct (decide (k = name)) as [->|Hne]; [right; apply rtc_refl|].
          rewrite lookup_insert_ne by done. apply Hup. }
      2:{ intros fs0 [= <-] _. exists rs2. rewrite lookup_insert. split; [done|].
          by eapply Forall2_fm_mono. }
      split; [|split; [etrans; done|done]].
      destruct H2 as [H21 H22 H23 H24 H25 H26 H27]. constructor; simpl; try done.
      - etrans; done.
      - intros n m t. rewrite lookup_insert_Some. intros [[<- [= <- <-]]|[Hne Hl]].
        + right. split; [done|]. exists fs, (cache s), rs2. split; [done|].
          split; [apply (i_sub _ _ _ Hinv)|]. split; [etrans; done|].
          split; [split; [by eapply inv_closed|done]|].
          split; [by rewrite <-(arranged_perm (cache s))|]. split; [|done]. by eapply Forall2_fm_mono.
        + destruct (H22 n m t Hl) as [?|[-> (fs' & c' & rs' & ? & ? & ? & [? ?] & ? & ? & ?)]]; [auto|].
          right. split; [done|]. exists fs', c', rs'. split_and!; try done; [etrans; done|].
          by eapply Forall2_fm_mono.
      - intros n Hn. destruct (decide (n = name)) as [->|Hne]; [left; rewrite lookup_insert; eauto|].
        rewrite lookup_insert_ne by done. destruct (H24 n Hn) as [?|[?|?]]; [auto..|set_solver].
      - intros n Hn. destruct (decide (n = name)) as [->|Hne]; [left; rewrite lookup_insert; eauto|].
        rewrite lookup_insert_ne by done. destruct (H25 n Hn) as [?|?]; [auto..|set_solver].
      - intros n Hn. rewrite lookup_insert_ne by set_solver. apply H26. set_solver.
      - set_solver. }
    pose proof (arranged_perm (cache s) fs) as Hsplit. unfold arranged in Hfin, Hsplit.
    destruct (filter (fun d => ~ known (cache s) d) fs) as [|nr1 nr] eqn:Enr.
    { left. eexists. split; [done|]. unfold arranged.
      apply (Hfin s1 rs); rewrite ?app_nil_r; simpl; auto. }
    destruct (field_types_spec fuel _ name ({[name]} ∪ stk) (nr1 :: nr) s1 IH Hinv1) as
      [(s2 & -> & (Hi2 & Hc2 & Hu2) & Hk2 & Hup2)|(m & -> & Hbad)].
    - set_solver.
    - intros f u Hin. exists fs, f, u. split; [done|]. split; [|done].
      rewrite <-Enr in Hin. by apply elem_of_list_filter in Hin as [_ ?].
    - simpl. lia.
    - simpl rbind. destruct (finish_fields_spec name (cache s2) (nr1 :: nr) [] (inv_named _ _ _ Hi2) Hk2) as
        [(rs2 & -> & Hrs2 & Hok2)|(m & -> & d & Hd & Hnok)].
      + left. eexists. split; [done|].
        apply (Hfin s2 (rs ++ rs2)); try done.
        * by apply Forall_app.
        * apply Forall2_app; [by eapply Forall2_fm_mono|done].
      + right. exists m. split; [done|]. intros [Hg _]. apply (Hbadf d); [|done..].
        rewrite <-Hsplit. set_solver.
    - simpl. right. exists m. split; [done|]. intros [Hg Hs]. apply Hbad. split; [done|].
      intros k [->%elem_of_singleton|Hk]%elem_of_union; auto.
  Qed.

  Lemma second_pass_loop_spec fuel order s :
    (forall n t, (n, t) ∈ order -> D !! n = Some t) -> inv ∅ ∅ s -> size D < fuel ->
    (exists s', second_pass_loop fuel order s = Ok s' /\ inv ∅ ∅ s' /\ cache s ⊆ cache s' /\
        forall n t, (n, t) ∈ order -> is_Some (cache s' !! n)) \/
    (exists m, second_pass_loop fuel order s = Err m /\ ~ goodD).
  Proof.
    revert s. induction order as [|[n t] order IH]; intros s Hord Hinv Hf; simpl.
    - left. exists s. split_and!; try done. by intros ? ? ?%elem_of_nil.
    - destruct (second_pass_one fuel n t ∅ s) as [(s1 & -> & (Hi & Hc & Hu) & Hk & _)|(m & -> & Hbad)].
      + apply Hord. set_solver.
      + eapply inv_weaken; [|done]. set_solver.
      + pose proof (map_subseteq_size _ _ (i_unres _ _ _ Hinv)). lia.
      + simpl. destruct (IH s1) as [(s2 & -> & Hi2 & Hc2 & Hk2)|(m & -> & Hbad)]; try done.
        * intros. apply Hord. set_solver.
        * left. exists s2. split; [done|]. split; [done|]. split; [etrans; done|].
          intros n' t' [[= -> ->]|Hin]%elem_of_cons; [|eauto].
          destruct Hk as [x Hx]. exists x. by eapply lookup_weaken.
        * right. eauto.
      + right. exists m. split; [done|]. intros Hg. apply Hbad. split; [done|]. set_solver.
  Qed.

  (** Outcome of the whole second pass. *)
  Record second_result (c : tymap) : Prop := {
    sr_sub : C0 ⊆ c;
    sr_named : named c;
    sr_new : forall n m t, c !! n = Some (m, t) -> C0 !! n = Some (m, t) \/ resolved_entry c n t;
    sr_all : forall n, is_Some (D !! n) -> is_Some (c !! n) }.

  Lemma second_pass_spec iter :
    fair_order iter ->
    (exists c, resolve_second_pass iter C0 D = Ok c /\ second_result c) \/
    (exists m, resolve_second_pass iter C0 D = Err m /\ ~ goodD).
  Proof.
    intros Hfair. unfold fair_order in Hfair. unfold resolve_second_pass.
    destruct (second_pass_loop_spec (S (size D)) (iter D) (Sp C0 ∅ D)) as
      [(s' & -> & Hi & Hc & Hk)|(m & -> & Hbad)].
    - intros n t. rewrite Hfair, elem_of_map_to_list. done.
    - constructor; simpl; try done; set_solver.
    - lia.
    - left. exists (cache s'). split; [done|]. constructor.
      + apply (i_sub _ _ _ Hi).
      + by eapply inv_named.
      + intros n m t Hl. destruct (i_new _ _ _ Hi _ _ _ Hl) as [?|[-> ?]]; auto.
      + intros n [t Ht]. apply (Hk n t). by rewrite Hfair, elem_of_map_to_list.
    - right. exists m. done.
  Qed.
End second.

(** ** Height of a resolved type; a successful second pass excludes cycles *)
Fixpoint rheight (t : rtype) : nat :=
  match t with
  | TStruct fs => S ((fix go (fs : list sfield) : nat :=
      match fs with [] => 0 | f :: fs' => Nat.max (rheight (f_ty f)) (go fs') end) fs)
  | _ => 0
  end.
Lemma rheight_field fs f : f ∈ fs -> rheight (f_ty f) < rheight (TStruct fs).
Proof.
  simpl. induction fs as [|g fs IH]; [by intros ?%elem_of_nil|].
  intros [->|H]%elem_of_cons; [lia|]. specialize (IH H). lia.
Qed.

Lemma second_result_good D C0 c :
  (forall n t, D !! n = Some t -> exists fs, t = AStruct fs) ->
  second_result D C0 c ->
  (forall n m t, c !! n = Some (m, t) -> C0 !! n = Some (m, t) \/ is_Some (D !! n)) ->
  goodD D C0.
Proof.
  intros HD [Hsub Hnamed Hnew Hall] Hdom.
  assert (forall n fs, active D C0 n fs -> exists t, c !! n = Some (n, t) /\ resolved_entry D C0 c n t) as Hact.
  { intros n fs [HDn HCn]. destruct (Hall n) as [[m t] Hc]; [eauto|].
    pose proof (Hnamed _ _ _ Hc) as ->. exists t. split; [done|].
    destruct (Hnew _ _ _ Hc) as [E|?]; [congruence|done]. }
  assert (forall n fs f u, active D C0 n fs -> (f, u) ∈ fs ->
            exists rs r, c !! n = Some (n, TStruct rs) /\ r ∈ rs /\ fld_ok (f, u) /\
              c !! u_name u = Some (u_name u, f_ty r)) as Hfld.
  { intros n fs f u Ha Hin. destruct (Hact n fs Ha) as (t & Hc & fs' & c0 & rs & Ha' & _ & _ & _ & Hok & Hrs & ->).
    assert (fs' = fs) as -> by (destruct Ha, Ha'; congruence).
    assert ((f, u) ∈ arranged c0 fs) as Hd by by rewrite arranged_perm.
    destruct (Forall2_elem_l _ _ _ _ Hrs Hd) as (r & Hr & (_ & _ & _ & _ & E)).
    exists rs, r. split; [done|]. split; [done|]. split; [|done].
    rewrite Forall_forall in Hok. by apply Hok. }
  constructor.
  - intros n fs [f u] Ha Hin. destruct (Hfld n fs f u Ha Hin) as (? & ? & ? & ? & ? & ?). done.
  - intros n fs f u Ha Hin. destruct (Hfld n fs f u Ha Hin) as (? & r & ? & ? & ? & E).
    destruct (Hdom _ _ _ E) as [->|?]; eauto.
  - assert (forall n m, refD D C0 n m -> forall t t', c !! n = Some (n, t) -> c !! m = Some (m, t') ->
       rheight t' < rheight t) as Hdec.
    { intros n m (fs & f & u & Ha & Hin & <-) t t' Hn Hm.
      destruct (Hfld n fs f u Ha Hin) as (rs & r & Hn' & Hr & _ & Hm').
      rewrite Hn in Hn'. injection Hn' as ->. rewrite Hm in Hm'. injection Hm' as ->.
      by apply rheight_field. }
    assert (forall n m, tc (refD D C0) n m -> forall t, c !! n = Some (n, t) ->
       exists t', c !! m = Some (m, t') /\ rheight t' < rheight t) as Htc.
    { induction 1 as [n m Hr|n k m Hr Ht IH]; intros t Hn.
      - pose proof Hr as (fs & f & u & Ha & Hin & <-).
        destruct (Hfld n fs f u Ha Hin) as (rs & r & Hn' & Hrr & _ & Hm'). eauto.
      - pose proof Hr as (fs & f & u & Ha & Hin & E).
        destruct (Hfld n fs f u Ha Hin) as (rs & r & Hn' & Hrr & _ & Hm'). rewrite E in Hm'.
        destruct (IH _ Hm') as (t' & ? & ?). exists t'. split; [done|].
        pose proof (Hdec _ _ Hr _ _ Hn Hm'). lia. }
    intros n Hcyc.
    assert (exists t, c !! n = Some (n, t)) as [t Ht].
    { inversion Hcyc as [? ? (fs & f & u & Ha & Hin & _)|? ? ? (fs & f & u & Ha & Hin & _)]; subst;
        destruct (Hact _ _ Ha) as (t & ? & ?); eauto. }
    destruct (Htc _ _ Hcyc _ Ht) as (t' & Ht' & Hlt). rewrite Ht in Ht'. injection Ht' as ->. lia.
Qed.
