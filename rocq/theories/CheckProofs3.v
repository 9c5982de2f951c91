(** Proofs about the checker model, part 3: the export pass and type_check as a whole. *)
From Verif Require Export CheckProofs2.

(** ** An induction principle for resolved types *)
Lemma rtype_ind' (P : rtype -> Prop) :
  (forall b, P (TBuiltin b)) -> (forall e, P (TEnum e)) ->
  (forall fs, Forall (fun f => P (f_ty f)) fs -> P (TStruct fs)) -> forall t, P t.
Proof.
  intros Hb He Hs. fix IH 1. intros [b|e|fs]; [apply Hb|apply He|].
  apply Hs. induction fs as [|f fs IHfs]; constructor; [apply IH|apply IHfs].
Qed.

(** ** collect_used_types *)
Definition wf_map (c : tymap) : Prop :=
  named c /\ forall n m rs, c !! n = Some (m, TStruct rs) ->
    forall r, r ∈ rs -> c !! f_tname r = Some (f_tname r, f_ty r).
Definition succ (c : tymap) (n m : string) : Prop :=
  exists k rs r, c !! n = Some (k, TStruct rs) /\ r ∈ rs /\ f_tname r = m.

Definition grows (c : tymap) (R : string -> Prop) (v v' : gset string) : Prop :=
  v ⊆ v' /\ (forall m, m ∈ v' -> m ∈ v \/ R m) /\
  (forall m k, m ∈ v' -> m ∉ v -> succ c m k -> k ∈ v').

Lemma grows_refl c R v : grows c R v v.
Proof. split; [done|]. split; [auto|]. intros. done. Qed.
Lemma grows_trans c R v1 v2 v3 : grows c R v1 v2 -> grows c R v2 v3 -> grows c R v1 v3.
Proof.
  intros (S1 & R1 & C1) (S2 & R2 & C2). split; [set_solver|]. split.
  - intros m [H|?]%R2; auto.
  - intros m k H3 H1 Hs. destruct (decide (m ∈ v2)); [|eauto]. apply S2. eauto.
Qed.
Lemma grows_mono c (R R' : string -> Prop) v v' :
  (forall m, R m -> R' m) -> grows c R v v' -> grows c R' v v'.
Proof. intros HR (S1 & R1 & C1). split; [done|]. split; [|done]. intros m [?|?]%R1; auto. Qed.

Lemma collect_used_spec c t : wf_map c -> forall tn vis,
  c !! tn = Some (tn, t) ->
  tn ∈ collect_used_types t tn vis /\ grows c (rtc (succ c) tn) vis (collect_used_types t tn vis).
Proof.
  intros [Hnm Hwf]. induction t as [b|e|fs IH] using rtype_ind'; intros tn vis Hc.
  - simpl. split; [set_solver|]. split; [set_solver|]. split.
    + intros m [->%elem_of_singleton|?]%elem_of_union; [right; apply rtc_refl|auto].
    + intros m k [->%elem_of_singleton|?]%elem_of_union ? (? & ? & ? & ? & _); [congruence|done].
  - simpl. split; [set_solver|]. split; [set_solver|]. split.
    + intros m [->%elem_of_singleton|?]%elem_of_union; [right; apply rtc_refl|auto].
    + intros m k [->%elem_of_singleton|?]%elem_of_union ? (? & ? & ? & ? & _); [congruence|done].
  - simpl.
    set (loop := fix loop (fs : list sfield) (vis : gset string) : gset string :=
         match fs with
         | [] => vis
         | f :: fs' =>
             loop fs' (if decide (f_tname f ∈ vis) then vis
                       else collect_used_types (f_ty f) (f_tname f) vis)
         end).
    assert (forall fs' v, (forall r, r ∈ fs' -> r ∈ fs) ->
              grows c (rtc (succ c) tn) v (loop fs' v) /\ forall r, r ∈ fs' -> f_tname r ∈ loop fs' v) as Hloop.
    { induction fs' as [|f fs' IHl]; intros v Hsub; simpl.
      - split; [apply grows_refl|]. by intros ? ?%elem_of_nil.
      - assert (f ∈ fs) as Hf by (apply Hsub; by left).
        set (v1 := if decide (f_tname f ∈ v) then v else collect_used_types (f_ty f) (f_tname f) v).
        assert (f_tname f ∈ v1 /\ grows c (rtc (succ c) tn) v v1) as [Hin Hg].
        { unfold v1. case_decide as Hd; [split; [done|apply grows_refl]|].
          rewrite Forall_forall in IH. destruct (IH f Hf (f_tname f) v) as [H1 H2].
          { eapply Hwf; done. }
          split; [done|]. eapply grows_mono; [|exact H2].
          intros m Hm. eapply rtc_l; [|exact Hm]. exists tn, fs, f. done. }
        destruct (IHl v1) as [Hg2 Hall]; [intros; apply Hsub; by right|].
        split; [by eapply grows_trans|]. intros r [->|Hr]%elem_of_cons; [|auto].
        by apply Hg2. }
    destruct (Hloop fs ({[tn]} ∪ vis)) as [(S1 & R1 & C1) Hall]; [done|].
    split; [set_solver|]. split; [set_solver|]. split.
    + intros m [[->%elem_of_singleton|?]%elem_of_union|?]%R1; auto. right; apply rtc_refl.
    + intros m k Hm Hnm' Hs. destruct (decide (m = tn)) as [->|Hne].
      * destruct Hs as (? & ? & r & E & Hr & <-). rewrite Hc in E. injection E as <- <-. auto.
      * eapply C1; [done|set_solver|done].
Qed.

Definition used_set (e : string) (fs : list sfield) : gset string :=
  foldl (fun vis f => collect_used_types (f_ty f) (f_tname f) vis) {[e]} fs.

Lemma used_set_spec c e fs : wf_map c -> c !! e = Some (e, TStruct fs) ->
  forall n, n ∈ used_set e fs <-> rtc (succ c) e n.
Proof.
  intros Hwf He.
  assert (forall fs' v, (forall r, r ∈ fs' -> r ∈ fs) ->
     let v' := foldl (fun vis f => collect_used_types (f_ty f) (f_tname f) vis) v fs' in
     grows c (rtc (succ c) e) v v' /\ forall r, r ∈ fs' -> f_tname r ∈ v') as Hloop.
  { induction fs' as [|f fs' IHl]; intros v Hsub; simpl.
    - split; [apply grows_refl|]. by intros ? ?%elem_of_nil.
    - assert (f ∈ fs) as Hf by (apply Hsub; by left).
      destruct (collect_used_spec c (f_ty f) Hwf (f_tname f) v) as [H1 H2].
      { destruct Hwf as [_ Hwf]. eapply Hwf; done. }
      destruct (IHl (collect_used_types (f_ty f) (f_tname f) v)) as [Hg Hall];
        [intros; apply Hsub; by right|].
      split.
      + eapply grows_trans; [|exact Hg]. eapply grows_mono; [|exact H2].
        intros m Hm. eapply rtc_l; [|exact Hm]. exists e, fs, f. done.
      + intros r [->|Hr]%elem_of_cons; [|auto]. by apply Hg. }
  destruct (Hloop fs {[e]}) as [(S1 & R1 & C1) Hall]; [done|]. fold (used_set e fs) in *.
  intros n. split.
  - intros [->%elem_of_singleton|?]%R1; [apply rtc_refl|done].
  - assert (forall m k, m ∈ used_set e fs -> succ c m k -> k ∈ used_set e fs) as Hcl.
    { intros m k Hm Hs. destruct (decide (m = e)) as [->|Hne]; [|eapply C1; [done|set_solver|done]].
      destruct Hs as (? & ? & r & E & Hr & <-). rewrite He in E. injection E as <- <-. auto. }
    intros Hr. assert (forall x y, rtc (succ c) x y -> x ∈ used_set e fs -> y ∈ used_set e fs) as HH.
    { induction 1; eauto. }
    eapply HH; [exact Hr|]. set_solver.
Qed.

Lemma resolve_export_ok c e x ty : wf_map c ->
  resolve_export e c = Ok (x, ty) <->
  c !! e = Some (e, TStruct (x_fields x)) /\ x_name x = e /\
  ty = filter (fun kv => kv.1 ∈ used_set e (x_fields x)) c.
Proof.
  intros [Hnm _]. unfold resolve_export. destruct (c !! e) as [[m [b|en|fs]]|] eqn:E.
  - split; [done|]. by intros ([=] & _).
  - split; [done|]. by intros ([=] & _).
  - pose proof (Hnm _ _ _ E) as ->. split.
    + intros [= <- <-]. done.
    + intros ([= ->] & Hx & ->). destruct x; simpl in *; subst. done.
  - split; [done|]. by intros ([=] & _).
Qed.
Lemma resolve_export_returns c e : returns (resolve_export e c).
Proof. unfold returns, resolve_export. repeat case_match; eauto. Qed.

(** ** The stages before the second pass *)
Definition front (a : ast) : res (string * tymap * gmap string atype) :=
  do exp <- get_export a;
  do un <- collect_types a;
  do fpun <- resolve_first_pass a get_builtins (∅, un);
  Ok (exp, fpun.1 ∪ get_builtins, fpun.2).

Lemma type_check_front iter a :
  type_check iter a =
  rbind (front a) (fun '(e, C0, D) => do c <- resolve_second_pass iter C0 D;
                                      do et <- resolve_export e c; Ok (Resolved et.1 et.2)).
Proof.
  unfold type_check, front. destruct (get_export a); try done. simpl.
  destruct (collect_types a); try done. simpl.
  by destruct (resolve_first_pass a get_builtins (∅, a1)) as [[? ?]| | |].
Qed.

Record front_facts (a : ast) (e : string) (C0 : tymap) (D : gmap string atype) : Prop := {
  ff_export : exports a = [e];
  ff_nodup : NoDup (decl_names a);
  ff_ok : forall n t, NDecl n t ∈ a -> is_ok (fp_one n t);
  ff_D : forall n t, D !! n = Some t <-> NDecl n t ∈ a /\ fp_one n t = Ok None;
  ff_C : forall n m t, C0 !! n = Some (m, t) <->
     m = n /\ ((exists u, NDecl n u ∈ a /\ fp_one n u = Ok (Some t)) \/
               ((forall u, NDecl n u ∈ a -> fp_one n u = Ok None) /\
                exists b, builtin_of_name n = Some b /\ t = TBuiltin b)) }.

Lemma front_ok a e C0 D : front a = Ok (e, C0, D) -> front_facts a e C0 D.
Proof.
  unfold front. intros (e' & He & Hf)%rbind_ok. apply rbind_ok in Hf as (un & Hun & Hf).
  apply rbind_ok in Hf as ([fp un'] & Hfp & [= <- <- <-]).
  apply get_export_ok in He. apply collect_types_loop_ok in Hun as (Hnd & _ & Hun).
  assert (forall n t, NDecl n t ∈ a -> is_ok (fp_one n t)) as Hok by (intros; by eapply first_pass_sound).
  destruct (first_pass_ok _ _ _ _ _ Hfp Hnd) as [Hd Hnot].
  assert (forall n x, fp !! n = Some x <-> exists u t, NDecl n u ∈ a /\ fp_one n u = Ok (Some t) /\ x = (n, t)) as Hfpl.
  { intros n x. split.
    - intros Hx. destruct (decide (n ∈ decl_names a)) as [Hin|Hnin].
      + apply decl_names_inv in Hin as [u Hu]. destruct (Hd n u Hu) as ([t|] & Ho & Hm).
        * exists u, t. destruct Hm as [Hm _]. rewrite Hx in Hm. by injection Hm as ->.
        * destruct Hm as [Hm _]. rewrite Hx, lookup_empty in Hm. done.
      + destruct (Hnot n Hnin) as [E _]. rewrite Hx, lookup_empty in E. done.
    - intros (u & t & Hu & Ho & ->). destruct (Hd n u Hu) as (o & Ho' & Hm).
      rewrite Ho in Ho'. injection Ho' as <-. tauto. }
  constructor; try done.
  - intros n t. split.
    + intros Hl. destruct (decide (n ∈ decl_names a)) as [Hin|Hnin].
      * apply decl_names_inv in Hin as [u Hu]. destruct (Hd n u Hu) as ([t'|] & Ho & Hm).
        -- destruct Hm as [_ Hm]. congruence.
        -- destruct Hm as [_ Hm]. rewrite Hl in Hm. symmetry in Hm. apply Hun in Hm as [Hm|Hm].
           { by rewrite lookup_empty in Hm. }
           assert (t = u) as -> by by eapply decl_unique. done.
      * destruct (Hnot n Hnin) as [_ E]. rewrite Hl in E. symmetry in E.
        apply Hun in E as [E|E]; [by rewrite lookup_empty in E|]. by apply decl_names_elem in E.
    + intros [Hin Ho]. destruct (Hd n t Hin) as (o & Ho' & Hm). rewrite Ho in Ho'. injection Ho' as <-.
      destruct Hm as [_ ->]. apply Hun. auto.
  - intros n m t. simpl. rewrite lookup_union_Some_raw, Hfpl. rewrite builtins_lookup. split.
    + intros [(u & t' & Hu & Ho & [= -> ->])|[Hnone Hb]].
      * split; [done|]. left. eauto.
      * destruct (builtin_of_name n) as [b|] eqn:Eb; [|done]. simpl in Hb. injection Hb as <- <-.
        split; [done|]. right. split; [|eauto]. intros u Hu. destruct (Hok n u Hu) as [[t|] Ho]; [|done].
        assert (fp !! n = Some (n, t)) by (apply Hfpl; eauto). congruence.
    + intros [-> [(u & Hu & Ho)|(Hall & b & Hb & ->)]]; [left; eauto 10|].
      right. rewrite Hb. split; [|done]. apply eq_None_not_Some. intros [x Hx].
      apply Hfpl in Hx as (u & t & Hu & Ho & _). rewrite (Hall u Hu) in Ho. done.
Qed.

Lemma front_complete a e : exports a = [e] -> NoDup (decl_names a) ->
  (forall n t, NDecl n t ∈ a -> is_ok (fp_one n t)) -> exists C0 D, front a = Ok (e, C0, D).
Proof.
  intros He Hnd Hok. unfold front. apply get_export_ok in He as ->. simpl.
  destruct (collect_types_loop_complete a ∅) as [un Hun]; [done|intros; apply lookup_empty|].
  unfold collect_types. rewrite Hun. simpl.
  destruct (first_pass_complete a (∅, un) Hok) as [[fp un'] ->]. simpl. eauto.
Qed.
Lemma front_returns a : returns (front a).
Proof.
  unfold front. destruct (get_export_loop_returns a None) as [[e He]|[m He]];
    unfold get_export; rewrite He; simpl; [|right; eauto].
  destruct (collect_types_loop_returns a ∅) as [[un Hun]|[m Hun]];
    unfold collect_types; rewrite Hun; simpl; [|right; eauto].
  destruct (first_pass_returns a (∅, un)) as [[x Hx]|[m Hx]]; rewrite Hx; simpl; [left|right]; eauto.
Qed.

Lemma ff_struct a e C0 D : front_facts a e C0 D -> forall n t, D !! n = Some t -> exists fs, t = AStruct fs.
Proof.
  intros F n [vs|fs]; [|eauto]. intros H. apply (ff_D _ _ _ _ F) in H as [_ H].
  apply fp_one_enum in H as (_ & _ & r & _ & [=]).
Qed.
Lemma ff_named a e C0 D : front_facts a e C0 D -> named C0.
Proof. intros F n m t H. by apply (ff_C _ _ _ _ F) in H as [? _]. Qed.

Lemma second_dom D C0 c : second_result D C0 c ->
  forall n m t, c !! n = Some (m, t) -> C0 !! n = Some (m, t) \/ is_Some (D !! n).
Proof.
  intros H n m t Hc. destruct (sr_new _ _ _ H _ _ _ Hc) as [?|(fs & ? & ? & [? _] & _)]; eauto.
Qed.

(** Builtins that are not redeclared stay builtins in the map of the first pass. *)
Lemma fp_one_some_struct_fields n u rs :
  fp_one n u = Ok (Some (TStruct rs)) -> forall r, r ∈ rs ->
  get_builtins !! f_tname r = Some (f_tname r, f_ty r).
Proof.
  destruct u as [vs|fs].
  - intros (_ & _ & ? & _ & [=])%fp_one_enum.
  - intros (_ & _ & [(_ & rs' & Hrs & [= <-])|(_ & [=])])%fp_one_struct r Hr.
    destruct (Forall2_elem_r _ _ _ _ Hrs Hr) as ([f u] & _ & (_ & E & _ & _ & Hl)). by rewrite E.
Qed.

(** ** Totality (no assumption on the schema) *)
Lemma type_check_returns iter a : fair_order iter -> returns (type_check iter a).
Proof.
  intros Hfair. rewrite type_check_front.
  destruct (front_returns a) as [[[[e C0] D] HF]|[m HF]]; rewrite HF; simpl; [|right; eauto].
  pose proof (front_ok _ _ _ _ HF) as F.
  destruct (second_pass_spec D C0 (ff_struct _ _ _ _ F) (ff_named _ _ _ _ F) iter Hfair) as
    [(c & -> & _)|(m & -> & _)]; simpl; [|right; eauto].
  destruct (resolve_export_returns c e) as [[x ->]|[m ->]]; simpl; [left|right]; eauto.
Qed.

(** ** The verdict does not depend on the order (no assumption on the schema) *)
Definition export_good (e : string) (C0 : tymap) (D : gmap string atype) : Prop :=
  (exists m fs, C0 !! e = Some (m, TStruct fs)) \/ (exists fs, active D C0 e fs).

Lemma resolve_export_is_ok c e :
  is_ok (resolve_export e c) <-> exists m fs, c !! e = Some (m, TStruct fs).
Proof.
  unfold is_ok, resolve_export. split.
  - intros [x Hx]. repeat case_match; try done. subst. eauto.
  - intros (m & fs & ->). eauto.
Qed.

Lemma type_check_verdict iter a : fair_order iter ->
  is_ok (type_check iter a) <->
  exists e C0 D, front a = Ok (e, C0, D) /\ goodD D C0 /\ export_good e C0 D.
Proof.
  intros Hfair. rewrite type_check_front. split.
  - intros [r Hr]. apply rbind_ok in Hr as ([[e C0] D] & HF & Hr).
    pose proof (front_ok _ _ _ _ HF) as F. exists e, C0, D. split; [done|].
    apply rbind_ok in Hr as (c & Hc & Hr). apply rbind_ok in Hr as (et & Het & _).
    destruct (second_pass_spec D C0 (ff_struct _ _ _ _ F) (ff_named _ _ _ _ F) iter Hfair) as
      [(c' & Hc' & Hsr)|(m & Hc' & _)]; [|congruence].
    assert (c' = c) as -> by congruence.
    split.
    + eapply second_result_good; [by eapply ff_struct|done|]. by apply second_dom.
    + assert (is_ok (resolve_export e c)) as (m & fs & Hm)%resolve_export_is_ok by (eexists; done).
      destruct (sr_new _ _ _ Hsr _ _ _ Hm) as [?|(fs' & ? & ? & ? & _)]; [left|right]; eauto.
  - intros (e & C0 & D & HF & Hgood & Hexp). rewrite HF. simpl.
    pose proof (front_ok _ _ _ _ HF) as F.
    destruct (second_pass_spec D C0 (ff_struct _ _ _ _ F) (ff_named _ _ _ _ F) iter Hfair) as
      [(c & -> & Hsr)|(m & _ & Hbad)]; [|done]. simpl.
    assert (is_ok (resolve_export e c)) as [et ->].
    { apply resolve_export_is_ok. destruct Hexp as [(m & fs & Hm)|(fs & Ha & Hn)].
      - exists m, fs. eapply lookup_weaken; [done|apply (sr_sub _ _ _ Hsr)].
      - destruct (sr_all _ _ _ Hsr e) as [[m t] Hc]; [eauto|].
        destruct (sr_new _ _ _ Hsr _ _ _ Hc) as [?|(? & ? & ? & ? & ? & ? & ? & ? & ? & ->)]; [congruence|eauto]. }
    simpl. eexists; done.
Qed.

Lemma verdict_order_independent iter1 iter2 a : fair_order iter1 -> fair_order iter2 ->
  is_ok (type_check iter1 a) <-> is_ok (type_check iter2 a).
Proof. intros H1 H2. by rewrite !type_check_verdict. Qed.

(** ** Acceptance = validity *)
Section named_schema.
  Context (a : ast) (Hnb : no_builtin_decl a).

  Lemma decl_not_builtin n t : NDecl n t ∈ a -> n ∉ builtin_names.
  Proof. intros H. apply Hnb. by eapply decl_names_elem. Qed.

  Context (e : string) (C0 : tymap) (D : gmap string atype) (F : front_facts a e C0 D).

  Lemma C0_lookup n m t : C0 !! n = Some (m, t) <->
    m = n /\ ((exists u, NDecl n u ∈ a /\ fp_one n u = Ok (Some t)) \/
              exists b, builtin_of_name n = Some b /\ t = TBuiltin b).
  Proof.
    rewrite (ff_C _ _ _ _ F). split.
    - intros [-> [?|[_ ?]]]; auto.
    - intros [-> [?|(b & Hb & ->)]]; [auto|]. split; [done|]. right. split; [|eauto].
      intros u Hu. exfalso. apply (decl_not_builtin n u Hu). apply builtin_names_spec. eauto.
  Qed.

  Lemma active_iff n fs :
    active D C0 n fs <-> declares_struct a n fs /\ ~ Forall fld_builtin fs.
  Proof.
    unfold active. rewrite (ff_D _ _ _ _ F). split.
    - intros [[Hd Ho] _]. split; [done|]. apply fp_one_struct in Ho as (_ & _ & [(_ & ? & _ & [=])|[? _]]). done.
    - intros [Hd Hn]. destruct (ff_ok _ _ _ _ F _ _ Hd) as [o Ho]. pose proof Ho as Ho'.
      apply fp_one_struct in Ho as (_ & _ & [(? & _)|[_ ->]]); [done|].
      split; [done|]. destruct (C0 !! n) as [[m t]|] eqn:E; [|done].
      apply C0_lookup in E as [-> [(u & Hu & Hou)|(b & Hb & ->)]].
      + assert (u = AStruct fs) as -> by (eapply decl_unique; [apply (ff_nodup _ _ _ _ F)|done..]). congruence.
      + exfalso. apply (decl_not_builtin n _ Hd). apply builtin_names_spec. eauto.
  Qed.

  Lemma known_C0 n : is_Some (C0 !! n) <->
    n ∈ builtin_names \/ (exists vs, declares_enum a n vs) \/
    (exists fs, declares_struct a n fs /\ Forall fld_builtin fs).
  Proof.
    split.
    - intros [[m t] H]. apply C0_lookup in H as [-> [(u & Hu & Ho)|(b & Hb & ->)]].
      + right. destruct u as [vs|fs]; [left; eauto|right]. exists fs. split; [done|].
        apply fp_one_struct in Ho as (_ & _ & [[? _]|[_ [=]]]). done.
      + left. apply builtin_names_spec. eauto.
    - intros [[b Hb]%builtin_names_spec|[[vs Hvs]|(fs & Hfs & Hall)]].
      + exists (n, TBuiltin b). apply C0_lookup. eauto.
      + destruct (ff_ok _ _ _ _ F _ _ Hvs) as [o Ho]. pose proof Ho as Ho'.
        apply fp_one_enum in Ho as (_ & _ & r & _ & ->). eexists (n, _). apply C0_lookup. eauto.
      + destruct (ff_ok _ _ _ _ F _ _ Hfs) as [o Ho]. pose proof Ho as Ho'.
        apply fp_one_struct in Ho as (_ & _ & [(_ & rs & _ & ->)|[? _]]); [|done].
        eexists (n, _). apply C0_lookup. eauto.
  Qed.

  Lemma known_D n : is_Some (D !! n) -> n ∈ decl_names a.
  Proof. intros [t H]. apply (ff_D _ _ _ _ F) in H as [H _]. by eapply decl_names_elem. Qed.

  Lemma decl_known n : n ∈ decl_names a -> is_Some (C0 !! n) \/ is_Some (D !! n).
  Proof.
    intros [t Ht]%decl_names_inv. destruct (ff_ok _ _ _ _ F _ _ Ht) as [[rt|] Ho].
    - left. exists (n, rt). apply C0_lookup. eauto.
    - right. exists t. apply (ff_D _ _ _ _ F). done.
  Qed.

  Lemma refD_refers n m : refD D C0 n m -> refers a n m.
  Proof. intros (fs & f & u & Ha & Hin & <-). apply active_iff in Ha as [Ha _]. exists fs, f, u. done. Qed.
  Lemma refers_refD n m : refers a n m -> m ∉ builtin_names -> refD D C0 n m.
  Proof.
    intros (fs & f & u & Hd & Hin & <-) Hm. exists fs, f, u. split; [|done]. apply active_iff.
    split; [done|]. rewrite Forall_forall. intros Hall. by apply Hm, (Hall (f, u)).
  Qed.

  Lemma tc_refD n m : tc (refers a) n m -> m ∉ builtin_names -> tc (refD D C0) n m.
  Proof.
    induction 1 as [n m Hr|n k m Hr Ht IH]; intros Hm.
    - apply tc_once. by apply refers_refD.
    - eapply tc_l; [|by apply IH]. apply refers_refD; [done|].
      assert (exists fs, declares_struct a k fs) as [fs Hk].
      { inversion Ht as [? ? (fs & ? & ? & ? & _)|? ? ? (fs & ? & ? & ? & _)]; subst; eauto. }
      by eapply decl_not_builtin.
  Qed.

  Lemma good_valid : goodD D C0 -> export_good e C0 D -> valid_schema a.
  Proof.
    intros [Gok Gk Ga] Hexp. constructor.
    - exists e. destruct Hexp as [(m & fs & Hm)|(fs & Ha)].
      + apply C0_lookup in Hm as [-> [(u & Hu & Ho)|(b & _ & [=])]].
        destruct u as [vs|fs']; [apply fp_one_enum in Ho as (_ & _ & ? & _ & [=])|].
        exists fs'. split; [apply (ff_export _ _ _ _ F)|done].
      + apply active_iff in Ha as [Ha _]. exists fs. split; [apply (ff_export _ _ _ _ F)|done].
    - apply (ff_nodup _ _ _ _ F).
    - intros n vs Hvs. destruct (ff_ok _ _ _ _ F _ _ Hvs) as [o Ho].
      apply fp_one_enum in Ho as (? & ? & _). done.
    - intros n fs f u Hd Hin. destruct (decide (Forall fld_builtin fs)) as [Hall|Hn].
      + left. rewrite Forall_forall in Hall. by apply (Hall (f, u)).
      + assert (active D C0 n fs) as Ha by by apply active_iff.
        destruct (Gk _ _ _ _ Ha Hin) as [Hk|Hk].
        * apply known_C0 in Hk as [?|[(? & H)|(? & H & _)]]; [by left|right; by eapply decl_names_elem..].
        * right. by apply known_D.
    - intros n fs f u Hd Hin. destruct (decide (Forall fld_builtin fs)) as [Hall|Hn].
      + destruct (ff_ok _ _ _ _ F _ _ Hd) as [o Ho]. apply fp_one_struct in Ho as (_ & Hok & _).
        rewrite builtin_prefix_id in Hok by done. rewrite Forall_forall in Hok. by apply (Hok (f, u)).
      + assert (active D C0 n fs) as Ha by by apply active_iff.
        by apply (Gok n fs (f, u)).
    - intros n Hcyc. apply (Ga n). apply tc_refD; [done|].
      assert (exists fs, declares_struct a n fs) as [fs Hk].
      { inversion Hcyc as [? ? (fs & ? & ? & ? & _)|? ? ? (fs & ? & ? & ? & _)]; subst; eauto. }
      by eapply decl_not_builtin.
    - intros n fs Hd. destruct (ff_ok _ _ _ _ F _ _ Hd) as [o Ho]. by apply fp_one_struct in Ho as (? & _).
  Qed.

  Lemma valid_good : valid_schema a -> goodD D C0 /\ export_good e C0 D.
  Proof.
    intros V. split.
    - constructor.
      + intros n fs [f u] Ha Hin. apply active_iff in Ha as [Ha _]. by eapply (vs_optarr _ V).
      + intros n fs f u Ha Hin. apply active_iff in Ha as [Ha _].
        destruct (vs_types _ V _ _ _ _ Ha Hin) as [?|?]; [left; apply known_C0; auto|by apply decl_known].
      + intros n Hcyc. apply (vs_acyclic _ V n).
        assert (forall x y, tc (refD D C0) x y -> tc (refers a) x y) as HH.
        { induction 1; [apply tc_once|eapply tc_l; [|done]]; by apply refD_refers. }
        by apply HH.
    - destruct (vs_export _ V) as (e' & fs & He & Hd).
      assert (e' = e) as -> by (rewrite (ff_export _ _ _ _ F) in He; congruence).
      destruct (decide (Forall fld_builtin fs)) as [Hall|Hn].
      + left. destruct (ff_ok _ _ _ _ F _ _ Hd) as [o Ho]. pose proof Ho as Ho'.
        apply fp_one_struct in Ho as (_ & _ & [(_ & rs & _ & ->)|[? _]]); [|done].
        exists e, rs. apply C0_lookup. eauto.
      + right. exists fs. by apply active_iff.
  Qed.
End named_schema.

Lemma valid_fp_ok a n t : valid_schema a -> NDecl n t ∈ a -> is_ok (fp_one n t).
Proof.
  intros V Hd. destruct t as [vs|fs].
  - destruct (vs_enums _ V n vs Hd) as [Hl Hnd].
    assert (exists r, smallest_repr (length vs) r) as [r Hr].
    { destruct (choose_repr "" (length vs)) eqn:E;
        [apply choose_repr_ok in E as [_ ?]; eauto|unfold choose_repr in E..];
        repeat case_match; try done.
      - apply Nat.eqb_eq in H. lia.
      - apply Nat.leb_gt in H2. lia. }
    eexists. apply fp_one_enum. split; [done|]. split; [done|]. eauto.
  - pose proof (vs_fields _ V n fs Hd) as Hnd.
    assert (Forall fld_ok (builtin_prefix fs)) as Hok.
    { apply Forall_forall. intros [f u] Hin%builtin_prefix_sub. by eapply (vs_optarr _ V). }
    destruct (decide (Forall fld_builtin fs)) as [Hall|Hn].
    + destruct (Forall2_builtin_exists _ Hall) as [rs Hrs].
      exists (Some (TStruct rs)). apply fp_one_struct. split; [done|]. split; [done|]. left. eauto.
    + exists None. apply fp_one_struct. auto.
Qed.

Lemma type_check_valid iter a : fair_order iter -> no_builtin_decl a ->
  is_ok (type_check iter a) <-> valid_schema a.
Proof.
  intros Hfair Hnb. rewrite type_check_verdict by done. split.
  - intros (e & C0 & D & HF & Hg & He). by eapply good_valid; [| apply front_ok| |].
  - intros V. destruct (vs_export _ V) as (e & fs & He & Hd).
    destruct (front_complete a e He (vs_decls _ V)) as (C0 & D & HF).
    { intros. by eapply valid_fp_ok. }
    exists e, C0, D. split; [done|]. eapply valid_good; [done|by apply front_ok|done].
Qed.

(** ** What the result contains *)
Lemma Forall2_impl_elem {A B} (P Q : A -> B -> Prop) l k :
  Forall2 P l k -> (forall x y, x ∈ l -> P x y -> Q x y) -> Forall2 Q l k.
Proof.
  induction 1 as [|x y l k Hxy H IH]; intros HPQ; constructor.
  - apply HPQ; [by left|done].
  - apply IH. intros. apply HPQ; [by right|done].
Qed.

Section result.
  Context (a : ast) (Hnb : no_builtin_decl a) (e : string) (C0 : tymap) (D : gmap string atype)
          (F : front_facts a e C0 D) (c : tymap) (S : second_result D C0 c).

  Lemma builtin_in_c n b : builtin_of_name n = Some b -> c !! n = Some (n, TBuiltin b).
  Proof.
    intros Hb. eapply lookup_weaken; [|apply (sr_sub _ _ _ S)]. apply (C0_lookup a Hnb e C0 D F). eauto.
  Qed.
  Lemma builtins_sub_c : get_builtins ⊆ c.
  Proof.
    apply map_subseteq_spec. intros n x. rewrite builtins_lookup. destruct (builtin_of_name n) eqn:E; [|done].
    simpl. intros [= <-]. by apply builtin_in_c.
  Qed.

  Lemma c_entries n m t : c !! n = Some (m, t) -> entry_matches a c n t.
  Proof.
    intros Hc. destruct (sr_new _ _ _ S _ _ _ Hc) as [HC0|(fs & c0 & rs & Ha & _ & _ & _ & _ & Hrs & ->)].
    - apply (C0_lookup a Hnb e C0 D F) in HC0 as [-> [(u & Hu & Ho)|Hb]]; [|by left].
      destruct u as [vs|fs].
      + apply fp_one_enum in Ho as (_ & _ & r & Hr & [= ->]). right; left. exists vs, r. done.
      + apply fp_one_struct in Ho as (_ & _ & [(_ & rs & Hrs & [= ->])|[_ [=]]]).
        right; right. exists fs, fs, rs. split; [done|]. split; [done|]. split; [|done].
        eapply Forall2_fm_mono; [apply builtins_sub_c|done].
    - apply (active_iff a Hnb e C0 D F) in Ha as [Ha _]. right; right.
      exists fs, (arranged c0 fs), rs. split; [done|]. split; [apply arranged_perm|]. done.
  Qed.

  Lemma c_wf : wf_map c.
  Proof.
    split; [apply (sr_named _ _ _ S)|]. intros n m rs Hc r Hr.
    destruct (c_entries _ _ _ Hc) as [(? & _ & [=])|[(? & ? & _ & _ & [=])|(fs & ds & rs' & _ & _ & Hrs & [= ->])]].
    destruct (Forall2_elem_r _ _ _ _ Hrs Hr) as (d & _ & (_ & E & _ & _ & Hl)). by rewrite E.
  Qed.

  Lemma c_succ n m : succ c n m -> refers a n m.
  Proof.
    intros (k & rs & r & Hc & Hr & <-).
    destruct (c_entries _ _ _ Hc) as [(? & _ & [=])|[(? & ? & _ & _ & [=])|(fs & ds & rs' & Hd & Hp & Hrs & [= ->])]].
    destruct (Forall2_elem_r _ _ _ _ Hrs Hr) as ([f u] & Hin & (_ & E & _)).
    exists fs, f, u. split; [done|]. split; [by rewrite <-Hp|done].
  Qed.
  Lemma c_declared n fs : declares_struct a n fs -> exists ds rs,
    c !! n = Some (n, TStruct rs) /\ ds ≡ₚ fs /\ Forall2 (field_matches c) ds rs.
  Proof.
    intros Hd. assert (is_Some (c !! n)) as [[m t] Hc].
    { destruct (decl_known a Hnb e C0 D F n) as [[x Hx]|Hx]; [by eapply decl_names_elem| |].
      - exists x. eapply lookup_weaken; [done|apply (sr_sub _ _ _ S)].
      - by apply (sr_all _ _ _ S). }
    pose proof (sr_named _ _ _ S _ _ _ Hc) as ->.
    destruct (c_entries _ _ _ Hc) as [(b & Hb & _)|[(vs & ? & Hvs & _)|(fs' & ds & rs & Hd' & Hp & Hrs & ->)]].
    - exfalso. apply (decl_not_builtin a Hnb n _ Hd). apply builtin_names_spec. eauto.
    - pose proof (decl_unique _ _ _ _ (ff_nodup _ _ _ _ F) Hd Hvs). done.
    - pose proof (decl_unique _ _ _ _ (ff_nodup _ _ _ _ F) Hd Hd') as [= <-]. eauto 10.
  Qed.
  Lemma refers_c n m : refers a n m -> succ c n m.
  Proof.
    intros (fs & f & u & Hd & Hin & <-). destruct (c_declared n fs Hd) as (ds & rs & Hc & Hp & Hrs).
    assert ((f, u) ∈ ds) as Hd' by by rewrite Hp.
    destruct (Forall2_elem_l _ _ _ _ Hrs Hd') as (r & Hr & (_ & E & _)). exists n, rs, r. done.
  Qed.
  Lemma rtc_succ_needed n m : rtc (succ c) n m <-> rtc (refers a) n m.
  Proof.
    split; induction 1; [apply rtc_refl|eapply rtc_l; [by apply c_succ|done]|apply rtc_refl|
                         eapply rtc_l; [by apply refers_c|done]].
  Qed.
End result.

Lemma type_check_inv iter a r : fair_order iter -> type_check iter a = Ok r ->
  exists e C0 D c, front a = Ok (e, C0, D) /\ front_facts a e C0 D /\
    resolve_second_pass iter C0 D = Ok c /\ second_result D C0 c /\
    resolve_export e c = Ok (r_export r, r_types r).
Proof.
  intros Hfair. rewrite type_check_front. intros ([[e C0] D] & HF & Hr)%rbind_ok.
  apply rbind_ok in Hr as (c & Hc & Hr). apply rbind_ok in Hr as ([x ty] & Het & [= <-]).
  pose proof (front_ok _ _ _ _ HF) as F. exists e, C0, D, c. split; [done|]. split; [done|]. split; [done|].
  destruct (second_pass_spec D C0 (ff_struct _ _ _ _ F) (ff_named _ _ _ _ F) iter Hfair) as
      [(c' & Hc' & Hsr)|(m & Hc' & _)]; [|congruence].
  assert (c' = c) as -> by congruence. done.
Qed.

Lemma type_check_result iter a r : fair_order iter -> no_builtin_decl a -> type_check iter a = Ok r ->
  exports a = [x_name (r_export r)] /\
  r_types r !! x_name (r_export r) = Some (x_name (r_export r), TStruct (x_fields (r_export r))) /\
  (forall n, is_Some (r_types r !! n) <-> needed a (x_name (r_export r)) n) /\
  (forall n m t, r_types r !! n = Some (m, t) -> m = n /\ entry_matches a (r_types r) n t).
Proof.
  intros Hfair Hnb (e & C0 & D & c & _ & F & _ & S & Hex)%type_check_inv; [|done].
  pose proof (c_wf a Hnb e C0 D F c S) as Hwf.
  apply resolve_export_ok in Hex as (He & <- & ->); [|done].
  set (x := r_export r) in *. set (V := used_set (x_name x) (x_fields x)).
  pose proof (used_set_spec c _ _ Hwf He) as HV. fold V in HV.
  assert (forall n y, filter (fun kv => kv.1 ∈ V) c !! n = Some y <-> c !! n = Some y /\ n ∈ V) as Hfl.
  { intros n y. rewrite map_filter_lookup_Some. done. }
  assert (forall n, n ∈ V <-> needed a (x_name x) n) as HVn.
  { intros n. rewrite HV. by apply (rtc_succ_needed a Hnb (x_name x) C0 D F c S). }
  split; [apply (ff_export _ _ _ _ F)|]. split.
  { apply Hfl. split; [done|]. apply HVn. apply rtc_refl. }
  split.
  - intros n. rewrite <-HVn. split.
    + intros [y Hy]. by apply Hfl in Hy as [_ ?].
    + intros Hn. assert (is_Some (c !! n)) as [y Hy].
      { apply HV in Hn. apply rtc_inv_r in Hn as [<-|(k & _ & (? & rs & f & Hk & Hf & <-))]; [eauto|].
        destruct Hwf as [_ Hwf]. erewrite Hwf by done. eauto. }
      exists y. by apply Hfl.
  - intros n m t [Hc Hn]%Hfl. split; [by apply (sr_named _ _ _ S) in Hc|].
    destruct (c_entries a Hnb (x_name x) C0 D F c S _ _ _ Hc) as [?|[?|(fs & ds & rs & Hd & Hp & Hrs & ->)]];
      [by left|by right; left|].
    right; right. exists fs, ds, rs. split; [done|]. split; [done|]. split; [|done].
    eapply Forall2_impl_elem; [exact Hrs|]. intros [f u] y Hin (H1 & H2 & H3 & H4 & H5).
    split_and!; try done. apply Hfl. split; [done|]. apply HVn in Hn. apply HVn.
    eapply rtc_r; [exact Hn|]. exists fs, f, u. split; [done|]. split; [by rewrite <-Hp|done].
Qed.
