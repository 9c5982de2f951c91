(** Types whose packets are accepted as each other's are the same (for PropRuns.v). *)
From Verif Require Export RunsSpec Needs TsNewProofs.

(** ** values that the same objects stand for *)
Definition same (v v' : value) : Prop := forall h x, rep h x v <-> rep h x v'.
#[global] Instance same_equiv : Equivalence same.
Proof.
  split.
  - by intros v h x.
  - intros v w H h x. symmetry. apply H.
  - intros u v w H1 H2 h x. etrans; [apply H1|apply H2].
Qed.
Definition reps (h : heap) : list value -> list val -> Prop :=
  fix all (l : list value) (items : list val) : Prop :=
    match l, items with [], [] => True | v :: l, y :: items => rep h y v /\ all l items | _, _ => False end.
Definition recs (rs : list sfield) (val : string -> value) : list (string * value) := map (fun r => (f_name r, val (f_name r))) rs.
Lemma rep_arr h x l : rep h x (VArr l) <-> exists p items, x = JLoc p /\ h !! p = Some (OArr items) /\ reps h l items.
Proof. done. Qed.
Lemma rep_recs h x rs val : rep h x (VRec (recs rs val)) <-> exists p pr props, x = JLoc p /\ h !! p = Some (OPlain pr props) /\
  forall r, r ∈ rs -> exists y, get_prop h x (f_name r) = Done y /\ rep h y (val (f_name r)).
Proof.
  cbn [rep]. do 3 (apply exist_proper; intros ?). do 2 (apply and_iff_compat_l). clear. induction rs as [|r rs IH]; cbn [recs map].
  - split; [|done]. intros _ r Hr. by apply elem_of_nil in Hr.
  - fold (recs rs val). rewrite IH. split.
    + intros [H1 H2] g [->|Hg]%elem_of_cons; [done|by apply H2].
    + intros H. split; [apply H; by left|]. intros g Hg. apply H. by right.
Qed.
Lemma reps_same h l l' : Forall2 same l l' -> forall items, reps h l items <-> reps h l' items.
Proof. induction 1 as [|v v' l l' Hv _ IH]; intros [|y items]; try done. cbn [reps]. by rewrite (Hv h y), (IH items). Qed.
Lemma same_arr l l' : Forall2 same l l' -> same (VArr l) (VArr l').
Proof. intros H h x. rewrite !rep_arr. do 2 (apply exist_proper; intros ?). do 2 (apply and_iff_compat_l). by apply reps_same. Qed.

(** ** every value has an object *)
Section build.
  Context (en : enum -> TsSem.num -> Prop) (sok : jstr -> Prop).
  Notation typed := (shape en sok).
  Definition built (v : value) : Prop := forall h, exists h' x, rep (h ++ h') x v.
  Lemma build_items l : Forall built l -> forall h, exists h' items, reps (h ++ h') l items.
  Proof.
    induction 1 as [|v l Hv _ IH]; intros h; [by exists [], []|]. destruct (Hv h) as (h1 & y & Hy). destruct (IH (h ++ h1)) as (h2 & items & Hi).
    exists (h1 ++ h2), (y :: items). rewrite app_assoc. split; [by apply rep_app|done].
  Qed.
  Lemma reps_app h h' l items : reps h l items -> reps (h ++ h') l items.
  Proof. revert items. induction l as [|v l IH]; intros [|y items]; try done. intros [H1 H2]. split; [by apply rep_app|by apply IH]. Qed.
  Lemma build_arr l : Forall built l -> built (VArr l).
  Proof.
    intros H h. destruct (build_items l H h) as (h' & items & Hi). exists (h' ++ [OArr items]), (JLoc (length (h ++ h'))). rewrite rep_arr. eexists _, items. split; [done|].
    rewrite app_assoc. split; [by apply list_lookup_middle|by apply reps_app].
  Qed.
  Lemma build_wrapped (arr op : bool) (P : value -> Prop) v : (forall v, P v -> built v) -> wrapped arr op P v -> built v.
  Proof.
    intros HP [[_ ->]|Hv]; [intros h; exists [], JUndef; by left|]. destruct arr; [|by apply HP]. destruct Hv as (l & -> & _ & Hl). apply build_arr. eapply Forall_impl; [exact Hl|done].
  Qed.
  Lemma build_props fs : (forall f v, (f, v) ∈ fs -> built v) -> NoDup fs.*1 -> forall h, exists h' props,
    (forall f v, (f, v) ∈ fs -> exists y, own f props = Some y /\ rep (h ++ h') y v) /\ forall f, f ∉ fs.*1 -> own f props = None.
  Proof.
    induction fs as [|[f v] fs IH]; intros Hb Hnd h.
    - exists [], []. split; [|done]. intros f v H. by apply elem_of_nil in H.
    - cbn in Hnd. apply NoDup_cons in Hnd as [Hf Hnd]. destruct (Hb f v) with h as (h1 & y & Hy); [by left|].
      destruct IH with (h ++ h1) as (h2 & props & H1 & H2); [intros g w Hg; eapply Hb; by right|done|]. exists (h1 ++ h2), ((f, y) :: props). rewrite app_assoc. split.
      + intros g w [[= -> ->]|Hg]%elem_of_cons.
        * exists y. split; [cbn; by rewrite decide_True|by apply rep_app].
        * destruct (H1 g w Hg) as (z & Hz & Hr). exists z. split; [|done]. cbn. rewrite decide_False; [done|]. intros ->. apply Hf. by apply (elem_of_list_fmap_1 fst) in Hg.
      + intros g Hg. cbn in Hg. apply not_elem_of_cons in Hg as [Hne Hg]. cbn. rewrite decide_False by congruence. by apply H2.
  Qed.
  Lemma fields_shape_fst fs vs : fields_shape en sok fs vs -> vs.*1 = List.map f_name fs.
  Proof. revert vs. induction fs as [|f fs IH]; intros [|[g v] vs]; try done. intros (-> & _ & H). cbn. f_equal. by apply IH. Qed.
  Lemma typed_built t : distinct t -> forall v, typed t v -> built v.
  Proof.
    induction t as [b|e|fs IH] using rtype_ind'; intros Hd v Hv.
    - intros h. exists []. cbn [shape] in Hv. destruct (builtin_kind b); destruct Hv as (? & -> & _); by eexists.
    - intros h. exists []. destruct Hv as (? & -> & _). by eexists.
    - apply distinct_struct in Hd as [Hnd Hd]. apply shape_struct in Hv as (vs & -> & Hv). pose proof (fields_shape_fst _ _ Hv) as Hfst. rewrite Forall_forall in IH.
      assert (forall f v, (f, v) ∈ vs -> built v) as Hb.
      { clear Hnd Hfst. revert vs Hv. induction fs as [|f fs IHf]; intros [|[g w] vs] Hv; try done; [by intros ?? ?%elem_of_nil|]. destruct Hv as (-> & Hw & Hv).
        intros k u [[= -> ->]|Hin]%elem_of_cons; [|eapply IHf with vs k; [intros f' Hf'; apply IH; by right|intros f' Hf'; apply Hd; by right|exact Hv|exact Hin]].
        eapply build_wrapped; [|exact Hw]. apply IH; [by left|]. apply Hd. by left. }
      intros h. destruct (build_props vs Hb) with h as (h' & props & Hp & _); [by rewrite Hfst|].
      exists (h' ++ [OPlain PClass props]), (JLoc (length (h ++ h'))). rewrite app_assoc. eexists _, PClass, props. split; [done|].
      assert ((((h ++ h') ++ [OPlain PClass props]) !! length (h ++ h')) = Some (OPlain PClass props)) as Hl by by apply list_lookup_middle. split; [done|].
      assert (forall f v, (f, v) ∈ vs -> exists y, get_prop ((h ++ h') ++ [OPlain PClass props]) (JLoc (length (h ++ h'))) f = Done y /\ rep ((h ++ h') ++ [OPlain PClass props]) y v) as Hall.
      { intros f v Hin. destruct (Hp f v Hin) as (y & Hy & Hr). exists y. split; [|by apply rep_app]. cbn [get_prop]. rewrite Hl. by rewrite Hy. }
      clear -Hall. revert Hall. generalize ((h ++ h') ++ [OPlain PClass props]) as H0. generalize (JLoc (length (h ++ h'))) as x. intros x H0 Hall.
      induction vs as [|[f v] vs IH]; [done|]. split; [apply Hall; by left|]. apply IH. intros g w Hin. apply Hall. by right.
  Qed.
End build.
