(** Types that one declaration denotes and whose packets are accepted as each other's are the same. *)
From Verif Require Export RunsAccept.

Section types.
  Context (a : ast) (Hnd : NoDup (decl_names a)) (Hnb : no_builtin_decl a).
  Context (rt : runtime) (str_ok : jstr -> Prop) (Hrt : rt_ok rt str_ok) (Hex : exact_on rt str_ok) (Hfl : local_floats rt) (H2s : two_strings str_ok).
  Notation W := (wire (rt_enc rt) (rt_encs rt)).
  Notation FW := (fields_wire (rt_enc rt) (rt_encs rt)).
  Notation typed := (has_type str_ok).
  Notation AF := (accepts_fields rt).
  Notation one := Needs.one.
  Notation fW := (fW rt).
  Notation fA := (fA rt).
  Notation fT := (fT str_ok).
  Notation dn := (denotes Permutation a).

  (** ** the fields of two arrangements *)
  Definition twin (r1 r2 : sfield) : Prop :=
    f_name r1 = f_name r2 /\ f_tname r1 = f_tname r2 /\ f_array r1 = f_array r2 /\ f_opt r1 = f_opt r2 /\ dn (f_tname r1) (f_ty r1) /\ dn (f_tname r1) (f_ty r2).
  Record twins (rs1 rs2 : list sfield) : Prop := {
    tw_l : forall r1, r1 ∈ rs1 -> exists r2, r2 ∈ rs2 /\ twin r1 r2;
    tw_r : forall r2, r2 ∈ rs2 -> exists r1, r1 ∈ rs1 /\ twin r1 r2 }.
  Lemma decl_no_builtin n d : NDecl n d ∈ a -> builtin_of_name n = None.
  Proof. intros Hin. destruct (builtin_of_name n) eqn:E; [|done]. exfalso. eapply (decl_not_builtin a Hnb n _ Hin). apply builtin_names_spec. eauto. Qed.
  Lemma denoted_twice n t1 t2 : dn n t1 -> dn n t2 -> t1 = t2 \/ exists rs1 rs2, t1 = TStruct rs1 /\ t2 = TStruct rs2 /\ twins rs1 rs2.
  Proof.
    intros H1 H2. inversion H1 as [? ? Hb|? vs rp Hd Hrp|? fs ds rs1 Hd Ha Hm]; subst; inversion H2 as [? ? Hb'|? vs' rp' Hd' Hrp'|? fs' ds' rs2 Hd' Ha' Hm']; subst.
    - left. congruence.
    - apply decl_no_builtin in Hd'. congruence.
    - apply decl_no_builtin in Hd'. congruence.
    - apply decl_no_builtin in Hd. congruence.
    - left. pose proof (decl_unique _ _ _ _ Hnd Hd Hd') as [= <-]. assert (rp = rp') as <-; [|done].
      destruct Hrp as [Hr1 Hr2], Hrp' as [Hr3 Hr4]. specialize (Hr2 _ Hr3). specialize (Hr4 _ Hr1). destruct rp, rp'; cbn in *; first [done|lia].
    - pose proof (decl_unique _ _ _ _ Hnd Hd Hd') as [=].
    - apply decl_no_builtin in Hd. congruence.
    - pose proof (decl_unique _ _ _ _ Hnd Hd Hd') as [=].
    - right. exists rs1, rs2. split; [done|]. split; [done|]. pose proof (decl_unique _ _ _ _ Hnd Hd Hd') as [= <-].
      assert (ds ≡ₚ ds') as Hp by by rewrite Ha, Ha'. clear -Hm Hm' Hp.
      assert (forall d r1 r2, denotes_field Permutation a d r1 -> denotes_field Permutation a d r2 -> twin r1 r2) as Htw.
      { intros d r1 r2 D1 D2. inversion D1; subst. inversion D2; subst. by repeat split. }
      split.
      + intros r1 (i & Hi)%elem_of_list_lookup. destruct (Forall2_lookup_r _ _ _ _ _ Hm Hi) as (d & Hdi & D1). apply elem_of_list_lookup_2 in Hdi. rewrite Hp in Hdi.
        apply elem_of_list_lookup in Hdi as (j & Hj). destruct (Forall2_lookup_l _ _ _ _ _ Hm' Hj) as (r2 & Hr2 & D2). exists r2. split; [by eapply elem_of_list_lookup_2|by eapply Htw].
      + intros r2 (i & Hi)%elem_of_list_lookup. destruct (Forall2_lookup_r _ _ _ _ _ Hm' Hi) as (d & Hdi & D2). apply elem_of_list_lookup_2 in Hdi. rewrite <- Hp in Hdi.
        apply elem_of_list_lookup in Hdi as (j & Hj). destruct (Forall2_lookup_l _ _ _ _ _ Hm Hj) as (r1 & Hr1 & D1). exists r1. split; [by eapply elem_of_list_lookup_2|by eapply Htw].
  Qed.
  Notation names := (List.map f_name).
  Lemma name_unique (rs : list sfield) (r r' : sfield) : NoDup (names rs) -> r ∈ rs -> r' ∈ rs -> f_name r = f_name r' -> r = r'.
  Proof.
    induction rs as [|x rs IH]; [by intros _ ?%elem_of_nil|]. cbn. intros [Hx Hn]%NoDup_cons [->|H1]%elem_of_cons [->|H2]%elem_of_cons E; [done| | |by apply IH].
    - destruct Hx. rewrite E. by apply (elem_of_list_fmap_1 f_name).
    - destruct Hx. rewrite <- E. by apply (elem_of_list_fmap_1 f_name).
  Qed.

  (** ** values by field *)
  Definition upd (f : string) (v : value) (val : string -> value) (n : string) : value := if decide (n = f) then v else val n.
  Lemma upd_eq f v val : upd f v val f = v.
  Proof. unfold upd. by rewrite decide_True. Qed.
  Lemma upd_ne f v val n : n ≠ f -> upd f v val n = val n.
  Proof. intros. unfold upd. by rewrite decide_False. Qed.
  Lemma shape_recs (rs : list sfield) val : (forall r, r ∈ rs -> fT r (val (f_name r))) <-> fields_shape declared str_ok rs (recs rs val).
  Proof.
    induction rs as [|r rs IH]; cbn [recs map fields_shape].
    - split; [done|]. intros _ r Hr. by apply elem_of_nil in Hr.
    - fold (recs rs val). fold (fields_shape declared str_ok). rewrite <- IH. split.
      + intros H. split; [done|]. split; [apply H; by left|]. intros g Hg. apply H. by right.
      + intros (_ & H1 & H2) g [->|Hg]%elem_of_cons; [done|by apply H2].
  Qed.
  Lemma recs_ext (rs : list sfield) val val' : (forall r, r ∈ rs -> val (f_name r) = val' (f_name r)) -> recs rs val = recs rs val'.
  Proof. intros H. unfold recs. apply map_ext_in. intros r Hr. f_equal. apply H. by apply elem_of_list_In. Qed.
  Lemma values_recs (rs : list sfield) vs : NoDup (names rs) -> fields_shape declared str_ok rs vs -> exists val, vs = recs rs val.
  Proof.
    revert vs. induction rs as [|r rs IH]; intros [|[g v] vs] Hn; try done; [by exists (fun _ => VNone)|]. intros (-> & _ & H). cbn in Hn. apply NoDup_cons in Hn as [Hr Hn].
    destruct (IH vs Hn H) as (val & ->). exists (upd (f_name r) v val). cbn [recs map]. rewrite upd_eq. f_equal. apply (recs_ext rs val (upd (f_name r) v val)). intros x Hx. rewrite upd_ne; [done|].
    intros E. apply Hr. rewrite <- E. by apply (elem_of_list_fmap_1 f_name).
  Qed.
  Lemma choose_values (rs : list sfield) (Q : sfield -> value -> Prop) : NoDup (names rs) -> (forall r, r ∈ rs -> exists v, Q r v) -> exists val, forall r, r ∈ rs -> Q r (val (f_name r)).
  Proof.
    induction rs as [|r rs IH]; intros Hn H; [exists (fun _ => VNone); by intros ? ?%elem_of_nil|]. cbn in Hn. apply NoDup_cons in Hn as [Hr Hn].
    destruct (H r ltac:(by left)) as [v Hv]. destruct IH as [val Hval]; [done|intros; apply H; by right|]. exists (upd (f_name r) v val).
    intros x [->|Hx]%elem_of_cons; [by rewrite upd_eq|]. rewrite upd_ne; [by apply Hval|]. intros E. apply Hr. rewrite <- E. by apply (elem_of_list_fmap_1 f_name).
  Qed.

  (** ** a value in another arrangement *)
  Lemma same_recs rs1 rs2 val1 val2 : twins rs1 rs2 -> (forall r2, r2 ∈ rs2 -> same (val1 (f_name r2)) (val2 (f_name r2))) -> same (VRec (recs rs1 val1)) (VRec (recs rs2 val2)).
  Proof.
    intros Htw Hs h x. rewrite !rep_recs. do 3 (apply exist_proper; intros ?). do 2 (apply and_iff_compat_l). split.
    - intros H r2 Hr2. destruct (tw_r _ _ Htw r2 Hr2) as (r1 & Hr1 & (E & _)). destruct (H r1 Hr1) as (y & Hy & Hr). exists y. rewrite E in Hy, Hr. split; [done|]. by apply Hs.
    - intros H r1 Hr1. destruct (tw_l _ _ Htw r1 Hr1) as (r2 & Hr2 & (E & _)). destruct (H r2 Hr2) as (y & Hy & Hr). exists y. rewrite E. split; [done|]. by apply Hs.
  Qed.
  Lemma arrange_wrapped (arr op : bool) (P Q : value -> Prop) v : (forall v, P v -> exists v', Q v' /\ same v v') -> wrapped arr op P v -> exists v', wrapped arr op Q v' /\ same v v'.
  Proof.
    intros H [[-> ->]|Hv]; [exists VNone; split; [by left|done]|]. destruct arr.
    - destruct Hv as (l & -> & Hl & HF). assert (exists l', Forall2 same l l' /\ Forall Q l') as (l' & H1 & H2).
      { clear Hl. induction HF as [|v l Hv _ (l' & IH1 & IH2)]; [by exists []|]. destruct (H v Hv) as (v' & ? & ?). exists (v' :: l'). by split; constructor. }
      exists (VArr l'). split; [|by apply same_arr]. right. exists l'. split; [done|]. by rewrite <- (Forall2_length _ _ _ H1).
    - destruct (H v Hv) as (v' & ? & ?). exists v'. split; [by right|done].
  Qed.
  Lemma arrange t1 : forall n t2 v, dn n t1 -> dn n t2 -> distinct t1 -> distinct t2 -> typed t1 v -> exists v', typed t2 v' /\ same v v'.
  Proof.
    induction t1 as [b|e|rs1 IH] using rtype_ind'; intros n t2 v H1 H2 D1 D2 Hv; destruct (denoted_twice n _ _ H1 H2) as [<-|(r1 & rs2 & Er & -> & Htw)]; try done; try (by exists v).
    injection Er as ->. rename r1 into rs1. apply distinct_struct in D1 as [N1 D1], D2 as [N2 D2]. apply shape_struct in Hv as (vs & -> & Hv). destruct (values_recs _ _ N1 Hv) as (val1 & ->).
    rewrite <- shape_recs in Hv. rewrite Forall_forall in IH.
    destruct (choose_values rs2 (fun r2 v' => fT r2 v' /\ same (val1 (f_name r2)) v') N2) as (val2 & Hval2).
    { intros r2 Hr2. destruct (tw_r _ _ Htw r2 Hr2) as (r1 & Hr1 & (E1 & E2 & E3 & E4 & E5 & E6)). specialize (Hv r1 Hr1). rewrite <- E1. unfold RunsAccept.fT in *. rewrite <- E3, <- E4.
      eapply arrange_wrapped; [|exact Hv]. intros w Hw. eapply (IH r1 Hr1); [exact E5|exact E6|by apply D1|by apply D2|done]. }
    exists (VRec (recs rs2 val2)). split; [apply shape_struct; eexists; split; [done|]; apply shape_recs; intros; by apply Hval2|]. apply same_recs; [done|]. intros; by apply Hval2.
  Qed.

  (** ** types with two values *)
  Record fine (t : rtype) : Prop := { fi_usual : usual t; fi_distinct : distinct t; fi_full : inhabited t; fi_varied : all_enums (fun e => 2 <= length (e_variants e)) t }.
  Lemma fine_struct rs : fine (TStruct rs) -> NoDup (names rs) /\ rs ≠ [] /\ forall r, r ∈ rs -> fine (f_ty r).
  Proof.
    intros [H1 H2 H3 H4]. pose proof (proj1 (usual_struct _) H1) as H1'. apply distinct_struct in H2 as [H2 H2']. apply inhabited_struct in H3 as [H3 H3']. pose proof (proj1 (all_enums_struct _ _) H4) as H4'. split; [done|]. split; [done|].
    intros r Hr. split; auto.
  Qed.
  Lemma field_two r v v' : typed (f_ty r) v -> typed (f_ty r) v' -> v ≠ v' -> fT r (one r v) /\ fT r (one r v') /\ one r v ≠ one r v'.
  Proof. intros H1 H2 Hne. split; [by apply one_shape|]. split; [by apply one_shape|]. unfold Needs.one. destruct (f_array r); congruence. Qed.
  Lemma two_values t : fine t -> exists v v', typed t v /\ typed t v' /\ v ≠ v'.
  Proof.
    destruct H2s as [Hs0 (s & Hs1 & Hs2 & Hs3)].
    induction t as [b|e|rs IH] using rtype_ind'; intros Hf.
    - unfold has_type. cbn [shape]. destruct b; cbn [builtin_kind];
        try (exists (VNum (NInt 0)), (VNum (NInt 1)); split; [by eexists|]; split; [by eexists|done]).
      + exists (VNum (NFloat 0)), (VNum (NFloat 1)). split; [|split; [|done]]; (eexists; split; [done|]; cbn [in_kind]; split; [lia|left; by vm_compute]).
      + exists (VStr []), (VStr s). split; [by eexists|]. split; [by eexists|]. congruence.
    - destruct (fi_usual _ Hf) as [(vs & rp & Hg & _ & _ & ->) _]. pose proof (fi_varied _ Hf) as H2. cbn [all_enums e_variants] in H2. rewrite imap_length in H2.
      destruct vs as [|w [|w' vs]]; [cbn in *; lia..|]. exists (VNum (variant_value 0)), (VNum (variant_value 1)). split; [|split].
      + eexists. split; [done|]. exists (EnumVariant w 0). split; [by left|done].
      + eexists. split; [done|]. exists (EnumVariant w' 1). split; [right; by left|done].
      + by vm_compute.
    - apply fine_struct in Hf as (_ & Hne & Hf). destruct rs as [|r rs]; [done|]. rewrite Forall_forall in IH. destruct (IH r ltac:(by left) (Hf r ltac:(by left))) as (v & v' & H1 & H2 & H3).
      destruct (field_two r v v' H1 H2 H3) as (K1 & K2 & K3). destruct (usual_values str_ok Hs0 rs) as (vs & Hvs); [intros f Hin; apply usual_good, fi_usual, Hf; by right|].
      exists (VRec ((f_name r, one r v) :: vs)), (VRec ((f_name r, one r v') :: vs)). split; [apply shape_struct; by eexists|]. split; [apply shape_struct; by eexists|]. congruence.
  Qed.
  Lemma two_pairs r1 r2 : twin r1 r2 -> fine (f_ty r1) -> fine (f_ty r2) -> exists x1 x2 y1 y2, fT r1 x1 /\ fT r2 x2 /\ same x1 x2 /\ fT r1 y1 /\ fT r2 y2 /\ same y1 y2 /\ x1 ≠ y1 /\ x2 ≠ y2.
  Proof.
    intros (_ & E1 & E2 & E3 & H1 & H2) F1 F2. destruct (two_values _ F1) as (v & w & Hv & Hw & Hne). destruct (field_two r1 v w Hv Hw Hne) as (Kv & Kw & Kne).
    assert (forall x, fT r1 x -> exists y, fT r2 y /\ same x y) as Harr.
    { intros x Hx. unfold RunsAccept.fT in *. rewrite <- E2, <- E3. eapply arrange_wrapped; [|exact Hx]. intros u Hu. eapply arrange; [exact H1|exact H2|by apply fi_distinct..|done]. }
    destruct (Harr _ Kv) as (v2 & Hv2 & Sv). destruct (Harr _ Kw) as (w2 & Hw2 & Sw).
    exists (one r1 v), v2, (one r1 w), w2. do 7 (split; [done|]). intros ->. apply Kne.
    assert (built (one r1 v)) as Hb. { eapply build_wrapped; [|exact Kv]. intros u. eapply typed_built, fi_distinct, F1. }
    destruct (Hb []) as (h & x & Hx). cbn [app] in Hx.
    assert (forall f u u', fT f u -> fT f u' -> forall h x, rep h x u -> rep h x u' -> u = u') as Hun.
    { clear. intros f u u' Hu Hu' h x Hr Hr'. assert (VRec [(f_name f, u)] = VRec [(f_name f, u')]) as [=]; [|done].
      eapply (rep_unique declared declared str_ok str_ok (TStruct [f])) with (h := h ++ [OPlain PClass [(f_name f, x)]]) (x := JLoc (length h)).
      - apply shape_struct. eexists. split; [done|]. by split_and!.
      - apply shape_struct. eexists. split; [done|]. by split_and!.
      - eexists _, PClass, _. split; [done|]. split; [by apply list_lookup_middle|]. split; [|done]. exists x. split; [|by apply rep_app]. cbn [get_prop]. rewrite list_lookup_middle by done. cbn. by rewrite decide_True.
      - eexists _, PClass, _. split; [done|]. split; [by apply list_lookup_middle|]. split; [|done]. exists x. split; [|by apply rep_app]. cbn [get_prop]. rewrite list_lookup_middle by done. cbn. by rewrite decide_True. }
    eapply (Hun r1 _ _ Kv Kw h x Hx). apply Sw, Sv, Hx.
  Qed.
  Lemma arrange_field r1 r2 x : twin r1 r2 -> fine (f_ty r1) -> fine (f_ty r2) -> fT r1 x -> exists y, fT r2 y /\ same x y.
  Proof.
    intros (_ & E1 & E2 & E3 & H1 & H2) F1 F2 Hx. unfold RunsAccept.fT in *. rewrite <- E2, <- E3. eapply arrange_wrapped; [|exact Hx]. intros u Hu.
    eapply arrange; [exact H1|exact H2|by apply fi_distinct..|done].
  Qed.

  (** ** packets that are accepted as each other's *)
  Definition swap_ty (t1 t2 : rtype) : Prop := forall v1 v2, typed t1 v1 -> typed t2 v2 -> same v1 v2 ->
    (exists R rest, accepts rt t2 v2 (W t1 v1 ++ R) rest) /\ (exists R rest, accepts rt t1 v1 (W t2 v2 ++ R) rest).
  Definition swap (rs1 rs2 : list sfield) : Prop := forall val1 val2, (forall r, r ∈ rs1 -> fT r (val1 (f_name r))) -> (forall r, r ∈ rs2 -> fT r (val2 (f_name r))) ->
    (forall r, r ∈ rs2 -> same (val1 (f_name r)) (val2 (f_name r))) ->
    (exists R rest, AF rs2 (recs rs2 val2) (FW rs1 (recs rs1 val1) ++ R) rest) /\ (exists R rest, AF rs1 (recs rs1 val1) (FW rs2 (recs rs2 val2) ++ R) rest).
  Lemma AF_cons r rs val data rest : AF (r :: rs) (recs (r :: rs) val) data rest <-> exists mid, fA r (val (f_name r)) data mid /\ AF rs (recs rs val) mid rest.
  Proof. cbn. naive_solver. Qed.
  Lemma FW_cons r rs val : FW (r :: rs) (recs (r :: rs) val) = fW r (val (f_name r)) ++ FW rs (recs rs val).
  Proof. done. Qed.
  Lemma base rs1 rs2 : twins rs1 rs2 -> NoDup (names rs1) -> NoDup (names rs2) -> (forall r, r ∈ rs1 -> fine (f_ty r)) -> (forall r, r ∈ rs2 -> fine (f_ty r)) ->
    exists val1 val2, (forall r, r ∈ rs1 -> fT r (val1 (f_name r))) /\ (forall r, r ∈ rs2 -> fT r (val2 (f_name r))) /\ (forall r, r ∈ rs2 -> same (val1 (f_name r)) (val2 (f_name r))).
  Proof.
    intros Htw N1 N2 F1 F2. destruct (choose_values rs1 (fun r v => fT r v) N1) as (val1 & V1).
    { intros r Hr. destruct (two_values _ (F1 r Hr)) as (v & _ & Hv & _). exists (one r v). by apply one_shape. }
    destruct (choose_values rs2 (fun r v => fT r v /\ same (val1 (f_name r)) v) N2) as (val2 & V2).
    { intros r2 Hr2. destruct (tw_r _ _ Htw r2 Hr2) as (r1 & Hr1 & Ht). assert (f_name r1 = f_name r2) as E by apply Ht. rewrite <- E. eapply arrange_field; [exact Ht|by apply F1|by apply F2|by apply V1]. }
    exists val1, val2. split; [done|]. split; intros r Hr; by apply V2.
  Qed.
  Lemma upd_typed rs r0 v val : NoDup (names rs) -> r0 ∈ rs -> fT r0 v -> (forall r, r ∈ rs -> fT r (val (f_name r))) -> forall r, r ∈ rs -> fT r (upd (f_name r0) v val (f_name r)).
  Proof.
    intros Hn H0 Hv Hval r Hr. destruct (decide (f_name r = f_name r0)) as [E|E].
    - rewrite E, upd_eq. by rewrite (name_unique rs r r0 Hn Hr H0 E).
    - rewrite upd_ne by done. by apply Hval.
  Qed.
  Lemma upd_same f v1 v2 val1 val2 n : same v1 v2 -> same (val1 n) (val2 n) -> same (upd f v1 val1 n) (upd f v2 val2 n).
  Proof. intros H1 H2. destruct (decide (n = f)) as [->|E]; [by rewrite !upd_eq|by rewrite !upd_ne]. Qed.
  Lemma number_skip k n m X mid : k ≠ KF32 -> number rt k n (rt_enc rt k m ++ X) mid -> X = mid.
  Proof.
    intros Hk [_ H]. assert (rt_enc rt k m ++ X = rt_enc rt k n ++ mid) as E by by destruct k. apply app_inj_1 in E as [_ E]; [done|]. by rewrite !(enc_width _ _ Hrt).
  Qed.
  Lemma peel r1 r2 v1 v2 R rest : twin r1 r2 -> v1 ≠ VNone -> v2 ≠ VNone -> fA r2 (one r2 v2) (fW r1 (one r1 v1) ++ R) rest -> accepts rt (f_ty r2) v2 (W (f_ty r1) v1 ++ R) rest.
  Proof.
    intros (_ & _ & E2 & E3 & _) H1 H2. unfold RunsAccept.fW. rewrite one_wire by done. unfold RunsAccept.fA, accepts_wrapped, one_bytes, count. rewrite E2, E3. intros H.
    assert (forall data, accepts_items rt (f_array r2) (accepts rt (f_ty r2)) (one r2 v2) (((if f_array r2 then rt_enc rt KU32 (NInt (Z.of_nat 1)) else []) ++ W (f_ty r1) v1) ++ data) rest ->
      accepts rt (f_ty r2) v2 (W (f_ty r1) v1 ++ data) rest) as Hi.
    { unfold accepts_items, Needs.one. destruct (f_array r2); [|by intros data]. intros data (l & mid & [= <-] & Hn & Hl). rewrite <- app_assoc in Hn. apply number_skip in Hn as <-; [|done].
      destruct Hl as (mid & Hl & ->). done. }
    destruct (f_opt r2); [|by apply Hi]. destruct H as [[E _]|(flag & mid & _ & Hn & Ha)].
    - unfold Needs.one in E. destruct (f_array r2); [done|]. by destruct H2.
    - rewrite <- app_assoc in Hn. apply number_skip in Hn as <-; [|done]. by apply Hi.
  Qed.
  Lemma twin_sym r1 r2 : twin r1 r2 -> twin r2 r1.
  Proof. intros (E1 & E2 & E3 & E4 & H1 & H2). unfold twin. rewrite <- E2. by repeat split. Qed.
  Lemma same_one r1 r2 v1 v2 : twin r1 r2 -> same v1 v2 -> same (one r1 v1) (one r2 v2).
  Proof. intros (_ & _ & E & _) H. unfold Needs.one. rewrite E. destruct (f_array r2); [|done]. apply same_arr. constructor; [done|constructor]. Qed.

  Lemma swap_equal rs1 : forall rs2, twins rs1 rs2 -> NoDup (names rs1) -> NoDup (names rs2) -> (forall r, r ∈ rs1 -> fine (f_ty r)) -> (forall r, r ∈ rs2 -> fine (f_ty r)) ->
    (forall r t, r ∈ rs1 -> dn (f_tname r) t -> fine t -> swap_ty (f_ty r) t -> f_ty r = t) -> swap rs1 rs2 -> rs1 = rs2.
  Proof.
    induction rs1 as [|r1 rs1 IH]; intros rs2 Htw N1 N2 F1 F2 Hty Hsw.
    { destruct rs2 as [|r2 rs2]; [done|]. destruct (tw_r _ _ Htw r2) as (? & []%elem_of_nil & _). by left. }
    destruct rs2 as [|r2 rs2]. { destruct (tw_l _ _ Htw r1) as (? & []%elem_of_nil & _). by left. }
    destruct (base _ _ Htw N1 N2 F1 F2) as (val1 & val2 & B1 & B2 & B3).
    pose proof N1 as [N1h N1']%NoDup_cons. pose proof N2 as [N2h N2']%NoDup_cons.
    assert (forall r, r ∈ rs1 -> f_name r ≠ f_name r1) as M1. { intros r Hr E. apply N1h. rewrite <- E. by apply (elem_of_list_fmap_1 f_name). }
    assert (forall r, r ∈ rs2 -> f_name r ≠ f_name r2) as M2. { intros r Hr E. apply N2h. rewrite <- E. by apply (elem_of_list_fmap_1 f_name). }
    destruct (decide (f_name r1 = f_name r2)) as [E|E].
    - assert (twin r1 r2) as Ht.
      { destruct (tw_l _ _ Htw r1) as (r & Hr & Ht); [by left|]. apply elem_of_cons in Hr as [->|Hr]; [done|]. destruct (M2 r Hr). rewrite <- E. symmetry. apply Ht. }
      assert (f_ty r1 = f_ty r2) as Et.
      { apply Hty; [by left|apply Ht|apply F2; by left|]. intros v1 v2 T1 T2 Sv.
        destruct (Hsw (upd (f_name r1) (one r1 v1) val1) (upd (f_name r2) (one r2 v2) val2)) as [(R & rest & H1) (R' & rest' & H2)].
        { apply upd_typed; [done|by left|by apply one_shape|done]. }
        { apply upd_typed; [done|by left|by apply one_shape|done]. }
        { intros r Hr. rewrite E. apply upd_same; [by apply same_one|by apply B3]. }
        rewrite AF_cons, FW_cons, !upd_eq, <- app_assoc in H1. rewrite AF_cons, FW_cons, !upd_eq, <- app_assoc in H2. destruct H1 as (mid & H1 & _), H2 as (mid' & H2 & _).
        apply peel in H1; [|done|by eapply shape_not_none..]. apply peel in H2; [|by apply twin_sym|by eapply shape_not_none..]. split; eauto. }
      assert (r1 = r2) as <-. { destruct Ht as (E1 & E2 & E3 & E4 & _). destruct r1, r2. cbn in *. congruence. }
      f_equal. apply IH; [|done|done|intros; apply F1; by right|intros; apply F2; by right|intros; eapply Hty; [by right|done..]|].
      { split.
        - intros r Hr. destruct (tw_l _ _ Htw r) as (r' & Hr' & Ht'); [by right|]. apply elem_of_cons in Hr' as [->|Hr']; [|eauto]. destruct (M1 r Hr). apply Ht'.
        - intros r Hr. destruct (tw_r _ _ Htw r) as (r' & Hr' & Ht'); [by right|]. apply elem_of_cons in Hr' as [->|Hr']; [|eauto]. destruct (M2 r Hr). symmetry. apply Ht'. }
      intros w1 w2 V1 V2 V3. assert (usual (f_ty r1)) as Hu by (apply fi_usual, F1; by left).
      assert (fT r1 (val1 (f_name r1)) /\ fT r1 (val2 (f_name r1)) /\ same (val1 (f_name r1)) (val2 (f_name r1))) as (T1 & T2 & T3) by (split; [apply B1; by left|split; [apply B2; by left|apply B3; by left]]).
      assert (recs rs1 (upd (f_name r1) (val1 (f_name r1)) w1) = recs rs1 w1) as Q1 by (apply recs_ext; intros r Hr; by rewrite upd_ne by by apply M1).
      assert (recs rs2 (upd (f_name r1) (val2 (f_name r1)) w2) = recs rs2 w2) as Q2 by (apply recs_ext; intros r Hr; by rewrite upd_ne by by apply M2).
      destruct (Hsw (upd (f_name r1) (val1 (f_name r1)) w1) (upd (f_name r1) (val2 (f_name r1)) w2)) as [(R & rest & H1) (R' & rest' & H2)].
      { intros r [->|Hr]%elem_of_cons; [by rewrite upd_eq|]. rewrite upd_ne by by apply M1. by apply V1. }
      { intros r [->|Hr]%elem_of_cons; [by rewrite upd_eq|]. rewrite upd_ne by by apply M2. by apply V2. }
      { intros r [->|Hr]%elem_of_cons; [by rewrite !upd_eq|]. rewrite !upd_ne by by apply M2. by apply V3. }
      rewrite AF_cons, FW_cons, !upd_eq, Q1, Q2, <- app_assoc in H1. rewrite AF_cons, FW_cons, !upd_eq, Q1, Q2, <- app_assoc in H2. destruct H1 as (mid & H1 & H1'), H2 as (mid' & H2 & H2').
      destruct (field_fun rt str_ok Hrt r1 _ _ _ _ _ Hu H1 (field_wire rt str_ok Hrt r1 _ _ Hu T1)) as [_ ->].
      destruct (field_fun rt str_ok Hrt r1 _ _ _ _ _ Hu H2 (field_wire rt str_ok Hrt r1 _ _ Hu T2)) as [_ ->]. split; eauto.
    - exfalso. destruct (tw_l _ _ Htw r1) as (s1 & Hs1 & Ht1); [by left|]. destruct (tw_r _ _ Htw r2) as (s2 & Hs2 & Ht2); [by left|].
      assert (f_name s1 = f_name r1) as Es1 by (symmetry; apply Ht1). assert (f_name s2 = f_name r2) as Es2 by apply Ht2.
      assert (fine (f_ty r1) /\ fine (f_ty s1) /\ fine (f_ty r2) /\ fine (f_ty s2)) as (U1 & U2 & U3 & U4) by (split; [apply F1; by left|split; [by apply F2|split; [apply F2; by left|by apply F1]]]).
      destruct (two_pairs r1 s1 Ht1 U1 U2) as (x1 & x2 & y1 & y2 & X1 & X2 & X3 & Y1 & Y2 & Y3 & XY1 & XY2).
      destruct (two_pairs s2 r2 Ht2 U4 U3) as (b1 & b2 & c1 & c2 & Z1 & Z2 & Z3 & C1 & C2 & C3 & ZC1 & ZC2).
      assert (forall p1 p2 q1 q2, fT r1 p1 -> fT s1 p2 -> same p1 p2 -> fT s2 q1 -> fT r2 q2 -> same q1 q2 ->
        (exists R rest, fA r2 q2 (fW r1 p1 ++ R) rest) /\ (exists R rest, fA r1 p1 (fW r2 q2 ++ R) rest)) as Hcross.
      { intros p1 p2 q1 q2 P1 P2 P3 Q1 Q2 Q3. destruct (Hsw (upd (f_name r1) p1 (upd (f_name s2) q1 val1)) (upd (f_name s1) p2 (upd (f_name r2) q2 val2))) as [(R & rest & H1) (R' & rest' & H2)].
        { apply upd_typed; [done|by left|done|]. apply upd_typed; [done..|exact B1]. }
        { apply upd_typed; [done|done|done|]. apply upd_typed; [done|by left|done|exact B2]. }
        { intros r Hr. rewrite Es1, Es2. apply upd_same; [done|]. apply upd_same; [done|]. by apply B3. }
        rewrite AF_cons, FW_cons, Es1, Es2, !upd_eq, upd_ne, upd_eq, <- app_assoc in H1 by congruence. rewrite AF_cons, FW_cons, Es1, Es2, !upd_eq, upd_ne, upd_eq, <- app_assoc in H2 by congruence.
        destruct H1 as (mid & H1 & _), H2 as (mid' & H2 & _). split; eauto. }
      eapply (crossed rt str_ok Hrt Hex Hfl r1 r2 x1 y1 b2 c2); [by apply fi_usual..|done|done|done|done|done|done|].
      intros x y [->| ->] [->| ->]; [apply (Hcross x1 x2 b1 b2)|apply (Hcross x1 x2 c1 c2)|apply (Hcross y1 y2 b1 b2)|apply (Hcross y1 y2 c1 c2)]; done.
  Qed.
  Lemma swap_types t1 : forall n t2, dn n t1 -> dn n t2 -> fine t1 -> fine t2 -> swap_ty t1 t2 -> t1 = t2.
  Proof.
    induction t1 as [b|e|rs1 IH] using rtype_ind'; intros n t2 H1 H2 F1 F2 Hsw; destruct (denoted_twice n _ _ H1 H2) as [<-|(r1 & rs2 & Er & -> & Htw)]; try done.
    injection Er as ->. rename r1 into rs1. apply fine_struct in F1 as (N1 & _ & F1), F2 as (N2 & _ & F2). f_equal. rewrite Forall_forall in IH. apply swap_equal; [done..| |].
    - intros r t Hr Ht Hf Hs. destruct (tw_l _ _ Htw r Hr) as (r' & _ & (_ & _ & _ & _ & Hd & _)). by eapply (IH r Hr); [exact Hd|exact Ht|apply F1| |].
    - intros val1 val2 V1 V2 V3. destruct (Hsw (VRec (recs rs1 val1)) (VRec (recs rs2 val2))) as [(R & rest & A1) (R' & rest' & A2)].
      + apply shape_struct. eexists. split; [done|]. by apply shape_recs.
      + apply shape_struct. eexists. split; [done|]. by apply shape_recs.
      + by apply same_recs.
      + apply accepts_struct in A1 as (vs & [= <-] & A1), A2 as (vs' & [= <-] & A2). rewrite wire_struct in A1, A2. split; eauto.
  Qed.
End types.
