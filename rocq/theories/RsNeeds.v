(** Proofs for every schema whose export needs something, for the emitted Rust: C85, C87, C98. *)
From Verif Require Export Needs RsOne RsVoid RsEvolve.
Export RsRun3 RsRun4 RsInterop.

Lemma fair_enums t : fair_type t -> all_enums good_enum t.
Proof.
  induction t as [b|e|fs IH] using rtype_ind'; intros Hk; [done|by destruct Hk|]. apply all_enums_struct. intros f Hf. rewrite Forall_forall in IH.
  apply (IH f); [done|]. by destruct (fair_field _ _ Hk Hf).
Qed.
Lemma fair_usual t : fair_type t -> small_type t -> usual t.
Proof.
  intros Hk Hs. apply all_enums_and; [by apply fair_enums|]. clear Hk. induction t as [b|e|fs IH] using rtype_ind'; [done|by destruct Hs|]. apply all_enums_struct. intros f Hf.
  rewrite Forall_forall in IH. apply (IH f); [done|]. by eapply small_field.
Qed.
Lemma fair_part pre f post : fair_type (TStruct (pre ++ f :: post)) -> fair_type (TStruct pre) /\ fair_type (f_ty f) /\ f_array f && f_opt f = false /\ fair_type (TStruct post).
Proof.
  intros Hk. destruct (fair_field _ f Hk) as [H1 H2]; [apply elem_of_app; right; by left|]. split; [|split; [done|split; [done|]]]; (split; [done|]); destruct Hk as [_ Hk]; rewrite all_fields_struct in Hk |- *;
    intros g Hg; apply Hk, elem_of_app; [by left|right; by right].
Qed.
Lemma small_part pre f post : small_type (TStruct (pre ++ f :: post)) -> small_type (TStruct pre) /\ small_type (f_ty f) /\ small_type (TStruct post).
Proof.
  intros Hk. split; [|split; [apply (small_field _ f Hk), elem_of_app; right; by left|]]; (split; [done|]); destruct Hk as [_ Hk]; rewrite all_fields_struct in Hk |- *;
    intros g Hg; apply Hk, elem_of_app; [by left|right; by right].
Qed.

Section packets.
  Context (lib : rs_lib) (str_ok : rstr -> Prop) (Hlib : rs_lib_ok lib str_ok) (Hs : str_ok []).
  Notation packet := (packet lib str_ok).
  Notation packet_fields := (packet_fields lib str_ok).
  Notation W := (wire (lb_enc lib) (lb_encs lib)).
  Notation FW := (fields_wire (lb_enc lib) (lb_encs lib)).
  Lemma packet_det t v1 v2 data r1 r2 : fair_type t -> small_type t -> packet t v1 data r1 -> packet t v2 data r2 -> r1 = r2.
  Proof.
    intros Hk Hsm H1 H2. destruct (into_complete lib str_ok Hlib t "" Hk Hsm _ _ _ H1 (RIn data 0 0) eq_refl) as (y1 & i1 & E1 & <- & _).
    destruct (into_complete lib str_ok Hlib t "" Hk Hsm _ _ _ H2 (RIn data 0 0) eq_refl) as (y2 & i2 & E2 & <- & _). rewrite E1 in E2. by injection E2 as _ <-.
  Qed.
  Lemma packet_typed t v rest : fair_type t -> small_type t -> has_type str_ok t v -> packet t v (W t v ++ rest) rest.
  Proof. intros Hk Hsm Hv. destruct (has_stands str_ok t "" v Hk Hsm Hv) as [x Hx]. by eapply packet_wire. Qed.
  Lemma packet_fields_app fs gs us data rest : packet_fields (fs ++ gs) us data rest -> exists us1 us2 mid, us = us1 ++ us2 /\ packet_fields fs us1 data mid /\ packet_fields gs us2 mid rest.
  Proof.
    revert us data. induction fs as [|f fs IH]; intros us data H; [by exists [], us, data|]. destruct us as [|[g v] us]; [done|]. destruct H as (E & mid & H1 & H2).
    destruct (IH _ _ H2) as (us1 & us2 & mid' & -> & H3 & H4). exists ((g, v) :: us1), us2, mid'. split; [done|]. split; [|done]. split; [done|]. by exists mid.
  Qed.
  Lemma packet_fields_join fs gs us1 us2 data mid rest : packet_fields fs us1 data mid -> packet_fields gs us2 mid rest -> packet_fields (fs ++ gs) (us1 ++ us2) data rest.
  Proof.
    revert us1 data. induction fs as [|f fs IH]; intros [|[g v] us1] data; try done; [by intros ->|]. cbn. intros (-> & m & H1 & H2) H3. split; [done|]. exists m. split; [done|]. by apply IH.
  Qed.
  Lemma fields_typed fs vs rest : fair_type (TStruct fs) -> small_type (TStruct fs) -> fields_shape declared str_ok fs vs -> packet_fields fs vs (FW fs vs ++ rest) rest.
  Proof.
    intros Hk Hsm Hv. assert (packet (TStruct fs) (VRec vs) (FW fs vs ++ rest) rest) as H.
    { rewrite <- wire_struct. apply packet_typed; [done..|]. by exists vs. }
    apply packet_struct in H as (us & [= <-] & H). done.
  Qed.
  (** ** C98 *)
  Lemma field_one f v d rest : f_array f && f_opt f = false -> v ≠ VNone -> (forall rest, packet (f_ty f) v (d ++ rest) rest) -> forall flag, (0 < flag < 256)%Z ->
    packet_wrapped lib (f_array f) (f_opt f) (packet (f_ty f)) (Needs.one f v) ((if f_opt f then lb_enc lib KU8 (NInt flag) else []) ++ (if f_array f then count (lb_enc lib) 1 else []) ++ d ++ rest) rest.
  Proof.
    intros Hao Hv Hd flag Hflag. unfold packet_wrapped, packet_items, Needs.one. destruct (f_opt f), (f_array f); try done; cbn [app].
    - right. exists flag, (d ++ rest). split; [lia|]. split; [|done]. apply (number_enc lib str_ok Hlib). cbn. lia.
    - exists [v], (d ++ rest). split; [done|]. split; [apply (number_enc lib str_ok Hlib); cbn; lia|]. exists rest. by split.
    - done.
  Qed.
  Lemma struct_packet pre f post vs ws v d : fair_type (TStruct (pre ++ f :: post)) -> small_type (TStruct (pre ++ f :: post)) ->
    fields_shape declared str_ok pre vs -> fields_shape declared str_ok post ws -> (forall rest, packet_wrapped lib (f_array f) (f_opt f) (packet (f_ty f)) v (d ++ rest) rest) ->
    forall rest, packet (TStruct (pre ++ f :: post)) (VRec (vs ++ (f_name f, v) :: ws)) ((FW pre vs ++ d ++ FW post ws) ++ rest) rest.
  Proof.
    intros (Hk1 & _ & _ & Hk2)%fair_part (Hs1 & _ & Hs2)%small_part Hvs Hws Hd rest. apply packet_struct. eexists. split; [done|]. rewrite <- !(assoc_L (++)).
    eapply packet_fields_join; [by apply fields_typed|]. split; [done|]. exists (FW post ws ++ rest). split; [apply Hd|]. by apply fields_typed.
  Qed.
  Lemma fields_some fs : fair_type (TStruct fs) -> exists vs, fields_shape declared str_ok fs vs.
  Proof. intros Hk. apply (usual_values str_ok Hs). intros f Hf. by destruct (fair_field _ _ Hk Hf) as [?%fair_enums _]. Qed.
  Lemma plug_packets t : inside (fun f => f_opt f = true) t -> fair_type t -> small_type t -> exists v d, has_type str_ok t v /\ (forall rest, packet t v (d ++ rest) rest) /\ d ≠ W t v.
  Proof.
    assert (forall fs f, f ∈ fs -> fair_type (TStruct fs) -> small_type (TStruct fs) ->
      (exists v d, wrapped (f_array f) (f_opt f) (has_type str_ok (f_ty f)) v /\ (forall rest, packet_wrapped lib (f_array f) (f_opt f) (packet (f_ty f)) v (d ++ rest) rest) /\
        d ≠ wire_wrapped (lb_enc lib) (f_array f) (f_opt f) (W (f_ty f)) v) ->
      exists v d, has_type str_ok (TStruct fs) v /\ (forall rest, packet (TStruct fs) v (d ++ rest) rest) /\ d ≠ W (TStruct fs) v) as Hone.
    { intros fs f (pre & post & ->)%elem_of_list_split Hk Hsm (v & d & Hv & Hd & Hne). destruct (fair_part _ _ _ Hk) as (Hk1 & _ & _ & Hk2).
      destruct (fields_some _ Hk1) as [vs Hvs]. destruct (fields_some _ Hk2) as [ws Hws]. pose proof (fields_shape_length _ _ _ _ Hvs) as HL.
      exists (VRec (vs ++ (f_name f, v) :: ws)), (FW pre vs ++ d ++ FW post ws). split; [|split].
      - eexists. split; [done|]. apply fields_shape_app. rewrite <- HL, take_app, drop_app. by repeat split.
      - by apply struct_packet.
      - intros E. rewrite wire_struct, fields_wire_app in E by done. apply app_inv_head in E. cbn [fields_wire] in E. fold (fields_wire (lb_enc lib) (lb_encs lib)) in E. by apply app_inv_tail in E. }
    intros Hin. induction Hin as [fs f Hf Ho|fs f Hf Hin IH]; intros Hk Hsm; destruct (fair_field _ _ Hk Hf) as [Hkf Hao]; pose proof (small_field _ _ Hsm Hf) as Hsf; apply (Hone fs f Hf Hk Hsm).
    - destruct (usual_value str_ok Hs (f_ty f) (fair_enums _ Hkf)) as [v Hv]. pose proof (shape_not_none _ _ _ _ Hv) as Hn. pose proof (one_shape declared str_ok f v Hv) as Hsh.
      exists (Needs.one f v), (lb_enc lib KU8 (NInt 2) ++ (if f_array f then count (lb_enc lib) 1 else []) ++ W (f_ty f) v). split; [done|]. split.
      + intros rest. pose proof (field_one f v (W (f_ty f) v) rest Hao Hn (fun rest => packet_typed _ _ rest Hkf Hsf Hv) 2 ltac:(lia)) as H. rewrite Ho in *. by rewrite <- !(assoc_L (++)).
      + unfold Needs.one, wire_wrapped. rewrite Ho in *. destruct (f_array f); [done|]. cbn [app]. intros E.
        assert (lb_enc lib KU8 (NInt 2) = lb_enc lib KU8 (NInt 1)) as E2 by (destruct v; try done; by apply app_inv_tail in E).
        pose proof (lk_enc _ _ Hlib KU8 (NInt 2) [] ltac:(cbn; lia)) as E3. by rewrite E2, (lk_enc _ _ Hlib) in E3 by (cbn; lia).
    - destruct (IH Hkf Hsf) as (v & d & Hv & Hd & Hne). pose proof (shape_not_none _ _ _ _ Hv) as Hn.
      exists (Needs.one f v), ((if f_opt f then lb_enc lib KU8 (NInt 1) else []) ++ (if f_array f then count (lb_enc lib) 1 else []) ++ d). split; [by apply one_shape|]. split.
      + intros rest. rewrite <- !(assoc_L (++)). apply field_one; [done..|lia].
      + intros E. apply Hne. unfold Needs.one, wire_wrapped in E. destruct (f_opt f), (f_array f); try done; cbn [app map concat length] in E; rewrite ?app_nil_r in E.
        * destruct v; try done; by apply app_inv_head in E.
        * by apply app_inv_head in E.
  Qed.
End packets.

(** ** C85 *)
Section overwritten.
  Context (str_ok : rstr -> Prop) (Hs : str_ok []).
  Lemma onto_fields_at pre f post xs ys zs ws g h x y : length xs = length pre -> length ys = length pre ->
    onto_fields (pre ++ f :: post) (xs ++ (g, x) :: zs) (ys ++ (h, y) :: ws) !! length pre = Some (h, onto_wrapped (f_array f) (f_opt f) (onto (f_ty f)) x y).
  Proof.
    revert xs ys. induction pre as [|p pre IH]; intros [|[g1 x1] xs] [|[g2 x2] ys] H1 H2; try done. cbn [app onto_fields length lookup list_lookup]. apply IH; cbn [length] in *; lia.
  Qed.
  Lemma plug_onto t : inside (fun f => f_array f = true \/ f_opt f = true) t -> fair_type t -> small_type t -> forall tn,
    exists x1 x2 y v, typed str_ok t tn x1 /\ typed str_ok t tn x2 /\ stands str_ok t tn y v /\ onto t x1 y ≠ onto t x2 y.
  Proof.
    assert (forall fs f, f ∈ fs -> fair_type (TStruct fs) -> small_type (TStruct fs) ->
      (exists x1 x2 y v1 v2 v, stands_wrapped (f_array f) (f_opt f) (stands str_ok (f_ty f) (f_tname f)) x1 v1 /\
        stands_wrapped (f_array f) (f_opt f) (stands str_ok (f_ty f) (f_tname f)) x2 v2 /\ stands_wrapped (f_array f) (f_opt f) (stands str_ok (f_ty f) (f_tname f)) y v /\
        onto_wrapped (f_array f) (f_opt f) (onto (f_ty f)) x1 y ≠ onto_wrapped (f_array f) (f_opt f) (onto (f_ty f)) x2 y) ->
      forall tn, exists x1 x2 y v, typed str_ok (TStruct fs) tn x1 /\ typed str_ok (TStruct fs) tn x2 /\ stands str_ok (TStruct fs) tn y v /\ onto (TStruct fs) x1 y ≠ onto (TStruct fs) x2 y) as Hone.
    { intros fs f (pre & post & ->)%elem_of_list_split Hk Hsm (x1 & x2 & y & v1 & v2 & v & H1 & H2 & H3 & Hne) tn. destruct (fair_part _ _ _ Hk) as (Hk1 & _ & _ & Hk2).
      destruct (dflt_typed str_ok (TStruct pre) Hs "" Hk1) as [w1 Hw1]. apply stands_struct in Hw1 as (xs & vs & _ & -> & Hvs).
      destruct (dflt_typed str_ok (TStruct post) Hs "" Hk2) as [w2 Hw2]. apply stands_struct in Hw2 as (zs & ws & _ & -> & Hws).
      destruct (stands_fields_length _ _ _ _ Hvs) as [HL _].
      assert (forall x v, stands_wrapped (f_array f) (f_opt f) (stands str_ok (f_ty f) (f_tname f)) x v ->
        stands str_ok (TStruct (pre ++ f :: post)) tn (RRec (xs ++ (f_name f, x) :: zs)) (VRec (vs ++ (f_name f, v) :: ws))) as Hj.
      { intros x u Hx. apply stands_struct. do 2 eexists. split; [done|]. split; [done|]. apply stands_fields_join; [done|]. by repeat split. }
      exists (RRec (xs ++ (f_name f, x1) :: zs)), (RRec (xs ++ (f_name f, x2) :: zs)), (RRec (xs ++ (f_name f, y) :: zs)), (VRec (vs ++ (f_name f, v) :: ws)).
      split; [eexists; by apply Hj|]. split; [eexists; by apply Hj|]. split; [by apply Hj|]. rewrite !onto_struct. intros E. injection E as E. apply Hne.
      pose proof (onto_fields_at pre f post xs xs zs zs (f_name f) (f_name f) x1 y HL HL) as E1. rewrite E, onto_fields_at in E1 by done. by injection E1. }
    intros Hin. induction Hin as [fs f Hf Ho|fs f Hf Hin IH]; intros Hk Hsm; destruct (fair_field _ _ Hk Hf) as [Hkf Hao]; pose proof (small_field _ _ Hsm Hf) as Hsf; apply (Hone fs f Hf Hk Hsm).
    2: destruct (f_array f || f_opt f) eqn:E.
    3: { apply orb_false_iff in E as [-> ->]. destruct (IH Hkf Hsf (f_tname f)) as (x1 & x2 & y & v & [v1 H1] & [v2 H2] & H3 & Hne). by exists x1, x2, y, v1, v2, v. }
    2: apply orb_true_iff in E as Ho.
    all: destruct (dflt_typed str_ok (f_ty f) Hs (f_tname f) Hkf) as [u Hu]; set (x := dflt _ _) in Hu; destruct (f_opt f) eqn:Eo;
      [assert (f_array f = false) as -> by (by destruct (f_array f))|assert (f_array f = true) as -> by (by destruct Ho)].
    1, 3: exists (ROpt None), (ROpt (Some x)), (ROpt None), VNone, u, VNone; cbn; (split; [by left|]); (split; [right; by exists x|]); (split; [by left|done]).
    all: exists (RVec []), (RVec [x]), (RVec []), (VArr []), (VArr [u]), (VArr []); cbn; repeat split; [exists [], []|exists [x], [u]|exists [], []|done]; repeat split; try (by constructor); by repeat constructor.
  Qed.
End overwritten.

(** ** C87 *)
Lemma rt_ok_weaken rt (P Q : jstr -> Prop) : rt_ok rt P -> (forall s, Q s -> P s) -> rt_ok rt Q.
Proof. intros H HQ. destruct H. constructor; try done; intros; eauto. Qed.
Section refused.
  Context (rt : runtime) (lib : rs_lib) (rt_str str_ok both : list Z -> Prop).
  Context (Hrt : rt_ok rt rt_str) (Hlib : rs_lib_ok lib str_ok) (Hsf : same_format rt lib both).
  Context (Hs1 : rt_str []) (Hs2 : str_ok []) (Hb : both []).
  Definition emptyp (s : list Z) : Prop := s = [].
  Lemma empty_strings en t v : shape en emptyp t v -> strings_in both v.
  Proof.
    revert v. induction t as [b|e|fs IH] using rtype_ind'; intros v Hv.
    - cbn [shape] in Hv. destruct (builtin_kind b); [by destruct Hv as (n & -> & _)|]. destruct Hv as (s & -> & _ & ->). exact Hb.
    - by destruct Hv as (n & -> & _).
    - destruct Hv as (vs & -> & Hv). apply strings_rec. revert vs Hv. induction IH as [|f fs Hf _ IH]; intros [|[g v] vs] Hv; try done. destruct Hv as (_ & Hw & Hv). constructor; [|by apply IH].
      cbn [snd]. destruct Hw as [[_ ->]|Hw]; [done|]. destruct (f_array f); [|by apply Hf]. destruct Hw as (l & -> & _ & Hl). apply strings_arr. eapply Forall_impl; [exact Hl|]. exact Hf.
  Qed.
  Lemma empty_typed t v : has_type emptyp t v -> has_type str_ok t v.
  Proof. apply shape_mono; [by apply all_enums_any|]. intros s. by intros ->. Qed.
  Lemma empty_wire fs vs : fair_type (TStruct fs) -> small_type (TStruct fs) -> fields_shape declared emptyp fs vs ->
    fields_wire (rt_enc rt) (rt_encs rt) fs vs = fields_wire (lb_enc lib) (lb_encs lib) fs vs /\ fields_shape declared str_ok fs vs.
  Proof.
    intros Hk Hsm Hv. assert (has_type emptyp (TStruct fs) (VRec vs)) as Ht by (by exists vs). split.
    - destruct (has_stands str_ok _ "" _ Hk Hsm (empty_typed _ _ Ht)) as [x Hx]. rewrite <- !wire_struct. apply (wire_same rt lib str_ok both Hsf _ "" x); [done..|]. by eapply empty_strings.
    - by destruct (empty_typed _ _ Ht) as (us & [= <-] & H).
  Qed.
  Definition refuses (t : rtype) (d : list byte) : Prop := forall v rest rest', ~ packet lib str_ok t v (d ++ rest) rest'.
  Definition refusesw (f : sfield) (d : list byte) : Prop := forall v rest rest', ~ packet_wrapped lib (f_array f) (f_opt f) (packet lib str_ok (f_ty f)) v (d ++ rest) rest'.
  Lemma number_det k n m data r1 r2 : rs_number lib k n data r1 -> rs_number lib k m data r2 -> n = m /\ r1 = r2.
  Proof.
    intros H1 H2. pose proof (number_take lib str_ok Hlib k n data r1 (RIn data 0 0) H1 eq_refl) as E. rewrite (number_take lib str_ok Hlib k m data r2 (RIn data 0 0) H2 eq_refl) in E. by injection E as -> ->.
  Qed.
  Lemma refuses_one f d : f_array f && f_opt f = false -> refuses (f_ty f) d -> refusesw f (one_bytes rt f d).
  Proof.
    intros Hao H v rest rest'. unfold one_bytes, packet_wrapped, packet_items, count. rewrite !(sf_enc _ _ _ Hsf) by (cbn; lia). destruct (f_opt f), (f_array f); try done; cbn [app]; rewrite <- ?(assoc_L (++)).
    - intros [[_ Hn]|(flag & mid & _ & Hn & Hp)].
      + destruct (number_det _ _ _ _ _ _ Hn (number_enc lib str_ok Hlib KU8 (NInt 1) _ ltac:(cbn; lia))) as [[=] _].
      + destruct (number_det _ _ _ _ _ _ Hn (number_enc lib str_ok Hlib KU8 (NInt 1) _ ltac:(cbn; lia))) as [_ ->]. by eapply H.
    - intros (l & mid & -> & Hn & He). destruct (number_det _ _ _ _ _ _ Hn (number_enc lib str_ok Hlib KU32 (NInt (Z.of_nat 1)) _ ltac:(cbn; lia))) as [El ->].
      injection El as El. destruct l as [|w [|]]; try (cbn [length] in El; lia). destruct He as (mid & Hw & _). by eapply H.
  Qed.
  Lemma plug_refused t : inside (fun f => exists en, f_ty f = TEnum en /\ 3 <= length (e_variants en) /\ good_enum en) t -> fair_type t -> small_type t ->
    exists v d, shape from_first_to_last rt_str t v /\ read_as (dec rt t) v d /\ refuses t d.
  Proof.
    assert (rt_ok rt emptyp) as Hrt' by (eapply rt_ok_weaken; [exact Hrt|]; by intros s ->). intros Hin Hk Hsm.
    assert (exists v d, shape from_first_to_last emptyp t v /\ read_as (dec rt t) v d /\ (fair_type t -> small_type t -> refuses t d)) as (v & d & H1 & H2 & H3).
    2: { exists v, d. split; [|split; [done|by apply H3]]. revert H1. apply shape_mono; [by apply all_enums_any|]. by intros s ->. }
    apply (plug_exact rt emptyp Hrt' eq_refl from_first_to_last (fun f => exists en, f_ty f = TEnum en /\ 3 <= length (e_variants en) /\ good_enum en)
      (fun t v d => fair_type t -> small_type t -> refuses t d) (fun f v d => fair_type (f_ty f) -> small_type (f_ty f) -> f_array f && f_opt f = false -> refusesw f d)); [| | | |done|by apply fair_usual].
    - intros e n Hg Hs31 Hd. destruct (good_enum_readable e Hg Hs31 n Hd) as (z & -> & Hz & Hkk). by apply (small_between e Hg Hs31).
    - intros pre f post vs v0 ws d HL _ Hvs Hbw Hkt Hst v rest rest' Hp. destruct (fair_part _ _ _ Hkt) as (Hk1 & Hkf & Hao & Hk2). destruct (small_part _ _ _ Hst) as (Hsp1 & Hsf' & Hsp2).
      apply packet_struct in Hp as (us & -> & Hp). apply packet_fields_app in Hp as (us1 & us2 & mid & -> & Hp1 & Hp2). destruct us2 as [|[g w] us2]; [done|]. destruct Hp2 as (_ & mid' & Hw & _).
      destruct (empty_wire _ _ Hk1 Hsp1 Hvs) as [Ew Hvs']. rewrite Ew, <- !(assoc_L (++)) in Hp1. pose proof (fields_typed lib str_ok Hlib pre vs (d ++ fields_wire (rt_enc rt) (rt_encs rt) post ws ++ rest) Hk1 Hsp1 Hvs') as Hp3.
      assert (mid = d ++ fields_wire (rt_enc rt) (rt_encs rt) post ws ++ rest) as ->.
      { eapply (packet_det lib str_ok Hlib (TStruct pre)); [done|done|apply packet_struct; by exists us1|apply packet_struct; by exists vs]. }
      by eapply (Hbw Hkf Hsf' Hao).
    - intros f v d _ HB Hkf Hsf' Hao. apply refuses_one; [done|]. by apply HB.
    - intros f Hu (en & Ef & H3 & Hg). pose proof Hu as Hu0. rewrite Ef in Hu. destruct Hu as [_ Hs31]. pose proof Hg as (m & Hm & HL & Hbd & Hlo & Hhi & Hx)%good_enum_bounds.
      assert (from_first_to_last en (NInt 3)) as Hr3.
      { exists 3%Z. split; [done|]. split; [lia|]. rewrite HL in *. change 3%Z with (4 - 1)%Z. change 4%Z with (2 ^ 2)%Z at 1. pose proof (Z.pow_le_mono_r 2 2 (Z.of_nat m - 1) ltac:(lia) ltac:(lia)). lia. }
      assert (in_kind (repr_kind (e_repr en)) (NInt 3)) as Hk3 by (destruct (e_repr en); cbn; lia).
      assert (shape from_first_to_last emptyp (TEnum en) (VNum (NInt 3))) as Hv by (by eexists).
      exists (Needs.one f (VNum (NInt 3))), (one_bytes rt f (rt_enc rt (repr_kind (e_repr en)) (NInt 3))). split; [|split].
      + apply one_shape. by rewrite Ef.
      + apply (read_as_one rt emptyp Hrt'). rewrite Ef. intros rest c. cbn [dec]. unfold dec_enum. rewrite (read_enc rt emptyp Hrt') by done. cbn [int_of]. rewrite decide_True; [by eexists|].
        by apply (small_between en Hg Hs31 (NInt 3) Hk3).
      + intros _ _ Hao. apply refuses_one; [done|]. rewrite Ef. intros v rest rest' (n & -> & (y & Hy & ->) & Hn). rewrite (sf_enc _ _ _ Hsf) in Hn by done.
        destruct (number_det _ _ _ _ _ _ Hn (number_enc lib str_ok Hlib _ (NInt 3) _ Hk3)) as [E _]. injection E as E. apply Hx in Hy as (i & w & -> & Hi & _). cbn [ev_value] in E.
        destruct i as [|[|i]]; [done|done|]. replace (Z.of_nat (S (S i))) with (2 + Z.of_nat i)%Z in E by lia. rewrite Z.pow_add_r in E by lia. lia.
  Qed.
End refused.

Section claims.
  Context (a : ast) (lib : rs_lib) (str_ok : rstr -> Prop) (Hlib : rs_lib_ok lib str_ok) (Hs : small_enums a) (Hrn : rust_names a) (e : string) (He : exports a = [e]).
  Lemma run_export iter r : fair_order iter -> no_builtin_decl a -> type_check iter a = Ok r -> x_name (r_export r) = e.
  Proof. intros Hf Hn Hr. destruct (type_check_result _ _ _ Hf Hn Hr) as (He' & _). rewrite He in He'. by injection He'. Qed.
  Lemma rust_two : str_ok [] -> needs_optional a e -> for_rust a (fun m t => exists d data x i bytes, default_value (rm_items m) (rm_type m) = Some d /\
    rs_read lib m d data = Good x i /\ ri_bytes i = [] /\ rs_write lib m x = Some bytes /\ bytes ≠ data).
  Proof.
    intros Hstr Hneed. apply for_rust_intro. intros iter r titer Hf Hn Hr Ht. rewrite <- (run_export _ _ Hf Hn Hr) in Hneed. pose proof (export_fair _ _ _ Hf Hn Hr _ Ht Hrn) as Hk.
    destruct (plug_packets lib str_ok Hlib Hstr (TStruct (x_fields (r_export r)))) as (v & d & Hv & Hd & Hne); [|done|exact (entry_small _ _ _ Hf Hn Hr Hs _ _ (export_entry _ _ _ Hf Hn Hr))|].
    - eapply (field_inside _ _ _ Hf Hn Hr); [|exact Hneed]. intros f u f' (_ & _ & _ & E4 & _) Hu. cbn [snd] in *. congruence.
    - specialize (Hd []). rewrite app_nil_r in Hd. destruct (module_takes _ _ _ Hf Hn Hr _ Ht Hrn lib str_ok Hlib _ _ _ Hs Hd) as (x & i & H1 & H2 & H3).
      eexists _, d, x, i, _. split; [by eapply module_default|]. split; [done|]. split; [done|]. split; [by eapply module_writes|]. done.
  Qed.
  Lemma rust_one : ~ needs_optional a e -> ~ needs_float a e -> for_rust a (fun m t => exists d, default_value (rm_items m) (rm_type m) = Some d /\
    forall data x i, rs_read lib m d data = Good x i -> exists bytes, rs_write lib m x = Some bytes /\ data = bytes ++ ri_bytes i).
  Proof.
    intros Ho Hfl. apply for_rust_intro. intros iter r titer Hf Hn Hr Ht. rewrite <- (run_export _ _ Hf Hn Hr) in Ho, Hfl. eexists. split; [by eapply module_default|]. intros data x i Hx.
    destruct (module_decides _ _ _ Hf Hn Hr _ Ht Hrn lib str_ok Hlib data Hs) as [(y & v & j & Hy & Hv & Hp)|(j & Hj & _)]; [|congruence]. rewrite Hx in Hy. injection Hy as <- <-.
    eapply (packet_similar lib str_ok Hlib False False eq) in Hp as (w & Hw & HR); [|done|by intros ???? -> ->|done|done|by right|].
    - exists w. split; [|done]. rewrite HR. by eapply module_writes.
    - refine (fields_without _ _ _ Hf Hn Hr (fun u => u_opt u = true \/ u_name u = "float") _ _ _ _).
      + intros f u f' (_ & E2 & _ & E4 & Hty) Hq. cbn [snd] in *. destruct (f_opt f') eqn:Eo; [by left|right].
        assert (f_ty f' = TBuiltin Float) as Eq by (destruct (f_ty f') as [[]| |]; try done; exfalso; apply Hq; by split; right). rewrite Eq in Hty.
        pose proof (entry_leaf _ _ _ Hf Hn Hr _ _ Hty) as Hl. cbn in Hl. revert Hl. unfold builtin_of_name. repeat case_decide; congruence.
      + intros f. destruct (f_opt f); [right; by intros [_ [|]]|]. destruct (f_ty f) as [[]| |]; try (left; split; by right). right. by intros [[|] _].
      + intros (n & fs & f & u & H6 & H7 & H8 & [H9|H9]); [apply Ho|apply Hfl]; by exists n, fs, f, u.
  Qed.
  Lemma rust_packet_only : str_ok [] -> for_rust a (fun m t => (forall cur1 cur2 data, typed str_ok t (rm_type m) cur1 -> typed str_ok t (rm_type m) cur2 -> rs_read lib m cur1 data = rs_read lib m cur2 data) <->
    ~ needs_array a e /\ ~ needs_optional a e).
  Proof.
    intros Hstr. apply for_rust_intro. intros iter r titer Hf Hn Hr Ht. rewrite <- (run_export _ _ Hf Hn Hr). pose proof (export_fair _ _ _ Hf Hn Hr _ Ht Hrn) as Hk.
    set (t := TStruct (x_fields (r_export r))) in *. set (tn := x_name (r_export r)) in *. split.
    - intros Hsame. assert (~ (needs_array a tn \/ needs_optional a tn)) as H; [|by split; intros G; apply H; auto]. intros Hneed.
      destruct (plug_onto str_ok Hstr t) with (tn := tn) as (x1 & x2 & y & v & H1 & H2 & Hy & Hne); [|done|exact (entry_small _ _ _ Hf Hn Hr Hs _ _ (export_entry _ _ _ Hf Hn Hr))|].
      + apply (field_inside _ _ _ Hf Hn Hr (fun u => u_array u = true \/ u_opt u = true)).
        * intros f u f' (_ & _ & E3 & E4 & _) Hu. cbn [snd] in *. rewrite E3, E4. exact Hu.
        * destruct Hneed as [(n & fs & f & u & G1 & G2 & G3 & G4)|(n & fs & f & u & G1 & G2 & G3 & G4)]; exists n, fs, f, u; auto.
      + apply Hne. specialize (Hsame x1 x2 (wire (lb_enc lib) (lb_encs lib) t v ++ []) H1 H2). revert Hsame.
        rewrite (module_onto _ _ _ Hf Hn Hr _ Ht Hrn lib str_ok _ _ H1), (module_onto _ _ _ Hf Hn Hr _ Ht Hrn lib str_ok _ _ H2). fold t tn. destruct (module_round_trip _ _ _ Hf Hn Hr _ Ht Hrn lib str_ok Hlib y v [] Hs Hy) as (i & Ei & _). fold t tn in Ei. rewrite Ei. by intros [= E].
    - intros [Ha Ho] cur1 cur2 data H1 H2. assert (all_fields plain_field t) as Hp.
      { refine (fields_without _ _ _ Hf Hn Hr (fun u => u_array u = true \/ u_opt u = true) _ _ _ _).
        - intros f u f' (_ & _ & E3 & E4 & _) Hq. cbn [snd] in *. rewrite <- E3, <- E4. unfold plain_field in Hq. destruct (f_array f'), (f_opt f'); tauto.
        - intros f. unfold plain_field. destruct (f_array f), (f_opt f); auto; right; by intros [].
        - intros (n & fs & f & u & H6 & H7 & H8 & [H9|H9]); [apply Ha|apply Ho]; by exists n, fs, f, u. }
      assert (forall cur, typed str_ok t tn cur -> rs_read lib (rs_module_of titer r) cur data = rs_read lib (rs_module_of titer r) (dflt t tn) data) as H.
      { intros cur Hc. rewrite (module_onto _ _ _ Hf Hn Hr _ Ht Hrn lib str_ok _ _ Hc). fold t tn.
        destruct (module_decides _ _ _ Hf Hn Hr _ Ht Hrn lib str_ok Hlib data Hs) as [(y & v & i & E & Hy & _)|(i & E & _)]; fold t tn in E; rewrite E; [|done]. f_equal. destruct Hc as [w Hc].
        apply onto_plain; [done|by eapply typed_fits..]. }
      by rewrite (H _ H1), (H _ H2).
  Qed.
  (** ** both languages *)
  Context (rt : runtime) (rt_str both : list Z -> Prop) (Hrt : rt_ok rt rt_str) (Hsf : same_format rt lib both).
  Lemma both_apart : rt_str [] -> str_ok [] -> both [] -> needs_enum 3 a e -> for_both a (fun k m t => names_fine a k -> exists d, default_value (rm_items m) (rm_type m) = Some d /\
    forall h, exists data l M i, reads rt k h data (Done (JLoc l, M)) /\ r_rest (m_rd M) = [] /\ rs_read lib m d data = Bad i).
  Proof.
    intros Hs1 Hs2 Hb Hneed. apply for_both_intro. intros iter r titer Hf Hn Hr Ht Hk. rewrite <- (run_export _ _ Hf Hn Hr) in Hneed. eexists. split; [by eapply module_default|]. intros h.
    pose proof (export_fair _ _ _ Hf Hn Hr _ Ht Hrn) as Hft. pose proof (entry_small _ _ _ Hf Hn Hr Hs _ _ (export_entry _ _ _ Hf Hn Hr)) as Hsm.
    destruct (plug_refused rt lib rt_str str_ok both Hrt Hlib Hsf Hs1 Hs2 Hb _ (enum_inside _ _ _ Hf Hn Hr 3 Hneed) Hft Hsm) as (v & d & Hv & Hd & Hno).
    destruct (fine_reads _ _ _ Hf Hn Hr rt rt_str h d Hrt Hk) as (M & props & H1 & H2 & _). destruct (Hd [] 0) as [c' Ed]. rewrite app_nil_r in Ed. cbn zeta in *. rewrite Ed in *.
    cbn [fst snd r_failed] in *. destruct (module_decides _ _ _ Hf Hn Hr _ Ht Hrn lib str_ok Hlib d Hs) as [(x & w & i & _ & _ & Hp)|(i & Hi & _)].
    - destruct (Hno w [] (ri_bytes i)). by rewrite app_nil_r.
    - exists d, (length h), M, i. split; [exact H1|]. split; [by rewrite H2|done].
  Qed.
  Lemma both_same : exact_strings rt -> (forall s, both s -> str_ok s) -> ~ needs_enum 3 a e -> for_both a (fun k m t => names_fine a k -> exists d, default_value (rm_items m) (rm_type m) = Some d /\
    forall h data l M, reads rt k h data (Done (JLoc l, M)) -> exists v, rep (m_heap M) (JLoc l) v /\
      (strings_in both v -> exists x i, rs_read lib m d data = Good x i /\ stands str_ok t (rm_type m) x v /\ ri_bytes i = r_rest (m_rd M))).
  Proof.
    intros Hex Hboth Hneed. apply for_both_intro. intros iter r titer Hf Hn Hr Ht Hk. rewrite <- (run_export _ _ Hf Hn Hr) in Hneed. eexists. split; [by eapply module_default|]. intros h data l M Hrd.
    pose proof (export_fair _ _ _ Hf Hn Hr _ Ht Hrn) as Hft.
    destruct (reads_typed rt rt_str _ _ _ Hf Hn Hr Hrt Hk h data l M Hrd) as (v & H1 & H2 & Ev & Hfail & EM). exists v. split; [done|]. intros Hb.
    assert (accepts rt (TStruct (x_fields (r_export r))) v data (r_rest (m_rd M))) as Ha.
    { apply (export_taken a rt rt_str Hrt Hs iter r Hf Hn Hr data 0). exists (r_calls (m_rd M)). rewrite <- (state_ok _ Hfail), EM, Ev. apply surjective_pairing. }
    assert (shape is_variant any_string (TStruct (x_fields (r_export r))) v) as Hv.
    { eapply shape_mono; [|done|exact H2]. eapply all_enums_mono; [|exact (all_enums_and _ _ _ (Needs.export_good _ _ _ Hf Hn Hr) (enums_without _ _ _ Hf Hn Hr 2 Hneed))].
      intros en [G1 G2] n Hbt. destruct (between_declared en n G1 G2 Hbt) as (y & Hy & ->). exists y. split; [done|]. unfold variant_value.
      apply good_enum_bounds in G1 as (m & Hm & HL & Hbd & Hlo & Hhi & Hx). apply Hx in Hy as (i & w & -> & Hi & _). cbn [ev_value]. rewrite decide_False by lia. done. }
    pose proof (accepts_packet rt lib str_ok both Hsf Hboth Hex _ _ _ _ Hft Hb Ha Hv) as Hp.
    destruct (module_takes _ _ _ Hf Hn Hr _ Ht Hrn lib str_ok Hlib _ _ _ Hs Hp) as (x & i & G1 & G2 & G3). exists x, i. split; [done|]. split; [done|]. by rewrite G3.
  Qed.
End claims.
