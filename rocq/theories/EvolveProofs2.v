(** Two versions of a packet, the second with more fields. *)
From Verif Require Export EvolveProofs Void.

Lemma for_versions_intro a1 a2 (P : cls -> rtype -> cls -> rtype -> Prop) : all_fixed a1 -> all_fixed a2 ->
  (forall iter1 r1 iter2 r2, fair_order iter1 -> fair_order iter2 -> no_builtin_decl a1 -> no_builtin_decl a2 ->
    type_check iter1 a1 = Ok r1 -> type_check iter2 a2 = Ok r2 ->
    P (class_of (r_export r1)) (TStruct (x_fields (r_export r1))) (class_of (r_export r2)) (TStruct (x_fields (r_export r2)))) ->
  for_versions a1 a2 P.
Proof.
  intros H1 H2 HP. apply for_code_declared_intro; [done|]. intros iter1 r1 Hf1 Hn1 Hr1. apply for_code_declared_intro; [done|].
  intros iter2 r2 Hf2 Hn2 Hr2. exact (HP iter1 r1 iter2 r2 Hf1 Hf2 Hn1 Hn2 Hr1 Hr2).
Qed.

(** ** Fields added to the export *)
Lemma denotes_fields_unique a : NoDup (decl_names a) -> no_builtin_decl a -> forall ds rs1 rs2,
  Forall2 (denotes_field eq a) ds rs1 -> Forall2 (denotes_field eq a) ds rs2 -> rs1 = rs2.
Proof.
  intros Hnd Hnb ds rs1 rs2 H. revert rs2. induction H as [|d f ds rs Hf Hm IHm]; intros rs2 Hm'; inversion Hm' as [|? f2 ? rs3 Hf2 Hm2]; subst; [done|].
  f_equal; [|by apply IHm]. inversion Hf; subst. inversion Hf2; subst. f_equal. by eapply (denotes_eq_unique a).
Qed.
Section versions.
  Context (a1 a2 : ast) (iter1 iter2 : gmap string atype -> list (string * atype)) (r1 r2 : resolved).
  Context (Hf1 : fair_order iter1) (Hf2 : fair_order iter2) (Hn1 : no_builtin_decl a1) (Hn2 : no_builtin_decl a2).
  Context (Hr1 : type_check iter1 a1 = Ok r1) (Hr2 : type_check iter2 a2 = Ok r2) (Hx1 : all_fixed a1) (Hx2 : all_fixed a2).
  Notation fs1 := (x_fields (r_export r1)).
  Notation fs2 := (x_fields (r_export r2)).

  Lemma export1 e fs : exports a1 = [e] -> declares_struct a1 e fs -> Forall2 (denotes_field eq a1) fs fs1.
  Proof.
    intros He Hd. destruct (type_check_result _ _ _ Hf1 Hn1 Hr1) as (He' & _). rewrite He in He'. injection He' as ->.
    pose proof (entry_denotes_fixed iter1 a1 r1 Hf1 Hn1 Hr1 Hx1 _ _ (rtc_refl _ _) (export_entry _ _ _ Hf1 Hn1 Hr1)) as H.
    inversion H as [| |? gs ds ? Hg Ha Hm]; subst. pose proof (decl_unique _ _ _ _ (vs_decls _ (result_valid _ _ _ Hf1 Hn1 Hr1)) Hg Hd) as [= ->]. done.
  Qed.
  Lemma export2 e fs : exports a2 = [e] -> declares_struct a2 e fs -> Forall2 (denotes_field eq a2) fs fs2.
  Proof.
    intros He Hd. destruct (type_check_result _ _ _ Hf2 Hn2 Hr2) as (He' & _). rewrite He in He'. injection He' as ->.
    pose proof (entry_denotes_fixed iter2 a2 r2 Hf2 Hn2 Hr2 Hx2 _ _ (rtc_refl _ _) (export_entry _ _ _ Hf2 Hn2 Hr2)) as H.
    inversion H as [| |? gs ds ? Hg Ha Hm]; subst. pose proof (decl_unique _ _ _ _ (vs_decls _ (result_valid _ _ _ Hf2 Hn2 Hr2)) Hg Hd) as [= ->]. done.
  Qed.

  Lemma appended_fields extra : appended a1 a2 extra -> exists gs, length gs = length extra /\ fs2 = fs1 ++ gs.
  Proof.
    intros (e & fs & He1 & He2 & Hd1 & Hd2 & Hs). pose proof (export1 e fs He1 Hd1) as H1. pose proof (export2 e _ He2 Hd2) as H2.
    apply Forall2_app_inv_l in H2 as (hs & gs & H2 & H3 & ->). exists gs. split; [symmetry; by eapply Forall2_length|]. f_equal. symmetry.
    pose proof (result_valid _ _ _ Hf1 Hn1 Hr1) as V1. pose proof (result_valid _ _ _ Hf2 Hn2 Hr2) as V2.
    eapply (denotes_fields_unique a2); [apply (vs_decls _ V2)|done| |exact H2].
    assert (forall f u, (f, u) ∈ fs -> refers a1 e (u_name u)) as Href by (intros f u Hu; by exists fs, f, u).
    clear H2 H3 Hd1 Hd2. induction H1 as [|d g fs gs' Hd Hm IH]; constructor.
    - inversion Hd as [f u t Ht]; subst. constructor. eapply (denotes_same eq a1); [by intros ? ? ->|done|]. intros m Hm'.
      assert (refers a1 e (u_name u)) as Hu by (apply (Href f); left). apply Hs; [|by eapply rtc_l].
      intros ->. apply (vs_acyclic _ V1 e). by eapply tc_rtc_r; [apply tc_once|].
    - apply IH. intros f u Hu. apply (Href f). by right.
  Qed.
  Lemma appended_void extra gs : appended a1 a2 extra -> fs2 = fs1 ++ gs -> voidb (TStruct gs) = true <-> Forall (weightless a2) extra.
  Proof.
    intros (e & fs & He1 & He2 & Hd1 & Hd2 & _) E. pose proof (export1 e fs He1 Hd1) as H1. pose proof (export2 e _ He2 Hd2) as H2. rewrite E in H2.
    apply Forall2_app_inv in H2 as [_ H2]; [|by eapply Forall2_length]. eapply (fields_void iter2 a2 r2); [done..| |exact H2]. intros g Hg. rewrite E. apply elem_of_app. by right.
  Qed.
  Lemma appended_names extra gs : appended a1 a2 extra -> fs2 = fs1 ++ gs -> map f_name gs = extra.*1.
  Proof.
    intros (e & fs & He1 & He2 & Hd1 & Hd2 & _) E. pose proof (export1 e fs He1 Hd1) as H1. pose proof (export2 e _ He2 Hd2) as H2. rewrite E in H2.
    apply Forall2_app_inv in H2 as [_ H2]; [|by eapply Forall2_length]. clear -H2. induction H2 as [|d g ds gs Hd _ IH]; [done|]. inversion Hd; subst. cbn. f_equal. exact IH.
  Qed.
End versions.

Lemma old_reads_new a1 a2 extra rt str_ok : rt_ok rt str_ok -> small_enums a1 -> all_fixed a1 -> all_fixed a2 -> appended a1 a2 extra ->
  for_versions a1 a2 (fun k1 t1 k2 t2 => names_fine a1 k1 -> write_ready k2 -> forall vs h this bytes M h',
    has_type str_ok t2 (VRec vs) -> rep h this (VRec vs) -> writes rt k2 h this (Done (bytes, M)) ->
    exists l M', reads rt k1 h' bytes (Done (JLoc l, M')) /\ rep (m_heap M') (JLoc l) (VRec (take (length vs - length extra) vs))).
Proof.
  intros Hrt Hs Hx1 Hx2 Happ. apply for_versions_intro; [done..|]. intros iter1 r1 iter2 r2 Hf1 Hf2 Hn1 Hn2 Hr1 Hr2 Hk1 Hk2 vs h this bytes M h' Hv Hrep Hw.
  destruct (writes_wire rt _ _ _ Hf2 Hn2 Hr2 Hk2 (VRec vs) h this (any_typed _ _ _ _ Hv) Hrep) as (M2 & Hw' & _).
  assert (bytes = wire (rt_enc rt) (rt_encs rt) (TStruct (x_fields (r_export r2))) (VRec vs)) as -> by (pose proof (writes_det _ _ _ _ _ _ Hw Hw'); congruence). clear Hw Hw'.
  destruct (appended_fields a1 a2 iter1 iter2 r1 r2 Hf1 Hf2 Hn1 Hn2 Hr1 Hr2 Hx1 Hx2 extra Happ) as (gs & HL & E).
  apply shape_struct in Hv as (vs' & [= <-] & Hv). pose proof (fields_shape_length _ _ _ _ Hv) as HLv. rewrite wire_struct, E in *. rewrite app_length in HLv.
  replace (length vs - length extra) with (length (x_fields (r_export r1))) by lia.
  apply fields_shape_app in Hv as [Hv1 Hv2].
  assert (fields_wire (rt_enc rt) (rt_encs rt) (x_fields (r_export r1) ++ gs) vs =
    fields_wire (rt_enc rt) (rt_encs rt) (x_fields (r_export r1)) (take (length (x_fields (r_export r1))) vs) ++
    fields_wire (rt_enc rt) (rt_encs rt) gs (drop (length (x_fields (r_export r1))) vs)) as ->.
  { rewrite <- fields_wire_app by (rewrite take_length; lia). by rewrite take_drop. }
  destruct (reads_wire rt str_ok _ _ _ Hf1 Hn1 Hr1 Hrt Hs Hk1 (VRec (take (length (x_fields (r_export r1))) vs)) h'
    (fields_wire (rt_enc rt) (rt_encs rt) gs (drop (length (x_fields (r_export r1))) vs))) as (l & M' & H1 & H2 & _).
  { apply shape_struct. by eexists. }
  rewrite wire_struct in H1. by exists l, M'.
Qed.

Lemma new_rejects_old a1 a2 extra rt str_ok : rt_ok rt str_ok -> str_ok [] -> small_enums a1 -> small_enums a2 -> all_fixed a1 -> all_fixed a2 -> appended a1 a2 extra ->
  ~ Forall (weightless a2) extra ->
  for_versions a1 a2 (fun k1 t1 k2 t2 => write_ready k1 -> names_fine a2 k2 -> forall v h this bytes M h',
    has_type str_ok t1 v -> rep h this v -> writes rt k1 h this (Done (bytes, M)) ->
    exists M', reads rt k2 h' bytes (Done (JNull, M'))).
Proof.
  intros Hrt Hs0 Hs1 Hs2 Hx1 Hx2 Happ Hno. apply for_versions_intro; [done..|]. intros iter1 r1 iter2 r2 Hf1 Hf2 Hn1 Hn2 Hr1 Hr2 Hk1 Hk2 v h this bytes M h' Hv Hrep Hw.
  destruct (writes_wire rt _ _ _ Hf1 Hn1 Hr1 Hk1 v h this (any_typed _ _ _ _ Hv) Hrep) as (M2 & Hw' & _).
  assert (bytes = wire (rt_enc rt) (rt_encs rt) (TStruct (x_fields (r_export r1))) v) as -> by (pose proof (writes_det _ _ _ _ _ _ Hw Hw'); congruence). clear Hw Hw'.
  destruct (appended_fields a1 a2 iter1 iter2 r1 r2 Hf1 Hf2 Hn1 Hn2 Hr1 Hr2 Hx1 Hx2 extra Happ) as (gs & HL & E).
  pose proof (export_readable _ _ _ Hf2 Hn2 Hr2 Hs2) as Hread.
  pose proof (export_variants _ _ _ Hf2 Hn2 Hr2) as Hdecl.
  apply shape_struct in Hv as (vs & -> & Hv). pose proof (fields_shape_length _ _ _ _ Hv) as HLv.
  assert (exists ws, fields_shape declared str_ok gs ws) as [ws Hws].
  { apply shape_fields_intro. intros g Hg. apply some_value; [done|]. rewrite all_enums_struct in Hdecl. apply Hdecl. rewrite E. apply elem_of_app. by right. }
  destruct (fine_reads _ _ _ Hf2 Hn2 Hr2 rt str_ok h' (wire (rt_enc rt) (rt_encs rt) (TStruct (x_fields (r_export r1))) (VRec vs)) Hrt Hk2) as (M3 & props & H1 & _).
  pose proof (dec_detects rt str_ok Hrt _ Hread (VRec (vs ++ ws)) (wire (rt_enc rt) (rt_encs rt) (TStruct (x_fields (r_export r1))) (VRec vs)) 0) as Hdet.
  rewrite !wire_struct, E, fields_wire_app in Hdet by done.
  assert (fields_wire (rt_enc rt) (rt_encs rt) gs ws ≠ []) as Hnil.
  { intros E0. apply Hno. apply (appended_void a1 a2 iter1 iter2 r1 r2 Hf1 Hf2 Hn1 Hn2 Hr1 Hr2 Hx1 Hx2 extra gs Happ E). rewrite <- wire_struct in E0.
    eapply wire_void; [by eapply enc_some|apply shape_struct; by exists ws|exact E0]. }
  cbn zeta in H1. rewrite E in H1. rewrite wire_struct in H1. rewrite Hdet in H1; [by exists M3| | |].
  - apply shape_struct. exists (vs ++ ws). split; [done|]. apply fields_shape_app. by rewrite <- HLv, take_app, drop_app.
  - by apply prefix_app_r.
  - intros E2. apply Hnil. apply (app_inv_head (fields_wire (rt_enc rt) (rt_encs rt) (x_fields (r_export r1)) vs)). by rewrite app_nil_r.
Qed.

Lemma new_reads_old a1 a2 extra rt str_ok : rt_ok rt str_ok -> small_enums a2 -> all_fixed a1 -> all_fixed a2 -> appended a1 a2 extra ->
  Forall (weightless a2) extra ->
  for_versions a1 a2 (fun k1 t1 k2 t2 => write_ready k1 -> names_fine a2 k2 -> forall vs h this bytes M h',
    has_type str_ok t1 (VRec vs) -> rep h this (VRec vs) -> writes rt k1 h this (Done (bytes, M)) ->
    exists ws l M', reads rt k2 h' bytes (Done (JLoc l, M')) /\ rep (m_heap M') (JLoc l) (VRec (vs ++ ws)) /\ ws.*1 = extra.*1).
Proof.
  intros Hrt Hs2 Hx1 Hx2 Happ Hno. apply for_versions_intro; [done..|]. intros iter1 r1 iter2 r2 Hf1 Hf2 Hn1 Hn2 Hr1 Hr2 Hk1 Hk2 vs h this bytes M h' Hv Hrep Hw.
  destruct (writes_wire rt _ _ _ Hf1 Hn1 Hr1 Hk1 (VRec vs) h this (any_typed _ _ _ _ Hv) Hrep) as (M2 & Hw' & _).
  assert (bytes = wire (rt_enc rt) (rt_encs rt) (TStruct (x_fields (r_export r1))) (VRec vs)) as -> by (pose proof (writes_det _ _ _ _ _ _ Hw Hw'); congruence). clear Hw Hw'.
  destruct (appended_fields a1 a2 iter1 iter2 r1 r2 Hf1 Hf2 Hn1 Hn2 Hr1 Hr2 Hx1 Hx2 extra Happ) as (gs & HL & E).
  apply (appended_void a1 a2 iter1 iter2 r1 r2 Hf1 Hf2 Hn1 Hn2 Hr1 Hr2 Hx1 Hx2 extra gs Happ E) in Hno.
  destruct (void_value str_ok (rt_enc rt) (rt_encs rt) _ Hno) as (w & Hw & Ew). apply shape_struct in Hw as (ws & -> & Hws), Hv as (vs' & [= <-] & Hv). rewrite wire_struct in Ew.
  destruct (reads_wire rt str_ok _ _ _ Hf2 Hn2 Hr2 Hrt Hs2 Hk2 (VRec (vs ++ ws)) h' []) as (l & M' & H1 & H2 & _).
  { apply shape_struct. exists (vs ++ ws). split; [done|]. rewrite E. by apply has_fields_app. }
  rewrite app_nil_r, wire_struct, E, fields_wire_app, Ew, app_nil_r, <- wire_struct in H1 by (by eapply fields_shape_length). exists ws, l, M'. split; [exact H1|]. split; [exact H2|].
  rewrite <- (appended_names a1 a2 iter1 iter2 r1 r2 Hf1 Hf2 Hn1 Hn2 Hr1 Hr2 Hx1 Hx2 extra gs Happ E). eapply fields_shape_names. exact Hws.
Qed.
