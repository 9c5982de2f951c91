(** Which schemas give TypeScript and Rust that can exchange packets whatever the runs were (for PropRsRuns.v). *)
From Verif Require Export RsRunsSpec RunsProofs RsMixed RsVoid RsNeeds.

(** a Rust value stands for one value, whatever the arrangement of fields *)
Section value.
  Context (a : ast) (Hnd : NoDup (decl_names a)) (Hnb : no_builtin_decl a) (str_ok : rstr -> Prop).
  Notation dn := (denotes Permutation a).
  Notation names := (List.map f_name).
  Lemma names_twins (rs1 rs2 : list sfield) : twins a rs1 rs2 -> NoDup (names rs1) -> names rs1 = names rs2 -> Forall2 (twin a) rs1 rs2.
  Proof.
    intros Htw Hn E. assert (length rs1 = length rs2) as HL by (rewrite <- (map_length f_name rs1), E; apply map_length). apply Forall2_same_length_lookup_2; [done|].
    intros i r1 r2 H1 H2. destruct (tw_l _ _ _ Htw r1 ltac:(by eapply elem_of_list_lookup_2)) as (r & Hr & Ht).
    assert (f_name r1 = f_name r2) as Er. { assert (names rs1 !! i = Some (f_name r1)) as K1 by (rewrite list_lookup_fmap, H1; done). assert (names rs2 !! i = Some (f_name r2)) as K2 by (rewrite list_lookup_fmap, H2; done). congruence. }
    rewrite <- (name_unique rs2 r r2); [done|by rewrite <- E|done|by eapply elem_of_list_lookup_2|]. rewrite <- Er. symmetry. apply Ht.
  Qed.
  Lemma stands_value t1 : forall n t2 x v w, dn n t1 -> dn n t2 -> fair_type t1 -> distinct t1 -> stands str_ok t1 n x v -> stands str_ok t2 n x w -> v = w.
  Proof.
    induction t1 as [b|e|rs1 IH] using rtype_ind'; intros n t2 x v w H1 H2 Hk Hd Hv Hw; destruct (denoted_twice a Hnd Hnb n _ _ H1 H2) as [<-|(r1 & rs2 & Er & -> & Htw)]; try done; try (by eapply stands_fun).
    injection Er as ->. rename r1 into rs1. apply distinct_struct in Hd as [Hnn Hd]. pose proof (fun f Hf => fair_field rs1 f Hk Hf) as Hkf.
    apply stands_struct in Hv as (xs & vs & -> & -> & Hv). apply stands_struct in Hw as (xs' & ws & [= <-] & -> & Hw). f_equal.
    assert (names rs1 = names rs2) as En by (rewrite <- (stands_fields_keys _ _ _ _ Hv), <- (stands_fields_keys _ _ _ _ Hw); done).
    pose proof (names_twins _ _ Htw Hnn En) as HT. clear H1 H2 Hk Htw Hnn En. revert xs vs ws Hv Hw.
    induction HT as [|f g rs1 rs2 Hfg HT IHT]; intros [|[k1 y] xs] [|[k2 v] vs] [|[k3 w] ws] Hv Hw; try done. destruct Hv as [(E1 & E2 & Hv1) Hv], Hw as [(E3 & E4 & Hw1) Hw]. cbn [fst snd] in *.
    apply Forall_cons in IH as [IH1 IH]. subst k2 k3. destruct Hfg as (F1 & F2 & F3 & F4 & F5 & F6). rewrite <- F1.
    f_equal; [|eapply IHT; [done|intros; apply Hd; by right|intros; apply Hkf; by right|exact Hv|exact Hw]]. f_equal.
    rewrite <- F2, <- F3, <- F4 in Hw1. destruct (Hkf f ltac:(by left)) as [Hft _]. specialize (fun x v w => IH1 (f_tname f) (f_ty g) x v w F5 F6 Hft (Hd f ltac:(by left))).
    assert (forall x v w, stands_items (f_array f) (stands str_ok (f_ty f) (f_tname f)) x v -> stands_items (f_array f) (stands str_ok (f_ty g) (f_tname f)) x w -> v = w) as HI.
    { unfold stands_items. destruct (f_array f); [|exact IH1]. intros x' v' w' (l & l1 & -> & -> & _ & K1) (l' & l2 & [= <-] & -> & _ & K2). f_equal. clear -K1 K2 IH1.
      revert l2 K2. induction K1 as [|x v l l1 Hx _ IHl]; intros l2 K2; inversion K2; subst; [done|]. f_equal; [by eapply IH1|by apply IHl]. }
    unfold stands_wrapped in *. destruct (f_opt f); [|by eapply HI]. destruct Hv1 as [[-> ->]|(z & -> & Hv1)], Hw1 as [[E ->]|(z' & E & Hw1)]; simplify_eq; [done|by eapply HI].
  Qed.
  Lemma fair_twin t1 : forall n t2, dn n t1 -> dn n t2 -> fair_type t1 -> small_type t1 -> fair_type t2 /\ small_type t2.
  Proof.
    induction t1 as [b|e|rs1 IH] using rtype_ind'; intros n t2 H1 H2 Hk Hs; destruct (denoted_twice a Hnd Hnb n _ _ H1 H2) as [<-|(r1 & rs2 & Er & -> & Htw)]; try done.
    injection Er as ->. rename r1 into rs1. rewrite Forall_forall in IH.
    assert (forall r2, r2 ∈ rs2 -> (f_array r2 && f_opt r2 = false) /\ fair_type (f_ty r2) /\ small_type (f_ty r2)) as H.
    { intros r2 Hr2. destruct (tw_r _ _ _ Htw r2 Hr2) as (r1 & Hr1 & (_ & _ & E3 & E4 & E5 & E6)). destruct (fair_field _ _ Hk Hr1) as [K1 K2]. rewrite <- E3, <- E4. split; [done|].
      eapply (IH r1 Hr1); [exact E5|exact E6|done|]. by eapply small_field. }
    split; (split; [done|]); apply all_fields_struct; intros f Hf; destruct (H f Hf) as (G1 & [G2 G3] & [G4 G5]); by repeat split.
  Qed.
End value.

Lemma typed_strings en P t v : shape en P t v -> strings_in P v.
Proof.
  revert v. induction t as [b|e|fs IH] using rtype_ind'; intros v Hv.
  - cbn [shape] in Hv. destruct (builtin_kind b); [by destruct Hv as (n & -> & _)|]. by destruct Hv as (s & -> & _ & Hs).
  - by destruct Hv as (n & -> & _).
  - destruct Hv as (vs & -> & Hv). apply strings_rec. revert vs Hv. induction IH as [|f fs Hf _ IH]; intros [|[g v] vs] Hv; try done. destruct Hv as (_ & Hw & Hv). constructor; [|by apply IH].
    cbn [snd]. destruct Hw as [[_ ->]|Hw]; [done|]. destruct (f_array f); [|by apply Hf]. destruct Hw as (l & -> & _ & Hl). apply strings_arr. eapply Forall_impl; [exact Hl|]. exact Hf.
Qed.
Lemma format_local rt lib str_ok both : rs_lib_ok lib str_ok -> same_format rt lib both -> local_floats rt.
Proof.
  intros Hlib Hsf w rest rest' Hw. destruct (lk_enough _ _ Hlib KF32 w) as (n & _ & H); [cbn; lia|].
  pose proof (lk_local _ _ Hlib KF32 _ _ _ rest H) as H1. pose proof (lk_local _ _ Hlib KF32 _ _ _ rest' H) as H2. apply (sf_rd _ _ _ Hsf) in H1, H2. by rewrite H1, H2.
Qed.

Section pair.
  Context (a : ast) (Hnb : no_builtin_decl a) (Hnames : plain_names a) (Hrn : rust_names a) (Hse : small_enums a) (Hvar : varied a).
  Context (rt : runtime) (lib : rs_lib) (rt_str str_ok both : list Z -> Prop) (Hrt : rt_ok rt rt_str) (Hlib : rs_lib_ok lib str_ok) (Hsf : same_format rt lib both).
  Context (Hb1 : forall s, both s -> rt_str s) (Hb2 : forall s, both s -> str_ok s) (Hex : exact_on rt both) (H2s : two_strings both).
  Notation ty r := (TStruct (x_fields (r_export r))).
  Notation cl r := (class_of (r_export r)).
  Context iter1 iter2 r1 r2 titer (t : rtype) (Hf1 : fair_order iter1) (Hf2 : fair_order iter2) (Hr1 : type_check iter1 a = Ok r1) (Hr2 : type_check iter2 a = Ok r2) (Hti : fair_types titer).
  Notation m := (rs_module_of titer r2).
  Context (Ht : denotes Permutation a (x_name (r_export r2)) t) (Hx : exchange rt lib str_ok both (cl r1) m t).

  Lemma pair_name : x_name (r_export r1) = x_name (r_export r2).
  Proof. pose proof (type_check_result _ _ _ Hf1 Hnb Hr1) as (He1 & _). pose proof (type_check_result _ _ _ Hf2 Hnb Hr2) as (He2 & _). congruence. Qed.
  Lemma exchange_swap : swap_ty rt both (ty r1) (ty r2).
  Proof.
    intros v1 v2 T1 T2 Hs. destruct Hx as (d & Hd & Hex').
    assert (rt_ok rt both) as Hrtb by by eapply rt_ok_weaken.
    assert (NoDup (decl_names a)) as Hnd by by eapply vs_decls, (result_valid iter1).
    pose proof (type_check_result _ _ _ Hf2 Hnb Hr2) as (He2 & _).
    assert (forall n fs, needed a (x_name (r_export r2)) n -> declares_struct a n fs -> NoDup fs.*1) as Hp by (intros n fs HN Hdc; by eapply (pn_fields _ Hnames _ _ _ He2 HN)).
    pose proof (export_fine_type a Hnb Hnames Hse Hvar _ _ Hf1 Hr1) as F1. pose proof (export_fine_type a Hnb Hnames Hse Hvar _ _ Hf2 Hr2) as F2.
    pose proof (export_denotes a Hnb _ _ Hf2 Hr2) as D2.
    pose proof (export_fair _ _ _ Hf2 Hnb Hr2 _ Hti Hrn) as K2. pose proof (entry_small _ _ _ Hf2 Hnb Hr2 Hse _ _ (export_entry _ _ _ Hf2 Hnb Hr2)) as S2.
    pose proof (plain_fine _ _ _ Hf1 Hnb Hr1 Hnames) as N1.
    pose proof (module_default _ _ _ Hf2 Hnb Hr2 _ Hti Hrn) as Hd'. change (x_name (r_export r2)) with (rm_type m) in Hd' at 1. rewrite Hd in Hd'. assert (d = dflt (ty r2) (x_name (r_export r2))) as -> by congruence.
    destruct (arrange a Hnd Hnb both (ty r2) (x_name (r_export r2)) t v2) as (v & Tv & Sv); [done|done|exact (fi_distinct _ F2)|by eapply denotes_distinct|done|].
    destruct (fair_twin a Hnd Hnb _ _ _ D2 Ht K2 S2) as [Kt St].
    destruct (has_stands str_ok t (x_name (r_export r2)) v Kt St) as [x Hxv]; [eapply shape_mono; [by apply all_enums_any|exact Hb2|exact Tv]|].
    pose proof (typed_strings _ _ _ _ Tv) as Bv. destruct (Hex' x v Hxv Bv) as [Hto Hfrom].
    destruct (typed_built _ _ (ty r1) (fi_distinct _ F1) v1 T1 []) as (h & this & Hrep). cbn [app] in Hrep.
    destruct (writes_wire rt _ _ _ Hf1 Hnb Hr1 (nf_ready _ _ N1) v1 h this (any_typed _ _ _ _ T1) Hrep) as (M & Hw & _).
    assert (rep h this v) as Hrv by apply Sv, Hs, Hrep.
    destruct (Hto h this _ M Hrv Hw) as [i Hrd].
    destruct (module_decides _ _ _ Hf2 Hnb Hr2 _ Hti Hrn lib str_ok Hlib (wire (rt_enc rt) (rt_encs rt) (ty r1) v1) Hse) as [(x' & w & i' & G & Hxw & Hpk)|(i' & G & _)]; [|by rewrite Hrd in G].
    rewrite Hrd in G. injection G as <- <-.
    assert (v = w) as <- by (eapply (stands_value a Hnd Hnb str_ok t); [exact Ht|exact D2|exact Kt|by eapply denotes_distinct|exact Hxv|exact Hxw]).
    pose proof (stands_has_type _ _ _ _ _ _ K2 S2 Hxw Bv) as Tw.
    assert (v = v2) as ->. { eapply rep_unique; [exact Tw|exact T2|exact Hrv|]. apply Hs, Hrep. }
    split.
    - destruct (packet_accepts rt lib str_ok both Hsf _ _ _ _ K2 Bv Hpk) as [Ha _]. exists [], (ri_bytes i). by rewrite app_nil_r.
    - pose proof (module_writes _ _ _ Hf2 Hnb Hr2 _ Hti Hrn lib str_ok _ _ Hxw) as Hwr. destruct (Hfrom _ [] Hwr) as (l & M' & Hrd' & Hrep').
      rewrite <- (wire_same rt lib str_ok both Hsf _ _ _ _ K2 Hxw Bv) in Hrd'.
      destruct (reads_typed rt rt_str _ _ _ Hf1 Hnb Hr1 Hrt N1 _ _ _ _ Hrd') as (v' & R1 & R2 & R3 & R4 & R5).
      assert (v' = v1) as ->. { eapply rep_unique; [exact R2|exact T1|exact R1|]. apply Hs, Hrep'. }
      exists [], (r_rest (m_rd M')). rewrite app_nil_r. eapply (export_taken a rt rt_str Hrt Hse _ _ Hf1 Hnb Hr1 _ 0). exists (r_calls (m_rd M')).
      rewrite R3. rewrite R5 in *. rewrite <- (state_ok _ R4). apply surjective_pairing.
  Qed.
  Lemma exchange_same : r_export r1 = r_export r2.
  Proof.
    assert (forall x y : export, x_name x = x_name y -> x_fields x = x_fields y -> x = y) as He by (intros [] []; cbn; congruence).
    apply He; [exact pair_name|]. assert (ty r1 = ty r2) as [= ->]; [|done].
    eapply (swap_types a) with (n := x_name (r_export r1)) (str_ok := both) (rt := rt); [by eapply vs_decls, (result_valid iter1)|done|by eapply rt_ok_weaken|done|by eapply format_local|done|exact (export_denotes a Hnb _ _ Hf1 Hr1)| | | |exact exchange_swap].
    - rewrite pair_name. exact (export_denotes a Hnb _ _ Hf2 Hr2).
    - exact (export_fine_type a Hnb Hnames Hse Hvar _ _ Hf1 Hr1).
    - exact (export_fine_type a Hnb Hnames Hse Hvar _ _ Hf2 Hr2).
  Qed.
End pair.

Lemma languages_fixed a rt lib rt_str str_ok both : rt_ok rt rt_str -> rs_lib_ok lib str_ok -> same_format rt lib both -> (forall s, both s -> rt_str s) -> (forall s, both s -> str_ok s) ->
  exact_on rt both -> two_strings both -> accepted a -> plain_names a -> rust_names a -> small_enums a -> varied a ->
  ((forall iter1 iter2, fair_order iter1 -> fair_order iter2 -> for_apart iter1 iter2 a (fun k _ m t => exchange rt lib str_ok both k m t)) <-> all_fixed a).
Proof.
  intros Hrt Hlib Hsf Hb1 Hb2 Hex H2s [Hl Hacc] Hp Hrn Hs Hv. pose proof (legal_no_builtin _ Hl) as Hnb. split.
  - intros H. apply same_fixed; [|done|].
    { destruct (Hacc (fun m => map_to_list m)) as [r Hr]; [by intros m|]. eapply (result_valid (fun m => map_to_list m)); [by intros m|done..]. }
    intros iter1 iter2 r1 r2 Hf1 Hf2 Hr1 Hr2.
    assert (fair_types (fun m => map_to_list m)) as Hft by by intros m. assert (on_one_line "") as Hone by by vm_compute.
    destruct (H iter1 iter2 Hf1 Hf2 r1 r2 "" "" "" "" _ _ Hl Hft Hft Hone Hone Hone Hone Hr1 Hr2) as (s1 & s2 & ds & k & m & t1 & t2 & G1 & G2 & T1 & T2 & He & Hk & Hd1 & Hd2 & Hx).
    destruct (read_generated iter1 a r1 Hf1 Hnb Hl Hr1 "" "" _ Hft Hone Hone) as (x1 & y1 & G1' & T1' & _). destruct (read_rs_generated iter2 a r2 Hf2 Hnb Hl Hr2 _ Hft "" "" Hone Hone) as (x2 & G2' & T2').
    rewrite G1 in G1'. injection G1' as <-. rewrite G2 in G2'. injection G2' as <-. rewrite T1 in T1'. injection T1' as -> ->. rewrite T2 in T2'. injection T2' as ->. cbn [rs_module_of rm_type] in Hd2.
    by eapply (exchange_same a Hnb Hp Hrn Hs Hv rt lib rt_str str_ok both Hrt Hlib Hsf Hb1 Hb2 Hex H2s iter1 iter2 r1 r2 _ t2).
  - intros Hfix iter1 iter2 Hf1 Hf2. apply for_apart_intro; [done..|]. intros r1 r2 titer Hn Hr1 Hr2 Hti. pose proof (fixed_same_code _ _ _ _ _ Hf1 Hf2 Hnb Hr1 Hr2 Hfix) as E.
    pose proof (plain_fine _ _ _ Hf1 Hnb Hr1 Hp) as N1. rewrite E in N1 |- *.
    eexists. split; [exact (module_default _ _ _ Hf2 Hnb Hr2 _ Hti Hrn)|]. intros x v Hx Hb. cbn [rs_module_of rm_type] in Hx.
    pose proof (export_fair _ _ _ Hf2 Hnb Hr2 _ Hti Hrn) as K2. pose proof (packet_wire lib str_ok Hlib _ _ _ _ [] K2 Hx) as Hpk. rewrite app_nil_r in Hpk.
    destruct (packet_accepts rt lib str_ok both Hsf _ _ _ _ K2 Hb Hpk) as [Ha Hva]. split.
    + intros h this bytes M Hrep Hw. destruct (writes_wire rt _ _ _ Hf2 Hnb Hr2 (nf_ready _ _ N1) v h this (any_typed _ _ _ _ Hva) Hrep) as (M' & Hw' & _).
      pose proof (writes_det _ _ _ _ _ _ Hw Hw') as Ew. assert (bytes = wire (rt_enc rt) (rt_encs rt) (TStruct (x_fields (r_export r2))) v) as -> by congruence. rewrite (wire_same rt lib str_ok both Hsf _ _ _ _ K2 Hx Hb).
      destruct (module_round_trip _ _ _ Hf2 Hnb Hr2 _ Hti Hrn lib str_ok Hlib x v [] Hs Hx) as (i & Hi & _). exists i. by rewrite app_nil_r in Hi.
    + intros bytes h Hw. rewrite (module_writes _ _ _ Hf2 Hnb Hr2 _ Hti Hrn lib str_ok _ _ Hx) in Hw.
      assert (bytes = wire (lb_enc lib) (lb_encs lib) (TStruct (x_fields (r_export r2))) v) as -> by congruence.
      destruct (reads_decided a rt rt_str Hrt Hs iter2 r2 Hf2 Hnb Hr2 N1 h (wire (lb_enc lib) (lb_encs lib) (TStruct (x_fields (r_export r2))) v)) as [(v' & rest' & l & M' & Ha' & H1 & H2 & H3 & Hu)|[Hno _]];
        [|by destruct (Hno _ _ Ha)]. destruct (Hu _ _ Ha) as [-> _]. by exists l, M'.
Qed.
