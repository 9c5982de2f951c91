(** Two versions of a packet, with both languages on both sides. *)
From Verif Require Export RsEvolve.
Export RsSem RsRun RsRun2 RsRun3 RsRun4.

Lemma code_elim a (P : cls -> rtype -> Prop) iter r : for_code_declared a P -> all_fixed a -> fair_order iter -> legal_ast a -> no_builtin_decl a -> type_check iter a = Ok r ->
  P (class_of (r_export r)) (TStruct (x_fields (r_export r))).
Proof.
  intros HP Hx Hf Hl Hn Hr. assert (fair_types (fun m => map_to_list m)) as Ht by (intros m; reflexivity).
  destruct (HP iter r "" "" _ Hf Hl Hr Ht) as (t & ds & k & G & R & e & ty & He & Hk & D & H); [apply Forall_nil_2..|].
  destruct (read_generated iter a r Hf Hn Hl Hr "" "" _ Ht) as (t' & ds' & G' & R' & _); [apply Forall_nil_2..|].
  rewrite G in G'. injection G' as <-. rewrite R in R'. injection R' as _ ->.
  destruct (type_check_result _ _ _ Hf Hn Hr) as (Hy & _). rewrite He in Hy. injection Hy as Hy.
  pose proof (entry_denotes_fixed iter a r Hf Hn Hr Hx _ _ (rtc_refl _ _) (export_entry _ _ _ Hf Hn Hr)) as D'. rewrite <- Hy in D'.
  rewrite (denotes_eq_unique a (vs_decls _ (result_valid _ _ _ Hf Hn Hr)) Hn _ _ _ D D') in H. done.
Qed.

Lemma versions_elim a1 a2 (P : cls -> rtype -> cls -> rtype -> Prop) iter1 r1 iter2 r2 : for_versions a1 a2 P -> all_fixed a1 -> all_fixed a2 -> legal_ast a1 -> legal_ast a2 ->
  fair_order iter1 -> fair_order iter2 -> no_builtin_decl a1 -> no_builtin_decl a2 -> type_check iter1 a1 = Ok r1 -> type_check iter2 a2 = Ok r2 ->
  P (class_of (r_export r1)) (TStruct (x_fields (r_export r1))) (class_of (r_export r2)) (TStruct (x_fields (r_export r2))).
Proof.
  intros HP Hx1 Hx2 Hl1 Hl2 Hf1 Hf2 Hn1 Hn2 Hr1 Hr2. pose proof (code_elim _ _ iter1 r1 HP Hx1 Hf1 Hl1 Hn1 Hr1) as HQ. cbn beta in HQ. exact (code_elim _ _ iter2 r2 HQ Hx2 Hf2 Hl2 Hn2 Hr2).
Qed.

Lemma apart_legal iter1 iter2 a P : (legal_ast a -> for_apart iter1 iter2 a P) -> for_apart iter1 iter2 a P.
Proof. intros H r1 r2 ver1 ver2 now1 now2 titer1 titer2 Hl. by apply H. Qed.
Lemma for_four_intro a1 a2 (P : cls -> rs_module -> rtype -> cls -> rs_module -> rtype -> Prop) : all_fixed a1 -> all_fixed a2 ->
  (forall iter1 r1 titer1 iter2 r2 titer2, fair_order iter1 -> fair_order iter2 -> legal_ast a1 -> legal_ast a2 -> no_builtin_decl a1 -> no_builtin_decl a2 ->
    type_check iter1 a1 = Ok r1 -> type_check iter2 a2 = Ok r2 -> fair_types titer1 -> fair_types titer2 ->
    P (class_of (r_export r1)) (rs_module_of titer1 r1) (TStruct (x_fields (r_export r1))) (class_of (r_export r2)) (rs_module_of titer2 r2) (TStruct (x_fields (r_export r2)))) ->
  for_four a1 a2 P.
Proof.
  intros Hx1 Hx2 HP iter1 iter2 iter3 iter4 Hf1 Hf2 Hf3 Hf4. apply apart_legal. intros Hl1. apply for_apart_intro; [done..|]. intros r1 r2 titer2 Hn1 Hr1 Hr2 Ht2.
  apply apart_legal. intros Hl2. apply for_apart_intro; [done..|]. intros r3 r4 titer4 Hn3 Hr3 Hr4 Ht4.
  rewrite (fixed_same_code _ _ _ _ _ Hf1 Hf2 Hn1 Hr1 Hr2 Hx1), (fixed_same_code _ _ _ _ _ Hf3 Hf4 Hn3 Hr3 Hr4 Hx2). by apply (HP iter2 r2 titer2 iter4 r4 titer4).
Qed.

(** what a Rust value stands for is a value for TypeScript, if its strings are *)
Lemma stands_has_type str_ok P t : forall tn x v, fair_type t -> small_type t -> stands str_ok t tn x v -> strings_in P v -> has_type P t v.
Proof.
  induction t as [b|e|fs IH] using rtype_ind'; intros tn x v Hk Hs Hv Hb.
  - unfold has_type. cbn [stands shape] in *. destruct (builtin_kind b) as [k|].
    + destruct Hv as (n & _ & -> & Hn). by exists n.
    + destruct Hv as (s & _ & -> & Hl & _). by exists s.
  - destruct Hk as [He _], Hs as [Hs _]. destruct Hv as (y & Hy & _ & ->). eexists. split; [done|]. exists y. split; [done|]. unfold variant_value.
    destruct (good_enum_bounds e He) as (m & Hm & HL & _ & _ & _ & Hx). cbn in Hs. pose proof (proj1 (Hx y) Hy) as (i & u & -> & Hi & _). cbn [ev_value]. case_decide; [lia|done].
  - apply stands_struct in Hv as (xs & vs & -> & -> & Hv). rewrite strings_rec in Hb. apply shape_struct. exists vs. split; [done|].
    pose proof (fun f Hf => fair_field fs f Hk Hf) as Hkf. pose proof (fun f Hf => small_field fs f Hs Hf) as Hsf. clear Hk Hs.
    revert xs vs Hv Hb. induction IH as [|f fs Hf _ IH]; intros [|[g x] xs] [|[h v] vs] Hv Hb; try done. destruct Hv as [(E1 & E2 & Hw) Hv]. cbn [fst snd] in *. subst g h.
    apply Forall_cons in Hb as [Hb1 Hb]. cbn [snd] in Hb1. split; [done|]. split; [|by apply (IH ltac:(intros; apply Hkf; by right) ltac:(intros; apply Hsf; by right) xs)].
    destruct (Hkf f ltac:(by left)) as [Hft Hao]. specialize (fun x v => Hf (f_tname f) x v Hft (Hsf f ltac:(by left))). clear -Hw Hf Hb1 Hao.
    unfold stands_wrapped, stands_items, wrapped in *. destruct (f_opt f).
    + destruct (f_array f); [done|]. destruct Hw as [[_ ->]|(z & _ & Hz)]; [by left|]. right. by eapply Hf.
    + right. destruct (f_array f); [|by eapply Hf]. destruct Hw as (l & l' & _ & -> & Hl & HF). rewrite (Forall2_length _ _ _ HF) in Hl. exists l'. split; [done|]. split; [done|].
      rewrite strings_arr in Hb1. clear -Hf HF Hb1. induction HF as [|a b l l' H _ IH]; [constructor|]. apply Forall_cons in Hb1 as [H1 H2]. constructor; [by eapply Hf|by apply IH].
Qed.

(** a value of the new type that TypeScript takes for one of the old type is one of the old type in Rust *)
Lemma stands_back str_ok sok t1 : forall t2 tn x v, fair_type t2 -> small_type t2 -> alike enum_grows eq t1 t2 -> stands str_ok t2 tn x v -> has_type sok t1 v -> stands str_ok t1 tn x v.
Proof.
  induction t1 as [b|e|fs IH] using rtype_ind'; intros t2 tn x v Hk Hs Ha Hv Ht; inversion Ha as [|? e2 He|? fs2 Hm]; subst.
  - done.
  - destruct Hk as [Hg _], Hs as [Hs _], Hv as (y & Hy & -> & ->), Ht as (n & [= <-] & z & Hz & E). exists z.
    destruct (good_enum_bounds e2 Hg) as (m & Hm & HL & _ & _ & _ & Hx). cbn in Hs.
    assert (z ∈ e_variants e2) as Hz2 by (destruct He as (r & vs & more & -> & -> & _); cbn [e_variants] in *; rewrite imap_app; apply elem_of_app; by left).
    pose proof (proj1 (Hx y) Hy) as (i & u & -> & Hi & Hu). pose proof (proj1 (Hx z) Hz2) as (j & w & -> & Hj & Hw). cbn [ev_value ev_name] in *. unfold variant_value in E. case_decide; [lia|].
    assert (i = j) as ->; [|by simplify_eq]. injection E as E. apply Z.pow_inj_r in E; lia.
  - apply stands_struct in Hv as (xs & vs & -> & -> & Hv). apply shape_struct in Ht as (? & [= <-] & Ht). apply stands_struct. exists xs, vs. split; [done|]. split; [done|]. clear Ha.
    pose proof (fun f Hf => fair_field fs2 f Hk Hf) as Hkf. pose proof (fun f Hf => small_field fs2 f Hs Hf) as Hsf. clear Hk Hs.
    revert xs vs Hv Ht. induction Hm as [|f g fs gs Hf Hm IHm]; intros [|[n x] xs] [|[h v] vs] Hv Ht; try done. apply Forall_cons in IH as [IH1 IH2].
    destruct Hv as [(E1 & E2 & H) Hv], Ht as (_ & Hw & Ht). split; [|by apply (IHm IH2 ltac:(intros; apply Hkf; by right) ltac:(intros; apply Hsf; by right))].
    destruct (Hkf g ltac:(by left)) as [Hft Hao]. pose proof (Hsf g ltac:(by left)) as Hst. clear Hkf Hsf IHm.
    inversion Hf as [n1 tn1 t1 n2 tn2 t2 arr opt En Et Ha]; subst. cbn in *. subst. split; [done|]. split; [done|].
    cbn [fst snd f_array f_opt f_ty f_tname] in *. specialize (fun x v => IH1 t2 tn2 x v Hft Hst Ha). clear -H Hw IH1 Hao. unfold stands_wrapped, stands_items in *. destruct opt.
    + destruct arr; [done|]. destruct H as [?|(y & -> & H)]; [by left|]. destruct Hw as [[_ ->]|Hw]; [by apply stands_not_none in H|]. right. exists y. split; [done|]. by apply IH1.
    + destruct Hw as [[? _]|Hw]; [done|]. destruct arr; [|by apply IH1]. destruct H as (l & l' & -> & -> & HL & HF), Hw as (? & [= <-] & _ & Hw). exists l, l'. do 3 (split; [done|]). clear HL.
      induction HF as [|p q l l' H _ IH]; [constructor|]. apply Forall_cons in Hw as [H1 H2]. constructor; [by apply IH1|by apply IH].
Qed.

Section mixed.
  Context (rt : runtime) (lib : rs_lib) (rt_str str_ok both : list Z -> Prop).
  Context (Hrt : rt_ok rt rt_str) (Hlib : rs_lib_ok lib str_ok) (Hsf : same_format rt lib both).
  Context (Hb1 : forall s, both s -> rt_str s) (Hb2 : forall s, both s -> str_ok s).
  Lemma strings_mono (P Q : list Z -> Prop) : (forall s, P s -> Q s) -> forall v, strings_in P v -> strings_in Q v.
  Proof.
    intros HPQ. fix IH 1. intros [n|s|l|fs|]; cbn [strings_in]; try done; [by apply HPQ| |].
    - induction l as [|v l IHl]; cbn [fold_right]; [done|]. intros [H1 H2]. split; [by apply IH|by apply IHl].
    - induction fs as [|[f v] l IHl]; cbn [fold_right snd]; [done|]. intros [H1 H2]. split; [by apply IH|by apply IHl].
  Qed.
  (** both languages write the same *)
  Lemma both_write a iter r titer v x h this : fair_order iter -> no_builtin_decl a -> type_check iter a = Ok r -> fair_types titer -> rust_names a -> small_enums a ->
    write_ready (class_of (r_export r)) -> stands str_ok (TStruct (x_fields (r_export r))) (x_name (r_export r)) x v -> strings_in both v -> rep h this v ->
    has_type rt_str (TStruct (x_fields (r_export r))) v /\
    exists bytes M, writes rt (class_of (r_export r)) h this (Done (bytes, M)) /\ rs_write lib (rs_module_of titer r) x = Some bytes.
  Proof.
    intros Hf Hn Hr Ht Hrn Hs Hk Hx Hb Hrep. pose proof (export_fair _ _ _ Hf Hn Hr _ Ht Hrn) as Hft.
    assert (has_type rt_str (TStruct (x_fields (r_export r))) v) as Hv.
    { eapply stands_has_type; [exact Hft|exact (entry_small _ _ _ Hf Hn Hr Hs _ _ (export_entry _ _ _ Hf Hn Hr))|exact Hx|]. by eapply strings_mono. }
    split; [exact Hv|]. destruct (writes_wire rt _ _ _ Hf Hn Hr Hk v h this (any_typed _ _ _ _ Hv) Hrep) as (M & Hw & _).
    rewrite (wire_same rt lib str_ok both Hsf _ _ _ _ Hft Hx Hb) in Hw. eexists _, M. split; [exact Hw|]. by eapply module_writes.
  Qed.

  Lemma mixed_added a1 a2 extra : small_enums a1 -> small_enums a2 -> rust_names a1 -> rust_names a2 -> all_fixed a1 -> all_fixed a2 -> appended a1 a2 extra ->
    for_four a1 a2 (fun k1 m1 t1 k2 m2 t2 => names_fine a1 k1 -> write_ready k2 -> exists d, default_value (rm_items m1) (rm_type m1) = Some d /\
      forall xs vs h this, stands str_ok t2 (rm_type m2) (RRec xs) (VRec vs) -> strings_in both (VRec vs) -> rep h this (VRec vs) ->
      exists bytes M, writes rt k2 h this (Done (bytes, M)) /\ rs_write lib m2 (RRec xs) = Some bytes /\ forall h',
        (exists l M', reads rt k1 h' bytes (Done (JLoc l, M')) /\ rep (m_heap M') (JLoc l) (VRec (take (length vs - length extra) vs))) /\
        (exists i, rs_read lib m1 d bytes = Good (RRec (take (length xs - length extra) xs)) i)).
  Proof.
    intros Hs1 Hs2 Hrn1 Hrn2 Hx1 Hx2 Happ. apply for_four_intro; [done..|]. intros iter1 r1 titer1 iter2 r2 titer2 Hf1 Hf2 Hl1 Hl2 Hn1 Hn2 Hr1 Hr2 Ht1 Ht2 Hk1 Hk2.
    destruct (rust_old_reads_new_at a1 a2 extra lib str_ok Hlib Hs1 Hrn1 Hrn2 Hx1 Hx2 Happ iter1 r1 titer1 iter2 r2 titer2 Hf1 Hf2 Hn1 Hn2 Hr1 Hr2 Ht1 Ht2) as (d & Hd & HR).
    pose proof (versions_elim _ _ _ iter1 r1 iter2 r2 (old_reads_new a1 a2 extra rt rt_str Hrt Hs1 Hx1 Hx2 Happ) Hx1 Hx2 Hl1 Hl2 Hf1 Hf2 Hn1 Hn2 Hr1 Hr2 Hk1 Hk2) as HT.
    exists d. split; [exact Hd|]. intros xs vs h this Hx Hb Hrep.
    destruct (both_write a2 iter2 r2 titer2 _ _ h this Hf2 Hn2 Hr2 Ht2 Hrn2 Hs2 Hk2 Hx Hb Hrep) as [Hv (bytes & M & W1 & W2)]. exists bytes, M. split; [exact W1|]. split; [exact W2|].
    intros h'. split; [exact (HT vs h this bytes M h' Hv Hrep W1)|]. destruct (HR xs ltac:(by eexists)) as (bytes' & i & W & H). rewrite W2 in W. injection W as <-. by exists i.
  Qed.
  Lemma mixed_refused a1 a2 extra : both [] -> small_enums a1 -> small_enums a2 -> rust_names a1 -> rust_names a2 -> all_fixed a1 -> all_fixed a2 -> appended a1 a2 extra ->
    ~ Forall (weightless a2) extra ->
    for_four a1 a2 (fun k1 m1 t1 k2 m2 t2 => write_ready k1 -> names_fine a2 k2 -> exists d, default_value (rm_items m2) (rm_type m2) = Some d /\
      forall x v h this, stands str_ok t1 (rm_type m1) x v -> strings_in both v -> rep h this v ->
      exists bytes M, writes rt k1 h this (Done (bytes, M)) /\ rs_write lib m1 x = Some bytes /\ forall h',
        (exists M', reads rt k2 h' bytes (Done (JNull, M'))) /\ (exists i, rs_read lib m2 d bytes = Bad i)).
  Proof.
    intros Hb0 Hs1 Hs2 Hrn1 Hrn2 Hx1 Hx2 Happ Hno. apply for_four_intro; [done..|]. intros iter1 r1 titer1 iter2 r2 titer2 Hf1 Hf2 Hl1 Hl2 Hn1 Hn2 Hr1 Hr2 Ht1 Ht2 Hk1 Hk2.
    destruct (rust_new_rejects_old_at a1 a2 extra lib str_ok Hlib (Hb2 _ Hb0) Hs2 Hrn1 Hrn2 Hx1 Hx2 Happ Hno iter1 r1 titer1 iter2 r2 titer2 Hf1 Hf2 Hn1 Hn2 Hr1 Hr2 Ht1 Ht2) as (d & Hd & HR).
    pose proof (versions_elim _ _ _ iter1 r1 iter2 r2 (new_rejects_old a1 a2 extra rt rt_str Hrt (Hb1 _ Hb0) Hs1 Hs2 Hx1 Hx2 Happ Hno) Hx1 Hx2 Hl1 Hl2 Hf1 Hf2 Hn1 Hn2 Hr1 Hr2 Hk1 Hk2) as HT.
    exists d. split; [exact Hd|]. intros x v h this Hx Hb Hrep.
    destruct (both_write a1 iter1 r1 titer1 _ _ h this Hf1 Hn1 Hr1 Ht1 Hrn1 Hs1 Hk1 Hx Hb Hrep) as [Hv (bytes & M & W1 & W2)]. exists bytes, M. split; [exact W1|]. split; [exact W2|].
    intros h'. split; [exact (HT v h this bytes M h' Hv Hrep W1)|]. destruct (HR x ltac:(by eexists)) as (bytes' & i & W & H). rewrite W2 in W. injection W as <-. by exists i.
  Qed.
  Lemma mixed_accepted a1 a2 extra : small_enums a1 -> small_enums a2 -> rust_names a1 -> rust_names a2 -> all_fixed a1 -> all_fixed a2 -> appended a1 a2 extra ->
    Forall (weightless a2) extra ->
    for_four a1 a2 (fun k1 m1 t1 k2 m2 t2 => write_ready k1 -> names_fine a2 k2 -> exists d, default_value (rm_items m2) (rm_type m2) = Some d /\
      forall xs vs h this, stands str_ok t1 (rm_type m1) (RRec xs) (VRec vs) -> strings_in both (VRec vs) -> rep h this (VRec vs) ->
      exists bytes M, writes rt k1 h this (Done (bytes, M)) /\ rs_write lib m1 (RRec xs) = Some bytes /\ forall h',
        (exists ws l M', reads rt k2 h' bytes (Done (JLoc l, M')) /\ rep (m_heap M') (JLoc l) (VRec (vs ++ ws)) /\ ws.*1 = extra.*1) /\
        (exists ys i, rs_read lib m2 d bytes = Good (RRec (xs ++ ys)) i /\ ys.*1 = extra.*1)).
  Proof.
    intros Hs1 Hs2 Hrn1 Hrn2 Hx1 Hx2 Happ Hno. apply for_four_intro; [done..|]. intros iter1 r1 titer1 iter2 r2 titer2 Hf1 Hf2 Hl1 Hl2 Hn1 Hn2 Hr1 Hr2 Ht1 Ht2 Hk1 Hk2.
    destruct (rust_new_reads_old_at a1 a2 extra lib str_ok Hlib Hs2 Hrn1 Hrn2 Hx1 Hx2 Happ Hno iter1 r1 titer1 iter2 r2 titer2 Hf1 Hf2 Hn1 Hn2 Hr1 Hr2 Ht1 Ht2) as (d & Hd & HR).
    pose proof (versions_elim _ _ _ iter1 r1 iter2 r2 (new_reads_old a1 a2 extra rt rt_str Hrt Hs2 Hx1 Hx2 Happ Hno) Hx1 Hx2 Hl1 Hl2 Hf1 Hf2 Hn1 Hn2 Hr1 Hr2 Hk1 Hk2) as HT.
    exists d. split; [exact Hd|]. intros xs vs h this Hx Hb Hrep.
    destruct (both_write a1 iter1 r1 titer1 _ _ h this Hf1 Hn1 Hr1 Ht1 Hrn1 Hs1 Hk1 Hx Hb Hrep) as [Hv (bytes & M & W1 & W2)]. exists bytes, M. split; [exact W1|]. split; [exact W2|].
    intros h'. split; [exact (HT vs h this bytes M h' Hv Hrep W1)|]. destruct (HR xs ltac:(by eexists)) as (bytes' & ys & i & W & H). rewrite W2 in W. injection W as <-. by exists ys, i.
  Qed.
  Lemma mixed_grown a1 a2 : small_enums a1 -> small_enums a2 -> rust_names a1 -> rust_names a2 -> all_fixed a1 -> all_fixed a2 -> grown a1 a2 ->
    for_four a1 a2 (fun k1 m1 t1 k2 m2 t2 => write_ready k1 -> names_fine a2 k2 -> exists d, default_value (rm_items m2) (rm_type m2) = Some d /\
      forall x v h this, stands str_ok t1 (rm_type m1) x v -> strings_in both v -> rep h this v ->
      exists bytes M, writes rt k1 h this (Done (bytes, M)) /\ rs_write lib m1 x = Some bytes /\ forall h',
        (exists l M', reads rt k2 h' bytes (Done (JLoc l, M')) /\ rep (m_heap M') (JLoc l) v) /\ (exists i, rs_read lib m2 d bytes = Good x i)).
  Proof.
    intros Hs1 Hs2 Hrn1 Hrn2 Hx1 Hx2 Hg. apply for_four_intro; [done..|]. intros iter1 r1 titer1 iter2 r2 titer2 Hf1 Hf2 Hl1 Hl2 Hn1 Hn2 Hr1 Hr2 Ht1 Ht2 Hk1 Hk2.
    destruct (rust_new_reads_old_enums_at a1 a2 lib str_ok Hlib Hs2 Hrn1 Hrn2 Hx1 Hx2 Hg iter1 r1 titer1 iter2 r2 titer2 Hf1 Hf2 Hn1 Hn2 Hr1 Hr2 Ht1 Ht2) as (d & Hd & HR).
    pose proof (versions_elim _ _ _ iter1 r1 iter2 r2 (new_reads_old_enums a1 a2 rt rt_str Hrt Hs2 Hx1 Hx2 Hg) Hx1 Hx2 Hl1 Hl2 Hf1 Hf2 Hn1 Hn2 Hr1 Hr2 Hk1 Hk2) as HT.
    exists d. split; [exact Hd|]. intros x v h this Hx Hb Hrep.
    destruct (both_write a1 iter1 r1 titer1 _ _ h this Hf1 Hn1 Hr1 Ht1 Hrn1 Hs1 Hk1 Hx Hb Hrep) as [Hv (bytes & M & W1 & W2)]. exists bytes, M. split; [exact W1|]. split; [exact W2|].
    intros h'. split; [exact (HT v h this bytes M h' Hv Hrep W1)|]. destruct (HR x ltac:(by eexists)) as (bytes' & i & W & _ & H). rewrite W2 in W. injection W as <-. by exists i.
  Qed.
  Lemma mixed_shrunk a1 a2 : small_enums a1 -> small_enums a2 -> rust_names a1 -> rust_names a2 -> all_fixed a1 -> all_fixed a2 -> grown a1 a2 ->
    for_four a1 a2 (fun k1 m1 t1 k2 m2 t2 => names_fine a1 k1 -> write_ready k2 -> exists d, default_value (rm_items m1) (rm_type m1) = Some d /\
      forall x v h this, stands str_ok t2 (rm_type m2) x v -> strings_in both v -> rep h this v ->
      exists bytes M, writes rt k2 h this (Done (bytes, M)) /\ rs_write lib m2 x = Some bytes /\ forall h',
        (typed str_ok t1 (rm_type m1) x /\ (exists l M', reads rt k1 h' bytes (Done (JLoc l, M')) /\ rep (m_heap M') (JLoc l) v) /\ (exists i, rs_read lib m1 d bytes = Good x i)) \/
        (~ typed str_ok t1 (rm_type m1) x /\ (exists M', reads rt k1 h' bytes (Done (JNull, M'))) /\ (exists i, rs_read lib m1 d bytes = Bad i))).
  Proof.
    intros Hs1 Hs2 Hrn1 Hrn2 Hx1 Hx2 Hg. apply for_four_intro; [done..|]. intros iter1 r1 titer1 iter2 r2 titer2 Hf1 Hf2 Hl1 Hl2 Hn1 Hn2 Hr1 Hr2 Ht1 Ht2 Hk1 Hk2.
    destruct (rust_old_reads_new_enums_at a1 a2 lib str_ok Hlib Hs1 Hs2 Hrn1 Hrn2 Hx1 Hx2 Hg iter1 r1 titer1 iter2 r2 titer2 Hf1 Hf2 Hn1 Hn2 Hr1 Hr2 Ht1 Ht2) as (d & Hd & HR).
    pose proof (versions_elim _ _ _ iter1 r1 iter2 r2 (old_reads_new_enums a1 a2 rt rt_str Hrt Hs1 Hs2 Hx1 Hx2 Hg) Hx1 Hx2 Hl1 Hl2 Hf1 Hf2 Hn1 Hn2 Hr1 Hr2 Hk1 Hk2) as HT.
    pose proof (grown_export _ _ _ _ _ _ Hf1 Hf2 Hn1 Hn2 Hr1 Hr2 Hx1 Hx2 Hs2 Hg) as Ha.
    exists d. split; [exact Hd|]. intros x v h this Hx Hb Hrep. cbn [rs_module_of rm_type] in *.
    destruct (both_write a2 iter2 r2 titer2 _ _ h this Hf2 Hn2 Hr2 Ht2 Hrn2 Hs2 Hk2 Hx Hb Hrep) as [Hv (bytes & M & W1 & W2)]. exists bytes, M. split; [exact W1|]. split; [exact W2|].
    intros h'. destruct (HR x ltac:(by eexists)) as (bytes' & i & W & H). rewrite W2 in W. injection W as <-.
    destruct (type_check_result _ _ _ Hf1 Hn1 Hr1) as (Hy1 & _). destruct (type_check_result _ _ _ Hf2 Hn2 Hr2) as (Hy2 & _).
    assert (x_name (r_export r1) = x_name (r_export r2)) as En by (destruct Hg as (e & He1 & He2 & _); congruence).
    pose proof (export_fair _ _ _ Hf2 Hn2 Hr2 _ Ht2 Hrn2) as Hk. pose proof (export_fair _ _ _ Hf1 Hn1 Hr1 _ Ht1 Hrn1) as Hk'.
    pose proof (entry_small _ _ _ Hf2 Hn2 Hr2 Hs2 _ _ (export_entry _ _ _ Hf2 Hn2 Hr2)) as Hsm. pose proof (entry_small _ _ _ Hf1 Hn1 Hr1 Hs1 _ _ (export_entry _ _ _ Hf1 Hn1 Hr1)) as Hsm'.
    destruct (HT v h this bytes M h' Hv Hrep W1) as [[HT1 HT2]|[HT1 HT2]].
    - left. assert (typed str_ok (TStruct (x_fields (r_export r1))) (x_name (r_export r1)) x) as Hty by (exists v; rewrite En; exact (stands_back str_ok rt_str _ _ _ _ _ Hk Hsm Ha Hx HT1)).
      split; [exact Hty|]. split; [exact HT2|]. destruct H as [[_ H]|[H _]]; [by exists i|by destruct H].
    - right. assert (~ typed str_ok (TStruct (x_fields (r_export r1))) (x_name (r_export r1)) x) as Hty.
      { intros [w Hw]. pose proof (alike_stands str_ok _ _ _ _ _ Ha Hw) as Hw2. rewrite En in Hw2. rewrite <- (stands_fun str_ok _ _ _ _ _ Hk Hx Hw2) in Hw. apply HT1.
        eapply stands_has_type; [exact Hk'|exact Hsm'|exact Hw|]. by eapply strings_mono. }
      split; [exact Hty|]. split; [exact HT2|]. destruct H as [[H _]|[_ H]]; [by destruct Hty|by exists i].
  Qed.
End mixed.
