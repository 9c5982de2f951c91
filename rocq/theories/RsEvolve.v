(** Emitted Rust: two versions of a packet, and two runs on one schema. *)
From Verif Require Export RsEvolveSpec RsClaims2 EvolveProofs4.
Export RsSem RsRun.

(** [P] holds of what any two runs emit, said of the results of the checker *)
Definition at_rusts (a1 a2 : ast) (P : rs_module -> rtype -> rs_module -> rtype -> Prop) : Prop :=
  forall iter1 r1 titer1 iter2 r2 titer2, fair_order iter1 -> fair_order iter2 -> no_builtin_decl a1 -> no_builtin_decl a2 ->
    type_check iter1 a1 = Ok r1 -> type_check iter2 a2 = Ok r2 -> fair_types titer1 -> fair_types titer2 ->
    P (rs_module_of titer1 r1) (TStruct (x_fields (r_export r1))) (rs_module_of titer2 r2) (TStruct (x_fields (r_export r2))).
Lemma for_rusts_intro a1 a2 (P : rs_module -> rtype -> rs_module -> rtype -> Prop) : at_rusts a1 a2 P -> for_rusts a1 a2 P.
Proof.
  intros HP. apply for_rust_intro. intros iter1 r1 titer1 Hf1 Hn1 Hr1 Ht1. apply for_rust_intro. intros iter2 r2 titer2 Hf2 Hn2 Hr2 Ht2.
  exact (HP iter1 r1 titer1 iter2 r2 titer2 Hf1 Hf2 Hn1 Hn2 Hr1 Hr2 Ht1 Ht2).
Qed.

Section values.
  Context (lib : rs_lib) (str_ok : rstr -> Prop).
  Lemma stands_fields_app fs gs xs vs : stands_fields str_ok (fs ++ gs) xs vs ->
    stands_fields str_ok fs (take (length fs) xs) (take (length fs) vs) /\ stands_fields str_ok gs (drop (length fs) xs) (drop (length fs) vs).
  Proof.
    revert xs vs. induction fs as [|f fs IH]; intros xs vs; cbn [app length]; [by rewrite !take_0, !drop_0|].
    destruct xs as [|x xs], vs as [|v vs]; try done. cbn. intros [H1 H2]. destruct (IH _ _ H2) as [H3 H4]. by split.
  Qed.
  Lemma stands_fields_join fs gs xs ys vs ws : stands_fields str_ok fs xs vs -> stands_fields str_ok gs ys ws -> stands_fields str_ok (fs ++ gs) (xs ++ ys) (vs ++ ws).
  Proof. revert xs vs. induction fs as [|f fs IH]; intros [|x xs] [|v vs]; try done. cbn. intros [H1 H2] H3. split; [done|]. by apply IH. Qed.
  Lemma stands_fields_length fs xs vs : stands_fields str_ok fs xs vs -> length xs = length fs /\ length vs = length fs.
  Proof. revert xs vs. induction fs as [|f fs IH]; intros [|x xs] [|v vs]; try done. cbn. intros [_ H]. destruct (IH _ _ H). by split; f_equal. Qed.

  (** every type has a value *)
  Lemma dflt_typed t : str_ok [] -> forall tn, fair_type t -> typed str_ok t tn (dflt t tn).
  Proof.
    intros Hs. induction t as [b|e|fs IH] using rtype_ind'; intros tn Hk.
    - cbn [dflt]. unfold typed, prim_value. cbn [stands]. destruct (builtin_kind b) as [k|].
      + exists (VNum (match k with KF32 => NFloat 0 | _ => NInt 0 end)). destruct k; eexists; (split; [done|]; split; [done|]); cbn [in_kind]; try lia. split; [lia|left; by vm_compute].
      + exists (VStr []), []. done.
    - destruct Hk as [(vs & r & HL & _ & _ & ->) _]. destruct vs as [|v vs]; [cbn in HL; lia|]. eexists. exists (EnumVariant v 0). split; [left|]. done.
    - assert (exists vs, stands_fields str_ok fs (List.map (fun f => (f_name f, dflt_wrapped (f_array f) (f_opt f) (dflt (f_ty f) (f_tname f)))) fs) vs) as [vs Hvs].
      { pose proof (fun f Hf => fair_field fs f Hk Hf) as Hkf. clear Hk. induction IH as [|f fs Hf _ IH]; [by exists []|].
        destruct IH as [vs Hvs]; [intros g Hg; apply Hkf; by right|]. destruct (Hf (f_tname f)) as [v Hv]; [apply Hkf; left|].
        exists ((f_name f, if f_opt f then VNone else if f_array f then VArr [] else v) :: vs). split; [|done]. split; [done|]. split; [done|]. cbn [fst snd].
        unfold stands_wrapped, dflt_wrapped. destruct (f_opt f); [by left|]. unfold stands_items. destruct (f_array f); [|done].
        exists [], []. split; [done|]. split; [done|]. split; [done|]. constructor. }
      exists (VRec vs). apply stands_struct. cbn [dflt]. eauto.
  Qed.
  Context (Hlib : rs_lib_ok lib str_ok).
  Notation W := (wire (lb_enc lib) (lb_encs lib)).
  (** without empty structs it takes at least one byte *)
  Lemma enc_nonempty k n l : lb_enc lib k n ++ l ≠ [].
  Proof. intros E. apply (f_equal length) in E. rewrite app_length, (lk_width _ _ Hlib) in E. destruct k; cbn in E; lia. Qed.
  Lemma rs_wire_void t : forall tn x v, stands str_ok t tn x v -> W t v = [] -> voidb t = true.
  Proof.
    induction t as [b|e|fs IH] using rtype_ind'; intros tn x v Hv E.
    - exfalso. cbn [stands] in Hv. destruct (builtin_kind b) as [k|] eqn:Eb.
      + destruct Hv as (n & _ & -> & _). cbn [wire] in E. rewrite Eb, <- (app_nil_r (lb_enc lib k n)) in E. by apply enc_nonempty in E.
      + destruct Hv as (s & _ & -> & _). cbn [wire] in E. by apply enc_nonempty in E.
    - exfalso. destruct Hv as (y & _ & _ & ->). cbn [wire] in E. rewrite <- (app_nil_r (lb_enc lib _ _)) in E. by apply enc_nonempty in E.
    - apply stands_struct in Hv as (xs & vs & -> & -> & Hv). rewrite voidb_struct, Forall_forall in *. rewrite wire_struct in E. intros f Hin. revert xs vs Hv E.
      induction fs as [|g fs IHfs]; [by apply elem_of_nil in Hin|]. intros [|[h x] xs] [|[h' v] vs] Hv; try done. destruct Hv as [(_ & _ & Hw) Hv]. cbn [fst snd] in Hw.
      cbn [fields_wire]. fold (fields_wire (lb_enc lib) (lb_encs lib)). intros [E1 E2]%app_nil.
      apply elem_of_cons in Hin as [->|Hin]; [|apply (IHfs ltac:(intros y Hy; apply IH; by right) Hin xs vs Hv E2)]. unfold wire_wrapped in E1. unfold stands_wrapped, stands_items in Hw.
      destruct (f_opt g).
      + exfalso. destruct v; try (by apply enc_nonempty in E1). rewrite <- (app_nil_r (lb_enc lib _ _)) in E1. by apply enc_nonempty in E1.
      + destruct (f_array g); [exfalso; destruct Hw as (l & l' & _ & -> & _); by apply enc_nonempty in E1|]. split; [done|]. split; [done|]. eapply IH; [by left|exact Hw|exact E1].
  Qed.

  (** enums that grow *)
  Lemma alike_stands t1 : forall t2 tn x v, alike enum_grows eq t1 t2 -> stands str_ok t1 tn x v -> stands str_ok t2 tn x v.
  Proof.
    induction t1 as [b|e|fs IH] using rtype_ind'; intros t2 tn x v Ha Hv; inversion Ha as [|? e2 He|? fs2 Hm]; subst.
    - done.
    - destruct Hv as (y & Hy & -> & ->). exists y. split; [|done]. destruct He as (r & vs & more & -> & -> & _). cbn [e_variants] in *. rewrite imap_app. apply elem_of_app. by left.
    - apply stands_struct in Hv as (xs & vs & -> & -> & Hv). apply stands_struct. exists xs, vs. split; [done|]. split; [done|]. clear Ha.
      revert xs vs Hv. induction Hm as [|f g fs gs Hf Hm IHm]; intros [|[n x] xs] [|[h v] vs] Hv; try done. apply Forall_cons in IH as [IH1 IH2].
      destruct Hv as [(E1 & E2 & H) Hv]. split; [|by apply IHm]. inversion Hf as [n1 tn1 t1 n2 tn2 t2 arr opt En Et Ha]; subst. cbn in *. subst. split; [done|]. split; [done|].
      cbn [fst snd f_array f_opt f_ty f_tname] in *. specialize (fun x v => IH1 t2 tn2 x v Ha). clear -H IH1.
      assert (forall x, stands_items arr (stands str_ok t1 tn2) x v -> stands_items arr (stands str_ok t2 tn2) x v) as HI.
      { intros y. unfold stands_items. destruct arr; [|apply IH1]. intros (l & l' & -> & -> & HL & Hl). exists l, l'. do 3 (split; [done|]). eapply Forall2_impl; [done|]. intros. by apply IH1. }
      unfold stands_wrapped in *. destruct opt; [|by apply HI]. destruct H as [?|(y & -> & H)]; [by left|]. right. exists y. split; [done|]. by apply HI.
  Qed.
  Lemma alike_packet t1 : forall t2 v data rest, alike enum_grows eq t1 t2 -> packet lib str_ok t1 v data rest -> packet lib str_ok t2 v data rest.
  Proof.
    induction t1 as [b|e|fs IH] using rtype_ind'; intros t2 v data rest Ha Hv; inversion Ha as [|? e2 He|? fs2 Hm]; subst.
    - done.
    - destruct Hv as (n & -> & (y & Hy & ->) & Hn). eexists. split; [done|]. destruct He as (r & vs & more & -> & -> & _). cbn [e_variants e_repr] in *.
      split; [|done]. exists y. split; [|done]. rewrite imap_app. apply elem_of_app. by left.
    - apply packet_struct in Hv as (vs & -> & Hv). apply packet_struct. exists vs. split; [done|]. clear Ha.
      revert vs data Hv. induction Hm as [|f g fs gs Hf Hm IHm]; intros [|[h v] vs] data Hv; try done. apply Forall_cons in IH as [IH1 IH2].
      destruct Hv as (E1 & mid & H & Hv). cbn [fst snd] in *. split; [inversion Hf; subst; cbn in *; congruence|]. exists mid. split; [|by apply IHm].
      inversion Hf as [n1 tn1 t1 n2 tn2 t2 arr opt En Et Ha]; subst. cbn [fst snd f_array f_opt f_ty f_tname] in *. specialize (fun v d r => IH1 t2 v d r Ha). clear -H IH1.
      assert (forall d r, packet_items lib arr (packet lib str_ok t1) v d r -> packet_items lib arr (packet lib str_ok t2) v d r) as HI.
      { intros d r. unfold packet_items. destruct arr; [|apply IH1]. intros (l & m & -> & Hn & Hl). exists l, m. split; [done|]. split; [done|]. eapply each_mono; [|done]. intros. by apply IH1. }
      unfold packet_wrapped in *. destruct opt; [|by apply HI]. destruct H as [?|(fl & m & ? & ? & H)]; [by left|]. right. exists fl, m. split; [done|]. split; [done|]. by apply HI.
  Qed.
End values.

(** ** Fields added to the export *)
Lemma void_stands str_ok enc encs t : forall tn, voidb t = true -> exists x v, stands str_ok t tn x v /\ wire enc encs t v = [].
Proof.
  induction t as [b|e|fs IH] using rtype_ind'; intros tn; [done..|]. rewrite voidb_struct, Forall_forall in *. intros Hv.
  assert (exists xs vs, stands_fields str_ok fs xs vs /\ fields_wire enc encs fs vs = []) as (xs & vs & H1 & H2);
    [|exists (RRec xs), (VRec vs); split; [apply stands_struct; by exists xs, vs|by rewrite wire_struct]].
  induction fs as [|f fs IHfs]; [by exists [], []|]. destruct IHfs as (xs & vs & H1 & H2); [intros x Hx; apply IH; by right|intros; apply Hv; by right|].
  destruct (Hv f ltac:(by left)) as (Ha & Ho & Hf). destruct (IH f ltac:(by left) (f_tname f) Hf) as (x & v & H3 & H4). exists ((f_name f, x) :: xs), ((f_name f, v) :: vs). split.
  - split; [|done]. split; [done|]. split; [done|]. unfold stands_wrapped, stands_items. by rewrite Ha, Ho.
  - cbn [fields_wire]. fold (fields_wire enc encs). rewrite H2. unfold wire_wrapped. rewrite Ha, Ho, H4. done.
Qed.
Lemma rust_old_reads_new_at a1 a2 extra lib str_ok : rs_lib_ok lib str_ok -> small_enums a1 -> rust_names a1 -> rust_names a2 -> all_fixed a1 -> all_fixed a2 -> appended a1 a2 extra ->
  at_rusts a1 a2 (fun m1 t1 m2 t2 => exists d, default_value (rm_items m1) (rm_type m1) = Some d /\ forall xs, typed str_ok t2 (rm_type m2) (RRec xs) ->
    exists bytes i, rs_write lib m2 (RRec xs) = Some bytes /\ rs_read lib m1 d bytes = Good (RRec (take (length xs - length extra) xs)) i).
Proof.
  intros Hlib Hs Hrn1 Hrn2 Hx1 Hx2 Happ. intros iter1 r1 titer1 iter2 r2 titer2 Hf1 Hf2 Hn1 Hn2 Hr1 Hr2 Ht1 Ht2.
  eexists. split; [exact (module_default _ _ _ Hf1 Hn1 Hr1 _ Ht1 Hrn1)|]. intros xs [v Hv]. pose proof (module_writes _ _ _ Hf2 Hn2 Hr2 _ Ht2 Hrn2 lib str_ok _ _ Hv) as Hw.
  destruct (appended_fields a1 a2 iter1 iter2 r1 r2 Hf1 Hf2 Hn1 Hn2 Hr1 Hr2 Hx1 Hx2 extra Happ) as (gs & HL & E). cbn [rs_module_of rm_type] in Hv.
  apply stands_struct in Hv as (xs' & vs & [= <-] & -> & Hv). rewrite E in Hv. destruct (stands_fields_length _ _ _ _ Hv) as [HL1 HL2]. rewrite app_length in HL1, HL2.
  destruct (stands_fields_app _ _ _ _ _ Hv) as [Hv1 _]. set (n := length (x_fields (r_export r1))) in *. replace (length xs - length extra) with n by lia.
  rewrite wire_struct, E, <- (take_drop n vs), fields_wire_app in Hw by (rewrite take_length; lia). rewrite <- wire_struct in Hw.
  destruct (module_round_trip _ _ _ Hf1 Hn1 Hr1 _ Ht1 Hrn1 lib str_ok Hlib (RRec (take n xs)) (VRec (take n vs)) (fields_wire (lb_enc lib) (lb_encs lib) gs (drop n vs)) Hs) as (i & Hi & _).
  { apply stands_struct. eauto. }
  eexists _, i. split; [exact Hw|exact Hi].
Qed.
Lemma rust_old_reads_new a1 a2 extra lib str_ok : rs_lib_ok lib str_ok -> small_enums a1 -> rust_names a1 -> rust_names a2 -> all_fixed a1 -> all_fixed a2 -> appended a1 a2 extra ->
  for_rusts a1 a2 (fun m1 t1 m2 t2 => exists d, default_value (rm_items m1) (rm_type m1) = Some d /\ forall xs, typed str_ok t2 (rm_type m2) (RRec xs) ->
    exists bytes i, rs_write lib m2 (RRec xs) = Some bytes /\ rs_read lib m1 d bytes = Good (RRec (take (length xs - length extra) xs)) i).
Proof. intros. apply for_rusts_intro. by eapply rust_old_reads_new_at. Qed.
Lemma rust_new_rejects_old_at a1 a2 extra lib str_ok : rs_lib_ok lib str_ok -> str_ok [] -> small_enums a2 -> rust_names a1 -> rust_names a2 -> all_fixed a1 -> all_fixed a2 -> appended a1 a2 extra ->
  ~ Forall (weightless a2) extra ->
  at_rusts a1 a2 (fun m1 t1 m2 t2 => exists d, default_value (rm_items m2) (rm_type m2) = Some d /\ forall x, typed str_ok t1 (rm_type m1) x ->
    exists bytes i, rs_write lib m1 x = Some bytes /\ rs_read lib m2 d bytes = Bad i).
Proof.
  intros Hlib Hs0 Hs Hrn1 Hrn2 Hx1 Hx2 Happ Hno. intros iter1 r1 titer1 iter2 r2 titer2 Hf1 Hf2 Hn1 Hn2 Hr1 Hr2 Ht1 Ht2.
  eexists. split; [exact (module_default _ _ _ Hf2 Hn2 Hr2 _ Ht2 Hrn2)|]. intros x [v Hv]. pose proof (module_writes _ _ _ Hf1 Hn1 Hr1 _ Ht1 Hrn1 lib str_ok _ _ Hv) as Hw.
  cbn [rs_module_of rm_type] in Hv. destruct (appended_fields a1 a2 iter1 iter2 r1 r2 Hf1 Hf2 Hn1 Hn2 Hr1 Hr2 Hx1 Hx2 extra Happ) as (gs & HL & E).
  apply stands_struct in Hv as (xs & vs & -> & -> & Hv). destruct (stands_fields_length _ _ _ _ Hv) as [HL1 HL2].
  pose proof (export_fair _ _ _ Hf2 Hn2 Hr2 _ Ht2 Hrn2) as Hk.
  assert (fair_type (TStruct gs)) as Hkg.
  { split; [done|]. destruct Hk as [_ Hk]. rewrite all_fields_struct in Hk |- *. intros f Hf. apply Hk. rewrite E. apply elem_of_app. by right. }
  destruct (dflt_typed str_ok (TStruct gs) Hs0 "" Hkg) as [w Hw2]. apply stands_struct in Hw2 as (ys & ws & _ & -> & Hws).
  assert (stands str_ok (TStruct (x_fields (r_export r2))) (x_name (r_export r2)) (RRec (xs ++ ys)) (VRec (vs ++ ws))) as Hj.
  { apply stands_struct. exists (xs ++ ys), (vs ++ ws). split; [done|]. split; [done|]. rewrite E. by apply stands_fields_join. }
  destruct (module_round_trip _ _ _ Hf2 Hn2 Hr2 _ Ht2 Hrn2 lib str_ok Hlib _ _ [] Hs Hj) as (j' & Hz' & Hj'). 
  assert (wire (lb_enc lib) (lb_encs lib) (TStruct (x_fields (r_export r2))) (VRec (vs ++ ws)) = fields_wire (lb_enc lib) (lb_encs lib) (x_fields (r_export r1)) vs ++ fields_wire (lb_enc lib) (lb_encs lib) gs ws) as Ew
    by (rewrite wire_struct, E; by apply fields_wire_app).
  rewrite app_nil_r, Ew in Hz'.
  rewrite wire_struct in Hw. set (cut := fields_wire (lb_enc lib) (lb_encs lib) (x_fields (r_export r1)) vs) in *. set (more := fields_wire (lb_enc lib) (lb_encs lib) gs ws) in *.
  assert (more ≠ []) as Hmore.
  { unfold more. intros E0. apply Hno. apply (appended_void a1 a2 iter1 iter2 r1 r2 Hf1 Hf2 Hn1 Hn2 Hr1 Hr2 Hx1 Hx2 extra gs Happ E). rewrite <- wire_struct in E0.
    eapply (rs_wire_void lib str_ok Hlib _ "" (RRec ys)); [apply stands_struct; by eauto|exact E0]. }
  destruct (module_decides _ _ _ Hf2 Hn2 Hr2 _ Ht2 Hrn2 lib str_ok Hlib cut Hs) as [(y & w & i & _ & _ & Hp)|(i & Hi & _)]; [|by eexists _, i]. exfalso.
  apply (packet_more lib str_ok Hlib _ _ _ _ more) in Hp. destruct (module_takes _ _ _ Hf2 Hn2 Hr2 _ Ht2 Hrn2 lib str_ok Hlib _ _ _ Hs Hp) as (z & j & Hz & _ & Hj2).
  rewrite Hz in Hz'. injection Hz' as _ <-. rewrite Hj' in Hj2. by destruct (ri_bytes i), more.
Qed.
Lemma rust_new_rejects_old a1 a2 extra lib str_ok : rs_lib_ok lib str_ok -> str_ok [] -> small_enums a2 -> rust_names a1 -> rust_names a2 -> all_fixed a1 -> all_fixed a2 -> appended a1 a2 extra ->
  ~ Forall (weightless a2) extra ->
  for_rusts a1 a2 (fun m1 t1 m2 t2 => exists d, default_value (rm_items m2) (rm_type m2) = Some d /\ forall x, typed str_ok t1 (rm_type m1) x ->
    exists bytes i, rs_write lib m1 x = Some bytes /\ rs_read lib m2 d bytes = Bad i).
Proof. intros. apply for_rusts_intro. by eapply rust_new_rejects_old_at. Qed.

Lemma rust_new_reads_old_at a1 a2 extra lib str_ok : rs_lib_ok lib str_ok -> small_enums a2 -> rust_names a1 -> rust_names a2 -> all_fixed a1 -> all_fixed a2 -> appended a1 a2 extra ->
  Forall (weightless a2) extra ->
  at_rusts a1 a2 (fun m1 t1 m2 t2 => exists d, default_value (rm_items m2) (rm_type m2) = Some d /\ forall xs, typed str_ok t1 (rm_type m1) (RRec xs) ->
    exists bytes ys i, rs_write lib m1 (RRec xs) = Some bytes /\ rs_read lib m2 d bytes = Good (RRec (xs ++ ys)) i /\ ys.*1 = extra.*1).
Proof.
  intros Hlib Hs Hrn1 Hrn2 Hx1 Hx2 Happ Hno. intros iter1 r1 titer1 iter2 r2 titer2 Hf1 Hf2 Hn1 Hn2 Hr1 Hr2 Ht1 Ht2.
  eexists. split; [exact (module_default _ _ _ Hf2 Hn2 Hr2 _ Ht2 Hrn2)|]. intros xs [v Hv]. pose proof (module_writes _ _ _ Hf1 Hn1 Hr1 _ Ht1 Hrn1 lib str_ok _ _ Hv) as Hw.
  cbn [rs_module_of rm_type] in Hv. destruct (appended_fields a1 a2 iter1 iter2 r1 r2 Hf1 Hf2 Hn1 Hn2 Hr1 Hr2 Hx1 Hx2 extra Happ) as (gs & HL & E).
  apply stands_struct in Hv as (xs' & vs & [= <-] & -> & Hv). destruct (stands_fields_length _ _ _ _ Hv) as [HL1 HL2].
  apply (appended_void a1 a2 iter1 iter2 r1 r2 Hf1 Hf2 Hn1 Hn2 Hr1 Hr2 Hx1 Hx2 extra gs Happ E) in Hno.
  assert (exists ys ws, stands_fields str_ok gs ys ws /\ fields_wire (lb_enc lib) (lb_encs lib) gs ws = []) as (ys & ws & Hws & Ew).
  { destruct (void_stands str_ok (lb_enc lib) (lb_encs lib) _ "" Hno) as (x & w & Hx & E0). apply stands_struct in Hx as (ys & ws & -> & -> & Hx). rewrite wire_struct in E0. by exists ys, ws. }
  assert (stands str_ok (TStruct (x_fields (r_export r2))) (x_name (r_export r2)) (RRec (xs ++ ys)) (VRec (vs ++ ws))) as Hj.
  { apply stands_struct. exists (xs ++ ys), (vs ++ ws). split; [done|]. split; [done|]. rewrite E. by apply stands_fields_join. }
  destruct (module_round_trip _ _ _ Hf2 Hn2 Hr2 _ Ht2 Hrn2 lib str_ok Hlib _ _ [] Hs Hj) as (i & Hi & _).
  rewrite app_nil_r, wire_struct, E, fields_wire_app, Ew, app_nil_r, <- wire_struct in Hi by done. exists (wire (lb_enc lib) (lb_encs lib) (TStruct (x_fields (r_export r1))) (VRec vs)), ys, i. split; [exact Hw|]. split; [rewrite E; exact Hi|].
  rewrite <- (appended_names a1 a2 iter1 iter2 r1 r2 Hf1 Hf2 Hn1 Hn2 Hr1 Hr2 Hx1 Hx2 extra gs Happ E). by eapply stands_fields_keys.
Qed.
Lemma rust_new_reads_old a1 a2 extra lib str_ok : rs_lib_ok lib str_ok -> small_enums a2 -> rust_names a1 -> rust_names a2 -> all_fixed a1 -> all_fixed a2 -> appended a1 a2 extra ->
  Forall (weightless a2) extra ->
  for_rusts a1 a2 (fun m1 t1 m2 t2 => exists d, default_value (rm_items m2) (rm_type m2) = Some d /\ forall xs, typed str_ok t1 (rm_type m1) (RRec xs) ->
    exists bytes ys i, rs_write lib m1 (RRec xs) = Some bytes /\ rs_read lib m2 d bytes = Good (RRec (xs ++ ys)) i /\ ys.*1 = extra.*1).
Proof. intros. apply for_rusts_intro. by eapply rust_new_reads_old_at. Qed.

(** ** Variants added to enums *)
Lemma rust_new_reads_old_enums_at a1 a2 lib str_ok : rs_lib_ok lib str_ok -> small_enums a2 -> rust_names a1 -> rust_names a2 -> all_fixed a1 -> all_fixed a2 -> grown a1 a2 ->
  at_rusts a1 a2 (fun m1 t1 m2 t2 => exists d, default_value (rm_items m2) (rm_type m2) = Some d /\ forall x, typed str_ok t1 (rm_type m1) x ->
    exists bytes i, rs_write lib m1 x = Some bytes /\ rs_write lib m2 x = Some bytes /\ rs_read lib m2 d bytes = Good x i).
Proof.
  intros Hlib Hs Hrn1 Hrn2 Hx1 Hx2 Hg. intros iter1 r1 titer1 iter2 r2 titer2 Hf1 Hf2 Hn1 Hn2 Hr1 Hr2 Ht1 Ht2.
  pose proof (grown_export _ _ _ _ _ _ Hf1 Hf2 Hn1 Hn2 Hr1 Hr2 Hx1 Hx2 Hs Hg) as Ha.
  eexists. split; [exact (module_default _ _ _ Hf2 Hn2 Hr2 _ Ht2 Hrn2)|]. intros x [v Hv]. pose proof (module_writes _ _ _ Hf1 Hn1 Hr1 _ Ht1 Hrn1 lib str_ok _ _ Hv) as Hw.
  rewrite (alike_wire _ _ _ _ _ (fun e1 e2 H => proj1 (grows_bounds e1 e2 H)) _ v v Ha (same_content_refl v)) in Hw.
  pose proof (alike_stands str_ok _ _ _ _ _ Ha Hv) as Hv2. destruct (type_check_result _ _ _ Hf1 Hn1 Hr1) as (Hy1 & _). destruct (type_check_result _ _ _ Hf2 Hn2 Hr2) as (Hy2 & _).
  assert (x_name (r_export r1) = x_name (r_export r2)) as En by (destruct Hg as (e & He1 & He2 & _); congruence). cbn [rs_module_of rm_type] in Hv2. rewrite En in Hv2.
  destruct (module_round_trip _ _ _ Hf2 Hn2 Hr2 _ Ht2 Hrn2 lib str_ok Hlib _ _ [] Hs Hv2) as (i & Hi & _). rewrite app_nil_r in Hi.
  eexists _, i. split; [exact Hw|]. split; [exact (module_writes _ _ _ Hf2 Hn2 Hr2 _ Ht2 Hrn2 lib str_ok _ _ ltac:(eassumption))|exact Hi].
Qed.
Lemma rust_new_reads_old_enums a1 a2 lib str_ok : rs_lib_ok lib str_ok -> small_enums a2 -> rust_names a1 -> rust_names a2 -> all_fixed a1 -> all_fixed a2 -> grown a1 a2 ->
  for_rusts a1 a2 (fun m1 t1 m2 t2 => exists d, default_value (rm_items m2) (rm_type m2) = Some d /\ forall x, typed str_ok t1 (rm_type m1) x ->
    exists bytes i, rs_write lib m1 x = Some bytes /\ rs_write lib m2 x = Some bytes /\ rs_read lib m2 d bytes = Good x i).
Proof. intros. apply for_rusts_intro. by eapply rust_new_reads_old_enums_at. Qed.
Lemma rust_old_reads_new_enums_at a1 a2 lib str_ok : rs_lib_ok lib str_ok -> small_enums a1 -> small_enums a2 -> rust_names a1 -> rust_names a2 -> all_fixed a1 -> all_fixed a2 -> grown a1 a2 ->
  at_rusts a1 a2 (fun m1 t1 m2 t2 => exists d, default_value (rm_items m1) (rm_type m1) = Some d /\ forall x, typed str_ok t2 (rm_type m2) x ->
    exists bytes i, rs_write lib m2 x = Some bytes /\
      ((typed str_ok t1 (rm_type m1) x /\ rs_read lib m1 d bytes = Good x i) \/ (~ typed str_ok t1 (rm_type m1) x /\ rs_read lib m1 d bytes = Bad i))).
Proof.
  intros Hlib Hs1 Hs2 Hrn1 Hrn2 Hx1 Hx2 Hg. intros iter1 r1 titer1 iter2 r2 titer2 Hf1 Hf2 Hn1 Hn2 Hr1 Hr2 Ht1 Ht2.
  pose proof (grown_export _ _ _ _ _ _ Hf1 Hf2 Hn1 Hn2 Hr1 Hr2 Hx1 Hx2 Hs2 Hg) as Ha.
  eexists. split; [exact (module_default _ _ _ Hf1 Hn1 Hr1 _ Ht1 Hrn1)|]. intros x [v Hv]. pose proof (module_writes _ _ _ Hf2 Hn2 Hr2 _ Ht2 Hrn2 lib str_ok _ _ Hv) as Hw.
  destruct (type_check_result _ _ _ Hf1 Hn1 Hr1) as (Hy1 & _). destruct (type_check_result _ _ _ Hf2 Hn2 Hr2) as (Hy2 & _).
  assert (x_name (r_export r1) = x_name (r_export r2)) as En by (destruct Hg as (e & He1 & He2 & _); congruence). cbn [rs_module_of rm_type] in *.
  set (t1 := TStruct (x_fields (r_export r1))) in *. set (t2 := TStruct (x_fields (r_export r2))) in *. pose proof (export_fair _ _ _ Hf2 Hn2 Hr2 _ Ht2 Hrn2) as Hk2. fold t2 in Hk2.
  destruct (module_decides _ _ _ Hf1 Hn1 Hr1 _ Ht1 Hrn1 lib str_ok Hlib (wire (lb_enc lib) (lb_encs lib) t2 v) Hs1) as [(y & w & i & Hi & Hy & Hp)|(i & Hi & Hno)]; eexists _, i; (split; [exact Hw|]).
  - left. fold t1 in Hy, Hp, Hi. pose proof (alike_packet lib str_ok _ _ _ _ _ Ha Hp) as Hp2.
    destruct (module_takes _ _ _ Hf2 Hn2 Hr2 _ Ht2 Hrn2 lib str_ok Hlib _ _ _ Hs2 Hp2) as (z & j & Hz & Hzw & _).
    destruct (module_round_trip _ _ _ Hf2 Hn2 Hr2 _ Ht2 Hrn2 lib str_ok Hlib _ _ [] Hs2 Hv) as (j' & Hz' & _). rewrite app_nil_r in Hz'. fold t2 in Hz, Hz'. rewrite Hz in Hz'. injection Hz' as -> _.
    pose proof (alike_stands str_ok _ _ _ _ _ Ha Hy) as Hyb. rewrite En in Hyb. fold t2 in Hzw. rewrite (stands_inj str_ok t2 _ x y w Hk2 Hzw Hyb). split; [by exists w|exact Hi].
  - right. split; [|exact Hi]. intros [w Hx]. pose proof (alike_stands str_ok _ _ _ _ _ Ha Hx) as Hx'. rewrite En in Hx'. rewrite (stands_fun str_ok t2 _ _ _ _ Hk2 Hv Hx') in Hno.
    apply (Hno w []). rewrite <- (alike_wire _ _ _ _ _ (fun e1 e2 H => proj1 (grows_bounds e1 e2 H)) _ w w Ha (same_content_refl w)).
    rewrite <- (app_nil_r (wire _ _ _ _)). eapply packet_wire; [exact Hlib|exact (export_fair _ _ _ Hf1 Hn1 Hr1 _ Ht1 Hrn1)|exact Hx].
Qed.
Lemma rust_old_reads_new_enums a1 a2 lib str_ok : rs_lib_ok lib str_ok -> small_enums a1 -> small_enums a2 -> rust_names a1 -> rust_names a2 -> all_fixed a1 -> all_fixed a2 -> grown a1 a2 ->
  for_rusts a1 a2 (fun m1 t1 m2 t2 => exists d, default_value (rm_items m1) (rm_type m1) = Some d /\ forall x, typed str_ok t2 (rm_type m2) x ->
    exists bytes i, rs_write lib m2 x = Some bytes /\
      ((typed str_ok t1 (rm_type m1) x /\ rs_read lib m1 d bytes = Good x i) \/ (~ typed str_ok t1 (rm_type m1) x /\ rs_read lib m1 d bytes = Bad i))).
Proof. intros. apply for_rusts_intro. by eapply rust_old_reads_new_enums_at. Qed.

(** ** Names *)
Lemma rust_renamed_bytes a ty field lib str_ok : good_renaming ty a -> all_fixed a -> rust_names a -> rust_names (rename ty field a) ->
  for_rusts a (rename ty field a) (fun m1 t1 m2 t2 => forall x1 x2 v1 v2, stands str_ok t1 (rm_type m1) x1 v1 -> stands str_ok t2 (rm_type m2) x2 v2 -> same_content v1 v2 ->
    exists bytes, rs_write lib m1 x1 = Some bytes /\ rs_write lib m2 x2 = Some bytes).
Proof.
  intros Hty Hx Hrn1 Hrn2. apply for_rusts_intro. intros iter1 r1 titer1 iter2 r2 titer2 Hf1 Hf2 Hn1 Hn2 Hr1 Hr2 Ht1 Ht2 x1 x2 v1 v2 Hv1 Hv2 Hc.
  pose proof (result_valid _ _ _ Hf1 Hn1 Hr1) as V1. pose proof (result_valid _ _ _ Hf2 Hn2 Hr2) as V2.
  pose proof (rename_fixed ty field a Hty V1 Hx) as Hx2.
  destruct (type_check_result _ _ _ Hf1 Hn1 Hr1) as (Hy1 & _). destruct (type_check_result _ _ _ Hf2 Hn2 Hr2) as (Hy2 & _).
  rewrite rename_exports, Hy1 in Hy2. injection Hy2 as Hy2.
  pose proof (entry_denotes_fixed iter1 a r1 Hf1 Hn1 Hr1 Hx _ _ (rtc_refl _ _) (export_entry _ _ _ Hf1 Hn1 Hr1)) as D1.
  pose proof (entry_denotes_fixed iter2 _ r2 Hf2 Hn2 Hr2 Hx2 _ _ (rtc_refl _ _) (export_entry _ _ _ Hf2 Hn2 Hr2)) as D2.
  destruct (denotes_rename ty field a Hty _ _ D1) as (u & Du & Ha). rewrite Hy2 in Du.
  rewrite (denotes_eq_unique _ (vs_decls _ V2) Hn2 _ _ _ Du D2) in Ha.
  eexists. split; [exact (module_writes _ _ _ Hf1 Hn1 Hr1 _ Ht1 Hrn1 lib str_ok _ _ ltac:(eassumption))|]. rewrite (alike_wire _ _ eq (fun _ _ => True) _ ltac:(by intros ? ? ->) _ v1 v2 Ha Hc). exact (module_writes _ _ _ Hf2 Hn2 Hr2 _ Ht2 Hrn2 lib str_ok _ _ ltac:(eassumption)).
Qed.

(** ** Separate runs *)
Lemma rust_runs_interop a lib str_ok : rs_lib_ok lib str_ok -> small_enums a -> rust_names a -> all_fixed a ->
  for_rusts a a (fun m1 t1 m2 t2 => exists d, default_value (rm_items m2) (rm_type m2) = Some d /\ forall x, typed str_ok t1 (rm_type m1) x ->
    exists bytes, rs_write lib m1 x = Some bytes /\ rs_write lib m2 x = Some bytes /\ forall rest, exists i, rs_read lib m2 d (bytes ++ rest) = Good x i /\ ri_bytes i = rest).
Proof.
  intros Hlib Hs Hrn Hx. apply for_rusts_intro. intros iter1 r1 titer1 iter2 r2 titer2 Hf1 Hf2 Hn1 Hn2 Hr1 Hr2 Ht1 Ht2.
  eexists. split; [exact (module_default _ _ _ Hf2 Hn2 Hr2 _ Ht2 Hrn)|]. intros x [v Hv]. pose proof (module_writes _ _ _ Hf1 Hn1 Hr1 _ Ht1 Hrn lib str_ok _ _ Hv) as Hw. cbn [rs_module_of rm_type] in Hv.
  rewrite (fixed_same_code _ _ _ _ _ Hf1 Hf2 Hn1 Hr1 Hr2 Hx) in Hw, Hv. eexists. split; [exact Hw|]. split; [exact (module_writes _ _ _ Hf2 Hn2 Hr2 _ Ht2 Hrn lib str_ok _ _ ltac:(eassumption))|]. intros rest. by eapply (module_round_trip iter2).
Qed.
Lemma for_apart_intro iter1 iter2 a (P : cls -> rtype -> rs_module -> rtype -> Prop) : fair_order iter1 -> fair_order iter2 ->
  (forall r1 r2 titer2, no_builtin_decl a -> type_check iter1 a = Ok r1 -> type_check iter2 a = Ok r2 -> fair_types titer2 ->
     P (class_of (r_export r1)) (TStruct (x_fields (r_export r1))) (rs_module_of titer2 r2) (TStruct (x_fields (r_export r2)))) -> for_apart iter1 iter2 a P.
Proof.
  intros Hf1 Hf2 HP r1 r2 ver1 ver2 now1 now2 titer1 titer2 Hl Ht1 Ht2 Hv1 Hv2 Hn1 Hn2 Hr1 Hr2. pose proof (legal_no_builtin _ Hl) as Hn.
  destruct (read_generated iter1 a r1 Hf1 Hn Hl Hr1 ver1 now1 titer1 Ht1 Hv1 Hn1) as (s1 & ds & G1 & R1 & _).
  destruct (read_rs_generated iter2 a r2 Hf2 Hn Hl Hr2 titer2 Ht2 ver2 now2 Hv2 Hn2) as (s2 & G2 & R2).
  exists s1, s2, ds, (class_of (r_export r1)), (rs_module_of titer2 r2), (TStruct (x_fields (r_export r1))), (TStruct (x_fields (r_export r2))).
  destruct (type_check_result _ _ _ Hf1 Hn Hr1) as (Hy1 & _). destruct (type_check_result _ _ _ Hf2 Hn Hr2) as (Hy2 & _).
  assert (x_name (r_export r1) = x_name (r_export r2)) as En by congruence.
  split; [done|]. split; [done|]. split; [done|]. split; [done|]. split; [done|]. split; [exact En|]. cbn [rs_module_of rm_type].
  split; [rewrite <- En; eapply (entry_denotes iter1); [done..|by eapply (export_entry iter1)]|].
  split; [eapply (entry_denotes iter2); [done..|by eapply (export_entry iter2)]|]. by apply HP.
Qed.
Lemma apart_fixed iter1 iter2 a (P : cls -> rs_module -> rtype -> Prop) : fair_order iter1 -> fair_order iter2 -> all_fixed a ->
  for_both a P -> for_apart iter1 iter2 a (fun k t1 m t2 => P k m t2).
Proof.
  intros Hf1 Hf2 Hx HP r1 r2 ver1 ver2 now1 now2 titer1 titer2 Hl Ht1 Ht2 Hv1 Hv2 Hn1 Hn2 Hr1 Hr2. pose proof (legal_no_builtin _ Hl) as Hn.
  destruct (HP iter2 r2 ver2 now2 titer2 Hf2 Hl Hr2 Ht2 Hv2 Hn2) as (s0 & s2 & ds0 & k & m & t & G0 & G2 & R0 & R2 & E & K & D & H).
  destruct (read_generated iter1 a r1 Hf1 Hn Hl Hr1 ver1 now1 titer1 Ht1 Hv1 Hn1) as (s1 & ds & G1 & R1 & _).
  destruct (read_generated iter2 a r2 Hf2 Hn Hl Hr2 ver2 now2 titer2 Ht2 Hv2 Hn2) as (s0' & ds0' & G0' & R0' & _).
  rewrite G0 in G0'. injection G0' as <-. rewrite R0 in R0'. injection R0' as _ ->.
  rewrite <- (fixed_same_code _ _ _ _ _ Hf1 Hf2 Hn Hr1 Hr2 Hx) in H, K.
  exists s1, s2, ds, (class_of (r_export r1)), m, t, t. do 8 (split; [done|]). exact H.
Qed.
Lemma languages_interop a rt lib rt_str str_ok both iter1 iter2 : rt_ok rt rt_str -> rs_lib_ok lib str_ok -> same_format rt lib both ->
  (forall s, both s -> str_ok s) -> small_enums a -> rust_names a -> all_fixed a -> fair_order iter1 -> fair_order iter2 ->
  for_apart iter1 iter2 a (fun k t1 m t2 => names_fine a k -> exists d, default_value (rm_items m) (rm_type m) = Some d /\
  forall v x h this, stands str_ok t2 (rm_type m) x v -> strings_in both v -> rep h this v ->
    exists bytes M, writes rt k h this (Done (bytes, M)) /\ rs_write lib m x = Some bytes /\ forall rest h',
      (exists l M, reads rt k h' (bytes ++ rest) (Done (JLoc l, M)) /\ rep (m_heap M) (JLoc l) v /\ r_rest (m_rd M) = rest) /\
      (exists i, rs_read lib m d (bytes ++ rest) = Good x i /\ ri_bytes i = rest)).
Proof.
  intros Hrt Hlib Hsf Hboth Hs Hrn Hx Hf1 Hf2. exact (apart_fixed iter1 iter2 a _ Hf1 Hf2 Hx (both_interoperate a rt lib rt_str str_ok both Hrt Hlib Hsf Hboth Hs Hrn)).
Qed.
