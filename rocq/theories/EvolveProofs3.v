(** Two versions of a packet, the second with more variants of enums. *)
From Verif Require Export EvolveProofs2.

(** ** Types of the same structure: [E] relates the enums, [F] the names of fields *)
Section alike.
  Context (E : enum -> enum -> Prop) (F : string -> string -> Prop).
  Inductive alike : rtype -> rtype -> Prop :=
  | al_builtin b : alike (TBuiltin b) (TBuiltin b)
  | al_enum e1 e2 : E e1 e2 -> alike (TEnum e1) (TEnum e2)
  | al_struct fs1 fs2 : Forall2 alike_field fs1 fs2 -> alike (TStruct fs1) (TStruct fs2)
  with alike_field : sfield -> sfield -> Prop :=
  | al_field n1 tn1 t1 n2 tn2 t2 arr opt : F n1 n2 -> F tn1 tn2 -> alike t1 t2 -> alike_field (SField n1 tn1 t1 arr opt) (SField n2 tn2 t2 arr opt).
End alike.

Lemma same_content_refl v : same_content v v.
Proof.
  induction v as [n|s| |l IH|l IH] using value_ind'; cbn; try done.
  - induction IH; done.
  - induction IH as [|[f v] l H _ IH']; done.
Qed.
Lemma same_content_arr l k : same_content (VArr l) (VArr k) <-> Forall2 same_content l k.
Proof.
  cbn. revert k. induction l as [|v l IH]; intros [|w k]; split; try done; try (by inversion 1).
  - intros [H1 H2]. constructor; [done|]. by apply IH.
  - inversion 1; subst. split; [done|]. by apply IH.
Qed.
Lemma alike_wire enc encs (E : enum -> enum -> Prop) (F : string -> string -> Prop) t1 : (forall e1 e2, E e1 e2 -> e_repr e1 = e_repr e2) -> forall t2 v w, alike E F t1 t2 -> same_content v w ->
  wire enc encs t1 v = wire enc encs t2 w.
Proof.
  intros HE. induction t1 as [b|e|fs IH] using rtype_ind'; intros t2 v w Ha Hc; inversion Ha as [|? e2 He|? fs2 Hm]; subst.
  - destruct v, w; cbn in Hc; try done; by subst.
  - cbn [wire]. rewrite (HE _ _ He). destruct v, w; cbn in Hc; try done. by subst.
  - destruct v as [| | |vs|], w as [| | |ws|]; try done. rewrite !wire_struct. clear Ha. revert vs ws Hc.
    induction Hm as [|f g fs fs2 Hf Hm IHm]; intros [|[x v] vs] [|[y w] ws] Hc; try done. destruct Hc as [Hc1 Hc2].
    apply Forall_cons in IH as [IH1 IH2]. cbn [fields_wire]. fold (fields_wire enc encs). f_equal; [|by apply IHm]. inversion Hf; subst; cbn in *.
    assert (forall v w, same_content v w -> (if arr then match v with VArr l => count enc (length l) ++ concat (map (wire enc encs t1) l) | _ => [] end else wire enc encs t1 v) =
      (if arr then match w with VArr l => count enc (length l) ++ concat (map (wire enc encs t2) l) | _ => [] end else wire enc encs t2 w)) as Hin.
    { intros v' w' Hc. destruct arr; [|by apply IH1]. destruct v' as [| |l| |], w' as [| |k| |]; try done. apply same_content_arr in Hc.
      f_equal; [by rewrite (Forall2_length _ _ _ Hc)|]. f_equal. induction Hc; cbn; [done|]. f_equal; [by apply IH1|done]. }
    unfold wire_wrapped. destruct opt; [|by apply Hin]. specialize (Hin v w Hc1). destruct v, w; try done; by rewrite Hin.
Qed.
Lemma alike_shape (en en' : enum -> num -> Prop) sok (E : enum -> enum -> Prop) t1 : (forall e1 e2 n, E e1 e2 -> en e1 n -> en' e2 n) -> forall t2 v, alike E eq t1 t2 -> shape en sok t1 v -> shape en' sok t2 v.
Proof.
  intros HE. induction t1 as [b|e|fs IH] using rtype_ind'; intros t2 v Ha Hv; inversion Ha as [|? e2 He|? fs2 Hm]; subst.
  - done.
  - destruct Hv as (n & -> & Hn). exists n. split; [done|]. by eapply HE.
  - apply shape_struct in Hv as (vs & -> & Hv). apply shape_struct. exists vs. split; [done|]. clear Ha. revert vs Hv.
    induction Hm as [|f g fs fs2 Hf Hm IHm]; intros [|[x v] vs] Hv; try done. destruct Hv as (-> & Hw & Hv). apply Forall_cons in IH as [IH1 IH2].
    inversion Hf; subst. split; [done|]. split; [|by apply IHm]. eapply wrapped_mono; [|exact Hw]. intros v' Hv'. by apply IH1.
Qed.

(** ** decoders that accept more *)
Definition agrees {A} (d1 d2 : rstate -> A * rstate) : Prop := forall r, r_failed (d1 r).2 = false -> d2 r = d1 r.
Lemma sticky_ok (d : decoder) r : sticky d -> r_failed (d r).2 = false -> r_failed r = false.
Proof. intros Hs H. destruct (r_failed r) eqn:E; [|done]. apply Hs in E. congruence. Qed.
Lemma agrees_times n d1 d2 : sticky d1 -> agrees d1 d2 -> agrees (dec_times n d1) (dec_times n d2).
Proof.
  intros Hs Ha. induction n as [|n IH]; intros r Hf; [done|]. cbn [dec_times] in *. specialize (Ha r). destruct (d1 r) as [v r1].
  assert (r_failed r1 = false) as H1. { destruct (r_failed r1) eqn:E; [|done]. pose proof (sticky_times n d1 Hs r1 E). destruct (dec_times n d1 r1). cbn in *. congruence. }
  rewrite (Ha H1). specialize (IH r1). destruct (dec_times n d1 r1) as [vs r2]. by rewrite (IH Hf).
Qed.
Lemma agrees_wrap rt str_ok a o d1 d2 : rt_ok rt str_ok -> sticky d1 -> agrees d1 d2 -> agrees (dec_wrap rt a o d1) (dec_wrap rt a o d2).
Proof.
  intros Hrt Hs Ha. assert (agrees (if a then dec_arr rt d1 else d1) (if a then dec_arr rt d2 else d2)) as Hin.
  { destruct a; [|done]. intros r Hf. unfold dec_arr in *. destruct (read_num rt KU32 r) as [n r1]. pose proof (agrees_times (Z.to_nat (int_of n)) d1 d2 Hs Ha r1) as H.
    destruct (dec_times _ d1 r1) as [vs r2]. by rewrite (H Hf). }
  unfold dec_wrap. destruct o; [|done]. intros r Hf. unfold dec_opt in *. destruct (read_num rt KU8 r) as [n r1]. case_decide; [by apply Hin|done].
Qed.
Lemma agrees_dec rt str_ok (E : enum -> enum -> Prop) t1 : rt_ok rt str_ok -> (forall e1 e2, E e1 e2 -> e_repr e1 = e_repr e2 /\ enum_lo e1 = enum_lo e2 /\ (enum_hi e1 <= enum_hi e2)%Z) ->
  forall t2, alike E eq t1 t2 -> agrees (dec rt t1) (dec rt t2).
Proof.
  intros Hrt HE. induction t1 as [b|e|fs IH] using rtype_ind'; intros t2 Ha r Hf; inversion Ha as [|? e2 He|? fs2 Hm]; subst.
  - done.
  - destruct (HE _ _ He) as (H1 & H2 & H3). cbn [dec] in *. unfold dec_enum in *. rewrite <- H1. destruct (read_num rt _ r) as [n r1].
    case_decide as D; [|done]. rewrite decide_True; [done|lia].
  - rewrite !dec_struct_eq in *. cbn [snd] in Hf. assert (dec_fields rt fs2 r = dec_fields rt fs r) as ->; [|done]. clear Ha. revert r Hf.
    induction Hm as [|f g fs fs2 Hf' Hm IHm]; intros r Hf; [done|]. apply Forall_cons in IH as [IH1 IH2]. rewrite !dec_fields_cons in *. cbn [snd] in Hf.
    assert (r_failed (dec_field rt f r).2 = false) as H1.
    { destruct (r_failed (dec_field rt f r).2) eqn:E1; [|done]. pose proof (dec_fields_sticky rt str_ok Hrt fs _ E1). congruence. }
    assert (dec_field rt g r = dec_field rt f r) as ->.
    { inversion Hf'; subst. unfold dec_field in *. cbn [f_array f_opt f_ty] in *. eapply agrees_wrap; [done|by eapply sticky_dec| |done]. by apply IH1. }
    rewrite (IHm IH2 _ Hf). inversion Hf'; subst. done.
Qed.

(** ** Enums that grow *)
Definition enum_grows (e1 e2 : enum) : Prop := exists r vs more, e1 = Enum r (imap (fun i v => EnumVariant v i) vs) /\
  e2 = Enum r (imap (fun i v => EnumVariant v i) (vs ++ more)) /\ 1 <= length vs /\ length (vs ++ more) <= 31.
Lemma numbered vs i x : imap (fun i v => EnumVariant v i) vs !! i = Some x <-> exists v, vs !! i = Some v /\ x = EnumVariant v i.
Proof. rewrite list_lookup_imap. destruct (vs !! i) as [v|]; cbn; split; [intros [= <-]; eauto|by intros (? & [= ->] & ->)|done|by intros (? & ? & _)]. Qed.
Lemma numbered_declared r vs n : declared (Enum r (imap (fun i v => EnumVariant v i) vs)) n <-> exists i, i < length vs /\ n = variant_value i.
Proof.
  split.
  - intros (x & [i Hi]%elem_of_list_lookup & ->). apply numbered in Hi as (v & Hv & ->). exists i. split; [by eapply lookup_lt_Some|done].
  - intros (i & Hi & ->). destruct (lookup_lt_is_Some_2 _ _ Hi) as [v Hv]. exists (EnumVariant v i). split; [|done]. eapply elem_of_list_lookup_2, numbered. eauto.
Qed.
Lemma numbered_bounds r vs : 1 <= length vs <= 31 -> enum_lo (Enum r (imap (fun i v => EnumVariant v i) vs)) = 1%Z /\
  enum_hi (Enum r (imap (fun i v => EnumVariant v i) vs)) = (2 ^ Z.of_nat (length vs - 1))%Z.
Proof.
  intros HL. destruct vs as [|v vs]; [cbn in HL; lia|]. split; [done|]. unfold enum_hi. cbn [e_variants].
  change (shl1 (ev_value (List.last (imap (fun j w => EnumVariant w j) (v :: vs)) (EnumVariant v 0))) = (2 ^ Z.of_nat (length (v :: vs) - 1))%Z).
  rewrite (last_imap _ _ v) by done. cbn [ev_value]. by rewrite shl1_pow by lia.
Qed.
Lemma grows_bounds e1 e2 : enum_grows e1 e2 -> e_repr e1 = e_repr e2 /\ enum_lo e1 = enum_lo e2 /\ (enum_hi e1 <= enum_hi e2)%Z.
Proof.
  intros (r & vs & more & -> & -> & H1 & H2). rewrite app_length in H2. destruct (numbered_bounds r vs) as [-> ->]; [lia|].
  destruct (numbered_bounds r (vs ++ more)) as [-> ->]; [rewrite app_length; lia|]. split; [done|]. split; [done|]. rewrite app_length. apply Z.pow_le_mono_r; lia.
Qed.
Lemma grows_declared e1 e2 n : enum_grows e1 e2 -> declared e1 n -> declared e2 n.
Proof. intros (r & vs & more & -> & -> & _). rewrite !numbered_declared, app_length. intros (i & Hi & ->). exists i. split; [lia|done]. Qed.
Lemma grows_back e1 e2 n : enum_grows e1 e2 -> declared e2 n -> from_first_to_last e1 n -> declared e1 n.
Proof.
  intros (r & vs & more & -> & -> & H1 & H2). rewrite !numbered_declared. intros (i & Hi & ->) (z & Hz & HL). exists i. split; [|done].
  unfold variant_value in Hz. rewrite decide_False in Hz by lia. injection Hz as <-. cbn [e_variants] in HL. rewrite imap_length in HL.
  destruct (decide (i < length vs)) as [|Hn]; [done|]. exfalso. assert (2 ^ (Z.of_nat (length vs) - 1) < 2 ^ Z.of_nat i)%Z; [|lia]. apply Z.pow_lt_mono_r; lia.
Qed.

Lemma grown_alike a1 a2 : valid_schema a1 -> valid_schema a2 -> no_builtin_decl a1 -> no_builtin_decl a2 -> small_enums a2 -> forall e, (forall n, needed a1 e n ->
    (forall fs, declares_struct a1 n fs -> declares_struct a2 n fs) /\
    (forall vs, declares_enum a1 n vs -> exists more, declares_enum a2 n (vs ++ more) /\
       forall r, smallest_repr (length vs) r -> smallest_repr (length (vs ++ more)) r)) ->
  forall t1 n t2, needed a1 e n -> denotes eq a1 n t1 -> denotes eq a2 n t2 -> alike enum_grows eq t1 t2.
Proof.
  intros V1 V2 Hn1 Hn2 Hs e Hg. induction t1 as [b|en|rs IH] using rtype_ind'; intros n t2 Hn H1 H2; inversion H1 as [? ? Hb|? vs rp Hd Hrp|? fs ds ? Hd Ha Hm]; subst.
  - inversion H2 as [? b2 Hb2|? vs rp Hd _|? fs ds ? Hd _ _]; subst; [assert (b2 = b) as -> by congruence; constructor|exfalso; eapply (decl_not_builtin a2 Hn2), builtin_names_spec; [exact Hd|by eauto]..].
  - destruct (Hg n Hn) as [_ Hge]. destruct (Hge _ Hd) as (more & Hd2 & Hr).
    assert (denotes eq a2 n (TEnum (Enum rp (imap (fun i v => EnumVariant v i) (vs ++ more))))) as H3 by (constructor; [done|by apply Hr]).
    rewrite (denotes_eq_unique a2 (vs_decls _ V2) Hn2 _ _ _ H2 H3). constructor. exists rp, vs, more. split; [done|]. split; [done|].
    split; [by apply (vs_enums _ V1 _ _ Hd)|by eapply Hs].
  - destruct (Hg n Hn) as [Hgs _]. pose proof (Hgs _ Hd) as Hd2.
    inversion H2 as [? ? Hb|? vs rp Hd3 _|? fs2 ds2 rs2 Hd3 Ha2 Hm2]; subst.
    + exfalso. eapply (decl_not_builtin a2 Hn2), builtin_names_spec; [exact Hd2|by eauto].
    + pose proof (decl_unique _ _ _ _ (vs_decls _ V2) Hd2 Hd3) as [=].
    + pose proof (decl_unique _ _ _ _ (vs_decls _ V2) Hd2 Hd3) as [= <-]. constructor.
      assert (forall d, d ∈ fs -> needed a1 e (u_name d.2)) as Hin.
      { intros [f u] Hd'. eapply rtc_r; [exact Hn|]. by exists fs, f, u. }
      clear H1 H2 Hd Hd2 Hd3. revert rs2 Hm2. induction Hm as [|d f fs rs Hf Hm IHm]; intros rs2 Hm2; inversion Hm2 as [|? f2 ? rs3 Hf2 Hm3]; subst; constructor; apply Forall_cons in IH as [IH1 IH2].
      * inversion Hf; subst. inversion Hf2; subst. constructor; [done|done|]. eapply IH1; [|done..]. apply (Hin (f0, u)). left.
      * apply IHm; [done| |done]. intros d' Hd'. apply Hin. by right.
Qed.
Section grown.
  Context (a1 a2 : ast) (iter1 iter2 : gmap string atype -> list (string * atype)) (r1 r2 : resolved).
  Context (Hf1 : fair_order iter1) (Hf2 : fair_order iter2) (Hn1 : no_builtin_decl a1) (Hn2 : no_builtin_decl a2).
  Context (Hr1 : type_check iter1 a1 = Ok r1) (Hr2 : type_check iter2 a2 = Ok r2) (Hx1 : all_fixed a1) (Hx2 : all_fixed a2).
  Lemma grown_export : small_enums a2 -> grown a1 a2 -> alike enum_grows eq (TStruct (x_fields (r_export r1))) (TStruct (x_fields (r_export r2))).
  Proof.
    intros Hs (e & He1 & He2 & Hg). destruct (type_check_result _ _ _ Hf1 Hn1 Hr1) as (Hy1 & _). destruct (type_check_result _ _ _ Hf2 Hn2 Hr2) as (Hy2 & _).
    eapply (grown_alike a1 a2) with (e := e) (n := e); [by eapply (result_valid iter1)|by eapply (result_valid iter2)|done|done|done|exact Hg|apply rtc_refl| |].
    - replace e with (x_name (r_export r1)) by congruence. apply (entry_denotes_fixed iter1 a1 r1 Hf1 Hn1 Hr1 Hx1); [apply rtc_refl|exact (export_entry _ _ _ Hf1 Hn1 Hr1)].
    - replace e with (x_name (r_export r2)) by congruence. apply (entry_denotes_fixed iter2 a2 r2 Hf2 Hn2 Hr2 Hx2); [apply rtc_refl|exact (export_entry _ _ _ Hf2 Hn2 Hr2)].
  Qed.
End grown.
Lemma new_reads_old_enums a1 a2 rt str_ok : rt_ok rt str_ok -> small_enums a2 -> all_fixed a1 -> all_fixed a2 -> grown a1 a2 ->
  for_versions a1 a2 (fun k1 t1 k2 t2 => write_ready k1 -> names_fine a2 k2 -> forall v h this bytes M h',
    has_type str_ok t1 v -> rep h this v -> writes rt k1 h this (Done (bytes, M)) ->
    exists l M', reads rt k2 h' bytes (Done (JLoc l, M')) /\ rep (m_heap M') (JLoc l) v).
Proof.
  intros Hrt Hs Hx1 Hx2 Hg. apply for_versions_intro; [done..|]. intros iter1 r1 iter2 r2 Hf1 Hf2 Hn1 Hn2 Hr1 Hr2 Hk1 Hk2 v h this bytes M h' Hv Hrep Hw.
  pose proof (grown_export _ _ _ _ _ _ Hf1 Hf2 Hn1 Hn2 Hr1 Hr2 Hx1 Hx2 Hs Hg) as Ha.
  destruct (writes_wire rt _ _ _ Hf1 Hn1 Hr1 Hk1 v h this (any_typed _ _ _ _ Hv) Hrep) as (M2 & Hw' & _).
  assert (bytes = wire (rt_enc rt) (rt_encs rt) (TStruct (x_fields (r_export r1))) v) as -> by (pose proof (writes_det _ _ _ _ _ _ Hw Hw'); congruence). clear Hw Hw'.
  rewrite (alike_wire _ _ _ _ _ (fun e1 e2 H => proj1 (grows_bounds e1 e2 H)) _ v v Ha (same_content_refl v)).
  destruct (reads_wire rt str_ok _ _ _ Hf2 Hn2 Hr2 Hrt Hs Hk2 v h' []) as (l & M' & H1 & H2 & _).
  { eapply alike_shape; [|exact Ha|exact Hv]. intros. by eapply grows_declared. }
  rewrite app_nil_r in H1. by exists l, M'.
Qed.
Lemma alike_back (sok : jstr -> Prop) t1 : forall t2 v, alike enum_grows eq t1 t2 -> shape declared sok t2 v -> shape from_first_to_last any_string t1 v -> shape declared sok t1 v.
Proof.
  induction t1 as [b|e|fs IH] using rtype_ind'; intros t2 v Ha Hv Hx; inversion Ha as [|? e2 He|? fs2 Hm]; subst.
  - done.
  - destruct Hv as (n & -> & Hn). destruct Hx as (m & [= <-] & Hx). exists n. split; [done|]. by eapply grows_back.
  - apply shape_struct in Hv as (vs & -> & Hv). apply shape_struct in Hx as (? & [= <-] & Hx). apply shape_struct. exists vs. split; [done|]. clear Ha. revert vs Hv Hx.
    induction Hm as [|f g fs fs2 Hf Hm IHm]; intros [|[x v] vs] Hv Hx; try done. destruct Hv as (-> & Hw & Hv), Hx as (Hname & Hw2 & Hx). apply Forall_cons in IH as [IH1 IH2].
    inversion Hf; subst. split; [done|]. split; [|by apply IHm]. cbn in Hw, Hw2 |- *. destruct Hw as [?|Hw]; [by left|]. right.
    destruct arr.
    + destruct Hw as (l & -> & HL & HA). destruct Hw2 as [[_ [=]]|(? & [= <-] & _ & HB)]. exists l. split; [done|]. split; [done|].
      rewrite Forall_forall in *. intros y Hy. eapply IH1; eauto.
    + destruct Hw2 as [[_ ->]|Hw2]; [by apply shape_not_none in Hw|]. eapply IH1; eauto.
Qed.
Lemma old_reads_new_enums a1 a2 rt str_ok : rt_ok rt str_ok -> small_enums a1 -> small_enums a2 -> all_fixed a1 -> all_fixed a2 -> grown a1 a2 ->
  for_versions a1 a2 (fun k1 t1 k2 t2 => names_fine a1 k1 -> write_ready k2 -> forall v h this bytes M h',
    has_type str_ok t2 v -> rep h this v -> writes rt k2 h this (Done (bytes, M)) ->
    (has_type str_ok t1 v /\ exists l M', reads rt k1 h' bytes (Done (JLoc l, M')) /\ rep (m_heap M') (JLoc l) v) \/
    (~ has_type str_ok t1 v /\ exists M', reads rt k1 h' bytes (Done (JNull, M')))).
Proof.
  intros Hrt Hs1 Hs2 Hx1 Hx2 Hg. apply for_versions_intro; [done..|]. intros iter1 r1 iter2 r2 Hf1 Hf2 Hn1 Hn2 Hr1 Hr2 Hk1 Hk2 v h this bytes M h' Hv Hrep Hw.
  pose proof (grown_export _ _ _ _ _ _ Hf1 Hf2 Hn1 Hn2 Hr1 Hr2 Hx1 Hx2 Hs2 Hg) as Ha.
  destruct (writes_wire rt _ _ _ Hf2 Hn2 Hr2 Hk2 v h this (any_typed _ _ _ _ Hv) Hrep) as (M2 & Hw' & _).
  assert (bytes = wire (rt_enc rt) (rt_encs rt) (TStruct (x_fields (r_export r2))) v) as -> by (pose proof (writes_det _ _ _ _ _ _ Hw Hw'); congruence). clear Hw Hw'.
  set (w := wire _ _ _ v). destruct (fine_reads _ _ _ Hf1 Hn1 Hr1 rt str_ok h' w Hrt Hk1) as (M1 & props & H1 & _). cbn zeta in H1.
  assert (has_type str_ok (TStruct (x_fields (r_export r1))) v -> exists l M', reads rt (class_of (r_export r1)) h' w (Done (JLoc l, M')) /\ rep (m_heap M') (JLoc l) v) as Hread.
  { intros Hv1. destruct (reads_wire rt str_ok _ _ _ Hf1 Hn1 Hr1 Hrt Hs1 Hk1 v h' [] Hv1) as (l & M' & H2 & H3 & _). rewrite app_nil_r in H2.
    rewrite (alike_wire _ _ _ _ _ (fun e1 e2 H => proj1 (grows_bounds e1 e2 H)) _ v v Ha (same_content_refl v)) in H2. by exists l, M'. }
  destruct (r_failed (dec rt (TStruct (x_fields (r_export r1))) (RState w false 0)).2) eqn:Efail.
  - right. split; [|by exists M1]. intros Hv1. destruct (Hread Hv1) as (l & M' & H2 & _). pose proof (reads_det _ _ _ _ _ _ H1 H2) as [=].
  - left. assert (has_type str_ok (TStruct (x_fields (r_export r1))) v) as Hv1; [|by split; [|apply Hread]].
    destruct (reads_typed rt str_ok _ _ _ Hf1 Hn1 Hr1 Hrt Hk1 h' w _ M1 H1) as (v1 & _ & Hsh & Hv1 & _).
    pose proof (agrees_dec rt str_ok _ _ Hrt grows_bounds _ Ha (RState w false 0) Efail) as Hag.
    destruct (dec_inverts rt str_ok Hrt _ (export_readable _ _ _ Hf2 Hn2 Hr2 Hs2) v [] 0 Hv) as [c' Hinv]. rewrite app_nil_r in Hinv. fold w in Hinv.
    rewrite <- Hag, Hinv in Hv1. cbn in Hv1. subst v1. by eapply alike_back.
Qed.
