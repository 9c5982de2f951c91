(** The statements of PropWire.v, proved from the simulations and the codec lemmas. *)
From Verif Require Export WireProofs.

(** ** the denoted type *)
Section result.
  Context iter a r (Hfair : fair_order iter) (Hnb : no_builtin_decl a) (Hr : type_check iter a = Ok r).

  Lemma entry_denotes : forall t n, r_types r !! n = Some (n, t) -> denotes Permutation a n t.
  Proof.
    destruct (type_check_result _ _ _ Hfair Hnb Hr) as (_ & _ & _ & Hent).
    induction t as [b|e|rs IH] using rtype_ind'; intros n Hn;
      destruct (Hent _ _ _ Hn) as [_ [(b' & Hb & [=])|[(vs & rp & Hd & Hrp & [=])|(fs & ds & rs' & Hd & Hp & Hm & [=])]]]; subst.
    - by constructor.
    - by constructor.
    - econstructor; [exact Hd|exact Hp|]. clear Hn Hd Hp. induction Hm as [|[f u] rf ds rs (E1 & E2 & E3 & E4 & E5) Hm IHm]; [constructor|].
      apply Forall_cons in IH as [IH1 IH2]. constructor; [|by apply IHm]. cbn in *. destruct rf as [g tn t ar op]. cbn in *. subst.
      constructor. by apply IH1.
  Qed.
  Lemma entry_denotes_fixed : all_fixed a -> forall t n, needed a (x_name (r_export r)) n -> r_types r !! n = Some (n, t) -> denotes eq a n t.
  Proof.
    intros Hfix. pose proof (type_check_result _ _ _ Hfair Hnb Hr) as (Hexp & _ & Hdom & Hent).
    induction t as [b|e|rs IH] using rtype_ind'; intros n Hneed Hn;
      destruct (Hent _ _ _ Hn) as [_ [(b' & Hb & [=])|[(vs & rp & Hd & Hrp & [=])|(fs & ds & rs' & Hd & Hp & Hm & [=])]]]; subst.
    - by constructor.
    - by constructor.
    - destruct (order_fixed_keeps _ _ _ _ _ Hfair Hnb Hr Hneed Hd (Hfix _ _ _ Hexp Hneed Hd)) as (rs & Hrs & Hm').
      rewrite Hn in Hrs. injection Hrs as <-. clear Hm Hp ds. econstructor; [exact Hd|reflexivity|].
      assert (forall f, f ∈ rs' -> needed a (x_name (r_export r)) (f_tname f)) as Hneeds.
      { intros f Hf. destruct (entry_struct _ _ _ Hfair Hnb Hr _ _ _ Hn Hf) as (? & ? & _ & _ & _ & _ & _ & H). apply Hdom. by eexists. }
      clear Hn Hd Hneed. induction Hm' as [|[f u] rf ds rs (E1 & E2 & E3 & E4 & E5) Hm IHm]; [constructor|].
      apply Forall_cons in IH as [IH1 IH2]. constructor; [|apply IHm; [done|]].
      2: { intros g Hg. apply Hneeds. by right. }
      pose proof (Hneeds rf ltac:(left)) as Hrf. cbn in *. destruct rf as [g tn t ar op]. cbn in *. subst.
      constructor. by apply IH1.
  Qed.
End result.

Lemma for_code_intro a (P : cls -> rtype -> Prop) :
  (forall iter r, fair_order iter -> no_builtin_decl a -> type_check iter a = Ok r -> P (class_of (r_export r)) (TStruct (x_fields (r_export r)))) ->
  for_code a P.
Proof.
  intros HP. apply for_text_intro. intros iter r titer Hf Hn Hr Ht. exists (x_name (r_export r)), (TStruct (x_fields (r_export r))).
  split; [by eapply type_check_result|]. split; [done|].
  split; [eapply entry_denotes; [done..|by eapply export_entry]|]. by eapply HP.
Qed.
Lemma for_code_declared_intro a (P : cls -> rtype -> Prop) : all_fixed a ->
  (forall iter r, fair_order iter -> no_builtin_decl a -> type_check iter a = Ok r -> P (class_of (r_export r)) (TStruct (x_fields (r_export r)))) ->
  for_code_declared a P.
Proof.
  intros Hfix HP. apply for_text_intro. intros iter r titer Hf Hn Hr Ht. exists (x_name (r_export r)), (TStruct (x_fields (r_export r))).
  split; [by eapply type_check_result|]. split; [done|].
  split; [eapply entry_denotes_fixed; [done..|apply rtc_refl|by eapply export_entry]|]. by eapply HP.
Qed.

Lemma nf_ready a k : names_fine a k -> write_ready k.
Proof.
  intros [Hl Hp _ _]. split; [done|]. intros E. revert Hp. unfold prologue. rewrite E. repeat case_decide; try done.
  by match goal with H : _ ∉ [_; _; _; _] |- _ => contradict H; apply (bool_decide_unpack _) end.
Qed.

(** ** C24 *)
Lemma writes_wire rt iter a r : fair_order iter -> no_builtin_decl a -> type_check iter a = Ok r ->
  let k := class_of (r_export r) in let t := TStruct (x_fields (r_export r)) in
  write_ready k -> forall v h this, writable t v -> rep h this v ->
    exists M, writes rt k h this (Done (wire (rt_enc rt) (rt_encs rt) t v, M)) /\ m_heap M = h.
Proof. intros Hf Hn Hr k t Hl v h this Hv Hrep. apply writes_of; [done|by eapply export_checked|done|done]. Qed.
Lemma any_typed en str_ok t v : shape en str_ok t v -> writable t v.
Proof.
  apply shape_mono; [|done]. induction t as [b|e|fs IH] using rtype_ind'; [exact I|exact (fun n Hn => I)|]. apply all_enums_struct. by apply Forall_forall.
Qed.
Lemma code_writes a rt : for_code a (fun k t => write_ready k -> forall v h this, writable t v -> rep h this v ->
  exists M, writes rt k h this (Done (wire (rt_enc rt) (rt_encs rt) t v, M))).
Proof. apply for_code_intro. intros iter r Hf Hn Hr Hl v h this Hv Hrep. destruct (writes_wire rt _ _ _ Hf Hn Hr Hl v h this Hv Hrep) as (M & H & _). by exists M. Qed.
Lemma code_writes_declared a rt : all_fixed a -> for_code_declared a (fun k t => write_ready k -> forall v h this, writable t v -> rep h this v ->
  exists M, writes rt k h this (Done (wire (rt_enc rt) (rt_encs rt) t v, M))).
Proof.
  intros Hfix. apply for_code_declared_intro; [done|]. intros iter r Hf Hn Hr Hl v h this Hv Hrep.
  destruct (writes_wire rt _ _ _ Hf Hn Hr Hl v h this Hv Hrep) as (M & H & _). by exists M.
Qed.

(** ** C25, C26 *)
Lemma reads_wire rt str_ok iter a r : fair_order iter -> no_builtin_decl a -> type_check iter a = Ok r -> rt_ok rt str_ok -> small_enums a ->
  let k := class_of (r_export r) in let t := TStruct (x_fields (r_export r)) in
  names_fine a k -> forall v h rest, has_type str_ok t v ->
    exists l M, reads rt k h (wire (rt_enc rt) (rt_encs rt) t v ++ rest) (Done (JLoc l, M)) /\ rep (m_heap M) (JLoc l) v /\ r_rest (m_rd M) = rest.
Proof.
  intros Hf Hn Hr Hrt Hs k t Hk v h rest Hv.
  destruct (fine_reads _ _ _ Hf Hn Hr rt str_ok h (wire (rt_enc rt) (rt_encs rt) t v ++ rest) Hrt Hk) as (M & props & H1 & H2 & _ & _ & _ & H6).
  destruct (dec_inverts rt str_ok Hrt t (export_readable _ _ _ Hf Hn Hr Hs) v rest 0 Hv) as [c' E]. fold t in H1, H2, H6. rewrite E in *.
  cbn [fst snd r_failed] in *. exists (length h), M. split; [exact H1|]. split; [|by rewrite H2]. eapply rep_in_rep. by apply H6.
Qed.
Lemma code_round_trip a rt str_ok : rt_ok rt str_ok -> small_enums a -> for_code a (fun k t => names_fine a k ->
  forall v h this, has_type str_ok t v -> rep h this v -> exists bytes M, writes rt k h this (Done (bytes, M)) /\
    exists l M', reads rt k (m_heap M) bytes (Done (JLoc l, M')) /\ rep (m_heap M') (JLoc l) v).
Proof.
  intros Hrt Hs. apply for_code_intro. intros iter r Hf Hn Hr Hk v h this Hv Hrep.
  destruct (writes_wire rt _ _ _ Hf Hn Hr (nf_ready _ _ Hk) v h this (any_typed _ _ _ _ Hv) Hrep) as (M & Hw & _).
  eexists _, M. split; [exact Hw|].
  destruct (reads_wire rt str_ok _ _ _ Hf Hn Hr Hrt Hs Hk v (m_heap M) [] Hv) as (l & M' & H1 & H2 & _). rewrite app_nil_r in H1. by exists l, M'.
Qed.
Lemma code_delimits a rt str_ok : rt_ok rt str_ok -> small_enums a -> for_code a (fun k t => names_fine a k ->
  forall v h this bytes M rest h', has_type str_ok t v -> rep h this v -> writes rt k h this (Done (bytes, M)) ->
    exists l M', reads rt k h' (bytes ++ rest) (Done (JLoc l, M')) /\ rep (m_heap M') (JLoc l) v /\ r_rest (m_rd M') = rest).
Proof.
  intros Hrt Hs. apply for_code_intro. intros iter r Hf Hn Hr Hk v h this bytes M rest h' Hv Hrep Hw.
  destruct (writes_wire rt _ _ _ Hf Hn Hr (nf_ready _ _ Hk) v h this (any_typed _ _ _ _ Hv) Hrep) as (M' & Hw' & _).
  pose proof (writes_det _ _ _ _ _ _ Hw Hw') as [= -> ->]. by apply (reads_wire rt str_ok iter a r).
Qed.
Lemma code_prefix_free a rt str_ok : rt_ok rt str_ok -> small_enums a -> for_code a (fun k t => write_ready k ->
  forall v1 v2 h1 h2 this1 this2 b1 b2 M1 M2, has_type str_ok t v1 -> has_type str_ok t v2 -> rep h1 this1 v1 -> rep h2 this2 v2 ->
    writes rt k h1 this1 (Done (b1, M1)) -> writes rt k h2 this2 (Done (b2, M2)) -> b1 `prefix_of` b2 -> v1 = v2).
Proof.
  intros Hrt Hs. apply for_code_intro. intros iter r Hf Hn Hr Hl v1 v2 h1 h2 this1 this2 b1 b2 M1 M2 Hv1 Hv2 Hr1 Hr2 Hw1 Hw2 [l ->].
  destruct (writes_wire rt _ _ _ Hf Hn Hr Hl v1 h1 this1 (any_typed _ _ _ _ Hv1) Hr1) as (M1' & Hw1' & _).
  destruct (writes_wire rt _ _ _ Hf Hn Hr Hl v2 h2 this2 (any_typed _ _ _ _ Hv2) Hr2) as (M2' & Hw2' & _).
  set (w1 := wire _ _ _ v1) in *. set (w2 := wire _ _ _ v2) in *. assert (b1 = w1) as -> by by pose proof (writes_det _ _ _ _ _ _ Hw1 Hw1') as [= -> _].
  assert (w1 ++ l = w2) as E by by pose proof (writes_det _ _ _ _ _ _ Hw2 Hw2') as [= -> _].
  pose proof (export_readable _ _ _ Hf Hn Hr Hs) as He.
  destruct (dec_inverts rt str_ok Hrt _ He v1 l 0 Hv1) as [c1 E1].
  destruct (dec_inverts rt str_ok Hrt _ He v2 [] 0 Hv2) as [c2 E2]. fold w1 in E1. fold w2 in E2. rewrite app_nil_r, <- E, E1 in E2. by injection E2.
Qed.

(** ** C27 *)
Lemma code_truncated a rt str_ok : rt_ok rt str_ok -> small_enums a -> for_code a (fun k t => names_fine a k ->
  forall v h this bytes M cut h', has_type str_ok t v -> rep h this v -> writes rt k h this (Done (bytes, M)) ->
    cut `prefix_of` bytes -> cut ≠ bytes -> exists M', reads rt k h' cut (Done (JNull, M'))).
Proof.
  intros Hrt Hs. apply for_code_intro. intros iter r Hf Hn Hr Hk v h this bytes M cut h' Hv Hrep Hw Hp Hne.
  destruct (writes_wire rt _ _ _ Hf Hn Hr (nf_ready _ _ Hk) v h this (any_typed _ _ _ _ Hv) Hrep) as (M' & Hw' & _).
  pose proof (writes_det _ _ _ _ _ _ Hw Hw') as [= -> ->].
  destruct (fine_reads _ _ _ Hf Hn Hr rt str_ok h' cut Hrt Hk) as (M2 & props & H1 & _).
  pose proof (dec_detects rt str_ok Hrt _ (export_readable _ _ _ Hf Hn Hr Hs) v cut 0 Hv Hp Hne) as E. cbn zeta in H1. rewrite E in H1. by exists M2.
Qed.

(** ** C28, C38 *)
Lemma code_never_throws a rt str_ok : rt_ok rt str_ok -> for_code a (fun k t => names_fine a k ->
  forall h data, exists x M, reads rt k h data (Done (x, M)) /\ (x = JNull \/ exists l, x = JLoc l)).
Proof.
  intros Hrt. apply for_code_intro. intros iter r Hf Hn Hr Hk h data.
  destruct (fine_reads _ _ _ Hf Hn Hr rt str_ok h data Hrt Hk) as (M2 & props & H1 & _). eexists _, M2. split; [exact H1|].
  destruct (r_failed _); eauto.
Qed.
Lemma code_no_effect a rt str_ok : rt_ok rt str_ok -> for_code a (fun k t =>
  (names_fine a k -> forall h data x M, reads rt k h data (Done (x, M)) -> forall p, p < length h -> m_heap M !! p = h !! p) /\
  (write_ready k -> forall v h this bytes M, writable t v -> rep h this v -> writes rt k h this (Done (bytes, M)) -> m_heap M = h)).
Proof.
  intros Hrt. apply for_code_intro. intros iter r Hf Hn Hr. split.
  - intros Hk h data x M Hrd. destruct (fine_reads _ _ _ Hf Hn Hr rt str_ok h data Hrt Hk) as (M2 & props & H1 & _ & H3 & _).
    pose proof (reads_det _ _ _ _ _ _ Hrd H1) as [= _ ->]. exact H3.
  - intros Hl v h this bytes M Hv Hrep Hw. destruct (writes_wire rt _ _ _ Hf Hn Hr Hl v h this Hv Hrep) as (M' & Hw' & HM).
    by pose proof (writes_det _ _ _ _ _ _ Hw Hw') as [= _ ->].
Qed.

(** ** C29 *)
Lemma in_range_between e n : good_enum e -> in_range e n -> from_first_to_last e n.
Proof.
  intros (m & Hm & HL & Hb & Hlo & Hhi & Hx)%good_enum_bounds (z & -> & Hz). exists z. split; [done|]. rewrite HL. rewrite Hlo, Hhi in Hz.
  replace (shl1 0) with 1%Z in Hz by done. replace (Z.of_nat m - 1)%Z with (Z.of_nat (m - 1)) by lia.
  destruct (decide (m = 32)) as [->|]; [exfalso; cbn in Hz; lia|]. rewrite shl1_pow in Hz by lia. done.
Qed.
Lemma between_declared e n : good_enum e -> length (e_variants e) <= 2 -> from_first_to_last e n -> declared e n.
Proof.
  intros (vs & rp & Hlen & _ & _ & ->) Hs (z & -> & Hz). cbn [e_variants] in *. rewrite imap_length in *.
  destruct vs as [|v [|w [|]]]; cbn in Hlen, Hs; try lia; unfold declared; cbn [e_variants imap].
  - exists (EnumVariant v 0). split; [left|]. change (2 ^ (Z.of_nat (length [v]) - 1))%Z with 1%Z in Hz. by replace z with 1%Z by lia.
  - assert (z = 1%Z \/ z = 2%Z) as [->| ->] by (change (2 ^ (Z.of_nat (length [v; w]) - 1))%Z with 2%Z in Hz; lia); [exists (EnumVariant v 0); split; [left|done]|exists (EnumVariant w 1); split; [right; left|done]].
Qed.
Lemma reads_typed rt str_ok iter a r : fair_order iter -> no_builtin_decl a -> type_check iter a = Ok r -> rt_ok rt str_ok ->
  let k := class_of (r_export r) in let t := TStruct (x_fields (r_export r)) in
  names_fine a k -> forall h data l M, reads rt k h data (Done (JLoc l, M)) -> exists v, rep (m_heap M) (JLoc l) v /\ shape from_first_to_last any_string t v /\
    v = (dec rt t (RState data false 0)).1 /\ r_failed (m_rd M) = false /\ m_rd M = (dec rt t (RState data false 0)).2.
Proof.
  intros Hf Hn Hr Hrt k t Hk h data l M Hrd. destruct (fine_reads _ _ _ Hf Hn Hr rt str_ok h data Hrt Hk) as (M2 & props & H1 & H2 & _ & _ & _ & H6).
  fold k t in H1, H2, H6. cbn zeta in *. set (res := dec rt t (RState data false 0)) in *. pose proof (reads_det _ _ _ _ _ _ Hrd H1) as [= Hx ->].
  destruct (r_failed res.2) eqn:E; [done|]. injection Hx as ->.
  eexists. split; [eapply rep_in_rep, H6; done|]. split; [|split; [done|split; [by rewrite H2|done]]].
  pose proof (dec_yields rt str_ok Hrt t (RState data false 0) E) as Hy. eapply shape_mono; [|done|exact Hy].
  apply (export_enums _ _ _ Hf Hn Hr). intros n e Hne m. apply in_range_between. exact (entry_leaf _ _ _ Hf Hn Hr _ _ Hne).
Qed.
Lemma code_enum_range a rt str_ok : rt_ok rt str_ok -> for_code a (fun k t => names_fine a k ->
  forall h data l M, reads rt k h data (Done (JLoc l, M)) -> exists v, rep (m_heap M) (JLoc l) v /\ shape from_first_to_last any_string t v).
Proof.
  intros Hrt. apply for_code_intro. intros iter r Hf Hn Hr Hk h data l M Hrd.
  destruct (reads_typed rt str_ok _ _ _ Hf Hn Hr Hrt Hk h data l M Hrd) as (v & H1 & H2 & _). by exists v.
Qed.
Definition tiny_enums (a : ast) : Prop := forall n vs, declares_enum a n vs -> length vs <= 2.
Lemma code_enum_declared a rt str_ok : rt_ok rt str_ok -> tiny_enums a -> for_code a (fun k t => names_fine a k ->
  forall h data l M, reads rt k h data (Done (JLoc l, M)) -> exists v, rep (m_heap M) (JLoc l) v /\ has_type any_string t v).
Proof.
  intros Hrt Ht. apply for_code_intro. intros iter r Hf Hn Hr Hk h data l M Hrd.
  destruct (reads_typed rt str_ok _ _ _ Hf Hn Hr Hrt Hk h data l M Hrd) as (v & H1 & H2 & _). exists v. split; [done|].
  eapply shape_mono; [|done|exact H2]. apply (export_enums _ _ _ Hf Hn Hr). intros n e Hne m.
  destruct (entry_declared_enum _ _ _ Hf Hn Hr n e Hne) as (vs & Hd & HL). apply between_declared; [exact (entry_leaf _ _ _ Hf Hn Hr _ _ Hne)|].
  rewrite HL. by eapply Ht.
Qed.

(** ** C33 *)
Lemma code_cheap a rt str_ok : rt_ok rt str_ok -> for_code a (fun k t => names_fine a k ->
  forall h data l M, reads rt k h data (Done (JLoc l, M)) -> r_calls (m_rd M) + length (r_rest (m_rd M)) <= length data).
Proof.
  intros Hrt. apply for_code_intro. intros iter r Hf Hn Hr Hk h data l M Hrd.
  destruct (reads_typed rt str_ok _ _ _ Hf Hn Hr Hrt Hk h data l M Hrd) as (v & _ & _ & _ & H4 & H5). rewrite H5 in *.
  pose proof (cheap_dec rt str_ok Hrt _ _ H4) as H. cbn [r_calls r_rest] in H. lia.
Qed.

(** ** C34 *)
Lemma code_exact a rt str_ok : rt_ok rt str_ok -> exact_strings rt -> no_opt_float a -> for_code a (fun k t => names_fine a k ->
  forall h data l M, reads rt k h data (Done (JLoc l, M)) ->
    exists v, rep (m_heap M) (JLoc l) v /\ data = wire (rt_enc rt) (rt_encs rt) t v ++ r_rest (m_rd M)).
Proof.
  intros Hrt Hex Hno. apply for_code_intro. intros iter r Hf Hn Hr Hk h data l M Hrd.
  destruct (reads_typed rt str_ok _ _ _ Hf Hn Hr Hrt Hk h data l M Hrd) as (v & H1 & _ & -> & H4 & H5). eexists. split; [exact H1|]. rewrite H5 in *.
  refine (dec_exact rt str_ok Hrt (TStruct (x_fields (r_export r))) Hex _ _ (RState data false 0) H4); [done|].
  apply (export_fields _ _ _ Hf Hn Hr). intros n gs f u _ Hd Hu Ht _ Ho Hl. destruct (Hno _ _ _ _ Hd Hu) as [Hopt Hfl]. split; [congruence|].
  intros Hty. rewrite Hty in Hl. cbn in Hl. apply Hfl. rewrite <- Ht. revert Hl. unfold builtin_of_name. repeat case_decide; congruence.
Qed.

(** ** C35 *)
Lemma denotes_eq_unique a : NoDup (decl_names a) -> no_builtin_decl a -> forall t1 n t2, denotes eq a n t1 -> denotes eq a n t2 -> t1 = t2.
Proof.
  intros Hnd Hnb.
  assert (forall n d, NDecl n d ∈ a -> builtin_of_name n = None) as Hnot.
  { intros n d Hin. destruct (builtin_of_name n) eqn:E; [|done]. exfalso. eapply (decl_not_builtin a Hnb n _ Hin). apply builtin_names_spec. eauto. }
  induction t1 as [b|e|rs IH] using rtype_ind'; intros n t2 H1 H2; inversion H1 as [? ? Hb|? vs rp Hd Hrp|? fs ds ? Hd Ha Hm]; subst; inversion H2 as [? ? Hb'|? vs' rp' Hd' Hrp'|? fs' ds' ? Hd' Ha' Hm']; subst.
  - congruence.
  - apply Hnot in Hd'. congruence.
  - apply Hnot in Hd'. congruence.
  - apply Hnot in Hd. congruence.
  - pose proof (decl_unique _ _ _ _ Hnd Hd Hd') as [= <-]. assert (rp = rp') as <-; [|done].
    destruct Hrp as [Hr1 Hr2], Hrp' as [Hr3 Hr4]. specialize (Hr2 _ Hr3). specialize (Hr4 _ Hr1). destruct rp, rp'; cbn in *; first [done|lia].
  - pose proof (decl_unique _ _ _ _ Hnd Hd Hd') as [=].
  - apply Hnot in Hd. congruence.
  - pose proof (decl_unique _ _ _ _ Hnd Hd Hd') as [=].
  - pose proof (decl_unique _ _ _ _ Hnd Hd Hd') as [= <-]. f_equal. clear H1 H2 Hd Hd'. revert rs0 Hm'.
    induction Hm as [|d f ds rs Hf Hm IHm]; intros rs2 Hm'; inversion Hm' as [|? f2 ? rs3 Hf2 Hm2]; subst; [done|].
    apply Forall_cons in IH as [IH1 IH2]. f_equal; [|by apply IHm]. inversion Hf; subst. inversion Hf2; subst. cbn in IH1. f_equal. by eapply IH1.
Qed.
Lemma fixed_same_code iter1 iter2 a r1 r2 : fair_order iter1 -> fair_order iter2 -> no_builtin_decl a -> type_check iter1 a = Ok r1 -> type_check iter2 a = Ok r2 ->
  all_fixed a -> r_export r1 = r_export r2.
Proof.
  intros Hf1 Hf2 Hn Hr1 Hr2 Hfix.
  assert (forall x y : export, x_name x = x_name y -> x_fields x = x_fields y -> x = y) as Hx by (intros [] []; cbn; congruence).
  pose proof (type_check_result _ _ _ Hf1 Hn Hr1) as (He1 & _). pose proof (type_check_result _ _ _ Hf2 Hn Hr2) as (He2 & _).
  assert (x_name (r_export r1) = x_name (r_export r2)) as Heq by congruence. apply Hx; [done|].
  assert (TStruct (x_fields (r_export r1)) = TStruct (x_fields (r_export r2))) as [= ->]; [|done].
  eapply (denotes_eq_unique a); [by eapply vs_decls, result_valid|done| |].
  - apply (entry_denotes_fixed iter1 a r1 Hf1 Hn Hr1 Hfix); [apply rtc_refl|exact (export_entry _ _ _ Hf1 Hn Hr1)].
  - rewrite Heq. apply (entry_denotes_fixed iter2 a r2 Hf2 Hn Hr2 Hfix); [apply rtc_refl|exact (export_entry _ _ _ Hf2 Hn Hr2)].
Qed.

Lemma code_interop a rt str_ok iter1 iter2 r1 r2 : rt_ok rt str_ok -> small_enums a -> all_fixed a -> no_builtin_decl a ->
  fair_order iter1 -> fair_order iter2 -> type_check iter1 a = Ok r1 -> type_check iter2 a = Ok r2 ->
  let k1 := class_of (r_export r1) in let k2 := class_of (r_export r2) in names_fine a k2 ->
  forall v h this bytes M h', has_type str_ok (TStruct (x_fields (r_export r1))) v -> rep h this v -> writes rt k1 h this (Done (bytes, M)) ->
    exists l M', reads rt k2 h' bytes (Done (JLoc l, M')) /\ rep (m_heap M') (JLoc l) v.
Proof.
  intros Hrt Hs Hfix Hn Hf1 Hf2 Hr1 Hr2 k1 k2 Hk v h this bytes M h' Hv Hrep Hw.
  pose proof (fixed_same_code _ _ _ _ _ Hf1 Hf2 Hn Hr1 Hr2 Hfix) as E. subst k1 k2. rewrite E in *.
  destruct (writes_wire rt _ _ _ Hf2 Hn Hr2 (nf_ready _ _ Hk) v h this (any_typed _ _ _ _ Hv) Hrep) as (M' & Hw' & _).
  pose proof (writes_det _ _ _ _ _ _ Hw Hw') as [= -> ->].
  destruct (reads_wire rt str_ok _ _ _ Hf2 Hn Hr2 Hrt Hs Hk v h' [] Hv) as (l & M2 & H1 & H2 & _). rewrite app_nil_r in H1. by exists l, M2.
Qed.

Lemma for_runs_intro iter1 iter2 a (P : cls -> cls -> rtype -> Prop) : fair_order iter1 -> fair_order iter2 ->
  (forall r1 r2, no_builtin_decl a -> type_check iter1 a = Ok r1 -> type_check iter2 a = Ok r2 ->
     P (class_of (r_export r1)) (class_of (r_export r2)) (TStruct (x_fields (r_export r1)))) -> for_runs iter1 iter2 a P.
Proof.
  intros Hf1 Hf2 HP r1 r2 ver1 ver2 now1 now2 t1 t2 Hl Ht1 Ht2 Hv1 Hv2 Hn1 Hn2 Hr1 Hr2. pose proof (legal_no_builtin _ Hl) as Hn.
  destruct (read_generated iter1 a r1 Hf1 Hn Hl Hr1 ver1 now1 t1 Ht1 Hv1 Hn1) as (x1 & ds1 & G1 & R1 & _).
  destruct (read_generated iter2 a r2 Hf2 Hn Hl Hr2 ver2 now2 t2 Ht2 Hv2 Hn2) as (x2 & ds2 & G2 & R2 & _).
  exists x1, x2, ds1, ds2, (class_of (r_export r1)), (class_of (r_export r2)), (x_name (r_export r1)), (TStruct (x_fields (r_export r1))).
  split; [done|]. split; [done|]. split; [done|]. split; [done|]. split; [by eapply (type_check_result iter1)|].
  split; [eapply (entry_denotes iter1); [done..|by eapply (export_entry iter1)]|]. by apply HP.
Qed.
Lemma runs_interop a rt str_ok iter1 iter2 : rt_ok rt str_ok -> small_enums a -> all_fixed a ->
  fair_order iter1 -> fair_order iter2 -> for_runs iter1 iter2 a (fun k1 k2 t => names_fine a k2 ->
  forall v h this bytes M h', has_type str_ok t v -> rep h this v -> writes rt k1 h this (Done (bytes, M)) ->
    exists l M', reads rt k2 h' bytes (Done (JLoc l, M')) /\ rep (m_heap M') (JLoc l) v).
Proof. intros Hrt Hs Hfix Hf1 Hf2. apply for_runs_intro; [done..|]. intros r1 r2 Hn Hr1 Hr2. exact (code_interop a rt str_ok iter1 iter2 r1 r2 Hrt Hs Hfix Hn Hf1 Hf2 Hr1 Hr2). Qed.

(** ** C36 *)
Lemma code_no_method a rt str_ok : rt_ok rt str_ok -> for_code a (fun k t => names_fine a k -> "write" ∉ (k_params k).*1 ->
  forall h data l M, reads rt k h data (Done (JLoc l, M)) -> get_prop (m_heap M) (JLoc l) "write" = Done JUndef).
Proof.
  intros Hrt. apply for_code_intro. intros iter r Hf Hn Hr Hk Hw h data l M Hrd.
  destruct (fine_reads _ _ _ Hf Hn Hr rt str_ok h data Hrt Hk) as (M2 & props & H1 & _ & _ & H4 & H5 & _).
  pose proof (reads_det _ _ _ _ _ _ Hrd H1) as [= Hx ->]. destruct (r_failed _); [done|]. injection Hx as ->.
  cbn [get_prop]. rewrite H4, H5; [done|]. by rewrite <- params_names.
Qed.
Lemma code_rewrites a rt str_ok : rt_ok rt str_ok -> for_code a (fun k t => names_fine a k ->
  forall h data l M, reads rt k h data (Done (JLoc l, M)) ->
    exists v M', rep (m_heap M) (JLoc l) v /\ writes rt k (m_heap M) (JLoc l) (Done (wire (rt_enc rt) (rt_encs rt) t v, M'))).
Proof.
  intros Hrt. apply for_code_intro. intros iter r Hf Hn Hr Hk h data l M Hrd.
  destruct (reads_typed rt str_ok _ _ _ Hf Hn Hr Hrt Hk h data l M Hrd) as (v & H1 & H2 & _). exists v.
  destruct (writes_wire rt _ _ _ Hf Hn Hr (nf_ready _ _ Hk) v (m_heap M) (JLoc l) (any_typed _ _ _ _ H2) H1) as (M' & Hw & _). by exists M'.
Qed.

(** ** C37 *)
Lemma code_size a rt str_ok : rt_ok rt str_ok -> for_code a (fun k t => write_ready k -> forall v h this bytes M, writable t v -> rep h this v ->
  writes rt k h this (Done (bytes, M)) -> length bytes = byte_size (rt_encs rt) t v).
Proof.
  intros Hrt. apply for_code_intro. intros iter r Hf Hn Hr Hl v h this bytes M Hv Hrep Hw.
  destruct (writes_wire rt _ _ _ Hf Hn Hr Hl v h this Hv Hrep) as (M' & Hw' & _).
  pose proof (writes_det _ _ _ _ _ _ Hw Hw') as [= -> ->]. exact (wire_size rt str_ok Hrt (TStruct (x_fields (r_export r))) v).
Qed.

(** ** names *)
(** Names without underscores will do. *)
Definition no_underscore (s : string) : Prop := "_"%char ∉ String.list_ascii_of_string s.
Lemma underscore_in x s : ~ no_underscore (x +:+ "_" +:+ s).
Proof.
  unfold no_underscore. intros H. apply H. clear. induction x as [|c x IH]; [by left|]. rewrite sapp_cons. cbn [String.list_ascii_of_string]. by right.
Qed.
Lemma no_underscore_plain a : (forall n fs, declares_struct a n fs -> NoDup fs.*1 /\ Forall no_underscore fs.*1) ->
  (forall e, exports a = [e] -> no_underscore e /\ e ∉ taken_names) ->
  (forall e fs, exports a = [e] -> declares_struct a e fs -> Forall (fun f => f ∉ js_reserved ++ readonly_names) fs.*1) -> plain_names a.
Proof.
  intros H1 H2 H3. constructor; [constructor|..].
  - intros e n fs _ _ Hd. destruct (H1 _ _ Hd) as [Hnd HF]. rewrite Forall_forall in HF.
    assert (distinguishable a fs) as Hdi.
    { split; [done|]. intros x u s v _ Hin%(elem_of_list_fmap_1 fst). by apply HF, underscore_in in Hin. }
    by split; [apply read_kept_apart|apply write_kept_apart].
  - intros e He. by destruct (H2 e He).
  - intros e fs x u t He _ _ _ ->. destruct (H2 _ He) as [Hu _]. by apply (underscore_in "output" (x +:+ t)).
  - intros e fs He Hd. split; [by destruct (H1 _ _ Hd)|]. eapply Forall_impl; [by eapply H3|]. intros x Hx Hin. apply Hx, elem_of_app. by left.
  - intros e n fs _ _ Hd. destruct (H1 _ _ Hd) as [Hnd HF]. split; [done|]. rewrite Forall_forall in HF. intros Hin. apply (HF _ Hin). right. by left.
  - intros e fs He Hd. eapply Forall_impl; [by eapply H3|]. intros x Hx Hin. apply Hx, elem_of_app. by right.
Qed.
Section names.
  Context iter a r (Hf : fair_order iter) (Hn : no_builtin_decl a) (Hr : type_check iter a = Ok r).
  Notation k := (class_of (r_export r)).

  (** the export's declaration *)
  Lemma export_declared : exists fs, exports a = [k_name k] /\ declares_struct a (k_name k) fs /\ (k_params k).*1 ≡ₚ fs.*1 /\
    (forall e fs', exports a = [e] -> declares_struct a e fs' -> e = k_name k /\ fs' = fs) /\
    (forall x, x ∈ lets (k_read k) <-> exists y u t, (y, u) ∈ fs /\ read_local a u t /\ x = "output_" +:+ y +:+ t).
  Proof.
    destruct (type_check_result _ _ _ Hf Hn Hr) as (Hexp & Hx & _).
    pose proof (result_valid _ _ _ Hf Hn Hr) as Hv. destruct (vs_export _ Hv) as (e & fs & He & Hd).
    rewrite Hexp in He. injection He as <-. exists fs. split; [done|]. split; [done|].
    destruct (entry_fields _ _ _ Hf Hn Hr _ _ _ Hx Hd) as (rs & ds & [= <-] & Hp & Hm).
    split; [|split].
    - rewrite params_names, <- Hp.
      assert (List.map f_name (x_fields (r_export r)) = ds.*1) as ->; [|done].
      clear - Hm. induction Hm as [|d rf ds rs (E & _) _ IH]; [done|]. cbn. by rewrite E, IH.
    - intros e fs' He Hd'. rewrite Hexp in He. injection He as <-. split; [done|]. by pose proof (decl_unique _ _ _ _ (vs_decls _ Hv) Hd Hd') as [=].
    - intros x. change (k_read k) with (r_ty (TStruct (x_fields (r_export r))) "" false ["output"]).
      rewrite (r_ty_described _ "" false ["output"]) by done. unfold at_level. rewrite elem_of_list_In, in_map_iff. split.
      + intros (l & <- & Hl%elem_of_list_In). apply (in_keys rkf) in Hl as (f & l' & Hfin & Hl & ->).
        destruct (resolved_field _ _ _ _ _ Hp Hm Hfin) as (u & Hu & Hfm). exists (f_name f), u, (tails l'). split; [done|]. split.
        * eapply read_local_keys; [done..|]. eauto.
        * unfold GenNames.name_of. rewrite (GenNames.join_app ["output"]) by done. by rewrite tails_cons.
      + intros (y & u & t & Hy & Ht & ->). destruct (declared_field _ _ _ _ _ Hp Hm Hy) as (f & Hfin & Hfm).
        pose proof Hfm as (Ef & _). cbn in Ef. subst y.
        assert (exists l, l ∈ rkf f /\ t = tails l) as (l & Hl & ->) by (eapply read_local_keys; done).
        exists (f_name f :: l). split.
        * unfold GenNames.name_of. rewrite (GenNames.join_app ["output"]) by done. by rewrite tails_cons.
        * apply elem_of_list_In. apply (in_keys rkf). eauto.
  Qed.
  Lemma module_names_iff : loads k /\ prologue k = Done () <-> module_names a.
  Proof.
    destruct export_declared as (fs & He & Hd & Hp & Hu & Hl). destruct (names_criterion _ _ _ Hf Hn Hr) as [Hro Hwo]. split.
    - intros [((H1 & H2 & H3 & H4) & H5 & H6) HP]. rewrite Hp in H1, H2. rewrite Hro in H5. rewrite Hwo in H6.
      unfold prologue in HP. case_decide as D1; [done|]. case_decide as D2; [done|]. case_decide as D3; [done|]. clear HP.
      apply not_elem_of_cons in D1 as [D1 D4]. constructor.
      + intros e n gs He' Hneed Hdn. rewrite He in He'. injection He' as <-. split; [by eapply H5|by eapply H6].
      + intros e He'. rewrite He in He'. injection He' as <-. unfold taken_names. apply not_elem_of_app. split; [exact H3|].
        clear - H4 D1 D2 D3. change (x_name (r_export r)) with (k_name k). rewrite !not_elem_of_cons in *. tauto.
      + intros e gs x u t He' Hd' Hx Ht. destruct (Hu _ _ He' Hd') as [-> ->]. intros E. apply D4, Hl. eauto 6.
      + intros e gs He' Hd'. by destruct (Hu _ _ He' Hd') as [-> ->].
    - intros [M1 M2 M3 M4]. specialize (M2 _ He). unfold taken_names in M2. rewrite not_elem_of_app in M2. destruct M2 as [N1 N2]. split.
      + destruct (M4 _ _ He Hd) as [P1 P2]. split; [|split].
        * split; [by rewrite Hp|]. split; [by rewrite Hp|]. split; [done|]. intros Hin. apply N2. set_solver.
        * apply Hro. intros n gs Hneed Hdn. by eapply M1.
        * apply Hwo. intros n gs Hneed Hdn. by eapply M1.
      + unfold prologue. rewrite decide_False; [rewrite decide_False; [rewrite decide_False; [done|]|]|].
        * intros Hin. apply N2. set_solver.
        * intros Hin. apply N2. set_solver.
        * intros [E|(y & u & t & Hy & Ht & E)%Hl]%elem_of_cons; [apply N2; set_solver|]. by eapply M3.
  Qed.
  Lemma names_fine_iff : names_fine a k <-> plain_names a.
  Proof.
    destruct export_declared as (fs & He & Hd & Hp & Hu & Hl). split.
    - intros [H1 H2 H3 H4]. constructor; [by apply module_names_iff| |].
      { intros e n gs He' HN Hd'. assert (e = k_name k) as -> by congruence. by apply (H3 n). }
      intros e gs He' Hd'. destruct (Hu _ _ He' Hd') as [-> ->]. apply Forall_forall. intros x Hx. apply H4. by rewrite Hp.
    - intros [M1 M2 M3]. apply module_names_iff in M1 as [H1 H2]. constructor; [done..| |].
      { intros n gs HN Hd'. by apply (M2 (k_name k) n). }
      intros x Hx. rewrite Hp in Hx. specialize (M3 _ _ He Hd). rewrite Forall_forall in M3. by apply M3.
  Qed.
End names.
Lemma plain_fine iter a r : fair_order iter -> no_builtin_decl a -> type_check iter a = Ok r -> plain_names a -> names_fine a (class_of (r_export r)).
Proof. intros Hf Hn Hr. by eapply names_fine_iff. Qed.
Lemma code_names a : plain_names a -> for_code a (fun k t => names_fine a k).
Proof. intros Hp. apply for_code_intro. intros iter r Hf Hn Hr. by eapply plain_fine. Qed.
Lemma code_names_iff a : for_code a (fun k t => names_fine a k <-> plain_names a).
Proof. apply for_code_intro. intros iter r Hf Hn Hr. by eapply names_fine_iff. Qed.
Lemma code_module a : for_code a (fun k t => loads k /\ prologue k = Done () <-> module_names a).
Proof. apply for_code_intro. intros iter r Hf Hn Hr. by eapply module_names_iff. Qed.

(** ** C51 *)
Lemma holds_rep t : all_fields (fun f => f_opt f = true -> f_name f ∉ "write" :: object_names) t -> forall h x v, writable t v -> holds h x v -> rep h x v.
Proof.
  induction t as [b|e|fs IH] using rtype_ind'; intros Ha h x v Hv Hh.
  - unfold writable in Hv. cbn [shape] in Hv. destruct (builtin_kind b); destruct Hv as (? & -> & _); exact Hh.
  - destruct Hv as (? & -> & _). exact Hh.
  - destruct Hv as (vs & -> & Hv). destruct Hh as (p & pr & props & -> & Hp & Hpr & Hall). exists p, pr, props. split; [done|]. split; [done|].
    rewrite all_fields_struct in Ha. rewrite Forall_forall in IH. clear - IH Ha Hv Hall Hp Hpr.
    revert vs Hv Hall. induction fs as [|f fs IHf]; intros [|[g v] vs] Hv Hall; try done.
    destruct Hv as (-> & Hw & Hv). destruct Hall as [H1 Hall]. split; [|apply IHf; [intros g' Hg; apply IH; by right|intros g' Hg; apply Ha; by right|done|done]].
    destruct (Ha f (elem_of_list_here _ _)) as [Hnf Haf]. cbn [get_prop]. rewrite Hp. destruct H1 as [(y & -> & Hy)|[-> ->]].
    + exists y. split; [done|]. destruct Hw as [[_ ->]|Hw]; [exact Hy|]. destruct (f_array f).
      * destruct Hw as (l & -> & _ & Hl). destruct Hy as (q & its & -> & Hq & Hits). exists q, its. split; [done|]. split; [done|]. clear - IH Haf Hl Hits.
        revert its Hits. induction Hl as [|v l Hv Hl IHl]; intros [|y its] Hits; try done. destruct Hits as [Hy Hits]. split; [|by apply IHl].
        apply (IH f (elem_of_list_here _ _)); done.
      * apply (IH f (elem_of_list_here _ _)); done.
    + assert (f_opt f = true) as Hopt.
      { destruct Hw as [[Ho _]|Hw]; [done|]. exfalso. destruct (f_array f); [by destruct Hw as (? & [=] & _)|]. by eapply shape_not_none. }
      specialize (Hnf Hopt). exists JUndef. split; [|by left]. unfold inherited. rewrite decide_False by (intros Hin; apply Hnf; by right). destruct pr; [done|done|].
      rewrite decide_False; [done|]. intros E. apply Hnf. rewrite E. left.
Qed.
Lemma code_omitted a rt : no_inherited a -> for_code a (fun k t => write_ready k -> forall v h this, writable t v -> holds h this v ->
  exists M, writes rt k h this (Done (wire (rt_enc rt) (rt_encs rt) t v, M))).
Proof.
  intros Hno. apply for_code_intro. intros iter r Hf Hn Hr Hl v h this Hv Hh.
  destruct (writes_wire rt _ _ _ Hf Hn Hr Hl v h this Hv) as (M & Hw & _); [|by exists M]. eapply holds_rep; [|exact Hv|exact Hh].
  apply (export_fields _ _ _ Hf Hn Hr). intros n gs f u _ Hd Hu _ _ Ho _ Hopt. eapply Hno; [done..|congruence].
Qed.

(** ** C52 *)
Lemma entry_inhabited iter a r : fair_order iter -> no_builtin_decl a -> type_check iter a = Ok r -> no_empty a -> inhabited (TStruct (x_fields (r_export r))).
Proof.
  intros Hf Hn Hr Hne. assert (forall t n, r_types r !! n = Some (n, t) -> inhabited t) as H; [|eapply H; by eapply export_entry].
  destruct (type_check_result _ _ _ Hf Hn Hr) as (_ & _ & _ & Hent).
  induction t as [b|e|gs IH] using rtype_ind'; intros n Hn'; [done..|]. apply inhabited_struct. split.
  - destruct (Hent _ _ _ Hn') as [_ [(? & _ & [=])|[(? & ? & _ & _ & [=])|(fs' & ds & rs & Hd & Hpm & Hm & [= ->])]]].
    intros ->. apply Forall2_nil_inv_r in Hm as ->. apply Permutation_nil in Hpm as ->. by eapply Hne.
  - intros f Hin. rewrite Forall_forall in IH. eapply IH; [done|].
    by destruct (entry_struct _ _ _ Hf Hn Hr _ _ _ Hn' Hin) as (? & ? & _ & _ & _ & _ & _ & HH).
Qed.
Lemma code_dense a rt str_ok : rt_ok rt str_ok -> no_empty a -> for_code a (fun k t => names_fine a k ->
  forall h data l M, reads rt k h data (Done (JLoc l, M)) -> exists v, rep (m_heap M) (JLoc l) v /\ items v < length data).
Proof.
  intros Hrt Hne. apply for_code_intro. intros iter r Hf Hn Hr Hk h data l M Hrd.
  destruct (reads_typed rt str_ok _ _ _ Hf Hn Hr Hrt Hk h data l M Hrd) as (v & H1 & _ & -> & H4 & H5). eexists. split; [exact H1|]. rewrite H5 in H4.
  pose proof (dense_dec rt str_ok Hrt _ (entry_inhabited _ _ _ Hf Hn Hr Hne) _ H4) as H. cbn [r_rest] in H. lia.
Qed.

(** ** C31 *)
Lemma code_stores a rt str_ok : rt_ok rt str_ok -> for_code a (fun k t => names_fine a k ->
  forall h data l M, reads rt k h data (Done (JLoc l, M)) -> exists v, rep (m_heap M) (JLoc l) v /\ writable t v).
Proof.
  intros Hrt. eapply for_text_mono; [|exact (code_enum_range a rt str_ok Hrt)]. intros ds k (e & t & H2 & H3 & H4 & H5).
  exists e, t. split; [done|]. split; [done|]. split; [done|]. intros Hk h data l M Hrd. destruct (H5 Hk h data l M Hrd) as (v & Hv & Hs).
  exists v. split; [done|]. by eapply any_typed.
Qed.
