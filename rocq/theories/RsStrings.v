(** Proofs about strings that cross the languages: C86, C87. *)
From Verif Require Export RsStringsSpec RsNeeds RsRuns.

Lemma recode_none conv v : recode conv v = VNone <-> v = VNone.
Proof. by destruct v. Qed.
Lemma strings_all v : strings_in any_string v.
Proof.
  induction v as [n|s| |l IH|l IH] using value_ind'; try done; [apply strings_arr|apply strings_rec]; exact IH.
Qed.

Section recoded.
  Context (rt : runtime) (lib : rs_lib) (str_ok both : list Z -> Prop) (conv : list Z -> list Z).
  Context (Hsf : same_format rt lib both) (Hd : decodes rt lib str_ok conv).
  Lemma each_recode (P Q : value -> list byte -> list byte -> Prop) (l : list value) data rest : (forall v data rest, P v data rest -> Q (recode conv v) data rest) ->
    each P l data rest -> each Q (map (recode conv) l) data rest.
  Proof. intros H. revert data. induction l as [|v l IH]; intros data; [done|]. intros (mid & H1 & H2). exists mid. split; [by apply H|by apply IH]. Qed.
  Lemma packet_recoded t : forall v data rest, fair_type t -> packet lib str_ok t v data rest -> accepts rt t (recode conv v) data rest.
  Proof.
    induction t as [b|e|fs IH] using rtype_ind'; intros v data rest Hk Hp.
    - cbn [packet accepts] in *. destruct (builtin_kind b) eqn:Eb.
      + destruct Hp as (n & -> & Hn). exists n. split; [done|]. by eapply number_same.
      + destruct Hp as (s & mid & -> & Hn & Hs & ->). exists (conv s), (Z.of_nat (length s)), (lb_encs lib s ++ rest). split; [done|]. split; [by eapply number_same|]. by apply Hd.
    - destruct Hk as [He _]. cbn [packet accepts] in *. destruct Hp as (n & -> & (y & Hy & ->) & Hn).
      eexists. split; [done|]. split; [|by eapply number_same]. eexists. split; [done|].
      destruct (good_enum_bounds e He) as (m & Hm & HL & _ & _ & _ & Hx). rewrite HL. pose proof (proj1 (Hx y) Hy) as (i & u & E & Hi & _). rewrite E. cbn [ev_value].
      assert (0 < 2 ^ Z.of_nat i)%Z by (apply Z.pow_pos_nonneg; lia). split; [lia|]. apply Z.pow_le_mono_r; lia.
    - pose proof (fun f Hf => fair_field fs f Hk Hf) as Hkf. clear Hk. apply packet_struct in Hp as (vs & -> & Hp). rewrite accepts_struct. cbn [recode]. eexists. split; [done|].
      revert vs data Hp. induction IH as [|f fs Hf _ IH]; intros [|[g v] vs] data Hp; try done. destruct Hp as (-> & mid & Hw & Hp).
      destruct (Hkf f ltac:(by left)) as [Hft Hao]. split; [done|]. exists mid. split; [|apply IH; [intros; apply Hkf; by right|done]]. cbn [snd].
      specialize (fun v data rest => Hf v data rest Hft). clear IH Hp. unfold packet_wrapped, accepts_wrapped, packet_items, accepts_items in *. destruct (f_opt f).
      + destruct (f_array f); [done|]. destruct Hw as [[-> Hn]|(fl & mid' & Hfl & Hn & Hq)]; [left|right].
        * split; [done|]. by eapply number_same.
        * exists fl, mid'. split; [done|]. split; [by eapply number_same|by apply Hf].
      + destruct (f_array f); [|by apply Hf]. destruct Hw as (l & mid' & -> & Hn & HE). exists (map (recode conv) l), mid'. split; [done|]. rewrite map_length. split; [by eapply number_same|].
        by eapply each_recode.
  Qed.
End recoded.

Lemma both_recoded a rt lib rt_str str_ok both conv : rt_ok rt rt_str -> rs_lib_ok lib str_ok -> same_format rt lib both -> decodes rt lib str_ok conv ->
  small_enums a -> rust_names a -> for_both a (fun k m t => names_fine a k -> exists d, default_value (rm_items m) (rm_type m) = Some d /\
  forall h data x v i, rs_read lib m d data = Good x i -> stands str_ok t (rm_type m) x v ->
    exists l M, reads rt k h data (Done (JLoc l, M)) /\ rep (m_heap M) (JLoc l) (recode conv v) /\ r_rest (m_rd M) = ri_bytes i).
Proof.
  intros Hrt Hlib Hsf Hd Hs Hrn. apply for_both_intro. intros iter r titer Hf Hn Hr Ht Hk. eexists. split; [by eapply module_default|]. intros h data x v i Hx Hxv.
  pose proof (export_fair _ _ _ Hf Hn Hr _ Ht Hrn) as Hft.
  destruct (module_decides _ _ _ Hf Hn Hr _ Ht Hrn lib str_ok Hlib data Hs) as [(y & w & j & Hy & Hyw & Hp)|(j & Hj & _)]; [|by rewrite Hx in Hj]. rewrite Hx in Hy. injection Hy as <- <-.
  assert (w = v) as -> by (by eapply stands_fun).
  pose proof (packet_recoded rt lib str_ok both conv Hsf Hd _ _ _ _ Hft Hp) as Ha.
  destruct (reads_decided a rt rt_str Hrt Hs iter r Hf Hn Hr Hk h data) as [(v' & rest' & l & M' & Ha' & H1 & H2 & H3 & Hu)|[Hno _]];
    [|by destruct (Hno _ _ Ha)]. destruct (Hu _ _ Ha) as [-> ->]. by exists l, M'.
Qed.
Lemma both_sent a rt lib rt_str str_ok both conv : rt_ok rt rt_str -> rs_lib_ok lib str_ok -> same_format rt lib both -> decodes rt lib str_ok conv ->
  small_enums a -> rust_names a -> for_both a (fun k m t => names_fine a k -> forall x v, stands str_ok t (rm_type m) x v ->
    exists bytes, rs_write lib m x = Some bytes /\ forall rest h, exists l M,
      reads rt k h (bytes ++ rest) (Done (JLoc l, M)) /\ rep (m_heap M) (JLoc l) (recode conv v) /\ r_rest (m_rd M) = rest).
Proof.
  intros Hrt Hlib Hsf Hd Hs Hrn. apply for_both_intro. intros iter r titer Hf Hn Hr Ht Hk x v Hxv. pose proof (export_fair _ _ _ Hf Hn Hr _ Ht Hrn) as Hft.
  eexists. split; [by eapply module_writes|]. intros rest h. pose proof (packet_wire lib str_ok Hlib _ _ _ _ rest Hft Hxv) as Hp.
  pose proof (packet_recoded rt lib str_ok both conv Hsf Hd _ _ _ _ Hft Hp) as Ha.
  destruct (reads_decided a rt rt_str Hrt Hs iter r Hf Hn Hr Hk h (wire (lb_enc lib) (lb_encs lib) (TStruct (x_fields (r_export r))) v ++ rest)) as [(v' & rest' & l & M' & Ha' & H1 & H2 & H3 & Hu)|[Hno _]];
    [|by destruct (Hno _ _ Ha)]. destruct (Hu _ _ Ha) as [-> ->]. by exists l, M'.
Qed.

Section lost.
  Context (rt : runtime) (lib : rs_lib) (str_ok both : list Z -> Prop).
  Context (Hlib : rs_lib_ok lib str_ok) (Hsf : same_format rt lib both).
  Context (Hs2 : str_ok []) (Hb : both []).
  Notation W := (wire (rt_enc rt) (rt_encs rt)).
  Notation refuses := (refuses lib str_ok).
  Lemma plug_unread t s : undecodable rt lib s -> inside (fun f => f_ty f = TBuiltin BString) t -> fair_type t -> small_type t ->
    exists v, has_type any_string t v /\ refuses t (W t v).
  Proof.
    intros [Hl Hbad] Hin.
    assert (forall fs f v, f ∈ fs -> fair_type (TStruct fs) -> small_type (TStruct fs) -> has_type any_string (f_ty f) v -> refuses (f_ty f) (W (f_ty f) v) ->
      exists v, has_type any_string (TStruct fs) v /\ refuses (TStruct fs) (W (TStruct fs) v)) as Hone.
    { clear t Hin. intros fs f v (pre & post & ->)%elem_of_list_split Hk Hsm Hv Hno. pose proof (fair_usual _ Hk Hsm) as Hu. rewrite usual_struct in Hu.
      destruct (fair_part _ _ _ Hk) as (Hk1 & Hkf & Hao & Hk2). destruct (small_part _ _ _ Hsm) as (Hsp1 & Hsf' & Hsp2).
      destruct (usual_values emptyp eq_refl pre) as [vs Hvs]; [intros g Hg; apply usual_good, Hu, elem_of_app; by left|].
      destruct (usual_values emptyp eq_refl post) as [ws Hws]; [intros g Hg; apply usual_good, Hu, elem_of_app; right; by right|].
      pose proof (fields_shape_length _ _ _ _ Hvs) as HL.
      assert (forall gs us, fields_shape declared emptyp gs us -> fields_shape declared any_string gs us) as Hm.
      { intros gs us Hus. destruct (shape_mono declared declared emptyp any_string (TStruct gs)) with (VRec us) as (us' & [= <-] & Hus'); [by apply all_enums_any|done|by exists us|done]. }
      exists (VRec (vs ++ (f_name f, Needs.one f v) :: ws)). split.
      - eexists. split; [done|]. apply fields_shape_app. rewrite <- HL, take_app, drop_app. split; [by apply Hm|]. split; [done|]. split; [by apply one_shape|by apply Hm].
      - intros v' rest rest'. rewrite wire_struct, fields_wire_app by done. cbn [fields_wire]. fold (fields_wire (rt_enc rt) (rt_encs rt)). rewrite one_wire by (by eapply shape_not_none).
        rewrite <- !(assoc_L (++)). intros Hp. apply packet_struct in Hp as (us & -> & Hp). apply packet_fields_app in Hp as (us1 & us2 & mid & -> & Hp1 & Hp2). destruct us2 as [|[g w] us2]; [done|]. destruct Hp2 as (_ & mid' & Hw & _).
        destruct (empty_wire rt lib str_ok both Hsf Hs2 Hb _ _ Hk1 Hsp1 Hvs) as [Ew Hvs']. rewrite Ew in Hp1.
        match type of Hp1 with packet_fields _ _ _ _ (_ ++ ?tl) _ => pose proof (fields_typed lib str_ok Hlib pre vs tl Hk1 Hsp1 Hvs') as Hp3; assert (mid = tl) as -> end.
        { eapply (packet_det lib str_ok Hlib (TStruct pre)); [done|done|apply packet_struct; by exists us1|apply packet_struct; by exists vs]. }
        by eapply (refuses_one rt lib str_ok both Hlib Hsf f _ Hao Hno). }
    induction Hin as [fs f Hf Hq|fs f Hf Hin IH]; intros Hk Hsm.
    - apply (Hone fs f (VStr s)); [done..| |]; rewrite Hq; [by exists s|]. intros v rest rest'. cbn [packet wire builtin_kind]. unfold count. rewrite <- (assoc_L (++)).
      assert (in_kind KU32 (NInt (Z.of_nat (length s)))) as Hk32 by (cbn; lia). rewrite (sf_enc _ _ _ Hsf) by done. intros (s' & mid & -> & Hn & Hs' & E).
      destruct (number_det lib str_ok Hlib _ _ _ _ _ _ Hn (number_enc lib str_ok Hlib _ _ _ Hk32)) as [El ->]. assert (length s' = length s) as El' by (injection El; lia).
      pose proof (lk_str _ _ Hlib s' rest' Hs') as G. rewrite El', <- E, Hbad in G. done.
    - destruct (fair_field _ _ Hk Hf) as [Hkf _]. pose proof (small_field _ _ Hsm Hf) as Hsf'. destruct (IH Hkf Hsf') as (v & Hv & Hno). by apply (Hone fs f v).
  Qed.
  Context (a : ast) (Hs : small_enums a) (Hrn : rust_names a) (e : string) (He : exports a = [e]).
  Lemma both_unread s : undecodable rt lib s -> needs_string a e -> for_both a (fun k m t => names_fine a k -> exists d v, default_value (rm_items m) (rm_type m) = Some d /\
    has_type any_string t v /\ forall h this, rep h this v -> exists bytes M i, writes rt k h this (Done (bytes, M)) /\ rs_read lib m d bytes = Bad i).
  Proof.
    intros Hund Hneed. apply for_both_intro. intros iter r titer Hf Hn Hr Ht Hk. rewrite <- (run_export _ _ He _ _ Hf Hn Hr) in Hneed.
    pose proof (export_fair _ _ _ Hf Hn Hr _ Ht Hrn) as Hft. pose proof (entry_small _ _ _ Hf Hn Hr Hs _ _ (export_entry _ _ _ Hf Hn Hr)) as Hsm.
    destruct (plug_unread (TStruct (x_fields (r_export r))) s Hund) as (v & Hv & Hno); [|done|done|].
    - eapply (field_inside _ _ _ Hf Hn Hr); [|exact Hneed]. intros f u f' (_ & _ & _ & _ & Hty) Hu. cbn [snd] in Hty. rewrite Hu in Hty.
      destruct (type_check_result _ _ _ Hf Hn Hr) as (_ & _ & _ & Hent).
      destruct (Hent _ _ _ Hty) as [_ [(b & Hb' & Hb'')|[(vs & rp & Hde & _)|(fs' & ds & rs & Hd' & _)]]]; [by injection Hb' as <-|..].
      + exfalso. by eapply (declared_not_builtin _ Hn _ _ BString).
      + exfalso. by eapply (declared_not_builtin _ Hn _ _ BString).
    - eexists _, v. split; [by eapply module_default|]. split; [done|]. intros h this Hrep.
      destruct (writes_wire rt _ _ _ Hf Hn Hr (nf_ready _ _ Hk) v h this (any_typed _ _ _ _ Hv) Hrep) as (M & Hw & _). eexists _, M.
      destruct (module_decides _ _ _ Hf Hn Hr _ Ht Hrn lib str_ok Hlib (W (TStruct (x_fields (r_export r))) v) Hs) as [(x & w & i & _ & _ & Hp)|(i & Hi & _)]; [|by exists i].
      destruct (Hno w [] (ri_bytes i)). by rewrite app_nil_r.
  Qed.
End lost.

Lemma both_stringless a rt lib rt_str str_ok both : rt_ok rt rt_str -> rs_lib_ok lib str_ok -> same_format rt lib both -> (forall s, both s -> str_ok s) ->
  small_enums a -> rust_names a -> forall e, exports a = [e] -> ~ needs_string a e ->
  for_both a (fun k m t => names_fine a k -> exists d, default_value (rm_items m) (rm_type m) = Some d /\
  forall v x h this, stands str_ok t (rm_type m) x v -> rep h this v ->
    exists bytes M, writes rt k h this (Done (bytes, M)) /\ rs_write lib m x = Some bytes /\ forall rest h',
      (exists l M, reads rt k h' (bytes ++ rest) (Done (JLoc l, M)) /\ rep (m_heap M) (JLoc l) v /\ r_rest (m_rd M) = rest) /\
      (exists i, rs_read lib m d (bytes ++ rest) = Good x i /\ ri_bytes i = rest)).
Proof.
  intros Hrt Hlib Hsf Hboth Hs Hrn e He Hneed. apply for_both_intro. intros iter r titer Hf Hn Hr Ht Hk. rewrite <- (run_export _ _ He _ _ Hf Hn Hr) in Hneed. eexists. split; [by eapply module_default|].
  intros v x h this Hx Hrep. pose proof (export_fair _ _ _ Hf Hn Hr _ Ht Hrn) as Hft. pose proof (entry_small _ _ _ Hf Hn Hr Hs _ _ (export_entry _ _ _ Hf Hn Hr)) as Hsm.
  assert (all_fields (fun f => f_ty f ≠ TBuiltin BString) (TStruct (x_fields (r_export r)))) as Ha.
  { apply (fields_without _ _ _ Hf Hn Hr (fun u => u_name u = "string")); [| |exact Hneed].
    - intros f u f' (_ & E2 & _ & _ & Hty) Hq. cbn [snd] in *. assert (f_ty f' = TBuiltin BString) as Eq by (destruct (f_ty f') as [[]| |]; try done; by destruct Hq). rewrite Eq in Hty.
      pose proof (entry_leaf _ _ _ Hf Hn Hr _ _ Hty) as Hl. cbn in Hl. revert Hl. unfold builtin_of_name. repeat case_decide; congruence.
    - intros f. destruct (f_ty f) as [[]| |]; auto. }
  assert (strings_in both v) as Hb.
  { pose proof (stands_has_type _ any_string _ _ _ _ Hft Hsm Hx) as Hv. apply (typed_strings declared both (TStruct (x_fields (r_export r)))), (without_strings declared any_string both (TStruct (x_fields (r_export r))) ltac:(discriminate) Ha), Hv. apply strings_all. }
  pose proof (fun rest => packet_wire lib str_ok Hlib _ _ _ _ rest Hft Hx) as Hp. destruct (packet_accepts rt lib str_ok both Hsf _ _ _ _ Hft Hb (Hp [])) as [_ Hv].
  destruct (writes_wire rt _ _ _ Hf Hn Hr (nf_ready _ _ Hk) v h this (any_typed _ _ _ _ Hv) Hrep) as (M & Hw & _).
  rewrite (wire_same rt lib str_ok both Hsf _ _ _ _ Hft Hx Hb) in Hw. eexists _, M. split; [exact Hw|]. split; [by eapply module_writes|]. intros rest h'. split; [|by eapply module_round_trip].
  destruct (packet_accepts rt lib str_ok both Hsf _ _ _ _ Hft Hb (Hp rest)) as [Ha' _].
  destruct (reads_decided a rt rt_str Hrt Hs iter r Hf Hn Hr Hk h' (wire (lb_enc lib) (lb_encs lib) (TStruct (x_fields (r_export r))) v ++ rest)) as [(v' & rest' & l & M' & G & H1 & H2 & H3 & Hu)|[Hno _]];
    [|by destruct (Hno _ _ Ha')]. destruct (Hu _ _ Ha') as [-> ->]. by exists l, M'.
Qed.
