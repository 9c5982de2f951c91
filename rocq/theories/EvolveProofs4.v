(** Renaming of types and fields. *)
From Verif Require Export EvolveProofs3.

(** ** Renaming *)
Section rename.
  Context (ty : string -> string) (field : string -> string -> string) (a : ast) (Hty : good_renaming ty a).
  Notation b := (rename ty field a).
  Definition known (n : string) : Prop := n ∈ decl_names a \/ n ∈ builtin_names.
  Lemma rename_exports : exports b = ty <$> exports a.
  Proof. unfold rename. clear. induction a as [|[n [vs|fs]|n] l IH]; cbn; [done..|]. by rewrite IH. Qed.
  Lemma rename_names : decl_names b = ty <$> decl_names a.
  Proof. unfold rename. clear. induction a as [|[n [vs|fs]|n] l IH]; cbn; by rewrite ?IH. Qed.
  Lemma rename_struct n fs : declares_struct a n fs -> declares_struct b (ty n) (List.map (rename_field ty (field n)) fs).
  Proof. intros H. apply elem_of_list_In in H. apply elem_of_list_In. unfold rename. apply in_map_iff. by exists (NDecl n (AStruct fs)). Qed.
  Lemma rename_enum n vs : declares_enum a n vs -> declares_enum b (ty n) vs.
  Proof. intros H. apply elem_of_list_In in H. apply elem_of_list_In. unfold rename. apply in_map_iff. by exists (NDecl n (AEnum vs)). Qed.
  Lemma rename_struct_inv m gs : declares_struct b m gs -> exists n fs, m = ty n /\ gs = List.map (rename_field ty (field n)) fs /\ declares_struct a n fs.
  Proof.
    intros H. apply elem_of_list_In in H. unfold rename in H. apply in_map_iff in H as ([n [vs|fs]|n] & Hx & Hin); try done. injection Hx as <- <-.
    exists n, fs. split; [done|]. split; [done|]. by apply elem_of_list_In.
  Qed.
  Lemma rename_enum_inv m vs : declares_enum b m vs -> exists n, m = ty n /\ declares_enum a n vs.
  Proof.
    intros H. apply elem_of_list_In in H. unfold rename in H. apply in_map_iff in H as ([n [ws|fs]|n] & Hx & Hin); try done. injection Hx as <- <-.
    exists n. split; [done|]. by apply elem_of_list_In.
  Qed.
  Lemma rename_inj n m : known n -> known m -> ty n = ty m -> n = m.
  Proof. intros Hn Hm. apply Hty; by apply elem_of_app. Qed.
  Lemma rename_builtin n : known n -> ty n ∈ builtin_names <-> n ∈ builtin_names.
  Proof.
    intros Hn. split; intros H; [|by rewrite (proj1 Hty _ H)]. assert (ty n = n) as <-; [|done]. apply rename_inj; [by right|done|]. by apply (proj1 Hty).
  Qed.

  Context (V : valid_schema a).
  Lemma refers_known x y : refers a x y -> known y /\ known x.
  Proof.
    intros (fs & f & u & Hd & Hu & <-). split; [|left; by eapply decl_names_elem]. destruct (vs_types _ V _ _ _ _ Hd Hu); [by right|by left].
  Qed.
  Lemma refers_rename x y : refers a x y -> refers b (ty x) (ty y).
  Proof.
    intros (fs & f & u & Hd & Hu & <-). exists (List.map (rename_field ty (field x)) fs), (field x f), (Unresolved (ty (u_name u)) (u_array u) (u_opt u)).
    split; [by apply rename_struct|]. split; [|done]. apply elem_of_list_In, in_map_iff. exists (f, u). split; [done|by apply elem_of_list_In].
  Qed.
  Lemma refers_rename_inv x z : known x -> refers b (ty x) z -> exists y, z = ty y /\ refers a x y.
  Proof.
    intros Hx (gs & g & w & Hd & Hw & <-). apply rename_struct_inv in Hd as (n & fs & E & -> & Hd).
    apply rename_inj in E as <-; [|done|left; by eapply decl_names_elem]. apply elem_of_list_In, in_map_iff in Hw as ([f u] & [= <- <-] & Hin).
    exists (u_name u). split; [done|]. exists fs, f, u. split; [done|]. split; [by apply elem_of_list_In|done].
  Qed.
  Lemma needed_rename x y : needed a x y -> needed b (ty x) (ty y).
  Proof. induction 1 as [|x y z Hxy _ IH]; [apply rtc_refl|]. eapply rtc_l; [by apply refers_rename|done]. Qed.
  Lemma needed_rename_inv x z : known x -> needed b (ty x) z -> exists y, z = ty y /\ needed a x y /\ known y.
  Proof.
    intros Hx H. remember (ty x) as x' eqn:E. revert x Hx E. induction H as [x'|x' y' z Hxy Hyz IH]; intros x Hx ->; [exists x; split; [done|split; [apply rtc_refl|done]]|].
    apply refers_rename_inv in Hxy as (y & -> & Hy); [|done]. destruct (IH y (proj1 (refers_known _ _ Hy)) eq_refl) as (w & -> & Hw & Hk).
    exists w. split; [done|]. split; [by eapply rtc_l|done].
  Qed.
  Lemma tc_rename_inv x z : known x -> tc (refers b) (ty x) z -> exists y, z = ty y /\ tc (refers a) x y /\ known y.
  Proof.
    intros Hx H. remember (ty x) as x' eqn:E. revert x Hx E. induction H as [x' y' Hxy|x' y' z Hxy Hyz IH]; intros x Hx ->; apply refers_rename_inv in Hxy as (y & -> & Hy); try done.
    - exists y. split; [done|]. split; [by apply tc_once|exact (proj1 (refers_known _ _ Hy))].
    - destruct (IH y (proj1 (refers_known _ _ Hy)) eq_refl) as (w & -> & Hw & Hk). exists w. split; [done|]. split; [by eapply tc_l|done].
  Qed.
  Lemma rename_no_builtin : no_builtin_decl a -> no_builtin_decl b.
  Proof. intros Hn m Hm Hb. rewrite rename_names in Hm. apply elem_of_list_fmap in Hm as (n & -> & Hin). apply (Hn n Hin). apply (rename_builtin n); [by left|done]. Qed.
  Lemma compared_rename fn fs : (forall d, d ∈ fs -> known (u_name d.2)) -> compared_names (List.map (rename_field ty fn) fs) = fn <$> compared_names fs.
  Proof.
    induction fs as [|[f u] fs IH]; intros Hk; [done|]. cbn. f_equal. pose proof (rename_builtin (u_name u) (Hk (f, u) ltac:(left))) as Hb.
    rewrite IH by (intros d Hd; apply Hk; by right). case_decide as D1; case_decide as D2; first [done|tauto].
  Qed.
  Lemma rename_valid : good_field_renaming field a -> valid_schema b.
  Proof.
    intros Hfield. destruct V as [Vx Vd Ve Vt Vo Va Vf]. constructor.
    - destruct Vx as (e & fs & He & Hd). exists (ty e), (List.map (rename_field ty (field e)) fs). split; [by rewrite rename_exports, He|by apply rename_struct].
    - rewrite rename_names. apply NoDup_fmap_2_strong; [|done]. intros n m Hn Hm. apply rename_inj; by left.
    - intros m vs (n & -> & Hd)%rename_enum_inv. by eapply Ve.
    - intros m gs g w (n & fs & -> & -> & Hd)%rename_struct_inv Hw. apply elem_of_list_In, in_map_iff in Hw as ([f u] & [= <- <-] & Hin%elem_of_list_In).
      cbn. rewrite rename_names. destruct (Vt _ _ _ _ Hd Hin) as [H|H]; [left; by rewrite (proj1 Hty _ H)|right; apply elem_of_list_fmap; by eexists].
    - intros m gs g w (n & fs & -> & -> & Hd)%rename_struct_inv Hw. apply elem_of_list_In, in_map_iff in Hw as ([f u] & [= <- <-] & Hin%elem_of_list_In).
      cbn. by eapply Vo.
    - intros m Hc. assert (exists n, m = ty n /\ known n) as (n & -> & Hk).
      { assert (exists z, refers b m z) as (z & gs & g & w & Hd & _) by (inversion Hc; subst; eauto). apply rename_struct_inv in Hd as (n & fs & -> & _ & Hd).
        exists n. split; [done|left; by eapply decl_names_elem]. }
      apply tc_rename_inv in Hc as (y & E & Hc & Hy); [|done]. apply rename_inj in E as <-; [|done..]. by eapply Va.
    - intros m gs (n & fs & -> & -> & Hd)%rename_struct_inv. rewrite compared_rename.
      + apply NoDup_fmap_2_strong; [|by eapply Vf]. intros f g Hf Hg. eapply Hfield; [done|by eapply elem_of_submseteq; [|apply sublist_submseteq, compared_sub]..].
      + intros [f u] Hu. destruct (Vt _ _ _ _ Hd Hu); [by right|by left].
  Qed.
  Lemma rename_fixed : all_fixed a -> all_fixed b.
  Proof.
    intros Hf e' m gs He Hn Hd. destruct (vs_export _ V) as (e & fse & Hea & Hde). rewrite rename_exports, Hea in He. injection He as <-.
    assert (known e) as Hke by (left; by eapply decl_names_elem). apply needed_rename_inv in Hn as (n & -> & Hn & Hk); [|done].
    apply rename_struct_inv in Hd as (n' & fs & E & -> & Hd). apply rename_inj in E as <-; [|done|left; by eapply decl_names_elem].
    intros i j di dj Hij Hi Hj. change (List.map (rename_field ty (field n)) fs) with (rename_field ty (field n) <$> fs) in *. rewrite list_lookup_fmap in Hi, Hj.
    destruct (fs !! i) as [[f u]|] eqn:Ei; [|done]. destruct (fs !! j) as [[g w]|] eqn:Ej; [|done]. injection Hi as <-. injection Hj as <-. cbn.
    assert (forall k x, fs !! k = Some x -> known (u_name x.2)) as Hkn.
    { intros k [h x] Hx. destruct (vs_types _ V _ _ _ _ Hd (elem_of_list_lookup_2 _ _ _ Hx)); [by right|by left]. }
    destruct (Hf e n fs Hea Hn Hd i j _ _ Hij Ei Ej) as [Hs|Hr]; [left|right; by apply needed_rename]. cbn in Hs.
    destruct Hs as [H|[[vs H]|(gs & H & Hb)]].
    - left. by rewrite (proj1 Hty _ H).
    - right. left. exists vs. by apply rename_enum.
    - right. right. eexists. split; [by apply rename_struct|]. intros x Hx. apply elem_of_list_In, in_map_iff in Hx as ([h x'] & <- & Hin%elem_of_list_In). cbn.
      pose proof (Hb _ Hin) as Hbx. cbn in Hbx. by rewrite (proj1 Hty _ Hbx).
  Qed.
  Lemma denotes_rename : forall t n, denotes eq a n t -> exists u, denotes eq b (ty n) u /\ alike eq (fun _ _ => True) t u.
  Proof.
    induction t as [bt|en|rs IH] using rtype_ind'; intros n H; inversion H as [? ? Hb|? vs rp Hd Hrp|? fs ds ? Hd Ha Hm]; subst.
    - exists (TBuiltin bt). split; [|constructor]. constructor. rewrite (proj1 Hty n); [done|]. apply builtin_names_spec. eauto.
    - eexists. split; [constructor; [by apply rename_enum|exact Hrp]|]. by constructor.
    - assert (exists us, Forall2 (denotes_field eq b) (List.map (rename_field ty (field n)) fs) us /\ Forall2 (alike_field eq (fun _ _ => True)) rs us) as (us & H1 & H2).
      { clear H Hd. induction Hm as [|d f fs rs Hf Hm IHm]; [exists []; by split; constructor|]. apply Forall_cons in IH as [IH1 IH2].
        destruct (IHm IH2) as (us & H1 & H2). inversion Hf as [g u t Ht]; subst. destruct (IH1 _ Ht) as (w & Hw & Hal).
        eexists (SField (field n g) (ty (u_name u)) w (u_array u) (u_opt u) :: us). split; constructor; try done.
        change (SField (field n g) (ty (u_name u)) w (u_array u) (u_opt u)) with
          (SField (field n g) (u_name (Unresolved (ty (u_name u)) (u_array u) (u_opt u))) w (u_array (Unresolved (ty (u_name u)) (u_array u) (u_opt u))) (u_opt (Unresolved (ty (u_name u)) (u_array u) (u_opt u)))).
        by constructor. }
      exists (TStruct us). split; [|by constructor]. econstructor; [by apply rename_struct|done|done].
  Qed.
End rename.

Lemma for_versions_intro' a1 a2 (P : cls -> rtype -> cls -> rtype -> Prop) : all_fixed a1 -> (valid_schema a1 -> all_fixed a2) ->
  (forall iter1 r1 iter2 r2, fair_order iter1 -> fair_order iter2 -> no_builtin_decl a1 -> no_builtin_decl a2 ->
    type_check iter1 a1 = Ok r1 -> type_check iter2 a2 = Ok r2 ->
    P (class_of (r_export r1)) (TStruct (x_fields (r_export r1))) (class_of (r_export r2)) (TStruct (x_fields (r_export r2)))) ->
  for_versions a1 a2 P.
Proof.
  intros H1 H2 HP. apply for_code_declared_intro; [done|]. intros iter1 r1 Hf1 Hn1 Hr1. apply for_code_declared_intro; [by apply H2; eapply result_valid|].
  intros iter2 r2 Hf2 Hn2 Hr2. exact (HP iter1 r1 iter2 r2 Hf1 Hf2 Hn1 Hn2 Hr1 Hr2).
Qed.
Lemma renamed_bytes a ty field rt : good_renaming ty a -> all_fixed a ->
  for_versions a (rename ty field a) (fun k1 t1 k2 t2 => write_ready k1 -> write_ready k2 -> forall v1 v2 h1 h2 this1 this2,
    writable t1 v1 -> writable t2 v2 -> same_content v1 v2 -> rep h1 this1 v1 -> rep h2 this2 v2 ->
    exists bytes M1 M2, writes rt k1 h1 this1 (Done (bytes, M1)) /\ writes rt k2 h2 this2 (Done (bytes, M2))).
Proof.
  intros Hty Hx. apply for_versions_intro'; [done|intros V; by apply rename_fixed|].
  intros iter1 r1 iter2 r2 Hf1 Hf2 Hn1 Hn2 Hr1 Hr2 Hk1 Hk2 v1 v2 h1 h2 this1 this2 Hv1 Hv2 Hc Hrep1 Hrep2.
  pose proof (result_valid _ _ _ Hf1 Hn1 Hr1) as V1. pose proof (result_valid _ _ _ Hf2 Hn2 Hr2) as V2.
  pose proof (rename_fixed ty field a Hty V1 Hx) as Hx2.
  destruct (type_check_result _ _ _ Hf1 Hn1 Hr1) as (Hy1 & _). destruct (type_check_result _ _ _ Hf2 Hn2 Hr2) as (Hy2 & _).
  rewrite rename_exports, Hy1 in Hy2. injection Hy2 as Hy2.
  pose proof (entry_denotes_fixed iter1 a r1 Hf1 Hn1 Hr1 Hx _ _ (rtc_refl _ _) (export_entry _ _ _ Hf1 Hn1 Hr1)) as D1.
  pose proof (entry_denotes_fixed iter2 _ r2 Hf2 Hn2 Hr2 Hx2 _ _ (rtc_refl _ _) (export_entry _ _ _ Hf2 Hn2 Hr2)) as D2.
  destruct (denotes_rename ty field a Hty _ _ D1) as (u & Du & Ha). rewrite Hy2 in Du.
  rewrite (denotes_eq_unique _ (vs_decls _ V2) Hn2 _ _ _ Du D2) in Ha.
  destruct (writes_wire rt _ _ _ Hf1 Hn1 Hr1 Hk1 v1 h1 this1 Hv1 Hrep1) as (M1 & Hw1 & _).
  destruct (writes_wire rt _ _ _ Hf2 Hn2 Hr2 Hk2 v2 h2 this2 Hv2 Hrep2) as (M2 & Hw2 & _).
  rewrite <- (alike_wire (rt_enc rt) (rt_encs rt) eq (fun _ _ => True) _ ltac:(by intros ? ? ->) _ v1 v2 Ha Hc) in Hw2. eauto.
Qed.
Lemma renamed_accepted a ty field iter1 iter2 : good_renaming ty a -> good_field_renaming field a -> fair_order iter1 -> fair_order iter2 -> no_builtin_decl a ->
  is_ok (type_check iter1 a) -> is_ok (type_check iter2 (rename ty field a)).
Proof.
  intros Hty Hfield Hf1 Hf2 Hn Hok. apply (type_check_valid iter1 a Hf1 Hn) in Hok as V.
  apply (type_check_valid iter2 _ Hf2); [by apply rename_no_builtin|by apply rename_valid].
Qed.
