(** Proofs for C19-C21 and C50. *)
From Verif Require Export ParserProofs2 GenProofs GenSpec.

(** ** Declarations *)
Lemma ts_type_name t tn : leaf_ok t tn -> (forall fs, t = TStruct fs -> tn ∉ builtin_names) ->
  (forall e, t = TEnum e -> tn ∉ builtin_names) -> ts_type tn t = ts_name tn.
Proof.
  intros Hl Hs He. unfold ts_type, ts_name. destruct t as [b|e|fs].
  - cbn in Hl. unfold builtin_of_name in Hl.
    repeat match goal with H : context [decide (tn = ?s)] |- _ => destruct (decide (tn = s)) as [->|?]; [injection Hl as <-; by vm_compute|] end. done.
  - specialize (He _ eq_refl). destruct (decide (tn = "string")) as [->|_]; [exfalso; apply He; set_solver|].
    by destruct (decide (tn ∈ builtin_names)).
  - specialize (Hs _ eq_refl). destruct (decide (tn = "string")) as [->|_]; [exfalso; apply Hs; set_solver|].
    by destruct (decide (tn ∈ builtin_names)).
Qed.

Lemma sublist_NoDup_ {A} (l k : list A) : l `sublist_of` k -> NoDup k -> NoDup l.
Proof.
  induction 1 as [|x l k Hs IH|x l k Hs IH]; [done|..]; rewrite ?NoDup_cons; [|naive_solver].
  intros [Hx Hk]. split; [|auto]. intros Hl. apply Hx. by eapply elem_of_submseteq; [|apply sublist_submseteq].
Qed.
Lemma decls_sublist e L :
  (decl_name <$> List.concat (List.map (decl_of e) L)) `sublist_of` L.*1.
Proof.
  induction L as [|[n [m t]] L IH]; [done|]. cbn [List.map List.concat decl_of]. rewrite fmap_app.
  cbn [fmap list_fmap fst]. change (n :: L.*1) with ([n] ++ L.*1). apply sublist_app; [|exact IH].
  destruct (n =? e)%string; [apply sublist_nil_l|]. destruct t; [apply sublist_nil_l|done..].
Qed.
Lemma elem_of_decls e L d : d ∈ List.concat (List.map (decl_of e) L) <->
  exists n m t, (n, (m, t)) ∈ L /\ d ∈ decl_of e (n, (m, t)).
Proof.
  rewrite elem_of_list_In, in_concat. split.
  - intros (l & (x & <- & Hx)%in_map_iff & Hd). destruct x as [n [m t]]. exists n, m, t. by rewrite !elem_of_list_In.
  - intros (n & m & t & H1 & H2). rewrite !elem_of_list_In in *. eexists; split; [|exact H2]. apply in_map_iff. eauto.
Qed.

Lemma builtin_of_name_in n b : builtin_of_name n = Some b -> n ∈ builtin_names.
Proof.
  unfold builtin_of_name. intros H.
  repeat match goal with H : context [decide (n = ?s)] |- _ => destruct (decide (n = s)) as [->|?]; [set_solver|] end. done.
Qed.

Section result2.
  Context iter a r (Hfair : fair_order iter) (Hnb : no_builtin_decl a) (Hr : type_check iter a = Ok r).
  Context titer (Ht : fair_types titer).
  Notation e := (x_name (r_export r)).
  Notation ds := (List.concat (List.map (decl_of e) (titer (r_types r)))).

  Lemma declared_name n t : NDecl n t ∈ a -> n ∈ decl_names a.
  Proof.
    clear. induction a as [|[m' t'|m'] a' IH]; intros H; [by apply elem_of_nil in H|..];
      apply elem_of_cons in H as [H|H]; cbn [decl_names]; try done.
    - injection H as -> ->. by left.
    - right. by apply IH.
    - by apply IH.
  Qed.

  Lemma entry_builtin n t : r_types r !! n = Some (n, t) -> n ∈ builtin_names <-> exists b, t = TBuiltin b.
  Proof.
    intros Hn. destruct (type_check_result _ _ _ Hfair Hnb Hr) as (_ & _ & _ & Hent).
    destruct (Hent _ _ _ Hn) as [_ [(b & Hb & ->)|[(vs & rp & Hd & Hrp & ->)|(? & ? & ? & Hd & _ & _ & ->)]]].
    - apply builtin_of_name_in in Hb. naive_solver.
    - apply declared_name, Hnb in Hd. naive_solver.
    - apply declared_name, Hnb in Hd. naive_solver.
  Qed.

  Lemma entry_ts_name n t : r_types r !! n = Some (n, t) -> ts_type n t = ts_name n.
  Proof.
    intros Hn. apply ts_type_name; [by eapply entry_leaf|..]; intros x ->; rewrite (entry_builtin _ _ Hn); naive_solver.
  Qed.

  Lemma decls_nodup : NoDup (decl_name <$> ds).
  Proof.
    eapply (sublist_NoDup_); [apply decls_sublist|]. rewrite (Ht (r_types r)). apply NoDup_fst_map_to_list.
  Qed.

  Lemma decls_declare n : n ≠ e -> n ∉ builtin_names -> needed a e n -> exists d, d ∈ ds /\ decl_name d = n.
  Proof.
    intros Hne Hnb' Hn. destruct (type_check_result _ _ _ Hfair Hnb Hr) as (_ & _ & Hneed & Hent).
    apply Hneed in Hn as [[m t] Hn]. destruct (Hent _ _ _ Hn) as [-> _].
    assert (forall d, d ∈ decl_of e (n, (n, t)) -> d ∈ ds) as Hin.
    { intros d' Hd'. apply elem_of_decls. exists n, n, t. split; [|done]. rewrite (Ht (r_types r)). by apply elem_of_map_to_list. }
    cbn [decl_of] in Hin. rewrite (proj2 (String.eqb_neq n e) Hne) in Hin.
    destruct t as [b|en|fs].
    - destruct Hnb'. apply (entry_builtin _ _ Hn). eauto.
    - eexists; split; [apply Hin; by left|done].
    - eexists; split; [apply Hin; by left|done].
  Qed.

  Lemma decls_inv d : d ∈ ds -> decl_name d ≠ e /\ decl_name d ∉ builtin_names /\ needed a e (decl_name d) /\ declares a (decl_name d) d.
  Proof.
    intros (n & m & t & Hin & Hd)%elem_of_decls. rewrite (Ht (r_types r)) in Hin. apply elem_of_map_to_list in Hin.
    destruct (type_check_result _ _ _ Hfair Hnb Hr) as (_ & _ & Hneed & Hent).
    destruct (Hent _ _ _ Hin) as [-> Hm]. cbn [decl_of] in Hd.
    destruct (String.eqb_spec n e) as [|Hne]; [by apply elem_of_nil in Hd|].
    assert (needed a e n) as HN by (apply Hneed; eauto).
    destruct t as [b|en|fs]; [by apply elem_of_nil in Hd|..].
    - apply elem_of_list_singleton in Hd as ->. cbn [decl_name].
      split; [done|]. split; [rewrite (entry_builtin _ _ Hin); naive_solver|]. split; [done|].
      left. destruct Hm as [(? & _ & [=])|[(vs & rp & Hdd & Hrp & [= ->])|(? & ? & ? & _ & _ & _ & [=])]].
      exists vs. split; [done|]. f_equal. cbn [e_variants]. 
      apply list_eq. intros i. rewrite !list_lookup_imap. change (List.map ?f ?l) with (f <$> l).
      rewrite list_lookup_fmap, list_lookup_imap. by destruct (vs !! i).
    - apply elem_of_list_singleton in Hd as ->. cbn [decl_name].
      split; [done|]. split; [rewrite (entry_builtin _ _ Hin); naive_solver|]. split; [done|].
      right. destruct Hm as [(? & _ & [=])|[(? & ? & _ & _ & [=])|(fs' & ds' & rs & Hdd & Hp & Hm & [= ->])]].
      exists fs', ds'. split; [done|]. split; [done|]. f_equal.
      clear - Hm Hfair Hnb Hr. induction Hm as [|[f u] rf ds' rs H _ IH]; [done|]. cbn [List.map]. f_equal; [|done].
      destruct H as (E1 & E2 & E3 & E4 & E5). simpl in *. rewrite E1, E3, E4. f_equal. f_equal.
      rewrite E2. by apply entry_ts_name.
  Qed.

  Lemma params_inv : exists fs ds', declares_struct a e fs /\ ds' ≡ₚ fs /\
    k_params (class_of (r_export r)) = List.map (fun '(f, u) => (f, param_type e u)) ds'.
  Proof.
    pose proof (export_entry _ _ _ Hfair Hnb Hr) as Hn.
    destruct (type_check_result _ _ _ Hfair Hnb Hr) as (_ & _ & _ & Hent).
    destruct (Hent _ _ _ Hn) as [_ [(? & _ & [=])|[(? & ? & _ & _ & [=])|(fs' & ds' & rs & Hd & Hp & Hm & [= E])]]].
    exists fs', ds'. split; [done|]. split; [done|]. cbn [class_of k_params]. rewrite E.
    clear - Hm Hfair Hnb Hr. induction Hm as [|[f u] rf ds' rs H _ IH]; [done|]. cbn [List.map]. f_equal; [|done].
    destruct H as (E1 & E2 & E3 & E4 & E5). simpl in *. rewrite E1, E2, E3, E4. f_equal.
    unfold param_type. pose proof (entry_builtin _ _ E5) as HB. pose proof (entry_ts_name _ _ E5) as HT.
    unfold field_ctor_type. destruct (decide (u_name u ∈ builtin_names)) as [Hin|Hnin].
    - rewrite <- HT. apply HB in Hin as [b ->]. by destruct b.
    - assert (forall b, f_ty rf ≠ TBuiltin b) as Hb by naive_solver.
      destruct (f_ty rf); [naive_solver|..]; by rewrite !sapp_assoc.
  Qed.

  (** every type that a declaration or the constructor mentions is declared *)
  Lemma mentioned_declared n fs f u : (n = e \/ n ∈ decl_name <$> ds) -> declares_struct a n fs -> (f, u) ∈ fs ->
    u_name u ∈ builtin_names \/ u_name u ∈ decl_name <$> ds.
  Proof.
    intros Hn Hd Hu. destruct (decide (u_name u ∈ builtin_names)) as [|Hnb']; [by left|right].
    assert (needed a e n) as HN.
    { destruct Hn as [->|(d & -> & Hd')%elem_of_list_fmap]; [apply rtc_refl|]. by apply decls_inv. }
    assert (needed a e (u_name u)) as HU by (eapply rtc_r; [exact HN|]; exists fs, f, u; done).
    assert (u_name u ≠ e) as Hne.
    { intros E. apply (vs_acyclic a (result_valid _ _ _ Hfair Hnb Hr) e).
      rewrite E in *. eapply tc_rtc_l; [exact HN|]. apply tc_once. exists fs, f, u. done. }
    destruct (decls_declare (u_name u) Hne Hnb' HU) as (d & Hdd & <-).
    apply elem_of_list_fmap. eauto.
  Qed.
End result2.
