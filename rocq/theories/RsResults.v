(** What the code emitted in Rust does, for every schema that is accepted. *)
From Verif Require Export RsRun4 RsTextGen WireResults.
Export RsSem RsRun RsRun2 RsRun3 RsRun4.

Fixpoint tsize (t : rtype) : nat := match t with TStruct fs => S (fold_right (fun f n => tsize (f_ty f) + n) 0 fs) | _ => 0 end.
Lemma tsize_field fs f : f ∈ fs -> tsize (f_ty f) < tsize (TStruct fs).
Proof.
  cbn [tsize]. induction fs as [|g fs IH]; intros H; [by apply elem_of_nil in H|]. cbn [fold_right]. apply elem_of_cons in H as [->|H]; [lia|]. specialize (IH H). lia.
Qed.
Notation entry := (string * (string * rtype))%type.
Definition plain_entry (d : entry) : bool := match d.2.2 with TBuiltin _ => false | _ => true end.
Definition below (n : nat) (d : entry) : bool := plain_entry d && (tsize d.2.2 <=? n)%nat.
Lemma items_length l : length (List.concat (List.map item_of l)) = length (List.filter plain_entry l).
Proof.
  induction l as [|[n [m t]] l IH]; [done|]. cbn [List.map List.concat List.filter]. rewrite app_length, IH. unfold plain_entry. cbn [fst snd]. by destruct t.
Qed.
Lemma filter_le {A} (f g : A -> bool) l : (forall x, f x = true -> g x = true) -> length (List.filter f l) <= length (List.filter g l).
Proof.
  intros H. induction l as [|x l IH]; [done|]. cbn [List.filter]. destruct (f x) eqn:E; [rewrite (H _ E); cbn; lia|]. destruct (g x); cbn; lia.
Qed.
Lemma filter_lt {A} (f g : A -> bool) l x : (forall x, f x = true -> g x = true) -> x ∈ l -> f x = false -> g x = true -> length (List.filter f l) < length (List.filter g l).
Proof.
  intros H Hin Hf Hg. induction l as [|y l IH]; [by apply elem_of_nil in Hin|]. pose proof (filter_le f g l H). cbn [List.filter]. apply elem_of_cons in Hin as [->|Hin].
  - rewrite Hf, Hg. cbn. lia.
  - specialize (IH Hin). destruct (f y) eqn:E; [rewrite (H _ E); cbn; lia|]. destruct (g y); cbn; lia.
Qed.
Lemma find_item_none x l : (forall i, i ∈ l -> item_name i ≠ x) -> find_item x l = None.
Proof.
  intros H. unfold find_item. induction l as [|i l IH]; [done|]. cbn [List.find]. rewrite bool_decide_false by (apply H; by left). apply IH. intros j Hj. apply H. by right.
Qed.
Lemma item_of_name d i : i ∈ item_of d -> item_name i = d.1 /\ plain_entry d = true.
Proof. destruct d as [n [m t]]. destruct t; cbn [item_of]; [by intros ?%elem_of_nil|by intros ->%elem_of_list_singleton..]. Qed.
Lemma elem_of_items i l : i ∈ List.concat (List.map item_of l) <-> exists d, d ∈ l /\ i ∈ item_of d.
Proof.
  rewrite elem_of_list_In, in_concat. split.
  - intros (x & (d & <- & Hd)%in_map_iff & Hi). exists d. by rewrite !elem_of_list_In.
  - intros (d & Hd & Hi). exists (item_of d). split; [apply in_map_iff; exists d; by rewrite <- elem_of_list_In|by apply elem_of_list_In].
Qed.
Lemma find_item_in l d i : NoDup l.*1 -> d ∈ l -> item_of d = [i] -> find_item d.1 (List.concat (List.map item_of l)) = Some i.
Proof.
  intros Hn Hin Hi. assert (item_name i = d.1) as Hname by (apply (item_of_name d i); rewrite Hi; by left). induction l as [|e l IH]; [by apply elem_of_nil in Hin|].
  cbn [fmap list_fmap] in Hn. apply NoDup_cons in Hn as [He Hn]. cbn [List.map List.concat]. apply elem_of_cons in Hin as [->|Hin].
  - rewrite Hi. unfold find_item. cbn [app List.find]. by rewrite bool_decide_true.
  - assert (forall m, m ∈ item_of e -> item_name m ≠ d.1) as Hne.
    { intros m [-> _]%item_of_name E. apply He. rewrite E. apply elem_of_list_fmap. by exists d. }
    unfold find_item in *. destruct (item_of e) as [|m [|m' ms]] eqn:Ee.
    + by apply IH.
    + cbn [app List.find]. rewrite bool_decide_false by (apply Hne; by left). by apply IH.
    + destruct e as [n [m0 t]]. by destruct t.
Qed.
Lemma resolve_none n : n ∉ builtin_names -> rs_name n = n.
Proof.
  intros H. unfold rs_name, resolve_typename. repeat match goal with |- context [(n =? ?s)%string] => destruct (String.eqb_spec n s) as [->|_]; [exfalso; apply H, (bool_decide_unpack _); vm_compute; exact I|] end. done.
Qed.

Section result.
  Context iter a r (Hfair : fair_order iter) (Hnb : no_builtin_decl a) (Hr : type_check iter a = Ok r) titer (Ht : fair_types titer).
  Notation L := (titer (r_types r)).
  Notation items := (rm_items (rs_module_of titer r)).
  Definition rank (n : string) : nat :=
    match r_types r !! n with Some (_, t) => match t with TBuiltin _ => 0 | _ => length (List.filter (below (tsize t)) L) end | None => 0 end.
  Lemma entry_in n t : r_types r !! n = Some (n, t) -> (n, (n, t)) ∈ L.
  Proof. intros H. rewrite (Ht (r_types r)). by apply elem_of_map_to_list. Qed.
  Lemma entries_nodup : NoDup L.*1.
  Proof. rewrite (Ht (r_types r)). apply NoDup_fst_map_to_list. Qed.
  Lemma plain_declared n t : r_types r !! n = Some (n, t) -> (forall b, t ≠ TBuiltin b) -> n ∈ decl_names a /\ n ∉ builtin_names.
  Proof.
    intros Hn Hb. assert (n ∉ builtin_names) as Hni.
    { intros [b E]%(proj1 (entry_builtin _ _ _ Hfair Hnb Hr _ _ Hn)). by apply (Hb b). }
    split; [|done]. destruct (type_check_result _ _ _ Hfair Hnb Hr) as (_ & _ & _ & Hent).
    destruct (Hent _ _ _ Hn) as [_ [(b & Hb' & ->)|[(vs & rp & Hd & _)|(? & ? & ? & Hd & _)]]]; [by destruct (Hb b)|by eapply decl_names_elem..].
  Qed.
  Lemma rank_in n t : r_types r !! n = Some (n, t) -> (forall b, t ≠ TBuiltin b) -> 0 < rank n <= length items.
  Proof.
    intros Hn Hb. assert (rank n = length (List.filter (below (tsize t)) L)) as E.
    { unfold rank. rewrite Hn. destruct t; [by destruct (Hb b)|done..]. }
    rewrite E. cbn [rs_module_of rm_items]. rewrite items_length. split.
    - assert (below (tsize t) (n, (n, t)) = true) as Hbl.
      { unfold below, plain_entry. cbn [fst snd]. rewrite (proj2 (Nat.leb_le _ _) (Nat.le_refl _)). destruct t; [by destruct (Hb b)|done..]. }
      assert (In (n, (n, t)) (List.filter (below (tsize t)) L)) as Hin by (apply filter_In; split; [by apply elem_of_list_In, entry_in|done]).
      destruct (List.filter (below (tsize t)) L); [done|cbn; lia].
    - apply filter_le. intros x. unfold below. by destruct (plain_entry x).
  Qed.
  Lemma rank_field n fs f : r_types r !! n = Some (n, TStruct fs) -> f ∈ fs -> rank (f_tname f) < rank n.
  Proof.
    intros Hn Hf. destruct (entry_struct _ _ _ Hfair Hnb Hr _ _ _ Hn Hf) as (_ & _ & _ & _ & _ & _ & _ & E). pose proof (tsize_field _ _ Hf) as Hlt.
    pose proof (rank_in n (TStruct fs) Hn ltac:(done)) as Hpos. unfold rank at 1. rewrite E. destruct (f_ty f) as [b|e|gs] eqn:Et; [lia| |].
    - rewrite <- Et in *. unfold rank. rewrite Hn. apply (filter_lt _ _ _ (n, (n, TStruct fs))).
      + intros x. unfold below. destruct (plain_entry x); [|done]. cbn [andb]. rewrite !Nat.leb_le. lia.
      + by apply entry_in.
      + unfold below. cbn [fst snd plain_entry andb]. apply Nat.leb_gt. exact Hlt.
      + unfold below. cbn [fst snd plain_entry andb]. by apply Nat.leb_le.
    - rewrite <- Et in *. unfold rank. rewrite Hn. apply (filter_lt _ _ _ (n, (n, TStruct fs))).
      + intros x. unfold below. destruct (plain_entry x); [|done]. cbn [andb]. rewrite !Nat.leb_le. lia.
      + by apply entry_in.
      + unfold below. cbn [fst snd plain_entry andb]. apply Nat.leb_gt. exact Hlt.
      + unfold below. cbn [fst snd plain_entry andb]. by apply Nat.leb_le.
  Qed.
  Lemma struct_names n rs : r_types r !! n = Some (n, TStruct rs) -> exists fs, declares_struct a n fs /\ map f_name rs ≡ₚ fs.*1.
  Proof.
    intros Hn. destruct (type_check_result _ _ _ Hfair Hnb Hr) as (_ & _ & _ & Hent).
    destruct (Hent _ _ _ Hn) as [_ [(? & _ & [=])|[(? & ? & _ & _ & [=])|(fs & ds & rs' & Hd & Hp & Hm & [= ->])]]]. exists fs. split; [done|]. rewrite <- Hp.
    clear -Hm. induction Hm as [|[f u] rf ds rs H _ IH]; [done|]. cbn [map fmap list_fmap fst]. destruct H as (E1 & _). cbn in E1. rewrite E1. by apply perm_skip.
  Qed.

  Context (Hrn : rust_names a).
  Lemma prims_free p : p ∈ rust_prims -> find_item p items = None.
  Proof.
    intros Hp. apply find_item_none. intros i Hi E. cbn [rs_module_of rm_items] in Hi. apply elem_of_items in Hi as (d & Hd & Hi). apply item_of_name in Hi as [Hi Hpl].
    destruct (titer_entry _ _ _ Hfair Hnb Hr titer Ht d Hd) as [_ He]. destruct (plain_declared _ _ He) as [Hin _].
    { intros b Eb. unfold plain_entry in Hpl. by rewrite Eb in Hpl. }
    apply (rn_types a Hrn _ Hin). by rewrite <- Hi, E.
  Qed.
  Lemma entry_known_leaf n t : r_types r !! n = Some (n, t) -> known_leaf items rank t n.
  Proof.
    intros Hn. pose proof (entry_leaf _ _ _ Hfair Hnb Hr _ _ Hn) as Hleaf. destruct t as [b|e|fs]; cbn [known_leaf].
    - split; [done|]. unfold rank. by rewrite Hn.
    - destruct (plain_declared _ _ Hn ltac:(done)) as [_ Hni]. split; [done|]. split; [|split; [by apply resolve_none|by apply (rank_in n (TEnum e))]].
      apply (find_item_in _ (n, (n, TEnum e))); [apply entries_nodup|by apply entry_in|done].
    - destruct (plain_declared _ _ Hn ltac:(done)) as [_ Hni]. split; [|split; [|split; [by apply resolve_none|split; [by apply (rank_in n (TStruct fs))|intros f Hf; by eapply rank_field]]]].
      + destruct (struct_names _ _ Hn) as (gs & Hd & Hp). rewrite Hp. by eapply (rn_fields a Hrn).
      + apply (find_item_in _ (n, (n, TStruct fs))); [apply entries_nodup|by apply entry_in|done].
  Qed.
  Lemma entry_known n t : r_types r !! n = Some (n, t) -> known items rank t n.
  Proof.
    intros Hn. split; [by apply entry_known_leaf|]. eapply entry_checked; [done..| |exact Hn]. intros m rs f Hm Hf.
    split; [by eapply field_is_ok|]. apply entry_known_leaf. destruct (entry_struct _ _ _ Hfair Hnb Hr _ _ _ Hm Hf) as (_ & _ & _ & _ & _ & _ & _ & E). exact E.
  Qed.
End result.

Lemma known_fair items rank t tn : known items rank t tn -> fair_type t.
Proof.
  intros [H1 H2]. split; [destruct t; [done|apply H1|done]|]. eapply all_fields_impl; [|exact H2]. intros f [H3 H4]. split; [done|]. destruct (f_ty f); [done|apply H4|done].
Qed.

Section schema.
  Context iter a r (Hfair : fair_order iter) (Hnb : no_builtin_decl a) (Hr : type_check iter a = Ok r).
  Notation t := (TStruct (x_fields (r_export r))). Notation e := (x_name (r_export r)).
  Lemma entry_small : small_enums a -> forall n t, r_types r !! n = Some (n, t) -> small_type t.
  Proof.
    intros Hs. assert (forall n t, r_types r !! n = Some (n, t) -> leaf_small t) as Hl.
    { intros n t Hn. destruct t as [b|en|fs]; [done| |done]. destruct (type_check_result _ _ _ Hfair Hnb Hr) as (_ & _ & _ & Hent).
      destruct (Hent _ _ _ Hn) as [_ [(? & _ & [=])|[(vs & rp & Hd & _ & [= ->])|(? & ? & ? & _ & _ & _ & [=])]]]. cbn. rewrite imap_length. by eapply Hs. }
    intros n t Hn. split; [by eapply Hl|]. eapply entry_checked; [done..| |exact Hn]. intros m rs f Hm Hf.
    destruct (entry_struct _ _ _ Hfair Hnb Hr _ _ _ Hm Hf) as (_ & _ & _ & _ & _ & _ & _ & E). by eapply Hl.
  Qed.
  Context titer (Ht : fair_types titer) (Hrn : rust_names a).
  Notation m := (rs_module_of titer r).
  Context (lib : rs_lib) (str_ok : rstr -> Prop).
  Lemma export_known : known (rm_items m) (rank r titer) t e.
  Proof. eapply entry_known; [done..|]. by eapply export_entry. Qed.
  Lemma export_fair : fair_type t.
  Proof. eapply known_fair, export_known. Qed.
  Lemma module_writes x v : stands str_ok t e x v -> rs_write lib m x = Some (wire (lb_enc lib) (lb_encs lib) t v).
  Proof.
    intros Hs. unfold rs_write. destruct (RsRun.w_ty (rm_items m) (rank r titer) lib str_ok t e export_known "input" [] [("input", x)] x v) as [H _]; [done|done|].
    exact H.
  Qed.
  Lemma module_reads cur data : fits t cur -> rs_read lib m cur data = rgo (into lib t e (dflt t e) (RIn data 0 0)) (fun y i => Good (onto t cur y) i).
  Proof.
    intros Hf. rewrite <- (into_onto lib t e cur (RIn data 0 0) Hf). unfold rs_read.
    pose proof (sim_ty (rm_items m) (rank r titer) (prims_free _ _ _ Hfair Hnb Hr _ Ht Hrn) lib t e export_known "output" [] [("output", cur)] (RIn data 0 0) cur Hf eq_refl) as H.
    change (rr_ty t e ["output"]) with (rm_read m) in H. unfold sim in H.
    destruct (into lib t e cur (RIn data 0 0)) as [y i|i|] eqn:E.
    - destruct H as (env' & -> & news & env1 & -> & Hl & Hset). cbn [rgo]. rewrite find_key_skip by (by apply all_longer_not).
      unfold set_place in Hset. cbn [pl_root pl_path find_key set_path set_key] in Hset. rewrite decide_True in Hset by done. cbn [set_key] in Hset. rewrite decide_True in Hset by done.
      injection Hset as <-. cbn [find_key]. rewrite decide_True by done. done.
    - by rewrite H.
    - exfalso. rewrite (into_onto lib t e cur (RIn data 0 0) Hf) in E. pose proof (into_dflt_not_ill lib t e (RIn data 0 0)) as Hn. by destruct (into lib t e (dflt t e) (RIn data 0 0)).
  Qed.
  Lemma module_default : default_value (rm_items m) e = Some (dflt t e).
  Proof.
    rewrite <- (default_known (rm_items m) (rank r titer) (prims_free _ _ _ Hfair Hnb Hr _ Ht Hrn) t e export_known). f_equal. symmetry.
    apply export_known.
  Qed.
End schema.

Lemma for_rust_intro a (P : rs_module -> rtype -> Prop) :
  (forall iter r titer, fair_order iter -> no_builtin_decl a -> type_check iter a = Ok r -> fair_types titer -> P (rs_module_of titer r) (TStruct (x_fields (r_export r)))) ->
  for_rust a P.
Proof.
  intros HP iter r version now titer Hf Hl Hr Ht Hv Hn. pose proof (legal_no_builtin _ Hl) as Hnb.
  destruct (read_rs_generated iter a r Hf Hnb Hl Hr titer Ht version now Hv Hn) as (t & H1 & H2). exists t, (rs_module_of titer r), (TStruct (x_fields (r_export r))).
  split; [done|]. split; [done|]. split; [by eapply type_check_result|]. split; [eapply entry_denotes; [done..|by eapply export_entry]|]. by eapply HP.
Qed.
Lemma for_both_intro a (P : cls -> rs_module -> rtype -> Prop) :
  (forall iter r titer, fair_order iter -> no_builtin_decl a -> type_check iter a = Ok r -> fair_types titer ->
     P (class_of (r_export r)) (rs_module_of titer r) (TStruct (x_fields (r_export r)))) ->
  for_both a P.
Proof.
  intros HP iter r version now titer Hf Hl Hr Ht Hv Hn. pose proof (legal_no_builtin _ Hl) as Hnb.
  destruct (read_rs_generated iter a r Hf Hnb Hl Hr titer Ht version now Hv Hn) as (t2 & H3 & H4).
  destruct (read_generated iter a r Hf Hnb Hl Hr version now titer Ht Hv Hn) as (t1 & ds & H1 & H2 & ->).
  exists t1, t2, (m_decls (module_of "" "" titer r)), (class_of (r_export r)), (rs_module_of titer r), (TStruct (x_fields (r_export r))).
  split; [done|]. split; [done|]. split; [done|]. split; [done|]. split; [by eapply type_check_result|]. split; [done|]. split; [eapply entry_denotes; [done..|by eapply export_entry]|]. by eapply HP.
Qed.
