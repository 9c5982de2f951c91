(** The statements about emitted Rust, for every schema. *)
From Verif Require Export RsInterop RsLib GenWitness.
Export RsSem RsRun RsRun2 RsRun3 RsRun4.

Lemma rust_type_name_eq n : rust_type_name n = rs_name n.
Proof.
  unfold rust_type_name. destruct (builtin_of_name n) as [b|] eqn:E; [rewrite (rs_name_prim _ _ E); by destruct b|]. symmetry. apply resolve_none.
  intros [b Hb]%builtin_names_spec. by rewrite Hb in E.
Qed.

Section run.
  Context iter a r (Hfair : fair_order iter) (Hnb : no_builtin_decl a) (Hr : type_check iter a = Ok r) titer (Ht : fair_types titer).
  Notation t := (TStruct (x_fields (r_export r))). Notation e := (x_name (r_export r)). Notation m := (rs_module_of titer r).
  Lemma module_names n : n ∈ item_name <$> rm_items m <-> n ∉ builtin_names /\ needed a e n.
  Proof.
    destruct (type_check_result _ _ _ Hfair Hnb Hr) as (_ & _ & Hneed & _). rewrite elem_of_list_fmap. cbn [rs_module_of rm_items]. split.
    - intros (i & -> & (d & Hd & Hi)%elem_of_items). apply item_of_name in Hi as [-> Hpl]. destruct (titer_entry _ _ _ Hfair Hnb Hr titer Ht d Hd) as [_ He]. split.
      + eapply (plain_declared _ _ _ Hfair Hnb Hr); [exact He|]. intros b Eb. unfold plain_entry in Hpl. by rewrite Eb in Hpl.
      + apply Hneed. rewrite He. by eexists.
    - intros [Hb Hn]. apply Hneed in Hn as [[n' ty] Hn]. destruct (type_check_result _ _ _ Hfair Hnb Hr) as (_ & _ & _ & Hent). destruct (Hent _ _ _ Hn) as [-> _].
      pose proof (entry_in r titer Ht _ _ Hn) as Hin. destruct ty as [b|en|fs].
      + exfalso. apply Hb. eapply (entry_builtin _ _ _ Hfair Hnb Hr _ _ Hn). by eexists.
      + eexists. split; [|apply elem_of_items; exists (n, (n, TEnum en)); split; [done|by left]]. done.
      + eexists. split; [|apply elem_of_items; exists (n, (n, TStruct fs)); split; [done|by left]]. done.
  Qed.
  Lemma module_nodup : NoDup (item_name <$> rm_items m).
  Proof.
    cbn [rs_module_of rm_items]. pose proof (entries_nodup r titer Ht) as H. revert H. generalize (titer (r_types r)). intros l. induction l as [|d l IH]; intros H; [constructor|].
    cbn [fmap list_fmap] in H. apply NoDup_cons in H as [H1 H2]. cbn [List.map List.concat]. rewrite fmap_app. apply NoDup_app. split; [|split; [|by apply IH]].
    - destruct d as [n [n' ty]]. destruct ty; cbn; [constructor|apply NoDup_singleton..].
    - intros x (i & -> & Hi)%elem_of_list_fmap (j & E & (d' & Hd' & Hj)%elem_of_items)%elem_of_list_fmap. apply item_of_name in Hi as [Hi _]. apply item_of_name in Hj as [Hj _].
      apply H1. rewrite <- Hi, E, Hj. apply elem_of_list_fmap. by exists d'.
  Qed.
  Lemma field_type_name n ty : r_types r !! n = Some (n, ty) -> (match ty with TBuiltin b => builtin_prim b | _ => n end) = rust_type_name n.
  Proof.
    intros Hn. rewrite rust_type_name_eq. destruct ty as [b|en|gs].
    - destruct (type_check_result _ _ _ Hfair Hnb Hr) as (_ & _ & _ & Hent).
      destruct (Hent _ _ _ Hn) as [_ [(b' & Hb & [= <-])|[(? & ? & _ & _ & [=])|(? & ? & ? & _ & _ & _ & [=])]]]. symmetry. by apply rs_name_prim.
    - symmetry. apply resolve_none. by eapply (plain_declared _ _ _ Hfair Hnb Hr n (TEnum en)).
    - symmetry. apply resolve_none. by eapply (plain_declared _ _ _ Hfair Hnb Hr n (TStruct gs)).
  Qed.
  Lemma struct_fields fs rs : Forall2 (field_matches (r_types r)) fs rs -> List.map (fun f => (f_name f, field_rs_type f)) rs = map (fun d => (d.1, rust_type d.2)) fs.
  Proof.
    induction 1 as [|[g u] f fs rs H _ IH]; [done|]. cbn [List.map map]. rewrite IH. f_equal. destruct H as (E1 & E2 & E3 & E4 & E5). cbn [fst snd] in *. unfold field_rs_type, rust_type. rewrite E1, E2, E3, E4. f_equal. f_equal.
    by apply field_type_name.
  Qed.
  Lemma module_declares i : i ∈ rm_items m -> rs_declares a i.
  Proof.
    cbn [rs_module_of rm_items]. intros (d & Hd & Hi)%elem_of_items. destruct (titer_entry _ _ _ Hfair Hnb Hr titer Ht d Hd) as [Ed He].
    destruct (type_check_result _ _ _ Hfair Hnb Hr) as (_ & _ & _ & Hent). destruct (Hent _ _ _ He) as [_ Hm]. destruct d as [n [n' ty]]. cbn [fst snd] in *.
    destruct Hm as [(b & _ & ->)|[(vs & rp & Hde & Hrp & ->)|(fs & ds & rs & Hds & Hp & Hm & ->)]]; cbn [item_of] in Hi.
    - by apply elem_of_nil in Hi.
    - apply elem_of_list_singleton in Hi as ->. destruct (vs_enums _ (result_valid _ _ _ Hfair Hnb Hr) _ _ Hde) as [Hlen _].
      exists vs, rp. split; [done|]. split; [done|]. split; [by destruct rp|]. cbn [e_variants e_repr] in *.
      change (@List.map) with (fun A B (f : A -> B) (l : list A) => f <$> l). cbn beta.
      split; [apply list_eq; intros i; rewrite list_lookup_fmap, !list_lookup_imap; by destruct (vs !! i)|]. split; [by destruct vs; [cbn in Hlen; lia|]|].
      split; [rewrite <- list_fmap_compose; apply list_eq; intros i; rewrite list_lookup_fmap, list_lookup_imap; by destruct (vs !! i)|].
      split; [intros i v Hi Hlt; rewrite list_lookup_fmap, list_lookup_imap, Hi; cbn; by rewrite shl1_pow by lia|].
      intros v Hi. by rewrite list_lookup_fmap, list_lookup_imap, Hi.
    - apply elem_of_list_singleton in Hi as ->. exists fs. split; [done|]. rewrite (struct_fields _ _ Hm). by rewrite Hp.
  Qed.

  (** ** reading *)
  Context (Hrn : rust_names a) (lib : rs_lib) (str_ok : rstr -> Prop).
  Lemma fresh_reads data : rs_read lib m (dflt t e) data = into lib t e (dflt t e) (RIn data 0 0).
  Proof.
    rewrite (module_reads _ _ _ Hfair Hnb Hr _ Ht Hrn) by apply fits_dflt. rewrite <- (into_onto lib t e (dflt t e)) by apply fits_dflt. done.
  Qed.
  Lemma module_onto cur data : typed str_ok t e cur -> rs_read lib m cur data =
    match rs_read lib m (dflt t e) data with Good y i => Good (onto t cur y) i | Bad i => Bad i | Ill => Ill end.
  Proof. intros [v Hv]. rewrite fresh_reads. rewrite (module_reads _ _ _ Hfair Hnb Hr _ Ht Hrn) by (by eapply typed_fits). done. Qed.
  Lemma module_thrifty cur data : rs_lib_ok lib str_ok -> typed str_ok t e cur -> thrifty (RIn data 0 0) (rs_read lib m cur data).
  Proof.
    intros Hlib [v Hv]. rewrite (module_reads _ _ _ Hfair Hnb Hr _ Ht Hrn) by (by eapply typed_fits). apply thrifty_go; [by eapply into_thrifty|]. intros. cbn. unfold spent. lia.
  Qed.
  Context (Hlib : rs_lib_ok lib str_ok).
  Lemma module_decides data : small_enums a ->
    (exists x v i, rs_read lib m (dflt t e) data = Good x i /\ stands str_ok t e x v /\ packet lib str_ok t v data (ri_bytes i)) \/
    (exists i, rs_read lib m (dflt t e) data = Bad i /\ forall v rest, ~ packet lib str_ok t v data rest).
  Proof.
    intros Hs. rewrite fresh_reads. pose proof (export_fair _ _ _ Hfair Hnb Hr _ Ht Hrn) as Hk.
    pose proof (into_complete lib str_ok Hlib t e Hk (entry_small _ _ _ Hfair Hnb Hr Hs _ _ (export_entry _ _ _ Hfair Hnb Hr))) as Hc.
    destruct (into lib t e (dflt t e) (RIn data 0 0)) as [x i|i|] eqn:E.
    - left. destruct (into_sound lib str_ok Hlib t e Hk _ _ _ E) as (v & H1 & H2). by exists x, v, i.
    - right. exists i. split; [done|]. intros v rest Hp. destruct (Hc v data rest Hp (RIn data 0 0) eq_refl) as (y & i' & H & _). by rewrite E in H.
    - by destruct (into_dflt_not_ill lib t e (RIn data 0 0)).
  Qed.
  Lemma module_takes data v rest : small_enums a -> packet lib str_ok t v data rest -> exists x i, rs_read lib m (dflt t e) data = Good x i /\ stands str_ok t e x v /\ ri_bytes i = rest.
  Proof.
    intros Hs Hp. rewrite fresh_reads. pose proof (export_fair _ _ _ Hfair Hnb Hr _ Ht Hrn) as Hk.
    destruct (into_complete lib str_ok Hlib t e Hk (entry_small _ _ _ Hfair Hnb Hr Hs _ _ (export_entry _ _ _ Hfair Hnb Hr)) v data rest Hp (RIn data 0 0) eq_refl) as (y & i & H1 & H2 & H3).
    by exists y, i.
  Qed.
  Lemma module_round_trip x v rest : small_enums a -> stands str_ok t e x v ->
    exists i, rs_read lib m (dflt t e) (wire (lb_enc lib) (lb_encs lib) t v ++ rest) = Good x i /\ ri_bytes i = rest.
  Proof.
    intros Hs Hx. pose proof (export_fair _ _ _ Hfair Hnb Hr _ Ht Hrn) as Hk. pose proof (packet_wire lib str_ok Hlib t e x v rest Hk Hx) as Hp.
    destruct (module_takes _ _ _ Hs Hp) as (y & i & H1 & H2 & H3). exists i. rewrite (stands_inj str_ok t e x y v Hk Hx H2). done.
  Qed.
End run.

Lemma rust_declared a : for_rust a (fun m t => NoDup (item_name <$> rm_items m) /\
  (forall n, n ∈ item_name <$> rm_items m <-> n ∉ builtin_names /\ needed a (rm_type m) n) /\ Forall (rs_declares a) (rm_items m)).
Proof.
  apply for_rust_intro. intros iter r titer Hf Hn Hr Ht. split; [by eapply module_nodup|]. split; [intros; by eapply module_names|].
  apply Forall_forall. intros i. by eapply module_declares.
Qed.
Lemma rust_writes a lib str_ok : rust_names a -> for_rust a (fun m t => forall x v, stands str_ok t (rm_type m) x v ->
  rs_write lib m x = Some (wire (lb_enc lib) (lb_encs lib) t v)).
Proof. intros Hrn. apply for_rust_intro. intros iter r titer Hf Hn Hr Ht x v. by eapply module_writes. Qed.
Lemma rust_round_trip a lib str_ok : rs_lib_ok lib str_ok -> small_enums a -> rust_names a -> for_rust a (fun m t =>
  exists d, default_value (rm_items m) (rm_type m) = Some d /\
  forall x, typed str_ok t (rm_type m) x -> exists bytes, rs_write lib m x = Some bytes /\
    forall rest, exists i, rs_read lib m d (bytes ++ rest) = Good x i /\ ri_bytes i = rest).
Proof.
  intros Hlib Hs Hrn. apply for_rust_intro. intros iter r titer Hf Hn Hr Ht. eexists. split; [by eapply module_default|]. intros x [v Hv]. eexists.
  split; [by eapply module_writes|]. intros rest. by eapply module_round_trip.
Qed.
Lemma rust_truncated a lib str_ok : rs_lib_ok lib str_ok -> small_enums a -> rust_names a -> for_rust a (fun m t =>
  exists d, default_value (rm_items m) (rm_type m) = Some d /\
  forall x bytes cut, typed str_ok t (rm_type m) x -> rs_write lib m x = Some bytes -> cut `prefix_of` bytes -> cut ≠ bytes ->
    exists i, rs_read lib m d cut = Bad i).
Proof.
  intros Hlib Hs Hrn. apply for_rust_intro. intros iter r titer Hf Hn Hr Ht. eexists. split; [by eapply module_default|]. intros x bytes cut [v Hv] Hw [more ->] Hne.
  rewrite (module_writes _ _ _ Hf Hn Hr _ Ht Hrn lib str_ok _ _ Hv) in Hw. apply (inj Some) in Hw.
  destruct (module_decides _ _ _ Hf Hn Hr _ Ht Hrn lib str_ok Hlib cut Hs) as [(y & w & i & _ & _ & Hp)|(i & Hi & _)]; [|by exists i]. exfalso.
  apply (packet_more lib str_ok Hlib _ _ _ _ more) in Hp. destruct (module_takes _ _ _ Hf Hn Hr _ Ht Hrn lib str_ok Hlib _ _ _ Hs Hp) as (z & j & Hz & _ & Hj).
  destruct (module_round_trip _ _ _ Hf Hn Hr _ Ht Hrn lib str_ok Hlib x v [] Hs Hv) as (j' & Hz' & Hj'). rewrite (right_id_L [] (++)), Hw, Hz in Hz'. injection Hz' as _ <-.
  rewrite Hj' in Hj. destruct more; [|by destruct (ri_bytes i)]. by rewrite (right_id_L [] (++)) in Hne.
Qed.
Lemma rust_decides a lib str_ok : rs_lib_ok lib str_ok -> small_enums a -> rust_names a -> for_rust a (fun m t =>
  exists d, default_value (rm_items m) (rm_type m) = Some d /\ forall data,
  (exists x v i, rs_read lib m d data = Good x i /\ stands str_ok t (rm_type m) x v /\ packet lib str_ok t v data (ri_bytes i)) \/
  (exists i, rs_read lib m d data = Bad i /\ forall v rest, ~ packet lib str_ok t v data rest)).
Proof.
  intros Hlib Hs Hrn. apply for_rust_intro. intros iter r titer Hf Hn Hr Ht. eexists. split; [by eapply module_default|]. intros data. by eapply module_decides.
Qed.
Lemma rust_takes a lib str_ok : rs_lib_ok lib str_ok -> small_enums a -> rust_names a -> for_rust a (fun m t =>
  exists d, default_value (rm_items m) (rm_type m) = Some d /\ forall data v rest, packet lib str_ok t v data rest ->
  exists x i, rs_read lib m d data = Good x i /\ stands str_ok t (rm_type m) x v /\ ri_bytes i = rest).
Proof.
  intros Hlib Hs Hrn. apply for_rust_intro. intros iter r titer Hf Hn Hr Ht. eexists. split; [by eapply module_default|]. intros data v rest Hp. by eapply module_takes.
Qed.
(** ** the value that is read into *)
Lemma rust_onto a lib str_ok : rust_names a -> for_rust a (fun m t =>
  exists d, default_value (rm_items m) (rm_type m) = Some d /\ forall cur data, typed str_ok t (rm_type m) cur ->
  rs_read lib m cur data = match rs_read lib m d data with Good y i => Good (onto t cur y) i | Bad i => Bad i | Ill => Ill end).
Proof.
  intros Hrn. apply for_rust_intro. intros iter r titer Hf Hn Hr Ht. eexists. split; [by eapply module_default|]. intros cur data Hc. by eapply module_onto.
Qed.
Definition plain_field (f : sfield) : Prop := f_array f = false /\ f_opt f = false.
Lemma onto_plain t : all_fields plain_field t -> forall old new, fits t old -> fits t new -> onto t old new = new.
Proof.
  induction t as [b|e|fs IH] using rtype_ind'; intros Hp old new Ho Hn; [done|done|]. apply fits_struct in Ho as (xs & -> & Ho). apply fits_struct in Hn as (ys & -> & Hn).
  rewrite onto_struct. f_equal. rewrite all_fields_struct in Hp. revert ys Hn. induction Ho as [|f [g x] fs xs Hx _ IHo]; intros ys Hn; inversion Hn as [|? [g' y] ? ys' Hy Hn']; subst; [done|].
  cbn [onto_fields]. destruct (Hp f ltac:(by left)) as [[Ha Hopt] Hpf]. destruct Hx as [_ Hx], Hy as [_ Hy]. unfold fits_wrapped in *. unfold onto_wrapped. rewrite Ha, Hopt in *. cbn [snd] in *.
  apply Forall_cons in IH as [IHf IH]. rewrite IHf by done. f_equal. apply IHo; [done| |done]. intros. apply Hp. by right.
Qed.
Lemma rust_plain a lib str_ok : rs_lib_ok lib str_ok -> small_enums a -> rust_names a -> for_rust a (fun m t => only_plain a (rm_type m) ->
  forall cur1 cur2 data, typed str_ok t (rm_type m) cur1 -> typed str_ok t (rm_type m) cur2 -> rs_read lib m cur1 data = rs_read lib m cur2 data).
Proof.
  intros Hlib Hs Hrn. apply for_rust_intro. intros iter r titer Hf Hn Hr Ht Hp cur1 cur2 data H1 H2.
  assert (forall cur, typed str_ok (TStruct (x_fields (r_export r))) (x_name (r_export r)) cur ->
    rs_read lib (rs_module_of titer r) cur data = rs_read lib (rs_module_of titer r) (dflt (TStruct (x_fields (r_export r))) (x_name (r_export r))) data) as H.
  { intros cur Hc. rewrite (module_onto _ _ _ Hf Hn Hr _ Ht Hrn lib str_ok _ _ Hc).
    destruct (module_decides _ _ _ Hf Hn Hr _ Ht Hrn lib str_ok Hlib data Hs) as [(y & v & i & -> & Hy & _)|(i & -> & _)]; [|done]. f_equal. destruct Hc as [w Hc].
    apply onto_plain; [|by eapply typed_fits..]. eapply entry_checked; [done..| |by eapply export_entry]. intros n rs f Hen Hin.
    destruct (type_check_result _ _ _ Hf Hn Hr) as (_ & _ & Hneed & _).
    destruct (GenProofs.entry_struct _ _ _ Hf Hn Hr _ _ _ Hen Hin) as (fs & u & Hd & Hu & _ & Ha & Ho & _). unfold plain_field. rewrite Ha, Ho.
    eapply Hp; [|exact Hd|exact Hu]. apply Hneed. rewrite Hen. by eexists. }
  by rewrite (H _ H1), (H _ H2).
Qed.
(** ** work *)
Lemma rust_calls a lib str_ok : rs_lib_ok lib str_ok -> rust_names a -> for_rust a (fun m t => forall cur data, typed str_ok t (rm_type m) cur ->
  match rs_read lib m cur data with Good _ i => ri_calls i + length (ri_bytes i) <= length data | Bad i => ri_calls i + length (ri_bytes i) <= length data + 1 | Ill => False end).
Proof.
  intros Hlib Hrn. apply for_rust_intro. intros iter r titer Hf Hn Hr Ht cur data Hc. pose proof (module_thrifty _ _ _ Hf Hn Hr _ Ht Hrn lib str_ok cur data Hlib Hc) as H.
  destruct (rs_read lib (rs_module_of titer r) cur data) as [x i|i|] eqn:E; cbn in H; unfold spent in H; cbn in H; [lia|lia|].
  rewrite (module_onto _ _ _ Hf Hn Hr _ Ht Hrn lib str_ok _ _ Hc) in E. rewrite (fresh_reads _ _ _ Hf Hn Hr _ Ht Hrn) in E.
  pose proof (into_dflt_not_ill lib (TStruct (x_fields (r_export r))) (x_name (r_export r)) (RIn data 0 0)) as H'. by destruct (into _ _ _ _ _).
Qed.
