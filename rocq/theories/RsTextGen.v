(** The reader of RsText.v reads every text that the Rust back-end generates. *)
From Verif Require Export RsTextParse TsTextGen.

Lemma rsb_app a b : rsb_ok (a ++ b) <-> rsb_ok a /\ rsb_ok b.
Proof. unfold rsb_ok. induction a as [|s a IH]; cbn [app fold_right]; [tauto|]. rewrite IH. tauto. Qed.
Lemma rsb_cons s b : rsb_ok (s :: b) <-> rs_ok s /\ rsb_ok b.
Proof. done. Qed.
Lemma rsb_concat l : (forall b, b ∈ l -> rsb_ok b) -> rsb_ok (List.concat l).
Proof.
  induction l as [|b l IH]; intros H; [done|]. cbn [List.concat]. apply rsb_app. split; [apply H; by left|].
  apply IH. intros. apply H. by right.
Qed.

Definition rstack (st : list string) : Prop := match st with r :: ps => rroot r /\ Forall iword ps | [] => False end.
Lemma without_some p s s' : without p s = Some s' -> s = p +:+ s'.
Proof.
  revert s. induction p as [|c p IH]; intros s; [by destruct s; intros [= <-]|]. destruct s as [|d s]; [done|]. cbn [without].
  case_decide; [|done]. subst. intros H. rewrite sapp_cons. by rewrite <- (IH _ H).
Qed.
Lemma io_app a b : io a = true -> io (a +:+ b) = true.
Proof.
  unfold io. intros H. destruct (without "input" a) as [s|] eqn:E1; [apply without_some in E1 as ->|destruct (without "output" a) as [s|] eqn:E2; [apply without_some in E2 as ->|done]].
  - rewrite sapp_assoc, without_app. done.
  - rewrite sapp_assoc, without_app. by destruct (without _ _).
Qed.
Lemma rroot_app a b : rroot a -> parts b -> rroot (a +:+ b).
Proof. intros [H1 H2] Hb. split; [by apply iword_app|]. by apply io_app. Qed.
Lemma rroot_join st : rstack st -> rroot (join "_" st).
Proof.
  destruct st as [|r ps]; [done|]. intros [Hr Hp]. rewrite join_foldl. revert r Hr. induction Hp as [|x ps Hx _ IH]; intros r Hr; [done|].
  cbn [foldl]. apply IH. apply rroot_app; [done|]. split; [done|]. by apply word_parts.
Qed.
Lemma rroot_bindname st : rstack st -> rroot (bindname st).
Proof. apply rroot_join. Qed.
Lemma rroot_varname st x : rstack st -> parts x -> rroot (varname st x).
Proof. intros H Hx. apply rroot_app; [by apply rroot_join|]. by split. Qed.
Lemma rstack_single x : rroot x -> rstack [x].
Proof. by split. Qed.
Lemma rstack_snoc st f : rstack st -> iword f -> rstack (st ++ [f]).
Proof. destruct st as [|r ps]; [done|]. intros [Hr Hp] Hf. split; [done|]. apply Forall_app. split; [done|]. by apply Forall_singleton. Qed.
Lemma rstack_place st : rstack st -> rplace (place_of st).
Proof. by destruct st as [|r ps]. Qed.

Definition remits (p : rs_emit) : Prop := forall st, rstack st -> rsb_ok (p st).
Lemma remits_rw_wrap ar op by_ref p : remits p -> remits (rw_wrap ar op by_ref p).
Proof.
  intros Hp. unfold rw_wrap.
  assert (remits (if ar then rw_arr p else p)) as H.
  { destruct ar; [|done]. intros st Hst. pose proof (rstack_place _ Hst) as HP.
    assert (rroot (varname st "item")) as R by (apply rroot_varname; [done|wd]). unfold rw_arr.
    rewrite !rsb_cons. split; [done|]. split; [|done]. split; [done|]. split; [done|]. exact (Hp _ (rstack_single _ R)). }
  destruct op; [|done]. intros st Hst. pose proof (rstack_place _ Hst) as HP. pose proof (rroot_bindname _ Hst) as R. unfold rw_opt.
  rewrite rsb_cons. split; [|done]. split; [done|]. split; [apply R|]. split; [done|]. exact (H _ (rstack_single _ R)).
Qed.
Lemma remits_rr_wrap ar op ty p : iword ty -> remits p -> remits (rr_wrap ar op ty p).
Proof.
  intros Hty Hp. unfold rr_wrap.
  assert (remits (if ar then rr_arr ty p else p)) as H.
  { destruct ar; [|done]. intros st Hst. pose proof (rstack_place _ Hst) as HP.
    assert (rroot (varname st "item")) as R by (apply rroot_varname; [done|wd]).
    assert (rroot (varname st "len")) as R2 by (apply rroot_varname; [done|wd]). unfold rr_arr.
    rewrite !rsb_cons. split; [exact R2|]. split; [split; [done|apply R2]|]. split; [|done]. split; [apply R2|].
    change (rsb_ok (RDefault (varname st "item") ty :: p [varname st "item"] ++ [RPush (place_of st) (varname st "item")])).
    rewrite rsb_cons. split; [split; [apply R|done]|]. apply rsb_app. split; [exact (Hp _ (rstack_single _ R))|].
    split; [|done]. split; [done|apply R]. }
  destruct op; [|done]. intros st Hst. pose proof (rstack_place _ Hst) as HP. pose proof (rroot_bindname _ Hst) as R. unfold rr_opt.
  rewrite rsb_cons. split; [|done].
  change (rsb_ok (RDefault (bindname st) ty :: (if ar then rr_arr ty p else p) [bindname st] ++ [RSome (place_of st) (bindname st)])).
  rewrite rsb_cons. split; [split; [apply R|done]|]. apply rsb_app. split; [exact (H _ (rstack_single _ R))|].
  split; [|done]. split; [done|apply R].
Qed.
Lemma rs_name_iword tn : iword tn -> iword (rs_name tn).
Proof. intros H. unfold rs_name, resolve_typename. repeat case_match; cbn [default]; try done; wd. Qed.
Lemma remits_rw_ty t : forall tn, parts tn -> all_fields (fun f => iword (f_name f) /\ iword (f_tname f)) t -> remits (rw_ty t tn).
Proof.
  induction t as [b|e|fs IH] using rtype_ind'; intros tn Htn Hf st Hst; pose proof (rstack_place _ Hst) as HP.
  - cbn [rw_ty]. unfold rw_builtin. destruct b; (split; [first [exact HP|exact (conj Htn HP)]|]); first [exact I|split; [exact HP|exact I]].
  - cbn [rw_ty]. unfold rw_enum. rewrite rsb_cons. split; [|done]. split; [destruct (e_repr e); wd|]. split; [done|]. destruct (e_repr e); wd.
  - cbn [rw_ty]. apply rsb_concat. rewrite all_fields_struct in Hf. rewrite Forall_forall in IH.
    intros b (f & <- & Hin)%elem_of_list_In%in_map_iff. apply elem_of_list_In in Hin.
    destruct (Hf f Hin) as [(H1 & H2) H4]. apply remits_rw_wrap; [apply IH; [done|by apply word_parts|done]|by apply rstack_snoc].
Qed.
Lemma remits_rr_ty t : forall tn, iword tn -> leaf_ok t tn -> all_fields (fun f => iword (f_name f) /\ iword (f_tname f) /\ leaf_ok (f_ty f) (f_tname f)) t -> remits (rr_ty t tn).
Proof.
  induction t as [b|e|fs IH] using rtype_ind'; intros tn Htn Hl Hf st Hst; pose proof (rstack_place _ Hst) as HP.
  - cbn [rr_ty]. unfold rr_builtin. assert (rroot (varname st "len")) as R2 by (apply rroot_varname; [done|wd]).
    assert (b = BString \/ b ≠ BString) as [->|Hb] by (destruct b; by (left + right)).
    + rewrite !rsb_cons. split; [exact R2|]. split; [|done]. split; [done|apply R2].
    + pose proof (leaf_not_string _ _ Hl Hb) as Hns.
      assert (rsb_ok [RCall (place_of st) tn]) as HF by (split; [|done]; split; [done|]; split; [by apply word_parts|done]).
      destruct b; done.
  - cbn [rr_ty]. unfold rr_enum. rewrite rsb_cons. split; [|done]. split; [done|]. split; [done|]. destruct (e_repr e); wd.
  - cbn [rr_ty]. apply rsb_concat. rewrite all_fields_struct in Hf. rewrite Forall_forall in IH.
    intros b (f & <- & Hin)%elem_of_list_In%in_map_iff. apply elem_of_list_In in Hin.
    destruct (Hf f Hin) as [(H1 & H2 & H3) H4]. apply remits_rr_wrap; [by apply rs_name_iword|by apply IH|by apply rstack_snoc].
Qed.

Lemma prim_iword b : iword (builtin_prim b).
Proof. destruct b; wd. Qed.
Lemma repr_prim_iword r : iword (repr_prim r).
Proof. destruct r; wd. Qed.
Lemma good_enum_sized e : good_enum e -> enum_sized e.
Proof.
  intros (vs & r & [H1 H2] & _ & _ & ->). unfold enum_sized. cbn [e_variants]. split; [destruct vs; [simpl in H1; lia|done]|].
  apply Forall_forall. intros x [i Hi]%elem_of_list_lookup. rewrite list_lookup_imap in Hi.
  destruct (vs !! i) eqn:E; [|done]. injection Hi as <-. apply lookup_lt_Some in E. simpl. lia.
Qed.

Section result.
  Context iter a r (Hfair : fair_order iter) (Hnb : no_builtin_decl a) (Hl : legal_ast a) (Hr : type_check iter a = Ok r).
  Context titer (Ht : fair_types titer).
  Lemma titer_entry d : d ∈ titer (r_types r) -> d.2.1 = d.1 /\ r_types r !! d.1 = Some (d.1, d.2.2).
  Proof.
    destruct d as [n [m t]]. intros Hin. rewrite (Ht (r_types r)) in Hin. apply elem_of_map_to_list in Hin.
    destruct (type_check_result _ _ _ Hfair Hnb Hr) as (_ & _ & _ & Hent). by destruct (Hent _ _ _ Hin) as [-> _].
  Qed.
  Lemma entries_sized : Forall entry_sized (titer (r_types r)).
  Proof.
    apply Forall_forall. intros d Hd. destruct (titer_entry d Hd) as [_ He]. pose proof (entry_leaf _ _ _ Hfair Hnb Hr _ _ He) as Hleaf.
    unfold entry_sized. destruct (d.2.2); [done| |done]. by apply good_enum_sized.
  Qed.
  (** names of a field and of its type *)
  Definition named (f : sfield) : Prop := iword (f_name f) /\ iword (f_tname f) /\ leaf_ok (f_ty f) (f_tname f).
  Lemma field_is_named n rs f : r_types r !! n = Some (n, TStruct rs) -> f ∈ rs -> named f.
  Proof.
    intros Hn Hf. destruct (entry_struct _ _ _ Hfair Hnb Hr _ _ _ Hn Hf) as (fs & u & Hd & Hu & E1 & E2 & E3 & E4).
    destruct (used_iword _ _ _ Hfair Hnb Hl Hr _ _ _ _ Hd Hu) as [H1 H2]. split; [done|].
    split; [by rewrite E1|]. exact (entry_leaf _ _ _ Hfair Hnb Hr _ _ E4).
  Qed.
  Lemma items_ok : Forall item_ok (rm_items (rs_module_of titer r)).
  Proof.
    apply Forall_forall. intros i Hi. cbn [rs_module_of rm_items] in Hi. apply elem_of_list_In, in_concat in Hi as (l & (d & <- & Hin)%in_map_iff & Hi).
    apply elem_of_list_In in Hin. destruct (titer_entry d Hin) as [E He]. destruct d as [n [m t]]. cbn [fst snd] in *. subst m.
    destruct (type_check_result _ _ _ Hfair Hnb Hr) as (_ & _ & _ & Hent). destruct (Hent _ _ _ He) as [_ Hm].
    destruct t as [b|e|fs]; cbn [item_of] in Hi; [done| |]; destruct Hi as [<-|[]].
    - destruct Hm as [(? & _ & [=])|[(vs & rp & Hdd & Hrp & [= ->])|(? & ? & ? & _ & _ & _ & [=])]].
      destruct (legal_decl_words _ _ _ Hl Hdd) as [Hn HT]. cbn [item_ok e_variants e_repr]. split; [done|]. split; [apply repr_prim_iword|].
      assert (Forall (fun x => iword (ev_name x)) (imap (fun i v => EnumVariant v i) vs)) as HV.
      { cbn in HT. rewrite Forall_forall in HT. apply Forall_forall. intros x [j Hj]%elem_of_list_lookup. rewrite list_lookup_imap in Hj.
        destruct (vs !! j) eqn:E; [|done]. injection Hj as <-. apply legal_iword, HT. by eapply elem_of_list_lookup_2. }
      split; [apply Forall_fmap; exact HV|]. split; [|apply Forall_fmap; exact HV].
      destruct (vs_enums _ (result_valid _ _ _ Hfair Hnb Hr) _ _ Hdd) as [Hlen _]. destruct vs as [|v vs]; [cbn in Hlen; lia|].
      apply Forall_cons in HV. apply HV.
    - cbn [item_ok]. assert (iword n) as Hn.
      { destruct Hm as [(? & _ & [=])|[(? & ? & _ & _ & [=])|(fs' & ds' & rs & Hdd & Hp & Hm & _)]]. by destruct (legal_decl_words _ _ _ Hl Hdd). }
      split; [done|]. apply Forall_fmap, Forall_forall. intros f Hf. destruct (field_is_named _ _ _ He Hf) as (H1 & H2 & _). 
      change (iword (f_name f) /\ iword (match f_ty f with TBuiltin b => builtin_prim b | _ => f_tname f end)).
      split; [exact H1|]. destruct (f_ty f) as [b| |]; [apply prim_iword|exact H2|exact H2].
  Qed.
  Lemma rs_code_ok : rs_module_ok (rs_module_of titer r).
  Proof.
    assert (all_fields named (TStruct (x_fields (r_export r)))) as Hx.
    { eapply entry_checked; [done..|by eapply field_is_named|by eapply export_entry]. }
    split; [apply items_ok|]. split; [by eapply export_iword|]. split.
    - apply (remits_rr_ty (TStruct (x_fields (r_export r))) "x"); [wd|done|exact Hx|]. split; [|done]. split; [wd|done].
    - apply (remits_rw_ty (TStruct (x_fields (r_export r))) "x"); [wd|eapply all_fields_impl; [|exact Hx]; by intros f (? & ? & _)|]. split; [|done]. split; [wd|done].
  Qed.
  Lemma read_rs_generated version now : on_one_line version -> on_one_line now ->
    exists t, rs_generate version now titer r = Ok t /\ read_rs t = Some (rs_module_of titer r).
  Proof.
    intros Hv Hn. exists (print_rs_module version now (rs_module_of titer r)). split; [apply rs_generate_print, entries_sized|].
    apply read_rs_printed; [done|done|apply rs_code_ok].
  Qed.
End result.
