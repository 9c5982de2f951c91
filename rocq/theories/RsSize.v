(** The length of the emitted Rust. *)
From Verif Require Export RsSizeSpec GenSize5 RsTextGen.

(** ** The code of read and write *)
Fixpoint rsz (d : nat) (tn : string) (t : rtype) : nat :=
  match t with
  | TStruct fs => d + 1 + sl tn + sum_list (List.map (fun f => rsz (d + 1 + sl (f_name f)) (f_tname f) (f_ty f)) fs)
  | _ => d + 1 + sl tn
  end.
Lemma rsz_pos d tn t : d + 1 + sl tn <= rsz d tn t.
Proof. destruct t; cbn; lia. Qed.
Lemma place_len st : st ≠ [] -> sl (print_place (place_of st)) = pl st.
Proof. intros H. rewrite print_place_of by done. unfold fname, pl. by apply GenSize2.join_length. Qed.
Lemma rs_name_len tn : sl (rs_name tn) <= sl tn + 6.
Proof. unfold rs_name, resolve_typename. repeat case_match; simpl; lia. Qed.
Lemma sl_n0 : sl (string_of_nat 0) = 1. Proof. done. Qed.
Lemma sl_n1 : sl (string_of_nat 1) = 1. Proof. done. Qed.
Ltac rlens := repeat (progress (rewrite ?print_rsb_app, ?print_rsb_cons, ?print_rsb_nil; cbn [print_rs]; fold_rsb; unfold line));
  rewrite ?slength_app, ?place_len, ?pl_bind, ?pl_var, ?pl_one, ?sl_NL, ?sl_tab, ?sl_n0, ?sl_n1 by done; cbn [sl].

Lemma rw_opt_len r body ind st : st ≠ [] -> sl (print_rsb ind (rw_opt r body st)) <=
  10 * sl ind + 20 * pl st + 400 + sl (print_rsb (ind +:+ tab +:+ tab) (body [bindname st])).
Proof. intros Hst. unfold rw_opt. destruct r; rlens; lia. Qed.
Lemma rw_arr_len body ind st : st ≠ [] -> sl (print_rsb ind (rw_arr body st)) <=
  10 * sl ind + 20 * pl st + 400 + sl (print_rsb (ind +:+ tab) (body [varname st "item"])).
Proof. intros Hst. unfold rw_arr. rlens. lia. Qed.
Lemma rr_opt_len ty body ind st : st ≠ [] -> sl (print_rsb ind (rr_opt ty body st)) <=
  10 * sl ind + 20 * pl st + 400 + sl ty + sl (print_rsb (ind +:+ tab) (body [bindname st])).
Proof. intros Hst. unfold rr_opt. rlens. lia. Qed.
Lemma rr_arr_len ty body ind st : st ≠ [] -> sl (print_rsb ind (rr_arr ty body st)) <=
  10 * sl ind + 20 * pl st + 400 + sl ty + sl (print_rsb (ind +:+ tab) (body [varname st "item"])).
Proof. intros Hst. unfold rr_arr. rlens. lia. Qed.

Definition roomy (d : nat) (ind : string) (st : list string) : Prop := room d ind st /\ st ≠ [].
Lemma rw_leaf_len t tn ind st d : is_struct t = false -> roomy d ind st -> sl (print_rsb ind (rw_ty t tn st)) <= 500 * (d + 1 + sl tn).
Proof.
  intros Hns [(Hi & Hp & Hd) Hst]. destruct t as [b|e|fs]; [| |done]; cbn [rw_ty].
  - destruct b; unfold rw_builtin; rlens; lia.
  - unfold rw_enum. rlens. destruct (e_repr e); cbn [repr_name repr_prim sl]; lia.
Qed.
Lemma rr_leaf_len t tn ind st d : is_struct t = false -> roomy d ind st -> sl (print_rsb ind (rr_ty t tn st)) <= 500 * (d + 1 + sl tn).
Proof.
  intros Hns [(Hi & Hp & Hd) Hst]. destruct t as [b|e|fs]; [| |done]; cbn [rr_ty].
  - destruct b; unfold rr_builtin; rlens; lia.
  - unfold rr_enum. rlens. destruct (e_repr e); cbn [repr_name sl]; lia.
Qed.
Lemma one_ne {A} (x : A) : [x] ≠ []. Proof. done. Qed.
Lemma rw_wrap_len ar op r body ind st d f B : roomy d ind st ->
  (forall ind' st', roomy (d + 1 + sl f) ind' st' -> sl (print_rsb ind' (body st')) <= B) ->
  sl (print_rsb ind (rw_wrap ar op r body (st ++ [f]))) <= 1000 * (d + 1 + sl f + 1) + B.
Proof.
  intros [(H1 & H2 & H3) Hst] HB. pose proof (pl_snoc st f) as Hs. pose proof (app_ne st f) as Hne. unfold rw_wrap. destruct op, ar.
  - etrans; [by apply rw_opt_len|]. pose proof (rw_arr_len body (ind +:+ tab +:+ tab) [bindname (st ++ [f])] (one_ne _)) as HA. rewrite !slength_app, pl_one, pl_bind, !sl_tab in HA.
    enough (sl (print_rsb ((ind +:+ tab +:+ tab) +:+ tab) (body [varname [bindname (st ++ [f])] "item"])) <= B) by lia.
    apply HB. split; [|done]. unfold room. rewrite !slength_app, pl_one, pl_var, pl_one, pl_bind, !sl_tab. cbn [sl]. lia.
  - etrans; [by apply rw_opt_len|]. enough (sl (print_rsb (ind +:+ tab +:+ tab) (body [bindname (st ++ [f])])) <= B) by lia.
    apply HB. split; [|done]. unfold room. rewrite !slength_app, pl_one, pl_bind, !sl_tab. lia.
  - etrans; [by apply rw_arr_len|]. enough (sl (print_rsb (ind +:+ tab) (body [varname (st ++ [f]) "item"])) <= B) by lia.
    apply HB. split; [|done]. unfold room. rewrite !slength_app, pl_one, pl_var, !sl_tab. cbn [sl]. lia.
  - enough (sl (print_rsb ind (body (st ++ [f]))) <= B) by lia. apply HB. split; [|done]. unfold room. lia.
Qed.
Lemma rr_wrap_len ar op ty body ind st d f B : roomy d ind st ->
  (forall ind' st', roomy (d + 1 + sl f) ind' st' -> sl (print_rsb ind' (body st')) <= B) ->
  sl (print_rsb ind (rr_wrap ar op ty body (st ++ [f]))) <= 960 * (d + 1 + sl f + 1) + 2 * sl ty + B.
Proof.
  intros [(H1 & H2 & H3) Hst] HB. pose proof (pl_snoc st f) as Hs. pose proof (app_ne st f) as Hne. unfold rr_wrap. destruct op, ar.
  - etrans; [by apply rr_opt_len|]. pose proof (rr_arr_len ty body (ind +:+ tab) [bindname (st ++ [f])] (one_ne _)) as HA. rewrite !slength_app, pl_one, pl_bind, !sl_tab in HA.
    enough (sl (print_rsb ((ind +:+ tab) +:+ tab) (body [varname [bindname (st ++ [f])] "item"])) <= B) by lia.
    apply HB. split; [|done]. unfold room. rewrite !slength_app, pl_one, pl_var, pl_one, pl_bind, !sl_tab. cbn [sl]. lia.
  - etrans; [by apply rr_opt_len|]. enough (sl (print_rsb (ind +:+ tab) (body [bindname (st ++ [f])])) <= B) by lia.
    apply HB. split; [|done]. unfold room. rewrite !slength_app, pl_one, pl_bind, !sl_tab. lia.
  - etrans; [by apply rr_arr_len|]. enough (sl (print_rsb (ind +:+ tab) (body [varname (st ++ [f]) "item"])) <= B) by lia.
    apply HB. split; [|done]. unfold room. rewrite !slength_app, pl_one, pl_var, !sl_tab. cbn [sl]. lia.
  - enough (sl (print_rsb ind (body (st ++ [f]))) <= B) by lia. apply HB. split; [|done]. unfold room. lia.
Qed.
Lemma rw_ty_len t : forall tn d ind st, roomy d ind st -> sl (print_rsb ind (rw_ty t tn st)) + 1000 * (d + 1 + sl tn) <= 1500 * rsz d tn t.
Proof.
  induction t as [b|e|fs IH] using rtype_ind'; intros tn d ind st Hr.
  1,2: cbn [rsz]; match goal with |- context [rw_ty ?t _] => pose proof (rw_leaf_len t tn ind st d eq_refl Hr) end; lia.
  cbn [rw_ty rsz]. set (L := sl tn). clearbody L.
  enough (sl (print_rsb ind (List.concat (List.map (fun f => rw_wrap (f_array f) (f_opt f) (is_struct (f_ty f)) (rw_ty (f_ty f) (f_tname f)) (st ++ [f_name f])) fs)))
    <= 1500 * sum_list (List.map (fun f => rsz (d + 1 + sl (f_name f)) (f_tname f) (f_ty f)) fs)) by lia.
  induction IH as [|f fs Hf _ IHfs]; [cbn; lia|]. cbn [List.map List.concat]. rewrite print_rsb_app, slength_app, sum_cons.
  pose proof (rsz_pos (d + 1 + sl (f_name f)) (f_tname f) (f_ty f)) as Hpos.
  set (B := 1500 * rsz (d + 1 + sl (f_name f)) (f_tname f) (f_ty f) - 1000 * (d + 1 + sl (f_name f) + 1)).
  assert (forall ind' st', roomy (d + 1 + sl (f_name f)) ind' st' -> sl (print_rsb ind' (rw_ty (f_ty f) (f_tname f) st')) <= B) as HB.
  { intros ind' st' Hr'. pose proof (Hf (f_tname f) _ _ _ Hr'). lia. }
  pose proof (rw_wrap_len (f_array f) (f_opt f) (is_struct (f_ty f)) _ _ _ _ _ _ Hr HB) as Hw. clear HB. lia.
Qed.
Lemma rr_ty_len t : forall tn d ind st, roomy d ind st -> sl (print_rsb ind (rr_ty t tn st)) + 1000 * (d + 1 + sl tn) <= 1500 * rsz d tn t.
Proof.
  induction t as [b|e|fs IH] using rtype_ind'; intros tn d ind st Hr.
  1,2: cbn [rsz]; match goal with |- context [rr_ty ?t _] => pose proof (rr_leaf_len t tn ind st d eq_refl Hr) end; lia.
  cbn [rr_ty rsz]. set (L := sl tn). clearbody L.
  enough (sl (print_rsb ind (List.concat (List.map (fun f => rr_wrap (f_array f) (f_opt f) (rs_name (f_tname f)) (rr_ty (f_ty f) (f_tname f)) (st ++ [f_name f])) fs)))
    <= 1500 * sum_list (List.map (fun f => rsz (d + 1 + sl (f_name f)) (f_tname f) (f_ty f)) fs)) by lia.
  induction IH as [|f fs Hf _ IHfs]; [cbn; lia|]. cbn [List.map List.concat]. rewrite print_rsb_app, slength_app, sum_cons.
  pose proof (rsz_pos (d + 1 + sl (f_name f)) (f_tname f) (f_ty f)) as Hpos. pose proof (rs_name_len (f_tname f)) as Hn.
  set (B := 1500 * rsz (d + 1 + sl (f_name f)) (f_tname f) (f_ty f) - 1000 * (d + 1 + sl (f_name f) + 1 + sl (f_tname f))).
  assert (forall ind' st', roomy (d + 1 + sl (f_name f)) ind' st' -> sl (print_rsb ind' (rr_ty (f_ty f) (f_tname f) st')) <= B) as HB.
  { intros ind' st' Hr'. pose proof (Hf (f_tname f) _ _ _ Hr'). lia. }
  pose proof (rr_wrap_len (f_array f) (f_opt f) (rs_name (f_tname f)) _ _ _ _ _ _ Hr HB) as Hw. clear HB. lia.
Qed.

(** ** The items *)
Lemma item_length a types n t : entry_matches a types n t -> (forall n vs, declares_enum a n vs -> 1 <= length vs <= 32) ->
  sum_list (List.map (fun i => sl (print_item i)) (item_of (n, (n, t)))) <= 0 \/
  exists u, NDecl n u ∈ a /\ sum_list (List.map (fun i => sl (print_item i)) (item_of (n, (n, t)))) <= 700 * nsize (NDecl n u).
Proof.
  intros Hm Hen. cbn [item_of]. destruct Hm as [(b & _ & ->)|[(vs & r & Hd & _ & ->)|(fs & ds & rs & Hd & Hp & Hf & ->)]]; [by left|right..].
  - exists (AEnum vs). split; [done|]. cbn [List.map e_variants e_repr]. rewrite sum_cons. cbn [print_item]. unfold line. rewrite !slength_app, !concat_str_length, !List.map_map, !sl_tab, !sl_NL. cbn [sl nsize tsize].
    destruct (Hen n vs Hd) as [Hlo Hlen].
    match goal with |- context [sum_list (List.map ?g (imap ?h vs))] => assert (sum_list (List.map g (imap h vs)) <= 50 * sum_list (List.map (fun v => sl v + 1) vs)) as HG1 end.
    { match goal with |- sum_list (List.map ?g _) <= _ => set (G := g) end.
      assert (forall k, k + length vs <= 32 -> sum_list (List.map G (imap (fun i v => EnumVariant v (k + i)) vs)) <= 50 * sum_list (List.map (fun v => sl v + 1) vs)) as H; [|by apply (H 0)].
      clear Hlen Hlo Hd. induction vs as [|v vs IH]; intros k Hk; [cbn; lia|]. cbn [imap List.map]. rewrite !sum_cons.
      assert (imap ((fun i v => EnumVariant v (k + i)) ∘ S) vs = imap (fun i v => EnumVariant v (S k + i)) vs) as -> by (apply imap_ext; intros i x _; cbn; f_equal; lia).
      cbn [length] in Hk. assert (S k + length vs <= 32) as Hk' by lia. apply IH in Hk'.
      assert (G (EnumVariant v (k + 0)) <= 50 * (sl v + 1)); [|lia].
      unfold G. cbn [ev_name ev_value]. unfold line. rewrite !slength_app. assert (k + 0 < 32) as Hn%nat_length by lia. rewrite !sl_tab, sl_NL. cbn [sl]. lia. }
    match goal with |- context [sum_list (List.map ?g (imap ?h vs)) + _] => idtac end.
    revert HG1. match goal with |- sum_list ?x <= _ -> _ => set (X1 := sum_list x) end. intros HG1.
    match goal with |- context [sum_list (List.map ?g (imap ?h vs))] => assert (sum_list (List.map g (imap h vs)) <= 50 * sum_list (List.map (fun v => sl v + 1) vs) + 32 * sl n) as HG2 end.
    { match goal with |- sum_list (List.map ?g _) <= _ => set (G := g) end.
      assert (forall k, k + length vs <= 32 -> sum_list (List.map G (imap (fun i v => EnumVariant v (k + i)) vs)) <= 50 * sum_list (List.map (fun v => sl v + 1) vs) + length vs * sl n) as H.
      { clear Hlen Hlo Hd X1 HG1. induction vs as [|v vs IH]; intros k Hk; [cbn; lia|]. cbn [imap List.map length]. rewrite !sum_cons.
        assert (imap ((fun i v => EnumVariant v (k + i)) ∘ S) vs = imap (fun i v => EnumVariant v (S k + i)) vs) as -> by (apply imap_ext; intros i x _; cbn; f_equal; lia).
        cbn [length] in Hk. assert (S k + length vs <= 32) as Hk' by lia. apply IH in Hk'.
        assert (G (EnumVariant v (k + 0)) <= 50 * (sl v + 1) + sl n); [|lia].
        unfold G. cbn [ev_name ev_value]. unfold line. rewrite !slength_app. assert (k + 0 < 32) as Hn%shl1_length by lia. rewrite !sl_tab, sl_NL. cbn [sl]. lia. }
      specialize (H 0 Hlen). etrans; [exact H|]. nia. }
    match goal with |- context [match imap ?h vs with [] => _ | _ => _ end] => assert (sl (match imap h vs with [] => "" | v :: _ => ev_name v end) <= sum_list (List.map (fun v => sl v + 1) vs)) as HD end.
    { destruct vs as [|v vs]; [cbn in Hlo; lia|]. cbn [imap ev_name List.map]. rewrite sum_cons. lia. }
    revert HG2 HD. match goal with |- sum_list ?x <= _ -> _ => set (X2 := sum_list x) end. intros HG2. match goal with |- sl ?x <= _ -> _ => set (X3 := sl x) end. intros HD.
    set (V := sum_list (List.map (fun v => sl v + 1) vs)) in *. assert (1 <= V) as HV. { subst V. destruct vs as [|v vs]; [cbn in Hlo; lia|]. cbn [List.map]. rewrite sum_cons. lia. }
    clearbody X1 X2 X3 V. assert (sl (repr_prim r) <= 3) by (by destruct r; cbn; lia). change (sl QUOTE) with 1. cbn [sum_list sum_list_with]. lia.
  - exists (AStruct fs). split; [done|]. cbn [List.map]. rewrite sum_cons. cbn [print_item]. unfold line. rewrite !slength_app, concat_str_length, !List.map_map, !sl_NL. cbn [sl nsize tsize].
    match goal with |- context [sum_list (List.map ?g rs)] => set (G := g); assert (sum_list (List.map G rs) <= 50 * sum_list (List.map fsize fs)) as HG end.
    { rewrite <- (sum_perm (List.map fsize ds) (List.map fsize fs)) by (by apply Permutation_map). clear Hp Hd. induction Hf as [|d r ds rs Hdr _ IH]; [cbn; lia|]. cbn [List.map]. rewrite !sum_cons.
      assert (G r <= 50 * fsize d); [|lia]. destruct Hdr as (E1 & E2 & _). unfold G, fsize, line, print_rs_type, field_rs_type, struct_field_typename. cbn [rt_base rt_vec rt_opt]. rewrite !slength_app, E1, E2, !sl_tab, sl_NL.
      assert (sl (match f_ty r with TBuiltin b => builtin_prim b | _ => u_name d.2 end) <= sl (u_name d.2) + 6) by (destruct (f_ty r) as [[]| |]; cbn [builtin_prim sl]; lia).
      destruct (f_opt r), (f_array r); cbn [sl]; lia. }
    cbn [sum_list sum_list_with]. lia.
Qed.
Lemma sum_app l k : sum_list (l ++ k) = sum_list l + sum_list k.
Proof. induction l as [|x l IH]; [done|]. cbn [app]. rewrite !sum_cons. lia. Qed.
Lemma items_length a types (L : list (string * (string * rtype))) : NoDup (L.*1) -> (forall n vs, declares_enum a n vs -> 1 <= length vs <= 32) ->
  (forall n m t, (n, (m, t)) ∈ L -> m = n /\ entry_matches a types n t) ->
  sum_list (List.map (fun i => sl (print_item i)) (List.concat (List.map item_of L))) <= 700 * asize a.
Proof.
  intros Hnd Hen HL. enough (exists N : ast, N ⊆+ a /\ sum_list (List.map (fun i => sl (print_item i)) (List.concat (List.map item_of L))) <= 700 * asize N) as (N & HN & Hle).
  { etrans; [exact Hle|]. apply Nat.mul_le_mono_l. unfold asize. by apply sum_sub, map_sub. }
  assert (exists N : ast, NoDup N /\ (forall x, x ∈ N -> x ∈ a /\ exists n t, x = NDecl n t /\ n ∈ L.*1) /\
    sum_list (List.map (fun i => sl (print_item i)) (List.concat (List.map item_of L))) <= 700 * asize N) as (N & HN1 & HN2 & HN3).
  { induction L as [|[n [m t]] L IH]; [exists []; split; [constructor|]; split; [by intros ? ?%elem_of_nil|cbn; lia]|]. cbn [fmap list_fmap] in Hnd. apply NoDup_cons in Hnd as [Hn Hnd]. cbn [fst] in Hn.
    destruct IH as (N & H1 & H2 & H3); [done|intros; apply HL; by right|]. destruct (HL n m t) as [-> Hm]; [by left|].
    cbn [List.map List.concat]. rewrite List.map_app, sum_app.
    destruct (item_length a types n t Hm Hen) as [H0|(u & Hu & H0)].
    - exists N. split; [done|]. split; [|lia]. intros x Hx. destruct (H2 x Hx) as (? & k & v & -> & Hk). split; [done|]. exists k, v. split; [done|]. by right.
    - exists (NDecl n u :: N). split; [|split].
      + apply NoDup_cons. split; [|done]. intros Hx. destruct (H2 _ Hx) as (_ & k & v & [= <- <-] & Hk). done.
      + intros x [->|Hx]%elem_of_cons; [split; [done|]; exists n, u; split; [done|by left]|]. destruct (H2 x Hx) as (? & k & v & -> & Hk). split; [done|]. exists k, v. split; [done|]. by right.
      + unfold asize. cbn [List.map]. rewrite sum_cons. unfold asize in H3. lia. }
  exists N. split; [|done]. apply NoDup_submseteq; [done|]. intros x Hx. by apply HN2.
Qed.

(** ** The whole text *)
Lemma rsz_written a (types : tymap) : (forall n m t, types !! n = Some (m, t) -> m = n /\ entry_matches a types n t) ->
  forall t n d, types !! n = Some (n, t) -> written_out a d n (rsz d n t).
Proof.
  intros Hty. induction t as [b|e|rs IH] using rtype_ind'; intros n d Hn; destruct (Hty _ _ _ Hn) as [_ [(b' & Hb & E)|[(vs & r & Hd & _ & E)|(fs & ds & rs' & Hd & Hp & Hf & E)]]]; try discriminate; cbn [rsz].
  - apply written_leaf. left. by eapply builtin_of_name_in.
  - apply written_leaf. right. eauto.
  - injection E as <-.
    assert (Forall2 (fun f k => written_out a (d + 1 + sl f.1) (u_name f.2) k) ds (List.map (fun f => rsz (d + 1 + sl (f_name f)) (f_tname f) (f_ty f)) rs)) as HF.
    { clear Hp Hd Hn. induction Hf as [|x r ds rs (E1 & E2 & E3 & E4 & E5) _ IHf]; [constructor|]. apply Forall_cons in IH as [IH1 IH2]. cbn [List.map]. constructor; [|by apply IHf]. rewrite E1, E2. by apply IH1. }
    destruct (Forall2_perm _ _ _ _ HF Hp) as (ks & Hk & HF'). rewrite (sum_perm _ _ Hk). by eapply written_struct.
Qed.

Section bound.
  Context s a iter r version now titer t (Hs : parse_schema s = POk a) (Hf : fair_order iter) (Hr : type_check iter a = Ok r)
    (Ht : fair_types titer) (Hg : rs_generate version now titer r = Ok t).
  Let e := x_name (r_export r).
  Let fs := x_fields (r_export r).
  Lemma rs_bound_export : exports a = [e] /\ written_out a 1 e (rsz 1 e (TStruct fs)).
  Proof.
    destruct (type_check_result _ _ _ Hf (bound_names _ _ Hs) Hr) as (H1 & H2 & _ & H3). split; [done|]. by eapply rsz_written.
  Qed.
  Lemma rs_bound_text : sl t <= 3200 * (length s + rsz 1 e (TStruct fs)) + sl version + sl now.
  Proof.
    pose proof (bound_names _ _ Hs) as Hnb. rewrite rs_generate_print in Hg by (by eapply entries_sized). injection Hg as <-.
    pose proof (layout_size _ _ (proj1 (parse_schema_ok a s) Hs)) as Ha.
    destruct (type_check_result _ _ _ Hf Hnb Hr) as (H1 & H2 & _ & H3).
    pose proof (rsz_pos 1 e (TStruct fs)) as Hpos.
    assert (sum_list (List.map (fun i => sl (print_item i)) (List.concat (List.map item_of (titer (r_types r))))) <= 700 * asize a) as HD.
    { apply (items_length a (r_types r)).
      - rewrite (Ht (r_types r)). apply NoDup_fst_map_to_list.
      - intros n vs Hv. by destruct (vs_enums _ (result_valid _ _ _ Hf Hnb Hr) n vs Hv) as [? _].
      - intros n m u. rewrite (Ht (r_types r)), elem_of_map_to_list. apply H3. }
    assert (roomy 1 tab ["output"]) as R1 by (split; [|done]; unfold room; change (sl tab) with 4; change (pl ["output"]) with 6; lia). assert (roomy 1 tab ["input"]) as R2 by (split; [|done]; unfold room; change (sl tab) with 4; change (pl ["input"]) with 5; lia).
    pose proof (rr_ty_len (TStruct fs) e 1 _ _ R1) as HR. pose proof (rw_ty_len (TStruct fs) e 1 _ _ R2) as HW.
    change (rr_ty (TStruct fs) e ["output"]) with (rr_fields fs ["output"]) in HR. change (rw_ty (TStruct fs) e ["input"]) with (rw_fields fs ["input"]) in HW.
    unfold print_rs_module, rs_module_of. cbn [rm_items rm_type rm_read rm_write]. fold e fs. unfold header, rs_prologue, line. rewrite !slength_app, concat_str_length, List.map_map, !sl_tab, !sl_NL. cbn [sl].
    set (DD := sum_list (List.map (fun i => sl (print_item i)) _)) in *. clearbody DD. set (RR := sl (print_rsb tab (rr_fields fs ["output"]))) in *. set (WW := sl (print_rsb tab (rw_fields fs ["input"]))) in *. clearbody RR WW.
    set (Z := rsz 1 e (TStruct fs)) in *. clearbody Z. lia.
  Qed.
  Lemma rs_bound_flat : flat a e -> rsz 1 e (TStruct fs) <= 2 + 8 * length s.
  Proof.
    intros Hflat. pose proof (layout_size _ _ (proj1 (parse_schema_ok a s) Hs)) as Ha. pose proof (bound_names _ _ Hs) as Hnb.
    destruct (type_check_result _ _ _ Hf Hnb Hr) as (H1 & H2 & _ & H3). fold e in H1, H2. fold fs in H2.
    destruct (bound_fields s a iter r Hs Hf Hr) as (ds & Hd & Efs). fold e in Hd. fold fs in Efs. pose proof (node_le _ _ Hd) as Hds. cbn [nsize tsize] in Hds. cbn [rsz].
    assert (sum_list (List.map (fun f => rsz (1 + 1 + sl (f_name f)) (f_tname f) (f_ty f)) fs) <= 3 * sum_list (List.map (fun f => sl (f_name f) + sl (f_tname f) + 1) fs)) as HB; [|lia].
    apply sum_list_bound. intros f Hin. destruct (entry_struct _ _ _ Hf Hnb Hr _ _ _ H2 Hin) as (fs' & u & Hd' & Hu & E1 & E2 & E3 & E4).
    assert (is_struct (f_ty f) = false) as Hns.
    { pose proof (Hflat _ _ Hd' Hu) as Hl. cbn [snd] in Hl. rewrite <- E1 in Hl. destruct (H3 _ _ _ E4) as [_ [(b' & _ & ->)|[(vs & ? & _ & _ & ->)|(gs & gs' & rs' & Hgs & _ & _ & _)]]]; [done..|exfalso].
      destruct Hl as [Hl|[vs Hl]]; [by apply (Hnb (f_tname f)); [eapply decl_names_elem|]|].
      pose proof (decl_unique _ _ _ _ (vs_decls _ (result_valid _ _ _ Hf Hnb Hr)) Hgs Hl). done. }
    destruct (f_ty f); [cbn [rsz]; lia..|done].
  Qed.
End bound.
Lemma rs_size_written : exists K, forall s a iter r version now titer t, parse_schema s = POk a -> fair_order iter -> type_check iter a = Ok r -> fair_types titer ->
  rs_generate version now titer r = Ok t ->
  exists e k, exports a = [e] /\ written_out a 1 e k /\ sl t <= K * (length s + k) + sl version + sl now.
Proof.
  exists 3200. intros s a iter r version now titer t Hs Hf Hr Ht Hg. eexists _, _. destruct (rs_bound_export s a iter r Hs Hf Hr) as [H1 H2]. split; [exact H1|]. split; [exact H2|].
  by eapply rs_bound_text.
Qed.
Lemma rs_size_flat : exists K, forall s a e iter r version now titer t, parse_schema s = POk a -> exports a = [e] -> flat a e -> fair_order iter -> type_check iter a = Ok r -> fair_types titer ->
  rs_generate version now titer r = Ok t -> sl t <= K * length s + sl version + sl now.
Proof.
  exists (3200 + 3200 * 10). intros s a e iter r version now titer t Hs He Hfl Hf Hr Ht Hg. destruct (rs_bound_export s a iter r Hs Hf Hr) as [H1 H2]. rewrite He in H1. injection H1 as ->.
  pose proof (rs_bound_text s a iter r version now titer t Hs Hf Hr Ht Hg) as HB. pose proof (rs_bound_flat s a iter r Hs Hf Hr Hfl) as HF.
  assert (1 <= length s) as Hs1 by (destruct s; [|cbn; lia]; assert (a = []) as -> by (by injection Hs); done).
  revert HB HF. set (N := rsz 1 _ _). clearbody N. intros HB HF. lia.
Qed.

(** ** Bounded nesting *)
Section nested.
  Context a (Hd : NoDup (decl_names a)) (Hnb : no_builtin_decl a).
  Let N := asize a.
  Lemma nested_written d n : nested a d n -> forall p k, written_out a p n k -> k <= (p + 1 + 2 * d) * (N + 1) ^ d + sl n.
  Proof.
    induction 1 as [d n Hl|d n fs Hs _ IH]; intros p k Hk.
    - assert (1 <= (N + 1) ^ d) as H1 by (assert (0 < (N + 1) ^ d); [|lia]; apply Nat.neq_0_lt_0, Nat.pow_nonzero; lia).
      destruct Hk as [p n _|p n gs ks Hg _]; [nia|exfalso]. destruct Hl as [Hl|[vs Hl]]; [by apply (Hnb n); [eapply decl_names_elem|]|].
      by pose proof (decl_unique _ _ _ _ Hd Hg Hl).
    - destruct Hk as [p n [Hl|[vs Hl]]|p n gs ks Hg Hks]; [exfalso; by apply (Hnb n); [eapply decl_names_elem|]|exfalso; by pose proof (decl_unique _ _ _ _ Hd Hs Hl)|].
      rewrite <- (struct_is a Hd _ _ _ Hs Hg) in Hks. pose proof (node_le _ _ Hs) as Hn. cbn [nsize tsize] in Hn. fold N in Hn. pose proof (fields_le fs) as Hlen.
      set (P := (N + 1) ^ d) in *. assert (1 <= P) as H1 by (assert (0 < P); [|lia]; apply Nat.neq_0_lt_0, Nat.pow_nonzero; lia).
      assert (sum_list ks <= (length fs * (p + 1 + 2 * d) + sum_list (List.map fsize fs)) * P) as Hsum.
      { clear -IH Hks H1. induction Hks as [|f k fs ks Hk _ IHk]; [cbn; lia|]. cbn [List.map length]. rewrite !sum_cons.
        pose proof (IH f ltac:(by left) _ _ Hk) as Hf. specialize (IHk ltac:(intros; eapply IH; [by right|done])). fold P in Hf. unfold fsize at 1.
        assert ((p + 1 + sl f.1 + 1 + 2 * d) * P + sl (u_name f.2) <= (p + 1 + 2 * d + (sl f.1 + sl (u_name f.2) + 1)) * P) by nia. nia. }
      rewrite Nat.pow_succ_r'. fold P. set (Q := p + 1 + 2 * d) in *.
      replace (p + 1 + 2 * S d) with (Q + 2) by (subst Q; lia).
      assert ((length fs * Q + sum_list (List.map fsize fs)) * P <= (N * Q + N) * P) by (apply Nat.mul_le_mono_r; nia).
      assert (p + 1 <= Q * P) by (subst Q; nia). nia.
  Qed.
End nested.
Lemma rs_size_nested : exists K, forall d s a e iter r version now titer t, parse_schema s = POk a -> exports a = [e] -> nested a d e -> fair_order iter -> type_check iter a = Ok r ->
  fair_types titer -> rs_generate version now titer r = Ok t -> sl t <= K * (d * (2 * length s + 2) ^ d) + sl version + sl now.
Proof.
  exists (3200 * 6). intros d s a e iter r version now titer t Hs He Hn Hf Hr Ht Hg. destruct (rs_bound_export s a iter r Hs Hf Hr) as [H1 H2]. rewrite He in H1. injection H1 as ->.
  pose proof (rs_bound_text s a iter r version now titer t Hs Hf Hr Ht Hg) as HB. pose proof (bound_names _ _ Hs) as Hnb.
  pose proof (vs_decls _ (result_valid _ _ _ Hf Hnb Hr)) as Hd.
  destruct (bound_fields s a iter r Hs Hf Hr) as (ds & Hds & _). pose proof (node_le _ _ Hds) as Hle. cbn [nsize tsize] in Hle.
  pose proof (nested_written a Hd Hnb _ _ Hn _ _ H2) as HU.
  pose proof (layout_size _ _ (proj1 (parse_schema_ok a s) Hs)) as Ha.
  assert (1 <= d) as H1d. { destruct Hn as [d n [Hl|[vs Hl]]|]; [exfalso; by eapply Hnb; [eapply decl_names_elem|]|by pose proof (decl_unique _ _ _ _ Hd Hds Hl)|lia]. }
  revert HB HU. set (U := rsz 1 _ _). set (E := sl (x_name (r_export r))) in *. clearbody U. intros HB HU.
  set (L := 2 * length s + 2). assert ((asize a + 1) ^ d <= L ^ d) as HP by (apply Nat.pow_le_mono_l; lia).
  assert (L <= L ^ d) as HQ. { rewrite <- (Nat.pow_1_r L) at 1. apply Nat.pow_le_mono_r; lia. }
  set (W := L ^ d) in *. assert ((1 + 1 + 2 * d) * (asize a + 1) ^ d <= 4 * (d * W)) as HU2. { transitivity ((1 + 1 + 2 * d) * W); [by apply Nat.mul_le_mono_l|]. nia. }
  assert (W <= d * W) by nia. assert (E + length s <= 2 * L) by (subst L; lia). lia.
Qed.

(** ** Nested structs: no linear bound *)
Lemma print_rsb_cons_ge ind s b : 1 + sl (print_rsb ind b) <= sl (print_rsb ind (s :: b)).
Proof.
  rewrite print_rsb_cons, slength_app. enough (1 <= sl (print_rs ind s)) by lia.
  destruct s; cbn [print_rs]; unfold line; rewrite !slength_app; change (sl NL) with 1; lia.
Qed.
Lemma rw_wrap_ge ar op r body n : (forall ind st, n <= sl (print_rsb ind (body st))) -> forall ind st, n <= sl (print_rsb ind (rw_wrap ar op r body st)).
Proof.
  intros H. assert (forall ind st, n <= sl (print_rsb ind (rw_arr body st))) as HA.
  { intros ind st. unfold rw_arr. rewrite !print_rsb_cons. cbn [print_rs]. fold_rsb. rewrite !slength_app. pose proof (H (ind +:+ tab) [varname st "item"]). lia. }
  assert (forall b, (forall ind st, n <= sl (print_rsb ind (b st))) -> forall ind st, n <= sl (print_rsb ind (rw_opt r b st))) as HO.
  { intros b Hb ind st. unfold rw_opt. rewrite !print_rsb_cons. cbn [print_rs List.map]. rewrite !slength_app.
    match goal with |- context [concat_str (?x :: List.map (print_rs ?i) ?l)] => change (concat_str (x :: List.map (print_rs i) l)) with (x +:+ print_rsb i l) end.
    rewrite !slength_app. pose proof (Hb (ind +:+ tab +:+ tab) [bindname st]). lia. }
  intros ind st. unfold rw_wrap. destruct op, ar; auto.
Qed.
Lemma rw_ty_ge t : forall tn ind st, leaves t <= sl (print_rsb ind (rw_ty t tn st)).
Proof.
  induction t as [b|e|fs IH] using rtype_ind'; intros tn ind st.
  - cbn [rw_ty leaves]. destruct b; cbn [rw_builtin]; (etransitivity; [|apply print_rsb_cons_ge]); lia.
  - cbn [rw_ty leaves rw_enum]. (etransitivity; [|apply print_rsb_cons_ge]); lia.
  - cbn [rw_ty leaves]. induction IH as [|f fs Hf _ IHfs]; [cbn; lia|]. cbn [List.map List.concat fold_right].
    rewrite print_rsb_app, slength_app. pose proof (rw_wrap_ge (f_array f) (f_opt f) (is_struct (f_ty f)) _ _ (Hf (f_tname f)) ind (st ++ [f_name f])). lia.
Qed.
Lemma rs_size_refuted K version now titer : fair_types titer -> exists s a iter r t, parse_schema s = POk a /\ fair_order iter /\
  type_check iter a = Ok r /\ rs_generate version now titer r = Ok t /\ K * length s < sl t.
Proof.
  intros Hti. destruct (exp_beats_square (K * 50)) as [n Hn].
  assert (is_ok (type_check iter_fwd (tower n))) as [r Hr].
  { apply type_check_valid; [apply fair_fwd|apply tower_names|apply tower_valid]. }
  exists (show_ast (tower n)), (tower n), iter_fwd, r, (print_rs_module version now (rs_module_of titer r)).
  split; [apply parse_show, tower_legal|]. split; [apply fair_fwd|]. split; [done|].
  split; [apply rs_generate_print; eapply entries_sized; [apply fair_fwd|apply tower_names|done|done]|].
  pose proof (export_entry _ _ _ fair_fwd (tower_names n) Hr) as He.
  destruct (type_check_result _ _ _ fair_fwd (tower_names n) Hr) as (Hx & _). rewrite tower_exports in Hx. injection Hx as Hx.
  rewrite <- Hx in He. pose proof (tower_leaves _ _ _ fair_fwd Hr _ _ He). pose proof (tower_short n).
  pose proof (rw_ty_ge (TStruct (x_fields (r_export r))) "" tab ["input"]) as HW. change (rw_ty (TStruct (x_fields (r_export r))) "" ["input"]) with (rw_fields (x_fields (r_export r)) ["input"]) in HW.
  unfold print_rs_module, rs_module_of. cbn [rm_write]. rewrite !slength_app. nia.
Qed.
Lemma rs_degree_refuted d K version now titer : fair_types titer -> exists s a e iter r t, parse_schema s = POk a /\ exports a = [e] /\ nested a (S d) e /\
  (forall n fs, declares_struct a n fs -> NoDup fs.*1) /\ fair_order iter /\ type_check iter a = Ok r /\
  rs_generate version now titer r = Ok t /\ K * length s ^ d < sl t.
Proof.
  intros Hti. destruct (grid_long K d) as [n Hn].
  assert (is_ok (type_check iter_fwd (grid n d))) as [r Hr].
  { apply type_check_valid; [apply fair_fwd|apply grid_names|apply grid_valid]. }
  exists (show_ast (grid n d)), (grid n d), (nm d), iter_fwd, r, (print_rs_module version now (rs_module_of titer r)). split; [apply parse_show, grid_legal|]. split; [apply grid_exports|]. split; [apply grid_nested|].
  split; [apply grid_distinct|]. split; [apply fair_fwd|]. split; [done|].
  split; [apply rs_generate_print; eapply entries_sized; [apply fair_fwd|apply grid_names|done|done]|].
  pose proof (export_entry _ _ _ fair_fwd (grid_names n d) Hr) as He.
  destruct (type_check_result _ _ _ fair_fwd (grid_names n d) Hr) as (Hx & _). rewrite grid_exports in Hx. injection Hx as Hx.
  rewrite <- Hx in He. pose proof (grid_leaves _ _ _ _ fair_fwd Hr _ _ He).
  pose proof (rw_ty_ge (TStruct (x_fields (r_export r))) "" tab ["input"]) as HW. change (rw_ty (TStruct (x_fields (r_export r))) "" ["input"]) with (rw_fields (x_fields (r_export r)) ["input"]) in HW.
  unfold print_rs_module, rs_module_of. cbn [rm_write]. rewrite !slength_app. lia.
Qed.
