(** Upper bounds for the length of the generated text. *)
From Verif Require Export SizeSpec GenSize.
Notation sl := String.length.

Lemma join_length s1 s2 l : sl s1 = sl s2 -> sl (join s1 l) = sl (join s2 l).
Proof.
  intros E. induction l as [|x [|y l] IH]; [done|done|]. change (join s1 (x :: y :: l)) with (x +:+ s1 +:+ join s1 (y :: l)).
  change (join s2 (x :: y :: l)) with (x +:+ s2 +:+ join s2 (y :: l)). rewrite !slength_app, IH. lia.
Qed.
Lemma join_snoc s l x : sl (join s (l ++ [x])) <= sl (join s l) + sl s + sl x.
Proof.
  induction l as [|y [|z l] IH]; [cbn; lia|cbn; rewrite !slength_app; lia|].
  change (join s ((y :: z :: l) ++ [x])) with (y +:+ s +:+ join s ((z :: l) ++ [x])). change (join s (y :: z :: l)) with (y +:+ s +:+ join s (z :: l)).
  rewrite !slength_app. lia.
Qed.
(** the length of a path *)
Definition pl (st : list string) : nat := sl (join "_" st).
Lemma pl_path st : sl (print_expr (path st)) = pl st.
Proof. rewrite print_path. unfold fname, pl. by apply join_length. Qed.
Lemma pl_bind st : sl (bindname st) = pl st.
Proof. done. Qed.
Lemma pl_var st x : sl (varname st x) = pl st + 1 + sl x.
Proof. unfold varname, pl. rewrite !slength_app. cbn [sl]. lia. Qed.
Lemma pl_snoc st f : pl (st ++ [f]) <= pl st + 1 + sl f.
Proof. unfold pl. pose proof (join_snoc "_" st f). cbn [sl] in *. lia. Qed.
Lemma pl_one x : pl [x] = sl x.
Proof. done. Qed.

Fixpoint rsize (d : nat) (t : rtype) : nat :=
  match t with
  | TStruct fs => d + 1 + sum_list (List.map (fun f => rsize (d + 1 + sl (f_name f)) (f_ty f)) fs)
  | _ => d + 1
  end.
Lemma sum_cons x l : sum_list (x :: l) = x + sum_list l.
Proof. done. Qed.
Lemma rsize_pos d t : d + 1 <= rsize d t.
Proof. destruct t; cbn; lia. Qed.

Lemma shl1_length n : n < 32 -> sl (string_of_Z (shl1 n)) <= 11.
Proof.
  intros H. assert (Forall (fun n => sl (string_of_Z (shl1 n)) <= 11) (seq 0 32)) as HF.
  { apply (bool_decide_unpack _). vm_compute. exact I. }
  rewrite Forall_forall in HF. apply HF, elem_of_seq. lia.
Qed.
Lemma nat_length n : n < 32 -> sl (string_of_nat n) <= 2.
Proof.
  intros H. assert (Forall (fun n => sl (string_of_nat n) <= 2) (seq 0 32)) as HF.
  { apply (bool_decide_unpack _). vm_compute. exact I. }
  rewrite Forall_forall in HF. apply HF, elem_of_seq. lia.
Qed.
Lemma builtin_length tn b : builtin_of_name tn = Some b -> sl tn <= 6.
Proof.
  intros H%builtin_of_name_in. unfold builtin_names in H. rewrite !elem_of_cons, elem_of_nil in H.
  repeat (destruct H as [->|H]; [cbn; lia|]). done.
Qed.

Lemma print_block_one ind s : print_block ind [s] = print_stmt ind s.
Proof. rewrite print_block_cons, print_block_nil. by rewrite sapp_nil_r. Qed.
Lemma sl_NL : sl NL = 1. Proof. done. Qed.
Lemma sl_tab : sl tab = 4. Proof. done. Qed.
Lemma sl_0 : sl (string_of_Z 0) = 1. Proof. done. Qed.
Lemma sl_1 : sl (string_of_Z 1) = 1. Proof. done. Qed.
Ltac dig := rewrite ?sl_0, ?sl_1.
Ltac lens := repeat (progress (rewrite ?print_block_app, ?print_block_cons, ?print_block_nil; cbn [print_stmt]; fold_block; unfold line, print_simple; cbn [print_expr]));
  rewrite ?slength_app, ?pl_path, ?pl_bind, ?pl_var, ?pl_one, ?sl_NL, ?sl_tab; cbn [sl].

(** ** write *)
Lemma w_opt_len body ind st : sl (print_block ind (w_opt body st)) <=
  10 * sl ind + 20 * pl st + 400 + sl (print_block (ind +:+ tab +:+ tab) (body [bindname st])).
Proof. unfold w_opt. lens. dig; lia. Qed.
Lemma w_arr_len body ind st : sl (print_block ind (w_arr body st)) <=
  10 * sl ind + 20 * pl st + 400 + sl (print_block (ind +:+ tab) (body [varname st "item"])).
Proof. unfold w_arr. lens. dig; lia. Qed.
(** ** read *)
Lemma r_opt_len body ind st : sl (print_block ind (r_opt body st)) <=
  10 * sl ind + 20 * pl st + 400 + sl (print_block (ind +:+ tab) (body st)).
Proof. unfold r_opt. lens. dig; lia. Qed.
Lemma r_arr_len i body ind st : sl (print_block ind (r_arr i body st)) <=
  10 * sl ind + 20 * pl st + 400 + sl (print_block (ind +:+ tab) (body [varname st "item"])).
Proof. unfold r_arr. destruct i; lens; dig; lia. Qed.

(** Costs are bounded by multiples of [d] where the path and the indentation have at most 16 d characters. *)
Definition room (d : nat) (ind : string) (st : list string) : Prop := sl ind <= 16 * d /\ pl st <= 16 * d /\ 1 <= d.
Lemma w_leaf_len t tn ind st d : is_struct t = false -> leaf_ok t tn -> room d ind st -> sl (print_block ind (w_ty t tn st)) <= 500 * (d + 1).
Proof.
  intros Hns Hl (Hi & Hp & Hd). destruct t as [b|e|fs]; [| |done]; cbn [w_ty].
  - apply builtin_length in Hl. destruct b; unfold w_builtin; lens; lia.
  - unfold w_enum. lens. destruct (e_repr e); cbn [repr_name sl]; lia.
Qed.
Lemma r_leaf_len t tn i ind st d : is_struct t = false -> leaf_ok t tn -> room d ind st -> sl (print_block ind (r_ty t tn i st)) <= 500 * (d + 1).
Proof.
  intros Hns Hl (Hi & Hp & Hd). destruct t as [b|e|fs]; [| |done]; cbn [r_ty].
  - apply builtin_length in Hl. destruct b; unfold r_builtin; lens; lia.
  - apply good_enum_shiftable in Hl. unfold r_enum. unfold enum_lo, enum_hi. unfold enum_shiftable in Hl. destruct (e_variants e) as [|v vs]; [done|].
    destruct Hl as [H1%shl1_length H2%shl1_length]. lens. destruct (e_repr e); cbn [repr_name sl]; lia.
Qed.
Lemma room_opt2 d ind st : room d ind st -> room (d + 1) (ind +:+ tab +:+ tab) [bindname st].
Proof. intros (H1 & H2 & H3). unfold room. rewrite !slength_app, pl_one, pl_bind, !sl_tab. lia. Qed.
Lemma room_arr d ind st : room d ind st -> room (d + 1) (ind +:+ tab) [varname st "item"].
Proof. intros (H1 & H2 & H3). unfold room. rewrite !slength_app, pl_one, pl_var, !sl_tab. cbn [sl]. lia. Qed.
Lemma room_opt d ind st : room d ind st -> room (d + 1) (ind +:+ tab) st.
Proof. intros (H1 & H2 & H3). unfold room. rewrite !slength_app, !sl_tab. lia. Qed.
Lemma room_le d d' ind st : d <= d' -> room d ind st -> room d' ind st.
Proof. intros Hd (H1 & H2 & H3). unfold room. lia. Qed.
Lemma w_wrap_len ar op body ind st d f B : room d ind st ->
  (forall ind' st', room (d + 1 + sl f) ind' st' -> sl (print_block ind' (body st')) <= B) ->
  sl (print_block ind (w_wrap ar op body (st ++ [f]))) <= 1000 * (d + 1 + sl f + 1) + B.
Proof.
  intros (H1 & H2 & H3) HB. pose proof (pl_snoc st f) as Hs. unfold w_wrap. destruct op, ar.
  - etrans; [apply w_opt_len|]. pose proof (w_arr_len body (ind +:+ tab +:+ tab) [bindname (st ++ [f])]) as HA. rewrite !slength_app, pl_one, pl_bind, !sl_tab in HA.
    enough (sl (print_block ((ind +:+ tab +:+ tab) +:+ tab) (body [varname [bindname (st ++ [f])] "item"])) <= B) by lia.
    apply HB. unfold room. rewrite !slength_app, pl_one, pl_var, pl_one, pl_bind, !sl_tab. cbn [sl]. lia.
  - etrans; [apply w_opt_len|]. enough (sl (print_block (ind +:+ tab +:+ tab) (body [bindname (st ++ [f])])) <= B) by lia.
    apply HB. unfold room. rewrite !slength_app, pl_one, pl_bind, !sl_tab. lia.
  - etrans; [apply w_arr_len|]. enough (sl (print_block (ind +:+ tab) (body [varname (st ++ [f]) "item"])) <= B) by lia.
    apply HB. unfold room. rewrite !slength_app, pl_one, pl_var, !sl_tab. cbn [sl]. lia.
  - enough (sl (print_block ind (body (st ++ [f]))) <= B) by lia. apply HB. unfold room. lia.
Qed.
Lemma r_wrap_len ar op i body ind st d f B : room d ind st ->
  (forall ind' st', room (d + 1 + sl f) ind' st' -> sl (print_block ind' (body st')) <= B) ->
  sl (print_block ind (r_wrap ar op i body (st ++ [f]))) <= 1000 * (d + 1 + sl f + 1) + B.
Proof.
  intros (H1 & H2 & H3) HB. pose proof (pl_snoc st f) as Hs. unfold r_wrap. destruct op, ar.
  - etrans; [apply r_opt_len|]. pose proof (r_arr_len i body (ind +:+ tab) (st ++ [f])) as HA. rewrite !slength_app, !sl_tab in HA.
    enough (sl (print_block ((ind +:+ tab) +:+ tab) (body [varname (st ++ [f]) "item"])) <= B) by lia.
    apply HB. unfold room. rewrite !slength_app, pl_one, pl_var, !sl_tab. cbn [sl]. lia.
  - etrans; [apply r_opt_len|]. enough (sl (print_block (ind +:+ tab) (body (st ++ [f]))) <= B) by lia.
    apply HB. unfold room. rewrite !slength_app, !sl_tab. lia.
  - etrans; [apply r_arr_len|]. enough (sl (print_block (ind +:+ tab) (body [varname (st ++ [f]) "item"])) <= B) by lia.
    apply HB. unfold room. rewrite !slength_app, pl_one, pl_var, !sl_tab. cbn [sl]. lia.
  - enough (sl (print_block ind (body (st ++ [f]))) <= B) by lia. apply HB. unfold room. lia.
Qed.
Lemma w_ty_len t : forall tn d ind st, leaf_ok t tn -> all_fields field_ok t -> room d ind st ->
  sl (print_block ind (w_ty t tn st)) + 1000 * (d + 1) <= 1500 * rsize d t.
Proof.
  induction t as [b|e|fs IH] using rtype_ind'; intros tn d ind st Hl Ha Hr.
  1,2: cbn [rsize]; match type of Hl with leaf_ok ?t _ => pose proof (w_leaf_len t tn ind st d eq_refl Hl Hr) end; lia.
  rewrite all_fields_struct in Ha. cbn [w_ty rsize]. enough (sl (print_block ind (List.concat (List.map (fun f => w_wrap (f_array f) (f_opt f) (w_ty (f_ty f) (f_tname f)) (st ++ [f_name f])) fs)))
    <= 1500 * sum_list (List.map (fun f => rsize (d + 1 + sl (f_name f)) (f_ty f)) fs)) by lia.
  clear Hl. induction IH as [|f fs Hf _ IHfs]; [cbn; lia|]. cbn [List.map List.concat]. rewrite print_block_length_app, sum_cons.
  assert (forall g, g ∈ fs -> field_ok g /\ all_fields field_ok (f_ty g)) as Ha' by (intros g Hg; apply Ha; by right). apply IHfs in Ha'.
  destruct (Ha f) as [[_ Hl] Haf]; [by left|].
  assert (1000 * (d + 1 + sl (f_name f) + 1) <= 1500 * rsize (d + 1 + sl (f_name f)) (f_ty f)) as Hpos by (pose proof (rsize_pos (d + 1 + sl (f_name f)) (f_ty f)); lia).
  set (B := 1500 * rsize (d + 1 + sl (f_name f)) (f_ty f) - 1000 * (d + 1 + sl (f_name f) + 1)).
  assert (forall ind' st', room (d + 1 + sl (f_name f)) ind' st' -> sl (print_block ind' (w_ty (f_ty f) (f_tname f) st')) <= B) as HB.
  { intros ind' st' Hr'. pose proof (Hf (f_tname f) _ _ _ Hl Haf Hr'). lia. }
  pose proof (w_wrap_len (f_array f) (f_opt f) _ _ _ _ _ _ Hr HB) as Hw. clear HB.
  lia.
Qed.
Lemma r_ty_len t : forall tn i d ind st, leaf_ok t tn -> all_fields field_ok t -> room d ind st ->
  sl (print_block ind (r_ty t tn i st)) + 1000 * (d + 1) <= 1500 * rsize d t.
Proof.
  induction t as [b|e|fs IH] using rtype_ind'; intros tn i d ind st Hl Ha Hr.
  1,2: cbn [rsize]; match type of Hl with leaf_ok ?t _ => pose proof (r_leaf_len t tn i ind st d eq_refl Hl Hr) end; lia.
  rewrite all_fields_struct in Ha. cbn [r_ty rsize].
  assert (forall st, room d ind st -> sl (print_block ind (List.concat (List.map (fun f => r_wrap (f_array f) (f_opt f) (is_struct (f_ty f)) (r_ty (f_ty f) (f_tname f) (negb (f_array f))) (st ++ [f_name f])) fs)))
    <= 1500 * sum_list (List.map (fun f => rsize (d + 1 + sl (f_name f)) (f_ty f)) fs)) as HF.
  { clear Hr st. intros st Hr. clear Hl. induction IH as [|f fs Hf _ IHfs]; [cbn; lia|]. cbn [List.map List.concat]. rewrite print_block_length_app, sum_cons.
    assert (forall g, g ∈ fs -> field_ok g /\ all_fields field_ok (f_ty g)) as Ha' by (intros g Hg; apply Ha; by right). apply IHfs in Ha'.
    destruct (Ha f) as [[_ Hl] Haf]; [by left|].
    assert (1000 * (d + 1 + sl (f_name f) + 1) <= 1500 * rsize (d + 1 + sl (f_name f)) (f_ty f)) as Hpos by (pose proof (rsize_pos (d + 1 + sl (f_name f)) (f_ty f)); lia).
    set (B := 1500 * rsize (d + 1 + sl (f_name f)) (f_ty f) - 1000 * (d + 1 + sl (f_name f) + 1)).
    assert (forall ind' st', room (d + 1 + sl (f_name f)) ind' st' -> sl (print_block ind' (r_ty (f_ty f) (f_tname f) (negb (f_array f)) st')) <= B) as HB.
    { intros ind' st' Hr'. pose proof (Hf (f_tname f) (negb (f_array f)) _ _ _ Hl Haf Hr'). lia. }
    pose proof (r_wrap_len (f_array f) (f_opt f) (is_struct (f_ty f)) _ _ _ _ _ _ Hr HB) as Hw. clear HB.
    lia. }
  destruct i; [|specialize (HF st Hr); lia].
  assert (room d ind [bindname st]) as Hr' by (destruct Hr as (? & ? & ?); unfold room; rewrite pl_one, pl_bind; done). apply HF in Hr'. revert Hr'.
  set (fl := List.concat _). set (N := sum_list _). intros HN. destruct Hr as (H1 & H2 & H3).
  rewrite print_block_cons, print_block_app, print_block_one, !slength_app. cbn [print_stmt]. unfold line, print_simple. cbn [print_expr].
  rewrite ?slength_app, ?pl_path, ?pl_bind, ?sl_NL. cbn [sl]. lia.
Qed.

(** ** The whole text, in terms of the tree *)
Lemma concat_str_length l : sl (concat_str l) = sum_list (List.map sl l).
Proof. induction l as [|x l IH]; [done|]. cbn [concat_str fold_right List.map]. rewrite slength_app, sum_cons. unfold concat_str in IH. rewrite IH. done. Qed.
Lemma sum_list_bound {A} (g h : A -> nat) K l : (forall x, x ∈ l -> g x <= K * h x) -> sum_list (List.map g l) <= K * sum_list (List.map h l).
Proof. induction l as [|x l IH]; intros H; [cbn; lia|]. cbn [List.map]. rewrite !sum_cons. pose proof (H x (elem_of_list_here _ _)). assert (sum_list (List.map g l) <= K * sum_list (List.map h l)) by (apply IH; intros y Hy; apply H; by right). lia. Qed.
Lemma class_length e fs : checked fs ->
  sl (print_class (class_of (Export_ e fs))) <= 1000 + 10 * sl e + 3000 * rsize 1 (TStruct fs)
    + 50 * ((sl e + 1) * sum_list (List.map (fun f => sl (f_name f) + sl (f_tname f) + 1) fs)).
Proof.
  intros Hc. unfold print_class, class_of. cbn [k_name k_params k_read k_write x_name x_fields]. rewrite List.map_map. unfold line. rewrite !slength_app, concat_str_length, List.map_map, !sl_NL, !sl_tab. cbn [sl].
  assert (room 1 (tab +:+ tab) ["output"]) as R1 by (unfold room; change (sl (tab +:+ tab)) with 8; change (pl ["output"]) with 6; lia). assert (room 1 (tab +:+ tab) ["this"]) as R2 by (unfold room; change (sl (tab +:+ tab)) with 8; change (pl ["this"]) with 4; lia).
  pose proof (r_ty_len (TStruct fs) "" false 1 _ _ I Hc R1) as HR. pose proof (w_ty_len (TStruct fs) "" 1 _ _ I Hc R2) as HW.
  change (r_ty (TStruct fs) "" false ["output"]) with (r_fields fs ["output"]) in HR. change (w_ty (TStruct fs) "" ["this"]) with (w_fields fs ["this"]) in HW.
  set (P := sum_list (List.map (fun x => _) fs)). assert (P <= 50 * (sl e + 1) * sum_list (List.map (fun f => sl (f_name f) + sl (f_tname f) + 1) fs)) as HP.
  { apply sum_list_bound. intros f _. rewrite !slength_app, !sl_tab, sl_NL. unfold field_ctor_type. destruct (f_ty f) as [[]|e'|fs']; rewrite !slength_app; destruct (f_array f), (f_opt f); cbn [sl]; nia. }
  lia.
Qed.
