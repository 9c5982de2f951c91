(** The Rust back-end prints the tree of RsAst.v. *)
From Verif Require Export RsAst TsPlan.

Lemma print_place_of st : st ≠ [] -> print_place (place_of st) = fname st.
Proof. by destruct st. Qed.
Lemma print_rsb_app ind a b : print_rsb ind (a ++ b) = print_rsb ind a +:+ print_rsb ind b.
Proof. unfold print_rsb. by rewrite List.map_app, concat_str_app. Qed.
Lemma print_rsb_cons ind s b : print_rsb ind (s :: b) = print_rs ind s +:+ print_rsb ind b.
Proof. done. Qed.
Lemma print_rsb_nil ind : print_rsb ind [] = "".
Proof. done. Qed.

Definition rs_prints (g : gen) (p : rs_emit) : Prop :=
  forall ind o st, st ≠ [] -> g (Ctx ind o st) = Ok (Ctx ind (o +:+ print_rsb ind (p st)) st).

Ltac fold_rsb :=
  repeat match goal with
  | |- context [concat_str (List.map (print_rs ?i) ?b)] => change (concat_str (List.map (print_rs i) b)) with (print_rsb i b)
  end.
Ltac rpr1 := rewrite ?print_rsb_app, ?print_rsb_cons, ?print_rsb_nil; cbn [print_rs]; fold_rsb.
Ltac rpr := rpr1; rpr1; rpr1; unfold line; rewrite ?print_place_of by done; sapp.

Lemma rs_prints_w_opt r g p : rs_prints g p -> rs_prints (rs_write_optional r g) (rw_opt r p).
Proof.
  intros H ind o st Hst. unfold rs_write_optional. ctxs.
  rewrite H by done. cbn [rbind]. change "    " with tab. rewrite pop_push. cbn [c_ind c_out c_stack]. rewrite pop_push.
  cbn [c_ind c_out c_stack]. f_equal. f_equal. unfold rw_opt. rpr. reflexivity.
Qed.
Lemma rs_prints_w_arr g p : rs_prints g p -> rs_prints (rs_write_array g) (rw_arr p).
Proof.
  intros H ind o st Hst. unfold rs_write_array. ctxs.
  rewrite H by done. cbn [rbind]. change "    " with tab. rewrite pop_push.
  cbn [c_ind c_out c_stack]. f_equal. f_equal. unfold rw_arr. rpr. reflexivity.
Qed.
Lemma rs_prints_w_builtin b tn : rs_prints (rs_write_builtin b tn) (rw_builtin b tn).
Proof. intros ind o st Hst. destruct b; unfold rs_write_builtin, rw_builtin; ctxs; f_equal; f_equal; rpr; reflexivity. Qed.
Lemma rs_prints_w_enum e : rs_prints (rs_write_enum e) (rw_enum e).
Proof. intros ind o st Hst. unfold rs_write_enum, rw_enum; ctxs; f_equal; f_equal; rpr; reflexivity. Qed.
Lemma app_ne {A} (l : list A) a : l ++ [a] ≠ [].
Proof. by destruct l. Qed.
Lemma rs_prints_w_ty t : forall tn, rs_prints (rs_write_ty t tn) (rw_ty t tn).
Proof.
  induction t as [b|e|fs IH] using rtype_ind'; intros tn.
  - apply rs_prints_w_builtin.
  - apply rs_prints_w_enum.
  - cbn [rs_write_ty rw_ty]. induction IH as [|f fs Hf _ IHfs]; intros ind o st Hst.
    + cbn. by sapp.
    + cbn [List.map List.concat]. unfold push_fname at 1. cbn [c_ind c_out c_stack].
      set (g := if f_opt f then _ else _).
      assert (rs_prints g (rw_wrap (f_array f) (f_opt f) (is_struct (f_ty f)) (rw_ty (f_ty f) (f_tname f)))) as Hg.
      { unfold g, rw_wrap, is_struct. destruct (f_opt f), (f_array f);
          repeat first [apply rs_prints_w_opt | apply rs_prints_w_arr | apply Hf]. }
      rewrite Hg by apply app_ne. cbn [rbind]. rewrite pop_fname_push. rewrite IHfs by done. f_equal. f_equal.
      rewrite print_rsb_app. by sapp.
Qed.

Lemma rs_prints_r_opt ty g p : rs_prints g p -> rs_prints (rs_read_optional ty g) (rr_opt ty p).
Proof.
  intros H ind o st Hst. unfold rs_read_optional. ctxs.
  rewrite H by done. cbn [rbind]. change "    " with tab. cbn [c_ind c_out c_stack]. rewrite pop_push.
  cbn [c_ind c_out c_stack]. f_equal. f_equal. unfold rr_opt. rpr. reflexivity.
Qed.
Lemma rs_prints_r_arr ty g p : rs_prints g p -> rs_prints (rs_read_array ty g) (rr_arr ty p).
Proof.
  intros H ind o st Hst. unfold rs_read_array. ctxs.
  rewrite H by done. cbn [rbind]. change "    " with tab. cbn [c_ind c_out c_stack]. rewrite pop_push.
  cbn [c_ind c_out c_stack]. f_equal. f_equal. unfold rr_arr. rpr. reflexivity.
Qed.
Lemma rs_prints_r_builtin b tn : rs_prints (rs_read_builtin b tn) (rr_builtin b tn).
Proof. intros ind o st Hst. destruct b; unfold rs_read_builtin, rr_builtin; ctxs; f_equal; f_equal; rpr; reflexivity. Qed.
Lemma rs_prints_r_enum e tn : rs_prints (rs_read_enum e tn) (rr_enum e tn).
Proof. intros ind o st Hst. unfold rs_read_enum, rr_enum; ctxs; f_equal; f_equal; rpr; reflexivity. Qed.
Lemma rs_prints_r_ty t : forall tn, rs_prints (rs_read_ty t tn) (rr_ty t tn).
Proof.
  induction t as [b|e|fs IH] using rtype_ind'; intros tn.
  - apply rs_prints_r_builtin.
  - apply rs_prints_r_enum.
  - cbn [rs_read_ty rr_ty]. induction IH as [|f fs Hf _ IHfs]; intros ind o st Hst.
    + cbn. by sapp.
    + cbn [List.map List.concat]. unfold push_fname at 1. cbn [c_ind c_out c_stack]. fold (rs_name (f_tname f)).
      set (g := if f_opt f then _ else _).
      assert (rs_prints g (rr_wrap (f_array f) (f_opt f) (rs_name (f_tname f)) (rr_ty (f_ty f) (f_tname f)))) as Hg.
      { unfold g, rr_wrap. destruct (f_opt f), (f_array f);
          repeat first [apply rs_prints_r_opt | apply rs_prints_r_arr | apply Hf]. }
      rewrite Hg by apply app_ne. cbn [rbind]. rewrite pop_fname_push. rewrite IHfs by done. f_equal. f_equal.
      rewrite print_rsb_app. by sapp.
Qed.

Lemma rs_write_impl_print fs name out : rs_write_impl fs name out =
  Ok (out +:+ line "" ("pub fn write(writer: &mut packet::writer::Writer, input: &" +:+ name +:+ ") {")
          +:+ print_rsb tab (rw_fields fs ["input"]) +:+ line "" "}").
Proof.
  unfold rs_write_impl. ctxs. change ("" +:+ "    ") with tab. rewrite (rs_prints_w_ty (TStruct fs) name) by done.
  cbn [rbind]. rewrite pop_tab. cbn [c_ind c_out c_stack]. f_equal. cbn [rw_ty]. fold (rw_fields fs ["input"]). unfold line. by sapp.
Qed.
Lemma rs_read_impl_print fs name out : rs_read_impl fs name out =
  Ok (out +:+ line "" ("pub fn read(reader: &mut packet::reader::Reader, output: &mut " +:+ name +:+ ") -> Result<(), packet::Error> {")
          +:+ print_rsb tab (rr_fields fs ["output"]) +:+ line tab "Ok(())" +:+ line "" "}").
Proof.
  unfold rs_read_impl. ctxs. change ("" +:+ "    ") with tab. rewrite (rs_prints_r_ty (TStruct fs) name) by done.
  cbn [rbind c_ind c_out c_stack]. rewrite pop_tab. cbn [c_ind c_out c_stack]. f_equal. cbn [rr_ty]. fold (rr_fields fs ["output"]).
  unfold line. by sapp.
Qed.

Lemma rs_struct_def_print fs name out : rs_struct_def fs name out =
  out +:+ print_item (IStruct name (List.map (fun f => (f_name f, field_rs_type f)) fs)).
Proof.
  unfold rs_struct_def. ctxs. change ("" +:+ "    ") with tab.
  rewrite (for_each_lines _ (fun f => line tab ("pub " +:+ f_name f +:+ ": " +:+ print_rs_type (field_rs_type f) +:+ ","))).
  2: { intros f oo. unfold line, cat, print_rs_type, field_rs_type. cbn [c_ind c_out c_stack rt_base rt_vec rt_opt]. f_equal. f_equal. by sapp. }
  rewrite pop_tab. cbn [c_ind c_out c_stack print_item]. rewrite List.map_map. unfold line. by sapp.
Qed.

(** the enums for which the definition generator does not panic *)
Definition enum_sized (e : enum) : Prop := e_variants e ≠ [] /\ Forall (fun v => ev_value v < 32) (e_variants e).
Lemma rs_enum_arms_print name vs ind o st : Forall (fun v => ev_value v < 32) vs ->
  rs_enum_arms name vs (Ctx ind o st) =
  Ok (Ctx ind (o +:+ concat_str (List.map (fun '(z, v) => line ind (string_of_Z z +:+ " => Ok(" +:+ name +:+ "::" +:+ v +:+ "),"))
        (List.map (fun v => (shl1 (ev_value v), ev_name v)) vs))) st).
Proof.
  intros H. revert o. induction H as [|v vs Hv _ IH]; intros o.
  - cbn. by sapp.
  - cbn [rs_enum_arms List.map]. rewrite (shl_i32_ok _ Hv). cbn [rbind]. unfold cat at 1. cbn [c_ind c_out c_stack]. rewrite IH.
    cbn [concat_str fold_right]. do 2 f_equal. unfold line. sapp. reflexivity.
Qed.
Lemma rs_enum_def_print e name out : enum_sized e -> rs_enum_def e name out =
  Ok (out +:+ concat_str (List.map print_item (item_of (name, (name, TEnum e))))).
Proof.
  intros [Hne Hs]. unfold rs_enum_def. ctxs. change ("" +:+ "    ") with tab.
  rewrite (for_each_lines _ (fun v => line tab (ev_name v +:+ " = 1 << " +:+ string_of_nat (ev_value v) +:+ ","))).
  2: { intros v oo. unfold line, cat. cbn [c_ind c_out c_stack]. f_equal. f_equal. by sapp. }
  rewrite pop_tab. cbn [c_ind c_out c_stack].
  unfold rs_enum_default. cbn [item_of List.map concat_str fold_right print_item].
  destruct (e_variants e) as [|v0 vs] eqn:E; [done|]. rewrite <- E in *.
  ctxs. change "    " with tab. rewrite sapp_nil_l. rewrite pop_push. cbn [c_ind c_out c_stack]. rewrite pop_tab. cbn [c_ind c_out c_stack].
  unfold rs_enum_tryfrom. ctxs. change "    " with tab. rewrite sapp_nil_l.
  rewrite (rs_enum_arms_print _ _ _ _ _ Hs). cbn [rbind c_ind c_out c_stack]. rewrite pop_push. cbn [c_ind c_out c_stack].
  rewrite pop_push. cbn [c_ind c_out c_stack]. rewrite pop_tab. cbn [c_ind c_out c_stack]. f_equal.
  rewrite (List.map_map _ (fun '(v, k) => line tab _)). rewrite (sapp_assoc tab tab tab). unfold line. cbn beta iota. sapp. reflexivity.
Qed.

Definition entry_sized (d : string * (string * rtype)) : Prop := match d.2.2 with TEnum e => enum_sized e | _ => True end.
Lemma rs_defs_print l out : Forall entry_sized l ->
  rs_defs l out = Ok (out +:+ concat_str (List.map print_item (List.concat (List.map item_of l)))).
Proof.
  intros H. revert out. induction H as [|[name [m t]] l Hd _ IH]; intros out.
  - cbn. by sapp.
  - cbn [rs_defs List.map List.concat]. rewrite List.map_app, concat_str_app.
    destruct t as [b|e|fs]; cbn [rs_def].
    + cbn [rbind item_of List.map]. rewrite IH. by rewrite sapp_nil_l.
    + rewrite (rs_enum_def_print _ _ _ Hd). cbn [rbind]. rewrite IH. by sapp.
    + rewrite rs_struct_def_print. cbn [rbind]. rewrite IH. cbn [item_of List.map].
      match goal with |- context [concat_str [?x]] => change (concat_str [x]) with (x +:+ "") end. sapp. reflexivity.
Qed.

Lemma rs_generate_print version now titer r : Forall entry_sized (titer (r_types r)) ->
  rs_generate version now titer r = Ok (print_rs_module version now (rs_module_of titer r)).
Proof.
  intros H. unfold rs_generate. rewrite (rs_defs_print _ _ H). cbn [rbind]. rewrite rs_read_impl_print. cbn [rbind].
  rewrite rs_write_impl_print. f_equal.
  unfold print_rs_module, rs_module_of, rs_common, push_meta, rs_prologue, header, line. cbn [rm_items rm_type rm_read rm_write].
  sapp. reflexivity.
Qed.
