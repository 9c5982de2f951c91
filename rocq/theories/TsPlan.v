(** The text generator prints the tree of TsAst.v. *)
From Verif Require Export TsAst CheckProofs3.

Lemma sapp_cons x (a b : string) : String x a +:+ b = String x (a +:+ b).
Proof. reflexivity. Qed.
Lemma sapp_assoc (a b c : string) : (a +:+ b) +:+ c = a +:+ b +:+ c.
Proof. induction a as [|x a IH]; [done|]. by rewrite !sapp_cons, IH. Qed.
Lemma sapp_nil_l (a : string) : "" +:+ a = a.
Proof. done. Qed.
Lemma sapp_nil_r (a : string) : a +:+ "" = a.
Proof. induction a as [|x a IH]; [done|]. by rewrite !sapp_cons, IH. Qed.
Lemma substring_app (a b : string) : String.substring 0 (String.length a) (a +:+ b) = a.
Proof. induction a as [|x a IH]; [by destruct b|]. rewrite sapp_cons. cbn. by rewrite IH. Qed.
Lemma slength_app (a b : string) : String.length (a +:+ b) = String.length a + String.length b.
Proof. induction a as [|x a IH]; [done|]. rewrite sapp_cons. cbn. by rewrite IH. Qed.
Lemma pop_push (ind o : string) st :
  pop_indent (Ctx (ind +:+ tab) o st) = Ctx ind o st.
Proof.
  unfold pop_indent. cbn [c_ind c_out c_stack]. rewrite slength_app.
  assert (String.length tab = 4) as -> by reflexivity.
  destruct (Nat.ltb_spec (String.length ind + 4) 4).
  - assert (String.length ind = 0) as E by lia. by destruct ind.
  - replace (String.length ind + 4 - 4) with (String.length ind) by lia. by rewrite substring_app.
Qed.

Lemma path_foldl ps e : print_expr (foldl EProp e ps) = foldl (fun s p => s +:+ "." +:+ p) (print_expr e) ps.
Proof. revert e. induction ps as [|p ps IH]; intros e; [done|]. cbn. by rewrite IH. Qed.
Lemma join_foldl sep a l : join sep (a :: l) = foldl (fun s p => s +:+ sep +:+ p) a l.
Proof.
  revert a. induction l as [|b l IH]; intros a; [done|].
  cbn [foldl]. change (join sep (a :: b :: l)) with (a +:+ sep +:+ join sep (b :: l)).
  rewrite IH. clear IH. revert b. induction l as [|c l IH]; intros b; [done|].
  cbn [foldl]. rewrite IH. f_equal. by rewrite !sapp_assoc.
Qed.
Lemma print_path st : print_expr (path st) = fname st.
Proof. destruct st as [|r ps]; [done|]. unfold path, fname. by rewrite path_foldl, join_foldl. Qed.

Lemma print_block_app ind a b : print_block ind (a ++ b) = print_block ind a +:+ print_block ind b.
Proof.
  unfold print_block. induction a as [|s a IH]; [done|].
  cbn [List.map app concat_str fold_right]. unfold concat_str in *. by rewrite IH, sapp_assoc.
Qed.
Lemma print_block_cons ind s b : print_block ind (s :: b) = print_stmt ind s +:+ print_block ind b.
Proof. done. Qed.
Lemma print_block_nil ind : print_block ind [] = "".
Proof. done. Qed.

(** [g] appends the printed form of [p] and leaves everything else alone *)
Definition prints (g : gen) (p : emit) : Prop :=
  forall ind o st, g (Ctx ind o st) = Ok (Ctx ind (o +:+ print_block ind (p st)) st).

Ltac sapp := rewrite ?sapp_assoc, ?sapp_nil_l, ?sapp_nil_r.
(** the same by computation, for long chains *)
Inductive chain := CLeaf (s : string) | CApp (a b : chain).
Fixpoint chain_str (e : chain) : string := match e with CLeaf s => s | CApp a b => chain_str a +:+ chain_str b end.
Fixpoint chain_flat (e : chain) (k : string) : string := match e with CLeaf s => s +:+ k | CApp a b => chain_flat a (chain_flat b k) end.
Lemma chain_ok e k : chain_str e +:+ k = chain_flat e k.
Proof. revert k. induction e as [s|a IHa b IHb]; intros k; [done|]. cbn. by rewrite sapp_assoc, IHb, IHa. Qed.
Lemma chain_eq a b : chain_flat a "" = chain_flat b "" -> chain_str a = chain_str b.
Proof. rewrite <-!chain_ok. by rewrite !sapp_nil_r. Qed.
Ltac chain_of t := lazymatch t with ?a +:+ ?b => let a := chain_of a in let b := chain_of b in constr:(CApp a b) | _ => constr:(CLeaf t) end.
Ltac same_chain := lazymatch goal with |- ?a = ?b => let a := chain_of a in let b := chain_of b in exact (chain_eq a b eq_refl) end.
Ltac ctxs := lazymatch goal with |- ?g =>
  let g1 := eval unfold cat, push_indent, push_fname, set_stack in g in
  let g2 := eval cbn [c_ind c_out c_stack app rbind] in g1 in change g2 end.

Lemma prints_w_opt g p : prints g p -> prints (gen_write_impl_optional g) (w_opt p).
Proof.
  intros H ind o st. unfold gen_write_impl_optional. ctxs.
  rewrite H. cbn [rbind]. change "    " with tab. rewrite pop_push. cbn [c_ind c_out c_stack]. rewrite pop_push.
  cbn [c_ind c_out c_stack]. f_equal. f_equal.
  unfold w_opt. rewrite !print_block_cons, print_block_nil. cbn [print_stmt List.map]. 
  cbn [concat_str fold_right print_stmt]. fold (concat_str (List.map (print_stmt (ind +:+ tab +:+ tab)) (p [bindname st]))).
  fold (print_block (ind +:+ tab +:+ tab) (p [bindname st])).
  unfold line, print_simple. cbn [print_expr]. rewrite print_path.
  sapp. reflexivity.
Qed.

Ltac fold_block :=
  repeat match goal with
  | |- context [concat_str (List.map (print_stmt ?i) ?b)] => change (concat_str (List.map (print_stmt i) b)) with (print_block i b)
  end.
Ltac pr1 := rewrite ?print_block_app, ?print_block_cons, ?print_block_nil; cbn [print_stmt]; fold_block.
Ltac pr := pr1; pr1; pr1; unfold line, print_simple; cbn [print_expr]; rewrite ?print_path; sapp.

Lemma prints_w_arr g p : prints g p -> prints (gen_write_impl_array g) (w_arr p).
Proof.
  intros H ind o st. unfold gen_write_impl_array. ctxs.
  rewrite H. cbn [rbind]. change "    " with tab. rewrite pop_push.
  cbn [c_ind c_out c_stack]. f_equal. f_equal. unfold w_arr. pr. reflexivity.
Qed.
Lemma prints_w_builtin b tn : prints (gen_write_impl_builtin b tn) (w_builtin b tn).
Proof.
  intros ind o st. destruct b; unfold gen_write_impl_builtin, w_builtin; ctxs; f_equal; f_equal; pr; reflexivity.
Qed.
Lemma prints_w_enum e : prints (gen_write_impl_enum e) (w_enum e).
Proof. intros ind o st. unfold gen_write_impl_enum, w_enum; ctxs; f_equal; f_equal; pr; reflexivity. Qed.

Lemma pop_fname_push ind o st f : pop_fname (Ctx ind o (st ++ [f])) = Ctx ind o st.
Proof. unfold pop_fname. cbn. by rewrite removelast_last. Qed.

Lemma prints_w_ty t : forall tn, prints (gen_write_ty t tn) (w_ty t tn).
Proof.
  induction t as [b|e|fs IH] using rtype_ind'; intros tn.
  - apply prints_w_builtin.
  - apply prints_w_enum.
  - cbn [gen_write_ty w_ty]. induction IH as [|f fs Hf _ IHfs]; intros ind o st.
    + cbn. by sapp.
    + cbn [List.map List.concat]. unfold push_fname at 1. cbn [c_ind c_out c_stack].
      set (g := if f_opt f then _ else _).
      assert (prints g (w_wrap (f_array f) (f_opt f) (w_ty (f_ty f) (f_tname f)))) as Hg.
      { unfold g, w_wrap. destruct (f_opt f), (f_array f);
          repeat first [apply prints_w_opt | apply prints_w_arr | apply Hf]. }
      rewrite Hg. cbn [rbind]. rewrite pop_fname_push. rewrite IHfs. f_equal. f_equal.
      rewrite print_block_app. by sapp.
Qed.

(** the enums for which the read generator does not panic *)
Definition enum_shiftable (e : enum) : Prop :=
  match e_variants e with
  | [] => False
  | v :: _ => ev_value v < 32 /\ ev_value (List.last (e_variants e) v) < 32
  end.
Fixpoint shiftable (t : rtype) : Prop :=
  match t with
  | TBuiltin _ => True
  | TEnum e => enum_shiftable e
  | TStruct fs => fold_right (fun f P => shiftable (f_ty f) /\ P) True fs
  end.

Lemma shl_i32_ok n : n < 32 -> shl_i32 n = Ok (shl1 n).
Proof.
  intros H. unfold shl_i32, shl1. destruct (Nat.ltb_spec n 31); [done|].
  assert (n = 31) as -> by lia. done.
Qed.

Lemma prints_r_opt g p : prints g p -> prints (gen_read_impl_optional g) (r_opt p).
Proof.
  intros H ind o st. unfold gen_read_impl_optional. ctxs.
  rewrite H. cbn [rbind]. change "    " with tab. rewrite pop_push. cbn [c_ind c_out c_stack]. rewrite pop_push.
  cbn [c_ind c_out c_stack]. f_equal. f_equal. unfold r_opt. pr. reflexivity.
Qed.
Lemma prints_r_arr i g p : prints g p -> prints (gen_read_impl_array i g) (r_arr i p).
Proof.
  intros H ind o st. unfold gen_read_impl_array. ctxs.
  rewrite H. cbn [rbind]. change "    " with tab. cbn [c_ind c_out c_stack]. rewrite pop_push.
  cbn [c_ind c_out c_stack]. f_equal. f_equal. unfold r_arr. pr. destruct i; cbn [print_expr]; reflexivity.
Qed.
Lemma prints_r_builtin b tn : prints (gen_read_impl_builtin b tn) (r_builtin b tn).
Proof.
  intros ind o st. destruct b; unfold gen_read_impl_builtin, r_builtin; ctxs; f_equal; f_equal; pr; reflexivity.
Qed.
Lemma prints_r_enum e : enum_shiftable e -> prints (gen_read_impl_enum e) (r_enum e).
Proof.
  unfold enum_shiftable. intros H ind o st. unfold gen_read_impl_enum, r_enum, enum_lo, enum_hi.
  destruct (e_variants e) as [|v vs]; [done|]. destruct H as [H1 H2].
  rewrite (shl_i32_ok _ H1). cbn [rbind]. rewrite (shl_i32_ok _ H2). ctxs. f_equal. f_equal. pr.
  reflexivity.
Qed.

Lemma prints_r_ty t : forall tn init, shiftable t -> prints (gen_read_ty t tn init) (r_ty t tn init).
Proof.
  induction t as [b|e|fs IH] using rtype_ind'; intros tn init Hs.
  - apply prints_r_builtin.
  - by apply prints_r_enum.
  - cbn [gen_read_ty r_ty]. 
    set (fields := fix fields (fs : list sfield) : gen := _).
    assert (prints (fields fs) (r_fields fs)) as H.
    { cbn [shiftable] in Hs. unfold r_fields, r_field. clear init tn. induction IH as [|f fs Hf _ IHfs]; intros ind o st.
      + cbn. by sapp.
      + destruct Hs as [Hsf Hs].
        cbn [List.map List.concat]. unfold fields at 1. fold fields. unfold push_fname. cbn [c_ind c_out c_stack].
        set (g := if f_opt f then _ else _).
        assert (prints g (r_wrap (f_array f) (f_opt f) (is_struct (f_ty f)) (r_ty (f_ty f) (f_tname f) (negb (f_array f))))) as Hg.
        { unfold g, r_wrap, is_struct. destruct (f_opt f), (f_array f);
            repeat first [apply prints_r_opt | apply prints_r_arr | apply Hf, Hsf]. }
        rewrite Hg. cbn [rbind]. rewrite pop_fname_push. rewrite IHfs by done. f_equal. f_equal.
        rewrite print_block_app. by sapp. }
    intros ind o st. destruct init.
    + ctxs. fold (r_fields fs [bindname st]). rewrite H. cbn [rbind c_ind c_out]. f_equal. f_equal. pr. reflexivity.
    + by rewrite H.
Qed.

Lemma for_each_lines {A} (f : A -> ctx -> ctx) (g : A -> string) l ind st :
  (forall a o, f a (Ctx ind o st) = Ctx ind (o +:+ g a) st) ->
  forall o, for_each f l (Ctx ind o st) = Ctx ind (o +:+ concat_str (List.map g l)) st.
Proof.
  intros H. unfold for_each. induction l as [|a l IH]; intros o.
  - cbn. by sapp.
  - cbn [fold_left List.map concat_str fold_right]. rewrite H, IH. by sapp.
Qed.

Lemma pop_tab o st : pop_indent (Ctx tab o st) = Ctx "" o st.
Proof. reflexivity. Qed.

Lemma gen_impl_print x out : shiftable (TStruct (x_fields x)) ->
  gen_impl x out = Ok (out +:+ print_class (class_of x)).
Proof.
  intros Hs. unfold gen_impl. ctxs.
  rewrite (for_each_lines _ (fun f => line (tab +:+ tab) ("public " +:+ f_name f +:+ ": "
     +:+ field_ctor_type (f_tname f) (f_ty f) (x_name x) (f_array f) (f_opt f) +:+ ","))).
  2: { intros f o. unfold line, cat. cbn [c_ind c_out c_stack]. f_equal. f_equal. by sapp. }
  change "    " with tab. rewrite sapp_nil_l. rewrite pop_push. cbn [c_ind c_out c_stack app].
  unfold gen_read_impl_struct. rewrite (prints_r_ty (TStruct (x_fields x)) "" false Hs).
  cbn [rbind c_ind c_out c_stack]. rewrite pop_push. cbn [c_ind c_out c_stack pop_fname removelast app].
  unfold gen_write_impl_struct. rewrite (prints_w_ty (TStruct (x_fields x)) "").
  cbn [rbind c_ind c_out c_stack]. rewrite pop_push. cbn [c_ind c_out c_stack pop_fname removelast app].
  unfold pop_fname. cbn [c_ind c_out c_stack removelast]. rewrite pop_tab. cbn [c_ind c_out c_stack]. f_equal.
  unfold print_class, class_of. cbn [k_name k_params k_read k_write]. unfold line.
  rewrite List.map_map.
  cbn [r_ty w_ty]. fold (r_fields (x_fields x) ["output"]). fold (w_fields (x_fields x) ["this"]).
  same_chain.
Qed.

Lemma gen_struct_decl_print fs name o st :
  gen_struct_decl fs name (Ctx tab o st) =
  Ctx tab (o +:+ print_decl (DInterface name (List.map (fun f =>
           (f_name f, f_opt f, ts_type (f_tname f) (f_ty f) +:+ (if f_array f then "[]" else ""))) fs))) st.
Proof.
  unfold gen_struct_decl. ctxs.
  rewrite (for_each_lines _ (fun f => line (tab +:+ tab) (f_name f +:+ (if f_opt f then "?" else "") +:+ ": "
     +:+ ts_type (f_tname f) (f_ty f) +:+ (if f_array f then "[]" else "") +:+ ","))).
  2: { intros f oo. unfold line, cat, ts_type. cbn [c_ind c_out c_stack]. f_equal. f_equal. by sapp. }
  change "    " with tab. rewrite pop_push. cbn [c_ind c_out c_stack]. f_equal.
  cbn [print_decl]. rewrite List.map_map. unfold line. sapp.
  do 4 f_equal. f_equal. f_equal. f_equal. f_equal. apply List.map_ext. intros f. by sapp.
Qed.
Lemma gen_enum_decl_print e name o st :
  gen_enum_decl e name (Ctx tab o st) =
  Ctx tab (o +:+ print_decl (DEnum name (List.map (fun v => (ev_name v, ev_value v)) (e_variants e)))) st.
Proof.
  unfold gen_enum_decl. ctxs.
  rewrite (for_each_lines _ (fun v => line (tab +:+ tab) (ev_name v +:+ " = 1 << " +:+ string_of_nat (ev_value v) +:+ ","))).
  2: { intros f oo. unfold line, cat. cbn [c_ind c_out c_stack]. f_equal. f_equal. by sapp. }
  change "    " with tab. rewrite pop_push. cbn [c_ind c_out c_stack]. f_equal.
  cbn [print_decl]. rewrite List.map_map. unfold line. by sapp.
Qed.

Lemma concat_str_app a b : concat_str (a ++ b) = concat_str a +:+ concat_str b.
Proof. unfold concat_str. induction a as [|s a IH]; [done|]. cbn [app fold_right]. by rewrite IH, sapp_assoc. Qed.

Lemma concat_str_concat {A} (g : A -> list decl) l :
  concat_str (List.map (fun a => concat_str (List.map print_decl (g a))) l)
  = concat_str (List.map print_decl (List.concat (List.map g l))).
Proof.
  induction l as [|a l IH]; [done|]. cbn [List.map List.concat]. rewrite List.map_app, concat_str_app, <- IH. done.
Qed.

Lemma gen_decls_print titer types export out :
  gen_decls titer types export out =
  out +:+ line "" ("export namespace " +:+ export +:+ " {")
      +:+ concat_str (List.map print_decl (List.concat (List.map (decl_of export) (titer types)))) +:+ line "" "}".
Proof.
  unfold gen_decls. ctxs. change ("" +:+ "    ") with tab.
  rewrite (for_each_lines _ (fun d => concat_str (List.map print_decl (decl_of export d)))).
  2: { intros [name [m t]] o. cbn [decl_of]. destruct (name =? export)%string; [cbn; by sapp|].
       destruct t; [cbn; by sapp| |].
       - rewrite gen_enum_decl_print. cbn [List.map concat_str fold_right]. by sapp.
       - rewrite gen_struct_decl_print. cbn [List.map concat_str fold_right]. by sapp. }
  rewrite pop_tab. cbn [c_ind c_out c_stack]. rewrite concat_str_concat. unfold line. by sapp.
Qed.

Lemma generate_print version now titer r : shiftable (TStruct (x_fields (r_export r))) ->
  generate version now titer r = Ok (print_module (module_of version now titer r)).
Proof.
  intros Hs. unfold generate. rewrite gen_decls_print, gen_impl_print by done. f_equal.
  unfold print_module, module_of, gen_common, push_meta, header, import_line, line. cbn [m_version m_now m_class m_decls k_name class_of].
  sapp. reflexivity.
Qed.
