(** The emitted code has no type errors. *)
From Verif Require Export TypedSpec WireResults.

(** ** types in the text *)
Lemma type_parts_str a b c d : iword a -> match b with Some b => iword b | None => True end -> type_parts (type_str a b c d) = Some (a, b, c, d).
Proof.
  intros Ha Hb. unfold type_parts. rewrite (soft_tokens _ _ (soft_type a b c d Ha Hb)).
  assert (p_type_parts (type_toks a b c d) = Some (a, b, c, d, [])) as ->; [|done].
  unfold type_toks, p_type_parts. cbn [app]. by destruct b, c, d.
Qed.

(** ** scopes *)
Definition tsame (root : string) (fr fr' : gmap string (option ty)) : Prop := forall x, ~ ext root x -> fr' !! x = fr !! x.
Lemma tsame_trans root a b c : tsame root a b -> tsame root b c -> tsame root a c.
Proof. intros H1 H2 x Hx. by rewrite H2, H1. Qed.
Lemma tsame_insert root fr x v : ext root x -> tsame root fr (<[x := v]> fr).
Proof. intros Hx y Hy. rewrite lookup_insert_ne; [done|]. intros ->. done. Qed.
Lemma var_same root fr fr' E x : tsame root fr fr' -> ~ ext root x -> var_ty x (fr' :: E) = var_ty x (fr :: E).
Proof. intros H Hx. cbn [var_ty]. by rewrite H. Qed.
Lemma var_new fr E x : fr !! x = None -> var_ty x (fr :: E) = var_ty x E.
Proof. intros H. cbn [var_ty]. by rewrite H. Qed.
Lemma dead_none b x : x ∉ lets b -> dead b !! x = None.
Proof.
  intros H. unfold dead. apply not_elem_of_list_to_map. intros Hin. apply H.
  apply elem_of_list_fmap in Hin as ([y o] & -> & Hy). apply elem_of_list_In, in_map_iff in Hy as (z & [= <- <-] & Hz). by apply elem_of_list_In.
Qed.

Section code.
  Context (ds : list decl) (k : cls).
  Notation check_seq := (check_seq ds k).
  Notation check_stmt := (check_stmt ds k).
  Notation expr_ty := (expr_ty ds k).
  Notation member := (member_ty ds k).

  Lemma check_none b : fold_left (fun o s => match o with Some env => check_stmt env s | None => None end) b None = None.
  Proof. by induction b. Qed.
  Lemma seq_cons s b env : check_seq (s :: b) env = match check_stmt env s with Some env => check_seq b env | None => None end.
  Proof. unfold check_seq. cbn [fold_left]. destruct (check_stmt env s); [done|]. apply check_none. Qed.
  Lemma seq_app a b env : check_seq (a ++ b) env = match check_seq a env with Some env => check_seq b env | None => None end.
  Proof.
    revert env. induction a as [|s a IH]; intros env; [done|]. rewrite <- app_comm_cons, !seq_cons. destruct (check_stmt env s); [apply IH|done].
  Qed.
  Lemma seq_simple s b env : check_seq (SSimple s :: b) env = match check_simple ds k env s with Some env => check_seq b env | None => None end.
  Proof. by rewrite seq_cons. Qed.
  Lemma seq_simple1 s env : check_seq [SSimple s] env = check_simple ds k env s.
  Proof. rewrite seq_simple. by destruct (check_simple _ _ _ _). Qed.

  Fixpoint members (t : ty) (fs : list string) : option ty :=
    match fs with [] => Some t | f :: fs => match member t f with Some u => members u fs | None => None end end.
  Lemma members_app t fs gs : members t (fs ++ gs) = match members t fs with Some u => members u gs | None => None end.
  Proof. revert t. induction fs as [|f fs IH]; intros t; [done|]. cbn [app members]. destruct (member t f); [apply IH|done]. Qed.
  Lemma members_any fs : members TyAny fs = Some TyAny.
  Proof. by induction fs. Qed.
  Lemma path_ty env r fs t u : var_ty r env = Some t -> members t fs = Some u -> expr_ty env (path (r :: fs)) = Some u.
  Proof.
    intros Hl Hw. unfold path. assert (expr_ty env (EVar r) = Some t) as He by done.
    revert He Hw. generalize (EVar r). clear Hl. revert t. induction fs as [|f fs IH]; intros t e He Hw; cbn [foldl members] in *; [congruence|].
    destruct (member t f) as [x|] eqn:Hg; [|done]. apply (IH x); [|done]. cbn [TsTypes.expr_ty]. by rewrite He.
  Qed.

  (** [p], run on the path r.fs, which has type [u], is accepted *)
  Definition accepts (p : emit) (fs : list string) (u : ty) : Prop :=
    forall r fr E t, var_ty r (fr :: E) = Some t -> members t fs = Some u ->
      exists fr', tsame r fr fr' /\ check_seq (p (r :: fs)) (fr :: E) = Some (fr' :: E).

  Lemma assignable_refl t : assignable ds t t = true.
  Proof. unfold assignable. rewrite (bool_decide_eq_true_2 (t = t)) by done. by rewrite !orb_true_r. Qed.

  Lemma uint8_ok env z : check_simple ds k env (Write "uint8" (ENum z)) = Some env.
  Proof. done. Qed.
  Lemma block_ok b env : is_Some (check_seq b (dead b :: env)) ->
    bool_decide (is_Some (fold_left (fun o s => match o with Some env => check_stmt env s | None => None end) b (Some (dead b :: env)))) = true.
  Proof. intros H. by apply bool_decide_eq_true_2. Qed.

  (** ** write *)
  Lemma w_arr_accepts t tn fs u : u ≠ TyUndef -> accepts (w_ty t tn) [] u -> accepts (w_arr (w_ty t tn)) fs (TyArr u).
  Proof.
    intros Hu Hp r fr E t0 Hl Hm. exists fr. split; [done|]. unfold w_arr. set (st := r :: fs).
    set (idx := varname st "index"). set (it := varname st "item").
    assert (ext r idx) as Hidx by apply varname_ext'. assert (ext r it) as Hit by apply varname_ext'.
    assert (forall env, var_ty r env = Some t0 -> expr_ty env (EProp (path st) "length") = Some TyNum) as Hlen.
    { intros env He. cbn [TsTypes.expr_ty]. unfold st. rewrite (path_ty _ _ _ _ _ He Hm). done. }
    rewrite seq_simple. cbn [check_simple]. rewrite Hlen by done. rewrite decide_False by done.
    change (kind_of "uint32") with (Some KU32). cbn match. rewrite assignable_refl, seq_cons. cbn [TsTypes.check_stmt].
    set (bl := SSimple (Let false it (EElem (path st) (EVar idx))) :: w_ty t tn [it]).
    set (env' := {[ idx := Some TyNum ]} :: fr :: E).
    assert (var_ty r env' = Some t0) as Hr'.
    { unfold env'. rewrite var_new; [done|]. apply lookup_singleton_ne. intros E'. apply (ext_self r). by rewrite E' in Hidx. }
    rewrite (Hlen env' Hr'). cbn [numeric].
    assert (forall x, ~ (x = it \/ ext it x) -> dead bl !! x = None) as Hho.
    { intros x Hx. apply dead_none. unfold bl. rewrite lets_cons_simple. intros [H|H]%elem_of_app.
      - apply Hx. left. by apply elem_of_list_singleton in H.
      - apply Hx. right. by eapply lets_w_ty. }
    assert (var_ty r (dead bl :: env') = Some t0) as Hr2.
    { rewrite var_new; [done|]. apply Hho. intros [Hx|Hx]; [apply (ext_self r); by rewrite Hx at 2|]. apply (ext_self r). by eapply ext_trans. }
    assert (var_ty idx (dead bl :: env') = Some TyNum) as Hi2.
    { rewrite var_new; [unfold env'; cbn [var_ty]; by rewrite lookup_singleton|]. apply Hho.
      intros [E'|[s E']]; [apply (index_item st ""); by rewrite sapp_nil_r|]. by eapply index_item. }
    rewrite block_ok; [done|].
    unfold bl at 1. rewrite seq_simple. cbn [check_simple TsTypes.expr_ty]. unfold st. rewrite (path_ty _ _ _ _ _ Hr2 Hm), Hi2. cbn [numeric].
    rewrite decide_False by done. cbn [declare].
    destruct (Hp it (<[it := Some u]> (dead bl)) env' u) as (fr' & _ & ->); [cbn [var_ty]; by rewrite lookup_insert|done|by eexists].
  Qed.

  Lemma w_opt_accepts p fs u : fs ≠ [] -> (forall b x, x ∈ lets (p [b]) -> ext b x) -> accepts p [] u -> accepts (w_opt p) fs (TyOpt u).
  Proof.
    intros Hfs Hlets Hp r fr E t0 Hl Hm. set (st := r :: fs). set (bv := bindname st).
    assert (ext r bv) as Hbv by by apply bindname_ext.
    exists (<[bv := Some (TyOpt u)]> fr). split; [by apply tsame_insert|]. unfold w_opt. fold st bv.
    rewrite seq_simple. cbn [check_simple]. unfold st at 1. rewrite (path_ty _ _ _ _ _ Hl Hm), decide_False by done. cbn [declare].
    set (env := <[bv := Some (TyOpt u)]> fr :: E). rewrite seq_cons. cbn [TsTypes.check_stmt].
    assert (var_ty bv env = Some (TyOpt u)) as Hv by (unfold env; cbn [var_ty]; by rewrite lookup_insert).
    change (expr_ty env (EVar bv)) with (var_ty bv env). rewrite Hv, uint8_ok. unfold narrowed. rewrite Hv. cbn [lone andb].
    set (bl := SSimple (Write "uint8" (ENum 1)) :: p [bv]). rewrite block_ok; [done|].
    unfold bl at 1. rewrite seq_simple, uint8_ok.
    destruct (Hp bv (dead bl) ({[bv := Some u]} :: env) u) as (fr' & _ & ->); [|done|by eexists].
    rewrite var_new; [cbn [var_ty]; by rewrite lookup_singleton|]. apply dead_none. intros Hin. apply (ext_self bv). by apply Hlets.
  Qed.

  (** the type of a field *)
  Definition base_ty (t : rtype) (tn : string) : ty :=
    match t with TBuiltin BString => TyStr | TBuiltin _ => TyNum | _ => TyRef tn end.
  Definition field_typ (f : sfield) : ty := opt_if (f_opt f) (arr_if (f_array f) (base_ty (f_ty f) (f_tname f))).
  (** the declarations match the type [t] called [tn] *)
  Definition known (t : rtype) (tn : string) : Prop :=
    match t with
    | TBuiltin _ => True
    | TEnum _ => is_enum ds tn = true
    | TStruct gs => forall g, g ∈ gs -> member (TyRef tn) (f_name g) = Some (field_typ g)
    end.

  Lemma w_wrap_accepts t tn a o fs : fs ≠ [] -> (forall fs, accepts (w_ty t tn) fs (base_ty t tn)) ->
    accepts (w_wrap a o (w_ty t tn)) fs (opt_if o (arr_if a (base_ty t tn))).
  Proof.
    intros Hfs IH. unfold w_wrap.
    assert (forall fs', accepts (if a then w_arr (w_ty t tn) else w_ty t tn) fs' (arr_if a (base_ty t tn))) as Hin.
    { intros fs'. destruct a; [|apply IH]. apply w_arr_accepts; [|apply IH]. destruct t as [[]| |]; done. }
    destruct o; [|apply Hin]. apply w_opt_accepts; [done| |apply Hin].
    intros b x Hx. destruct a; [by apply elem_of_nil in Hx|]. by eapply lets_w_ty.
  Qed.
  Lemma w_fields_accepts gs fs u : (forall g, g ∈ gs -> member u (f_name g) = Some (field_typ g)) ->
    (forall g fs, g ∈ gs -> accepts (w_ty (f_ty g) (f_tname g)) fs (base_ty (f_ty g) (f_tname g))) ->
    accepts (w_fields gs) fs u.
  Proof.
    intros Hm IH r fr E t Hl Hw. revert fr Hl. induction gs as [|g gs IHgs]; intros fr Hl; [by exists fr|].
    destruct (w_wrap_accepts (f_ty g) (f_tname g) (f_array g) (f_opt g) (fs ++ [f_name g])) with (r := r) (fr := fr) (E := E) (t := t) as (fr1 & Hs1 & H1).
    { by destruct fs. } { intros fs'. apply IH. by left. } { done. } { rewrite members_app, Hw. cbn [members]. rewrite Hm by by left. done. }
    destruct IHgs with (fr := fr1) as (fr2 & Hs2 & H2).
    { intros h Hh. apply Hm. by right. } { intros h fs' Hh. apply IH. by right. } { rewrite (var_same r fr); [done..|]. apply ext_self. }
    exists fr2. split; [by eapply tsame_trans|]. unfold w_fields. cbn [List.map List.concat]. rewrite seq_app. unfold w_field at 1. cbn [app] in H1.
    change ((r :: fs) ++ [f_name g]) with (r :: fs ++ [f_name g]). rewrite H1. exact H2.
  Qed.
  Lemma w_ty_accepts t : forall tn fs, leaf_ok t tn -> all_fields field_ok t -> known t tn -> all_fields (fun f => known (f_ty f) (f_tname f)) t ->
    accepts (w_ty t tn) fs (base_ty t tn).
  Proof.
    induction t as [b|e|gs IH] using rtype_ind'; intros tn fs Hl Ha Hk Hak.
    - intros r fr E t Hv Hm. exists fr. split; [done|]. pose proof (path_ty _ _ _ _ _ Hv Hm) as Hp. destruct (builtin_kind b) as [kd|] eqn:Hkd.
      + destruct (kind_of_builtin _ _ _ Hl Hkd) as [Hk' Hs].
        assert (w_ty (TBuiltin b) tn (r :: fs) = [SSimple (Write tn (path (r :: fs)))]) as -> by by destruct b.
        rewrite seq_simple1. cbn [check_simple]. rewrite Hp, decide_False, Hk' by done. by destruct b.
      + destruct b; try done. cbn [w_ty w_builtin]. rewrite seq_simple.
        assert (check_simple ds k (fr :: E) (Write "uint32" (EProp (path (r :: fs)) "length")) = Some (fr :: E)) as -> by (cbn [check_simple TsTypes.expr_ty]; by rewrite Hp).
        rewrite seq_simple1. cbn [check_simple]. by rewrite Hp.
    - intros r fr E t Hv Hm. exists fr. split; [done|]. pose proof (path_ty _ _ _ _ _ Hv Hm) as Hp. cbn [w_ty]. unfold w_enum.
      rewrite seq_simple1. cbn [check_simple TsTypes.expr_ty]. rewrite Hp. cbn [base_ty numeric]. cbn [known] in Hk. rewrite Hk.
      rewrite decide_False by by destruct (e_repr e). by rewrite kind_of_repr.
    - rewrite all_fields_struct in Ha, Hak. rewrite Forall_forall in IH. apply (w_fields_accepts gs fs (TyRef tn)); [done|].
      intros g fs' Hg. destruct (Ha g Hg) as [[_ H1] H2]. destruct (Hak g Hg) as [H3 H4]. by apply IH.
  Qed.

  (** ** read *)
  Lemma assign_any env r fs e u : expr_ty env (path (r :: fs)) = Some TyAny -> expr_ty env e = Some u ->
    check_simple ds k env (Assign (path (r :: fs)) e) = Some env.
  Proof.
    intros Hp He.
    assert (assignable ds u TyAny = true) as Ha by (unfold assignable; rewrite (bool_decide_eq_true_2 (TyAny = TyAny)) by done; by rewrite orb_true_r).
    assert ((exists x, path (r :: fs) = EVar x) \/ exists e' f, path (r :: fs) = EProp e' f) as [[x E]|(e' & f & E)].
    { destruct fs as [|f fs _] using rev_ind; [left; by eexists|right]. unfold path. rewrite foldl_app. by eexists _, _. }
    - rewrite E in *. unfold check_simple. rewrite Hp, He. by rewrite decide_True by by left.
    - rewrite E in *. unfold check_simple. by rewrite Hp, He, Ha.
  Qed.
  Lemma r_opt_accepts p fs : (forall r x, x ∈ lets (p (r :: fs)) -> ext r x) -> accepts p fs TyAny -> accepts (r_opt p) fs TyAny.
  Proof.
    intros Hlets Hp r fr E t Hv Hm. exists fr. split; [done|]. unfold r_opt. rewrite seq_cons. cbn [TsTypes.check_stmt].
    change (expr_ty (fr :: E) (EGt (ERead "uint8") (ENum 0))) with (Some TyBool). cbn match.
    set (bl := p (r :: fs)). rewrite block_ok.
    - rewrite block_ok; [done|]. rewrite seq_simple1. erewrite assign_any; [by eexists| |done]. by eapply path_ty.
    - destruct (Hp r (dead bl) (fr :: E) t) as (fr' & _ & Hc); [|done|fold bl in Hc; rewrite Hc; by eexists].
      rewrite var_new; [done|]. apply dead_none. intros Hin. apply (ext_self r). by apply Hlets.
  Qed.
  Lemma r_arr_accepts i p fs : (forall b x, x ∈ lets (p [b]) -> ext b x) -> accepts p [] TyAny -> accepts (r_arr i p) fs TyAny.
  Proof.
    intros Hlets Hp r fr E t Hv Hm. unfold r_arr. set (st := r :: fs). set (len := varname st "len"). set (idx := varname st "index"). set (it := varname st "item").
    assert (ext r len) as Hlen by apply varname_ext'. assert (ext r idx) as Hidx by apply varname_ext'. assert (ext r it) as Hit by apply varname_ext'.
    set (fr1 := <[len := Some TyNum]> fr). exists fr1. split; [by apply tsame_insert|].
    assert (forall x, ext r x -> x ≠ r) as Hne by (intros x Hx ->; by apply (ext_self r)).
    assert (var_ty r (fr1 :: E) = Some t) as Hv1.
    { rewrite <- Hv. apply (var_same r); [by apply tsame_insert|apply ext_self]. }
    assert (var_ty len (fr1 :: E) = Some TyNum) as Hl1 by (cbn [var_ty]; unfold fr1; by rewrite lookup_insert).
    rewrite seq_simple. cbn [check_simple]. change (expr_ty (fr :: E) (ERead "uint32")) with (Some TyNum). cbn match. rewrite decide_False by done. cbn [declare]. fold fr1.
    rewrite seq_simple. unfold st at 1. erewrite assign_any; [| |cbn [TsTypes.expr_ty]; rewrite Hl1; reflexivity]; [|by eapply path_ty].
    rewrite seq_cons. cbn [TsTypes.check_stmt]. set (env' := {[idx := Some TyNum]} :: fr1 :: E).
    assert (var_ty len env' = Some TyNum) as Hl2.
    { unfold env'. rewrite var_new; [done|]. apply lookup_singleton_ne. intros E'. by apply (len_index st). }
    change (expr_ty env' (EVar len)) with (var_ty len env'). rewrite Hl2. cbn [numeric].
    match goal with |- context [fold_left _ ?b (Some (dead ?b :: _))] => set (bl := b) end.
    assert (lets bl = it :: lets (p [it])) as Hbl.
    { unfold bl. rewrite lets_cons_simple, lets_app. cbn [app]. unfold lets at 2. cbn. by rewrite app_nil_r. }
    assert (forall x, x ≠ it -> ~ ext it x -> dead bl !! x = None) as Hho.
    { intros x H1 H2. apply dead_none. rewrite Hbl. intros [H|H]%elem_of_cons; [done|]. by apply H2, Hlets. }
    rewrite block_ok; [done|]. unfold bl at 1. rewrite seq_simple.
    assert (exists u, expr_ty (dead bl :: env') (if i then EObj else EUndef) = Some u) as [u Hu] by (destruct i; by eexists).
    cbn [check_simple]. rewrite Hu. cbn [declare]. rewrite seq_app.
    destruct (Hp it (<[it := Some TyAny]> (dead bl)) env' TyAny) as (fr2 & Hs2 & ->); [cbn [var_ty]; by rewrite lookup_insert|done|].
    assert (var_ty r (fr2 :: env') = Some t) as Hv2.
    { rewrite (var_same it _ _ _ _ Hs2) by (intros Hx; apply (ext_self r); by eapply ext_trans).
      cbn [var_ty]. rewrite lookup_insert_ne by (by apply Hne). rewrite Hho; [|by apply not_eq_sym, Hne|intros Hx; apply (ext_self r); by eapply ext_trans].
      unfold env'. rewrite <- Hv1. apply var_new, lookup_singleton_ne. by apply Hne. }
    assert (var_ty idx (fr2 :: env') = Some TyNum) as Hi2.
    { assert (~ ext it idx) as H1 by (intros [s Hs]; by eapply index_item).
      assert (idx ≠ it) as H2 by (intros E'; apply (index_item st ""); by rewrite sapp_nil_r).
      rewrite (var_same it _ _ _ _ Hs2) by done. cbn [var_ty]. rewrite lookup_insert_ne by done. rewrite Hho by done. unfold env'. cbn [var_ty]. by rewrite lookup_singleton. }
    assert (var_ty it (fr2 :: env') = Some TyAny) as Hit2.
    { rewrite (var_same it _ _ _ _ Hs2) by apply ext_self. cbn [var_ty]. by rewrite lookup_insert. }
    rewrite seq_simple1. cbn [check_simple TsTypes.expr_ty]. unfold st. rewrite (path_ty _ _ _ _ _ Hv2 Hm), Hi2, Hit2. cbn [numeric]. rewrite assignable_refl. by eexists.
  Qed.
  Lemma r_leaf_accepts t tn init fs : is_struct t = false -> leaf_ok t tn -> accepts (r_ty t tn init) fs TyAny.
  Proof.
    intros Hs Hl r fr E u Hv Hm. pose proof (path_ty _ _ _ _ _ Hv Hm) as Hp.
    assert (forall x ty, ext r x -> var_ty r (<[x := Some ty]> fr :: E) = Some u) as Hins.
    { intros x ty Hx. rewrite <- Hv. apply (var_same r); [by apply tsame_insert|apply ext_self]. }
    destruct t as [b|e|gs]; [| |done].
    - destruct (builtin_kind b) as [kd|] eqn:Hkd.
      + destruct (kind_of_builtin _ _ _ Hl Hkd) as [Hk' _]. exists fr. split; [done|].
        assert (r_ty (TBuiltin b) tn init (r :: fs) = [SSimple (Assign (path (r :: fs)) (ERead tn))]) as -> by by destruct b.
        rewrite seq_simple1. eapply assign_any; [done|]. cbn [TsTypes.expr_ty]. by rewrite Hk'.
      + destruct b; try done. cbn [r_ty r_builtin]. set (len := varname (r :: fs) "len"). assert (ext r len) as Hlen by apply varname_ext'.
        exists (<[len := Some TyNum]> fr). split; [by apply tsame_insert|].
        rewrite seq_simple. cbn [check_simple]. change (expr_ty (fr :: E) (ERead "uint32")) with (Some TyNum). cbn match. rewrite decide_False by done. cbn [declare].
        rewrite seq_simple1. eapply assign_any; [eapply path_ty; [by apply Hins|done]|]. cbn [TsTypes.expr_ty var_ty]. by rewrite lookup_insert.
    - cbn [r_ty]. unfold r_enum. set (tmp := varname (r :: fs) "temp"). assert (ext r tmp) as Htmp by apply varname_ext'.
      exists (<[tmp := Some TyNum]> fr). split; [by apply tsame_insert|].
      rewrite seq_simple. cbn [check_simple TsTypes.expr_ty]. rewrite kind_of_repr, decide_False by done. cbn [declare].
      set (env := <[tmp := Some TyNum]> fr :: E). assert (var_ty tmp env = Some TyNum) as Ht by (unfold env; cbn [var_ty]; by rewrite lookup_insert).
      rewrite seq_cons. cbn [TsTypes.check_stmt].
      assert (expr_ty env (EAnd (ELe (ENum (enum_lo e)) (EVar tmp)) (ELe (EVar tmp) (ENum (enum_hi e)))) = Some TyBool) as ->.
      { cbn [TsTypes.expr_ty]. rewrite Ht. done. }
      erewrite assign_any; [| |exact Ht]; [done|]. eapply path_ty; [by apply Hins|done].
  Qed.
  Lemma r_wrap_accepts t tn a o i fs : fs ≠ [] -> (forall init fs, (init = true -> fs ≠ []) -> accepts (r_ty t tn init) fs TyAny) ->
    accepts (r_wrap a o i (r_ty t tn (negb a))) fs TyAny.
  Proof.
    intros Hfs IH. unfold r_wrap.
    assert (accepts (if a then r_arr i (r_ty t tn (negb a)) else r_ty t tn (negb a)) fs TyAny) as Hin.
    { destruct a; [|by apply IH]. apply r_arr_accepts; [|by apply IH]. intros b x Hx. eapply lets_r_ty; [|exact Hx]. done. }
    destruct o; [|done]. apply r_opt_accepts; [|done]. intros r x Hx. destruct a; [|eapply lets_r_ty; [|exact Hx]; done].
    unfold r_arr in Hx. apply elem_of_list_singleton in Hx as ->. apply varname_ext'.
  Qed.
  Lemma r_fields_accepts gs fs : (forall g init fs, g ∈ gs -> (init = true -> fs ≠ []) -> accepts (r_ty (f_ty g) (f_tname g) init) fs TyAny) ->
    accepts (r_fields gs) fs TyAny.
  Proof.
    intros IH r fr E t Hv Hm. revert fr Hv. induction gs as [|g gs IHgs]; intros fr Hv; [by exists fr|].
    destruct (r_wrap_accepts (f_ty g) (f_tname g) (f_array g) (f_opt g) (is_struct (f_ty g)) (fs ++ [f_name g])) with (r := r) (fr := fr) (E := E) (t := t) as (fr1 & Hs1 & H1).
    { by destruct fs. } { intros init fs'. apply IH. by left. } { done. } { rewrite members_app, Hm. apply members_any. }
    destruct IHgs with (fr := fr1) as (fr2 & Hs2 & H2).
    { intros h init fs' Hh. apply IH. by right. } { rewrite (var_same r fr); [done..|]. apply ext_self. }
    exists fr2. split; [by eapply tsame_trans|]. unfold r_fields. cbn [List.map List.concat]. rewrite seq_app. unfold r_field at 1.
    change ((r :: fs) ++ [f_name g]) with (r :: fs ++ [f_name g]). rewrite H1. exact H2.
  Qed.
  Lemma r_ty_accepts t : forall tn init fs, leaf_ok t tn -> all_fields field_ok t -> (init = true -> fs ≠ []) -> accepts (r_ty t tn init) fs TyAny.
  Proof.
    induction t as [b|e|gs IH] using rtype_ind'; intros tn init fs Hl Ha Hi; [by apply r_leaf_accepts..|].
    rewrite all_fields_struct in Ha. rewrite Forall_forall in IH.
    assert (forall fs, accepts (r_fields gs) fs TyAny) as Hf.
    { intros fs'. apply r_fields_accepts. intros g init' fs'' Hg. destruct (Ha g Hg) as [[_ H1] H2]. by apply IH. }
    intros r fr E t Hv Hm. rewrite r_ty_struct. destruct init; [|by apply (Hf fs r fr E t)].
    set (bv := bindname (r :: fs)). assert (ext r bv) as Hbv by by apply bindname_ext, Hi.
    rewrite seq_simple. cbn [check_simple]. change (expr_ty (fr :: E) EObj) with (Some TyEmpty). cbn match. cbn [declare]. rewrite seq_app.
    destruct (Hf [] bv (<[bv := Some TyAny]> fr) E TyAny) as (fr1 & Hs1 & H1); [cbn [var_ty]; by rewrite lookup_insert|done|]. rewrite H1.
    exists fr1. split.
    - eapply tsame_trans; [by apply tsame_insert|]. intros x Hx. apply Hs1. intros Hb. apply Hx. by eapply ext_trans.
    - assert (forall x, ~ ext bv x -> x ≠ bv -> var_ty x (fr1 :: E) = var_ty x (fr :: E)) as Hx.
      { intros x H1' H2'. rewrite (var_same bv _ _ _ _ Hs1) by done. cbn [var_ty]. by rewrite lookup_insert_ne. }
      assert (var_ty r (fr1 :: E) = Some t) as Hr.
      { rewrite Hx; [done| |]; [intros H; apply (ext_self r); by eapply ext_trans|intros E'; apply (ext_self r); by rewrite <- E' in Hbv]. }
      rewrite seq_simple1. eapply assign_any; [by eapply path_ty|]. cbn [TsTypes.expr_ty]. rewrite (var_same bv _ _ _ _ Hs1) by apply ext_self.
      cbn [var_ty]. by rewrite lookup_insert.
  Qed.
End code.

(** ** names of locals, at any depth *)
Lemma locals_app a b : all_locals (a ++ b) = all_locals a ++ all_locals b.
Proof. unfold all_locals. by rewrite List.map_app, List.concat_app. Qed.
Lemma locals_cons s b : all_locals (s :: b) = locals s ++ all_locals b.
Proof. done. Qed.
Lemma locals_concat (P : string -> Prop) l : (forall b, b ∈ l -> Forall P (all_locals b)) -> Forall P (all_locals (List.concat l)).
Proof.
  induction l as [|b l IH]; intros H; [constructor|]. cbn [List.concat]. rewrite locals_app. apply Forall_app. split; [apply H; by left|].
  apply IH. intros. apply H. by right.
Qed.
(** all extend the root of the path *)
Definition within (p : emit) (fs : list string) : Prop := forall r, Forall (ext r) (all_locals (p (r :: fs))).
Lemma ext_forall r s l : ext r s -> Forall (ext s) l -> Forall (ext r) l.
Proof. intros H Hl. eapply Forall_impl; [exact Hl|]. intros x. by apply ext_trans. Qed.
Lemma within_w_arr p fs : within p [] -> within (w_arr p) fs.
Proof.
  intros Hp r. unfold w_arr. rewrite !locals_cons. cbn [locals app]. rewrite app_nil_r. constructor; [apply varname_ext'|].
  change (List.concat _) with (all_locals (SSimple (Let false (varname (r :: fs) "item") (EElem (path (r :: fs)) (EVar (varname (r :: fs) "index")))) :: p [varname (r :: fs) "item"])).
  rewrite locals_cons. constructor; [apply varname_ext'|]. eapply ext_forall; [apply varname_ext'|apply Hp].
Qed.
Lemma within_w_opt p fs : fs ≠ [] -> within p [] -> within (w_opt p) fs.
Proof.
  intros Hfs Hp r. unfold w_opt. rewrite !locals_cons. cbn [locals app]. rewrite app_nil_r. constructor; [by apply bindname_ext|].
  change (List.concat _) with (all_locals (SSimple (Write "uint8" (ENum 1)) :: p [bindname (r :: fs)])).
  rewrite locals_cons. eapply ext_forall; [by apply bindname_ext|apply Hp].
Qed.
Lemma within_w_ty t : forall tn fs, within (w_ty t tn) fs.
Proof.
  induction t as [b|e|gs IH] using rtype_ind'; intros tn fs r; [destruct b; apply Forall_nil_2|apply Forall_nil_2|].
  change (w_ty (TStruct gs) tn (r :: fs)) with (w_fields gs (r :: fs)). unfold w_fields. apply locals_concat.
  intros b (g & <- & Hg)%elem_of_list_In%in_map_iff. apply elem_of_list_In in Hg. rewrite Forall_forall in IH. unfold w_field, w_wrap.
  change ((r :: fs) ++ [f_name g]) with (r :: fs ++ [f_name g]).
  assert (forall fs, within (if f_array g then w_arr (w_ty (f_ty g) (f_tname g)) else w_ty (f_ty g) (f_tname g)) fs) as H.
  { intros fs'. destruct (f_array g); [apply within_w_arr|]; by apply IH. }
  destruct (f_opt g); [|apply H]. apply within_w_opt; [by destruct fs|apply H].
Qed.
Lemma within_r_arr i p fs : within p [] -> within (r_arr i p) fs.
Proof.
  intros Hp r. unfold r_arr. rewrite !locals_cons. cbn [locals app]. rewrite app_nil_r. constructor; [apply varname_ext'|]. constructor; [apply varname_ext'|].
  match goal with |- Forall _ (List.concat (List.map locals ?b)) => change (List.concat (List.map locals b)) with (all_locals b) end.
  rewrite locals_cons, locals_app. constructor; [apply varname_ext'|]. apply Forall_app. split; [|constructor]. eapply ext_forall; [apply varname_ext'|apply Hp].
Qed.
Lemma within_r_opt p fs : within p fs -> within (r_opt p) fs.
Proof. intros Hp r. unfold r_opt. rewrite locals_cons. cbn [locals app]. rewrite !app_nil_r. apply Hp. Qed.
Lemma within_r_ty t : forall tn init fs, (init = true -> fs ≠ []) -> within (r_ty t tn init) fs.
Proof.
  induction t as [b|e|gs IH] using rtype_ind'; intros tn init fs Hi r.
  - destruct b; try (by apply Forall_nil_2). cbn [r_ty r_builtin]. repeat constructor. apply varname_ext'.
  - cbn [r_ty]. unfold r_enum. repeat constructor. apply varname_ext'.
  - rewrite Forall_forall in IH. assert (forall fs, within (r_fields gs) fs) as HF.
    { intros fs' r'. unfold r_fields. apply locals_concat. intros b (g & <- & Hg)%elem_of_list_In%in_map_iff. apply elem_of_list_In in Hg.
      unfold r_field, r_wrap. change ((r' :: fs') ++ [f_name g]) with (r' :: fs' ++ [f_name g]).
      assert (within (if f_array g then r_arr (is_struct (f_ty g)) (r_ty (f_ty g) (f_tname g) (negb (f_array g))) else r_ty (f_ty g) (f_tname g) (negb (f_array g))) (fs' ++ [f_name g])) as H.
      { destruct (f_array g); [apply within_r_arr|]; apply IH; [done|done|done|]. intros _. by destruct fs'. }
      destruct (f_opt g); [by apply within_r_opt|apply H]. }
    rewrite r_ty_struct. destruct init; [|apply HF]. rewrite locals_cons, locals_app. cbn [locals app]. pose proof (bindname_ext r fs (Hi eq_refl)) as Hb.
    constructor; [done|]. apply Forall_app. split; [eapply ext_forall; [exact Hb|apply HF]|constructor].
Qed.

(** ** the checker's result *)
Section result.
  Context iter a r (Hfair : fair_order iter) (Hnb : no_builtin_decl a) (Hl : legal_ast a) (Hr : type_check iter a = Ok r).
  Context titer (Ht : fair_types titer).
  Notation ds := (m_decls (module_of "" "" titer r)).
  Notation k := (class_of (r_export r)).
  Notation e := (x_name (r_export r)).

  Lemma find_decl_in d : d ∈ ds -> find_decl ds (decl_name d) = Some d.
  Proof.
    pose proof (decls_nodup r titer Ht) as Hnd. change (NoDup (decl_name <$> ds)) in Hnd. revert Hnd. generalize ds as l. clear.
    induction l as [|x l IH]; intros Hnd Hd; [by apply elem_of_nil in Hd|]. cbn in Hnd. apply NoDup_cons in Hnd as [Hx Hnd]. unfold find_decl. cbn [List.find].
    apply elem_of_cons in Hd as [->|Hd]; [by rewrite bool_decide_eq_true_2|]. rewrite bool_decide_eq_false_2; [by apply IH|].
    intros E. apply Hx. rewrite E. apply elem_of_list_fmap. eauto.
  Qed.

  Lemma entry_decl n t : r_types r !! n = Some (n, t) -> n ≠ e ->
    match t with
    | TBuiltin _ => True
    | TEnum en => find_decl ds n = Some (DEnum n (List.map (fun v => (ev_name v, ev_value v)) (e_variants en)))
    | TStruct fs => find_decl ds n = Some (DInterface n (List.map (fun f => (f_name f, f_opt f, ts_type (f_tname f) (f_ty f) +:+ (if f_array f then "[]" else ""))) fs))
    end.
  Proof.
    intros Hn Hne. assert (forall d, d ∈ decl_of e (n, (n, t)) -> d ∈ ds) as Hin.
    { intros d' Hd'. apply elem_of_decls. exists n, n, t. split; [|done]. rewrite (Ht (r_types r)). by apply elem_of_map_to_list. }
    cbn [decl_of] in Hin. rewrite (proj2 (String.eqb_neq n e) Hne) in Hin. destruct t as [b|en|fs]; [done|..].
    - assert (DEnum n (List.map (fun v => (ev_name v, ev_value v)) (e_variants en)) ∈ ds) as Hd by (apply Hin; by left). exact (find_decl_in _ Hd).
    - match type of Hin with forall d, d ∈ [?x] -> _ => assert (x ∈ ds) as Hd by (apply Hin; by left) end. exact (find_decl_in _ Hd).
  Qed.
  Lemma field_facts n rs f : r_types r !! n = Some (n, TStruct rs) -> f ∈ rs ->
    r_types r !! f_tname f = Some (f_tname f, f_ty f) /\ f_tname f ≠ e /\ iword (f_tname f) /\
    match f_ty f with TBuiltin _ => True | _ => f_tname f ∈ decl_names a end.
  Proof.
    intros Hn Hf. destruct (entry_struct _ _ _ Hfair Hnb Hr _ _ _ Hn Hf) as (fs & u & Hd & Hu & E1 & E2 & E3 & E4).
    destruct (type_check_result _ _ _ Hfair Hnb Hr) as (_ & _ & Hneed & _).
    split; [done|]. split; [|split].
    - intros E. apply (vs_acyclic a (result_valid _ _ _ Hfair Hnb Hr) e). assert (needed a e n) as HN by (apply Hneed; eauto).
      eapply tc_rtc_l; [exact HN|]. apply tc_once. exists fs, (f_name f), u. rewrite <- E, E1. done.
    - rewrite E1. by eapply used_iword.
    - destruct (vs_types _ (result_valid _ _ _ Hfair Hnb Hr) _ _ _ _ Hd Hu) as [H|H]; rewrite <- E1 in H; [|by destruct (f_ty f)].
      rewrite (entry_builtin _ _ _ Hfair Hnb Hr _ _ E4) in H. destruct H as [b ->]. done.
  Qed.
  Context (Hty : typed_names a).
  Lemma not_primitive n t : r_types r !! n = Some (n, t) -> n ∈ decl_names a -> n ≠ "number" /\ n ≠ "string".
  Proof.
    intros Hn H. destruct (type_check_result _ _ _ Hfair Hnb Hr) as (He & _ & Hneed & _). assert (needed a e n) as HN by (apply Hneed; eauto).
    pose proof (ty_needed _ Hty _ _ He HN H) as Hx. split; intros ->; apply Hx; apply (bool_decide_unpack _); by vm_compute.
  Qed.
  Lemma inside_type n rs f : r_types r !! n = Some (n, TStruct rs) -> f ∈ rs ->
    read_type ds k true (ts_type (f_tname f) (f_ty f) +:+ (if f_array f then "[]" else "")) = Some (arr_if (f_array f) (base_ty (f_ty f) (f_tname f))).
  Proof.
    intros Hn Hf. destruct (field_facts _ _ _ Hn Hf) as (H1 & H2 & H3 & H4). pose proof (entry_decl _ _ H1 H2) as HD.
    assert (iword (ts_type (f_tname f) (f_ty f))) as Hw by (rewrite (entry_ts_name _ _ _ Hfair Hnb Hr _ _ H1); by apply ts_name_word).
    assert (ts_type (f_tname f) (f_ty f) +:+ (if f_array f then "[]" else "") = type_str (ts_type (f_tname f) (f_ty f)) None (f_array f) false) as ->.
    { unfold type_str. by rewrite sapp_nil_l, sapp_nil_r. }
    unfold read_type. rewrite type_parts_str by done.
    assert (TsTypes.named ds k true (ts_type (f_tname f) (f_ty f)) None = Some (base_ty (f_ty f) (f_tname f))) as ->; [|done].
    unfold TsTypes.named. destruct (f_ty f) as [b|en|gs]; [by destruct b|..]; cbn [ts_type base_ty]; destruct (not_primitive _ _ H1 H4) as [N1 N2]; by rewrite !decide_False, HD by done.
  Qed.
  Lemma outside_type n rs f : r_types r !! n = Some (n, TStruct rs) -> f ∈ rs ->
    read_type ds k false (field_ctor_type (f_tname f) (f_ty f) e (f_array f) (f_opt f)) = Some (field_typ f).
  Proof.
    intros Hn Hf. destruct (field_facts _ _ _ Hn Hf) as (H1 & H2 & H3 & H4). pose proof (entry_decl _ _ H1 H2) as HD.
    pose proof (export_iword _ _ _ Hfair Hnb Hl Hr) as He.
    assert (exists x y, field_ctor_type (f_tname f) (f_ty f) e (f_array f) (f_opt f) = type_str x y (f_array f) (f_opt f) /\
      iword x /\ match y with Some y => iword y | None => True end /\ TsTypes.named ds k false x y = Some (base_ty (f_ty f) (f_tname f))) as (x & y & -> & Hx & Hy & HN).
    { destruct (f_ty f) as [b|en|gs].
      - exists (match b with BString => "string" | _ => "number" end), None. split; [by destruct b|]. split; [destruct b; wd|]. split; [done|]. by destruct b.
      - exists e, (Some (f_tname f)). split; [unfold field_ctor_type, type_str; by rewrite !sapp_assoc|]. split; [done|]. split; [done|].
        unfold TsTypes.named. by rewrite decide_True, HD by done.
      - exists e, (Some (f_tname f)). split; [unfold field_ctor_type, type_str; by rewrite !sapp_assoc|]. split; [done|]. split; [done|].
        unfold TsTypes.named. by rewrite decide_True, HD by done. }
    unfold read_type. by rewrite type_parts_str, HN by done.
  Qed.

  Lemma entry_nodup n rs : r_types r !! n = Some (n, TStruct rs) -> NoDup (List.map f_name rs).
  Proof.
    intros Hn. destruct (type_check_result _ _ _ Hfair Hnb Hr) as (He & _ & Hneed & Hent). assert (needed a e n) as HN by (apply Hneed; eauto).
    destruct (Hent _ _ _ Hn) as [_ [(? & _ & [=])|[(? & ? & _ & _ & [=])|(fs' & dd & rs' & Hd & Hpm & Hm & [= ->])]]].
    assert (List.map f_name rs' = dd.*1) as ->.
    { clear - Hm. induction Hm as [|d rf dd rs (E & _) _ IH]; [done|]. cbn. by rewrite E, IH. }
    rewrite Hpm. by apply (ty_fields _ Hty e n).
  Qed.
  Lemma find_field {B} (g : sfield -> string * B) rs f : (forall f, (g f).1 = f_name f) -> NoDup (List.map f_name rs) -> f ∈ rs ->
    List.find (fun p => bool_decide (p.1 = f_name f)) (List.map g rs) = Some (g f).
  Proof.
    clear. intros Hg. induction rs as [|x rs IH]; intros Hnd Hf; [by apply elem_of_nil in Hf|]. cbn in Hnd. apply NoDup_cons in Hnd as [Hx Hnd]. cbn [List.map List.find].
    rewrite Hg. apply elem_of_cons in Hf as [->|Hf]; [by rewrite bool_decide_eq_true_2|]. rewrite bool_decide_eq_false_2; [by apply IH|].
    intros E. apply Hx. rewrite E. apply elem_of_list_In, in_map, elem_of_list_In. done.
  Qed.
  Lemma find_field' {B C} (g : sfield -> string * B * C) rs f : (forall f, (g f).1.1 = f_name f) -> NoDup (List.map f_name rs) -> f ∈ rs ->
    List.find (fun p => bool_decide (p.1.1 = f_name f)) (List.map g rs) = Some (g f).
  Proof.
    clear. intros Hg. induction rs as [|x rs IH]; intros Hnd Hf; [by apply elem_of_nil in Hf|]. cbn in Hnd. apply NoDup_cons in Hnd as [Hx Hnd]. cbn [List.map List.find].
    rewrite Hg. apply elem_of_cons in Hf as [->|Hf]; [by rewrite bool_decide_eq_true_2|]. rewrite bool_decide_eq_false_2; [by apply IH|].
    intros E. apply Hx. rewrite E. apply elem_of_list_In, in_map, elem_of_list_In. done.
  Qed.
  Lemma entry_known n t : r_types r !! n = Some (n, t) -> n ≠ e -> known ds k t n.
  Proof.
    intros Hn Hne. pose proof (entry_decl _ _ Hn Hne) as HD. destruct t as [b|en|gs]; [done|cbn [known]; unfold is_enum; by rewrite HD|].
    intros g Hg. cbn [member_ty]. rewrite HD. unfold interface_ty. rewrite (find_field' _ _ g); [|done|by eapply entry_nodup|done].
    by rewrite (inside_type _ _ _ Hn Hg).
  Qed.
  Lemma all_known t n : r_types r !! n = Some (n, t) -> all_fields (fun f => known ds k (f_ty f) (f_tname f)) t.
  Proof.
    apply (entry_checked _ _ _ Hfair Hnb Hr). intros m rs f Hm Hf. destruct (field_facts _ _ _ Hm Hf) as (H1 & H2 & _). by apply entry_known.
  Qed.

  Lemma ext_not (root x : string) l : ext root x -> forallb (fun y => negb (starts_with root y)) l = true -> x ∉ l.
  Proof.
    clear. intros [s ->] H Hin. apply elem_of_list_In in Hin. rewrite forallb_forall in H. specialize (H _ Hin).
    assert (starts_with root (root +:+ "_" +:+ s) = true) as E; [|by rewrite E in H].
    clear. induction root as [|c root IH]; [done|]. rewrite sapp_cons. cbn [starts_with]. by rewrite bool_decide_eq_true_2 by done.
  Qed.
  Lemma result_typed : well_typed ds k.
  Proof.
    pose proof (ty_module _ Hty) as Hmn. destruct (proj2 (module_names_iff _ _ _ Hfair Hnb Hr) Hmn) as [Hload _].
    pose proof (export_entry _ _ _ Hfair Hnb Hr) as Hx.
    destruct (type_check_result _ _ _ Hfair Hnb Hr) as (Hexp & _ & _ & Hent).
    pose proof (mn_export _ Hmn _ Hexp) as Hno.
    pose proof (export_checked _ _ _ Hfair Hnb Hr) as Hck.
    assert (forall d, d ∈ ds -> decl_name d ∈ decl_names a) as Hdn.
    { intros d Hd. destruct (decls_inv _ _ _ Hfair Hnb Hr _ Ht _ Hd) as (_ & _ & _ & [(vs & Hdd & _)|(fs & dd & Hdd & _)]); by eapply declared_name. }
    assert (e ∈ decl_names a) as Hed.
    { destruct (vs_export _ (result_valid _ _ _ Hfair Hnb Hr)) as (e' & fs & He & Hd). rewrite Hexp in He. injection He as <-. by eapply declared_name. }
    assert (Forall (ext "output") (all_locals (k_read k))) as HR.
    { change (k_read k) with (r_ty (TStruct (x_fields (r_export r))) "" false ["output"]). apply within_r_ty. done. }
    assert (Forall (ext "this") (all_locals (k_write k))) as HW.
    { change (k_write k) with (w_ty (TStruct (x_fields (r_export r))) "" ["this"]). apply within_w_ty. }
    constructor.
    - exact Hload.
    - split; [exact (ty_needed _ Hty _ _ Hexp (rtc_refl _ _) Hed)|]. split; [|exact (decls_nodup r titer Ht)]. apply Forall_forall. intros d Hd.
      destruct (decls_inv _ _ _ Hfair Hnb Hr _ Ht _ Hd) as (_ & _ & HN & _). by apply (ty_needed _ Hty _ _ Hexp HN), Hdn.
    - split; [|split].
      + intros Hin. assert (e ≠ "ArrayBuffer") as HB by by apply (ty_export _ Hty). apply Hno, elem_of_app. right. cbn [class_of k_name] in Hin.
        unfold globals_used in Hin. set_solver.
      + apply Forall_app. split; eapply Forall_impl; [exact HR| |exact HW|]; intros x Hx'; simpl in Hx'; eapply ext_not; [exact Hx'|by vm_compute|exact Hx'|by vm_compute].
      + cbn [class_of k_name]. intros Hin. change ("data" :: "reader" :: "output" :: lets (k_read k)) with (["data"; "reader"; "output"] ++ lets (k_read k)) in Hin.
        apply elem_of_app in Hin as [Hin|Hin]; [apply Hno, elem_of_app; right; set_solver|].
        destruct (export_declared _ _ _ Hfair Hnb Hr) as (fs & He & Hd & _ & _ & Hlo). destruct (proj1 (Hlo _) Hin) as (y & u & t & Hy & Ht' & E).
        by apply (mn_hidden _ Hmn _ _ _ _ _ He Hd Hy Ht').
    - apply Forall_forall. intros x Hx'. rewrite params_names in Hx'. apply elem_of_list_In, in_map_iff in Hx' as (f & <- & Hf). apply elem_of_list_In in Hf.
      destruct (entry_struct _ _ _ Hfair Hnb Hr _ _ _ Hx Hf) as (fs & u & Hd & Hu & _).
      pose proof (ty_top _ Hty _ _ Hexp Hd) as HT. rewrite Forall_forall in HT. apply HT. apply elem_of_list_fmap. by exists (f_name f, u).
    - apply Forall_forall. intros [n vs|n ms] Hd; [|done]. cbn [not_static].
      destruct (decls_inv _ _ _ Hfair Hnb Hr _ Ht _ Hd) as (_ & _ & HN & [(vs' & Hdd & [= ->])|(? & ? & _ & _ & [=])]). by apply (ty_enums _ Hty _ _ _ Hexp HN Hdd).
    - apply Forall_forall. intros d (n & m & t & Hin & Hd)%elem_of_decls. rewrite (Ht (r_types r)) in Hin. apply elem_of_map_to_list in Hin.
      destruct (Hent _ _ _ Hin) as [-> Hm]. cbn [decl_of] in Hd. destruct (String.eqb_spec n e) as [|Hne]; [by apply elem_of_nil in Hd|].
      destruct t as [b|en|fs]; [by apply elem_of_nil in Hd|..]; apply elem_of_list_singleton in Hd as ->; cbn [decl_typed].
      + destruct Hm as [(? & _ & [=])|[(vs & rp & Hdd & Hrp & [= ->])|(? & ? & ? & _ & _ & _ & [=])]].
        destruct (vs_enums _ (result_valid _ _ _ Hfair Hnb Hr) _ _ Hdd) as [_ Hnd]. cbn [e_variants].
        assert ((List.map (fun v => (ev_name v, ev_value v)) (imap (fun i v => EnumVariant v i) vs)).*1 = vs) as ->; [|done].
        apply list_eq. intros i. change (List.map ?f ?l) with (f <$> l). rewrite !list_lookup_fmap, list_lookup_imap. by destruct (vs !! i).
      + split.
        * pose proof (entry_nodup _ _ Hin) as Hnd. clear - Hnd. assert (((List.map (fun f => (f_name f, f_opt f, ts_type (f_tname f) (f_ty f) +:+ (if f_array f then "[]" else ""))) fs).*1).*1 = List.map f_name fs) as ->; [|done].
          clear. induction fs as [|f fs IH]; [done|]. cbn. by rewrite <- IH.
        * apply Forall_forall. intros x (f & <- & Hf)%elem_of_list_In%in_map_iff. apply elem_of_list_In in Hf. cbn [snd]. rewrite (inside_type _ _ _ Hin Hf). by eexists.
    - apply Forall_forall. intros p Hp. cbn [class_of k_params] in Hp. apply elem_of_list_In, in_map_iff in Hp as (f & <- & Hf). apply elem_of_list_In in Hf.
      cbn [snd]. rewrite (outside_type _ _ _ Hx Hf). by eexists.
    - change (k_read k) with (r_ty (TStruct (x_fields (r_export r))) "" false ["output"]).
      destruct (r_ty_accepts ds k (TStruct (x_fields (r_export r))) "" false [] I Hck) with (r := "output") (fr := <["output" := Some TyAny]> (dead (k_read k))) (E := @nil (gmap string (option ty))) (t := TyAny) as (fr' & _ & HC); [done|by cbn [var_ty]; rewrite lookup_insert|done|].
      eexists. exact HC.
    - destruct (w_fields_accepts ds k (x_fields (r_export r)) [] TyThis) with (r := "this") (fr := <["this" := Some TyThis]> (dead (k_write k))) (E := @nil (gmap string (option ty))) (t := TyThis) as (fr' & _ & HC).
      + intros f Hf. cbn [member_ty]. unfold param_ty. cbn [class_of k_params]. rewrite (find_field _ _ f); [|done|by eapply entry_nodup|done]. by apply (outside_type _ _ _ Hx).
      + intros f fs Hf. pose proof (all_known _ _ Hx) as HK. unfold checked in Hck. rewrite all_fields_struct in HK, Hck. destruct (HK _ Hf) as [K1 K2]. destruct (Hck _ Hf) as [[_ C1] C2].
        by apply w_ty_accepts.
      + cbn [var_ty]. by rewrite lookup_insert.
      + done.
      + eexists. exact HC.
  Qed.
End result.

(** ** the converse *)
Section back.
  Context iter a r (Hfair : fair_order iter) (Hnb : no_builtin_decl a) (Hr : type_check iter a = Ok r).
  Context titer (Ht : fair_types titer).
  Notation ds := (m_decls (module_of "" "" titer r)).
  Notation k := (class_of (r_export r)).
  Notation e := (x_name (r_export r)).

  Lemma declared_not_builtin n : n ∈ decl_names a -> n ∉ builtin_names.
  Proof. intros H. apply Hnb. exact H. Qed.
  Lemma typed_back : well_typed ds k -> typed_names a.
  Proof.
    intros [W1 (W2 & W3 & _) (W4 & _ & W5) W6 W7 W8 _ _ _].
    destruct (type_check_result _ _ _ Hfair Hnb Hr) as (Hexp & Hx & Hneed & Hent).
    assert (forall e', exports a = [e'] -> e' = e) as Hone by (intros e' He'; congruence).
    pose proof (proj1 (Forall_forall _ _) W3) as W3'. pose proof (proj1 (Forall_forall _ _) W6) as W6'. pose proof (proj1 (Forall_forall _ _) W7) as W7'. pose proof (proj1 (Forall_forall _ _) W8) as W8'.
    clear W3 W6 W7 W8. rename W3' into W3. rename W6' into W6. rename W7' into W7. rename W8' into W8. constructor.
    - apply (module_names_iff _ _ _ Hfair Hnb Hr). split; [done|]. unfold prologue.
      rewrite decide_False; [rewrite decide_False; [rewrite decide_False; [done|]|]|]; revert W4 W5; unfold globals_used; rewrite !not_elem_of_cons; cbn [class_of k_name]; tauto.
    - intros e' n ->%Hone HN Hdec. destruct (decide (n = e)) as [->|Hne]; [done|].
      destruct (decls_declare _ _ _ Hfair Hnb Hr titer Ht n) as (d & Hd & <-); [done|by apply declared_not_builtin|done|]. by apply W3.
    - intros e' n vs ->%Hone HN Hdec. assert (n ≠ e) as Hne.
      { intros ->. destruct (vs_export _ (result_valid _ _ _ Hfair Hnb Hr)) as (e' & fs & He & Hd). apply Hone in He as ->.
        by pose proof (decl_unique _ _ _ _ (vs_decls _ (result_valid _ _ _ Hfair Hnb Hr)) Hd Hdec). }
      destruct (decls_declare _ _ _ Hfair Hnb Hr titer Ht n) as (d & Hd & <-); [done|apply declared_not_builtin; by eapply declared_name|done|].
      destruct (decls_inv _ _ _ Hfair Hnb Hr titer Ht _ Hd) as (_ & _ & _ & [(vs' & _ & Ed)|(fs & dd & Hdd & _)]).
      + specialize (W7 _ Hd). rewrite Ed in W7. exact W7.
      + by pose proof (decl_unique _ _ _ _ (vs_decls _ (result_valid _ _ _ Hfair Hnb Hr)) Hdd Hdec).
    - intros e' n fs ->%Hone HN Hdec. destruct (decide (n = e)) as [->|Hne].
      { destruct (export_declared _ _ _ Hfair Hnb Hr) as (fs' & He & Hd & Hp & Hu & _). destruct (Hu _ _ He Hdec) as [_ ->].
        destruct W1 as ((_ & Hnd & _) & _). by rewrite Hp in Hnd. }
      destruct (decls_declare _ _ _ Hfair Hnb Hr titer Ht n) as (d & Hd & <-); [done|apply declared_not_builtin; by eapply declared_name|done|].
      destruct (decls_inv _ _ _ Hfair Hnb Hr titer Ht _ Hd) as (_ & _ & _ & [(vs' & Hdd & _)|(fs' & dd & Hdd & Hpm & Ed)]).
      + by pose proof (decl_unique _ _ _ _ (vs_decls _ (result_valid _ _ _ Hfair Hnb Hr)) Hdd Hdec).
      + pose proof (decl_unique _ _ _ _ (vs_decls _ (result_valid _ _ _ Hfair Hnb Hr)) Hdd Hdec) as [= ->].
        specialize (W8 _ Hd). rewrite Ed in W8. destruct W8 as [W8 _]. rewrite <- Hpm.
        assert (((List.map (fun '(f, u) => (f, u_opt u, ts_name (u_name u) +:+ (if u_array u then "[]" else ""))) dd).*1).*1 = dd.*1) as E; [|by rewrite <- E].
        clear. induction dd as [|[f u] dd IH]; [done|]. cbn. by rewrite <- IH.
    - intros e' ->%Hone E. apply W4. cbn [class_of k_name]. rewrite E. apply (bool_decide_unpack _). by vm_compute.
    - intros e' fs ->%Hone Hdec. destruct (export_declared _ _ _ Hfair Hnb Hr) as (fs' & He & Hd & Hp & Hu & _). destruct (Hu _ _ He Hdec) as [_ ->].
      apply Forall_forall. intros x Hin. apply W6. by rewrite Hp.
  Qed.
End back.
Lemma plain_typed a : plain_names a -> type_names a -> typed_names a.
Proof.
  intros Hp Hn. constructor.
  - by apply pn_module.
  - intros e n _ _. by apply (tn_types _ Hn).
  - intros e n vs _ _ Hd. by apply (tn_enums _ Hn _ _ Hd).
  - intros e n fs He HN Hd. by apply (pn_fields _ Hp _ _ _ He HN Hd).
  - apply (tn_export _ Hn).
  - apply (tn_top _ Hn).
Qed.

Lemma typed_criterion a : for_text a (fun ds k => well_typed ds k <-> typed_names a).
Proof.
  intros iter r version now titer Hf Hl Hr Ht Hv Hn. pose proof (legal_no_builtin _ Hl) as Hnb.
  destruct (read_generated iter a r Hf Hnb Hl Hr version now titer Ht Hv Hn) as (t & ds & H1 & H2 & ->).
  exists t, (m_decls (module_of "" "" titer r)), (class_of (r_export r)). split; [done|]. split; [done|].
  split; [by apply (typed_back iter)|by eapply result_typed].
Qed.
Lemma code_typed a : plain_names a -> type_names a -> for_text a well_typed.
Proof.
  intros Hp Hn iter r version now titer H1 H2 H3 H4 H5 H6. destruct (typed_criterion a iter r version now titer H1 H2 H3 H4 H5 H6) as (t & ds & k & E1 & E2 & E3).
  exists t, ds, k. split; [done|]. split; [done|]. by apply E3, plain_typed.
Qed.
