(** Simulation: the generated write code produces the wire format. *)
From Verif Require Export TsSim GenProofs.

Fixpoint walk (h : heap) (v : val) (fs : list string) : out val :=
  match fs with
  | [] => Done v
  | f :: fs => go x <- get_prop h v f; walk h x fs
  end.
Lemma walk_app h v fs gs : walk h v (fs ++ gs) = (go x <- walk h v fs; walk h x gs).
Proof. revert v. induction fs as [|f fs IH]; intros v; [done|]. cbn [app walk]. destruct (get_prop h v f); [apply IH|done..]. Qed.

Lemma eval_path rt r fs M v0 v : lookup_var r (m_env M) = Done v0 -> walk (m_heap M) v0 fs = Done v ->
  eval rt (path (r :: fs)) M = Done (v, M).
Proof.
  intros Hl Hw. unfold path. assert (eval rt (EVar r) M = Done (v0, M)) as He by (cbn; by rewrite Hl).
  revert He Hw. generalize (EVar r). clear Hl. revert v0. induction fs as [|f fs IH]; intros v0 e He Hw; cbn [foldl walk] in *.
  - by injection Hw as ->.
  - destruct (get_prop (m_heap M) v0 f) as [x| |] eqn:Hg; try done. cbn [obind] in Hw. apply (IH x); [|done]. cbn [eval]. rewrite He. cbn [obind]. by rewrite Hg.
Qed.

(** ** declared names *)
Lemma index_item st s : varname st "index" ≠ varname st "item" +:+ s.
Proof.
  unfold varname. rewrite !sapp_assoc. intros H%sapp_inj_l. change ("_" +:+ ?x) with (String "_" x) in H. injection H as H.
  change ("item" +:+ s) with (String "i" (String "t" ("em" +:+ s))) in H. discriminate H.
Qed.
Lemma lets_w_fields (P : string -> Prop) fs st : (forall f, f ∈ fs -> forall x, x ∈ lets (w_field f st) -> P x) -> forall x, x ∈ lets (w_fields fs st) -> P x.
Proof.
  intros H x. unfold w_fields. rewrite lets_concat. intros (l & Hl & Hx)%elem_of_list_In%in_concat.
  rewrite List.map_map in Hl. apply in_map_iff in Hl as (f & <- & Hf). apply (H f); by apply elem_of_list_In.
Qed.
Lemma lets_w_ty t : forall tn r fs x, x ∈ lets (w_ty t tn (r :: fs)) -> ext r x.
Proof.
  induction t as [b|e|gs IH] using rtype_ind'; intros tn r fs x Hx.
  - by destruct b; apply elem_of_nil in Hx.
  - by apply elem_of_nil in Hx.
  - change (w_ty (TStruct gs) tn (r :: fs)) with (w_fields gs (r :: fs)) in Hx. revert x Hx. apply lets_w_fields.
    intros f Hf x Hx. unfold w_field, w_wrap in Hx. cbn [app] in Hx. destruct (f_opt f).
    + unfold w_opt in Hx. apply elem_of_list_singleton in Hx as ->. apply bindname_ext. by destruct fs.
    + destruct (f_array f); [by apply elem_of_nil in Hx|]. rewrite Forall_forall in IH. by eapply (IH f Hf).
Qed.

(** ** the simulation *)
Section write.
  Context (rt : runtime).
  Notation wire := (wire (rt_enc rt) (rt_encs rt)).
  Notation wire_wrapped := (wire_wrapped (rt_enc rt)).
  
  (** the code [p], run on the path [r.fs], which denotes a value that represents [w] *)
  Definition emits (p : emit) (fs : list string) (w : value) (o : list byte) : Prop :=
    forall r M fr E v0 v, m_env M = fr :: E -> lookup_var r (fr :: E) = Done v0 -> walk (m_heap M) v0 fs = Done v ->
      rep (m_heap M) v w ->
      exists fr', same_but r fr fr' /\ runs rt (p (r :: fs)) M (Mach (m_heap M) (fr' :: E) (m_rd M) (m_out M ++ o)).

  Lemma w_array_emits t tn fs w l : (forall v, v ∈ l -> emits (w_ty t tn) [] v (wire t v)) -> w = VArr l ->
    emits (w_arr (w_ty t tn)) fs w (count (rt_enc rt) (length l) ++ concat (map (wire t) l)).
  Proof.
    intros Hp -> r M fr E v0 v HE Hl Hw Hr. destruct Hr as (p & items & -> & Hp' & Hall).
    assert (length items = length l /\ forall j y w, items !! j = Some y -> l !! j = Some w -> rep (m_heap M) y w) as [Hlen Hitems].
    { clear - Hall. revert items Hall. induction l as [|a l IH]; intros [|y items] H; try done.
      destruct H as [H1 H2]. destruct (IH _ H2) as [HL HI]. split; [cbn; lia|]. intros [|j] y' w' Hy Hw'.
      - injection Hy as <-. by injection Hw' as <-.
      - by apply (HI j). }
    set (st := r :: fs). set (idx := varname st "index"). set (it := varname st "item").
    assert (ext r idx) as Hidx by apply varname_ext'. assert (ext r it) as Hit by apply varname_ext'.
    assert (forall M', m_heap M' = m_heap M -> lookup_var r (m_env M') = Done v0 -> eval rt (path st) M' = Done (JLoc p, M')) as Hpath.
    { intros M' Hh Hl'. apply (eval_path rt r fs M' v0); [done|]. by rewrite Hh. }
    assert (forall M', m_heap M' = m_heap M -> lookup_var r (m_env M') = Done v0 ->
      eval rt (EProp (path st) "length") M' = Done (JNum (NInt (Z.of_nat (length l))), M')) as Hlength.
    { intros M' Hh Hl'. cbn [eval]. rewrite Hpath by done. cbn [obind get_prop]. rewrite Hh, Hp'. by rewrite decide_True, Hlen by done. }
    exists fr. split; [done|]. unfold w_arr. fold st idx it.
    assert (lookup_var r (m_env M) = Done v0) as HlM by by rewrite HE.
    eapply runs_simple.
    { cbn [exec_simple]. rewrite Hlength by done. cbn [obind]. rewrite decide_False by done.
      change (kind_of "uint32") with (Some KU32). reflexivity. }
    set (bl := SSimple (Let false it (EElem (path st) (EVar idx))) :: w_ty t tn [it]).
    set (P := fun (j : nat) (M' : mach) => M' = Mach (m_heap M) ({[ idx := Some (JNum (NInt (Z.of_nat j))) ]} :: fr :: E) (m_rd M)
      (m_out M ++ count (rt_enc rt) (length l) ++ concat (map (wire t) (take j l)))).
    assert (forall j M', P j M' -> lookup_var r (m_env M') = Done v0) as HPr.
    { intros j M' ->. cbn [m_env]. rewrite lookup_new; [done|]. apply lookup_singleton_ne. intros E'. apply (ext_self r). by rewrite E' in Hidx. }
    assert (forall j M', P j M' -> lookup_var idx (m_env M') = Done (JNum (NInt (Z.of_nat j)))) as HPi.
    { intros j M' ->. cbn [m_env lookup_var]. by rewrite lookup_singleton. }
    eapply (runs_for rt idx _ bl [] _ P (length l)).
    - unfold P. unfold with_env, with_out. cbn [m_heap m_env m_rd m_out take]. rewrite HE. cbn [map concat]. by rewrite app_nil_r.
    - intros j M' Hj HP. pose proof (HPr _ _ HP) as Hr'. pose proof (HPi _ _ HP) as Hi'.
      destruct (lookup_lt_is_Some_2 l j Hj) as [wj Hwj]. destruct (lookup_lt_is_Some_2 items j ltac:(lia)) as [y Hy].
      assert (m_heap M' = m_heap M) as HhM by by rewrite HP.
      set (M1 := enter bl M').
      assert (forall x, ~ (x = it \/ ext it x) -> hoist bl !! x = None) as Hho.
      { intros x Hx. apply hoist_none. unfold bl. rewrite lets_cons_simple. intros [H|H]%elem_of_app.
        - apply Hx. left. by apply elem_of_list_singleton in H.
        - apply Hx. right. by eapply lets_w_ty. }
      assert (hoist bl !! r = None) as Hr1.
      { apply Hho. intros [Hx|Hx]; [apply (ext_self r); by rewrite Hx at 2|]. apply (ext_self r). by eapply ext_trans. }
      assert (hoist bl !! idx = None) as Hi1.
      { apply Hho. intros [E'|[s E']]; [apply (index_item st ""); by rewrite sapp_nil_r|]. by eapply index_item. }
      destruct (Hp wj (elem_of_list_lookup_2 _ _ _ Hwj) it (Mach (m_heap M) (<[it := Some y]> (hoist bl) :: m_env M') (m_rd M') (m_out M')) (<[it := Some y]> (hoist bl)) (m_env M') y y)
        as (fr2 & Hsame & Hrun); [done|cbn [lookup_var]; by rewrite lookup_insert|done|by apply (Hitems j)|].
      assert (runs rt bl M1 (Mach (m_heap M) (fr2 :: m_env M') (m_rd M') (m_out M' ++ wire t wj))) as Hb.
      { unfold bl. eapply runs_simple; [|exact Hrun]. cbn [exec_simple eval]. rewrite Hpath; [|done|].
        - cbn [obind]. unfold M1, enter, with_env. cbn [m_env]. rewrite lookup_new, Hi' by done. cbn [obind get_elem m_heap].
          rewrite HhM, Hp'. rewrite decide_True by lia. rewrite Nat2Z.id, Hy. cbn [default obind init_var m_env]. done.
        - unfold M1, enter, with_env. cbn [m_env]. by rewrite lookup_new. }
      eexists M', _, _. split; [|split; [exact (runs_in_block _ _ _ _ Hb)|]].
      { cbn [eval]. change (eval rt (EProp (path st) "length") M') with (go (v, M) <- eval rt (path st) M'; go x <- get_prop (m_heap M) v "length"; Done (x, M)).
        pose proof (Hlength M' HhM Hr') as HL. cbn [eval] in HL. rewrite HL. cbn [obind]. rewrite Hi'. cbn [obind]. by rewrite decide_True by lia. }
      unfold exit_, with_env. cbn [m_env tl]. split; [done|].
      split; [|].
      { rewrite HP. cbn [m_env assign_var]. by rewrite lookup_singleton. }
      unfold P. cbn [m_heap m_rd m_out]. rewrite HP at 1 2. cbn [m_rd m_out]. f_equal.
      + by rewrite insert_singleton.
      + rewrite <- !app_assoc. f_equal. f_equal.
        rewrite (take_S_r _ _ _ Hwj), map_app, concat_app. cbn [map concat]. by rewrite app_nil_r.
    - intros M' HP. pose proof (HPr _ _ HP) as Hr'. pose proof (HPi _ _ HP) as Hi'. assert (m_heap M' = m_heap M) as HhM by by rewrite HP.
      cbn [eval]. pose proof (Hlength M' HhM Hr') as HL. cbn [eval] in HL. rewrite HL. cbn [obind]. rewrite Hi'. cbn [obind]. by rewrite decide_False by lia.
    - intros M' ->. unfold exit_, with_env. cbn [m_env tl m_heap m_rd m_out]. rewrite firstn_all. apply runs_nil.
  Qed.

  Lemma w_opt_emits p fs w o : fs ≠ [] -> (forall b x, x ∈ lets (p [b]) -> ext b x) ->
    (w ≠ VNone -> emits p [] w o) ->
    emits (w_opt p) fs w (match w with VNone => rt_enc rt KU8 (NInt 0) | _ => rt_enc rt KU8 (NInt 1) ++ o end).
  Proof.
    intros Hfs Hlets Hp r M fr E v0 v HE Hl Hw Hr. set (st := r :: fs). set (bv := bindname st).
    assert (ext r bv) as Hbv by by apply bindname_ext.
    set (fr1 := <[bv := Some v]> fr).
    assert (exec_simple rt (Let false bv (path st)) M = Done (Mach (m_heap M) (fr1 :: E) (m_rd M) (m_out M))) as H1.
    { assert (eval rt (path st) M = Done (v, M)) as Hpath by (apply (eval_path rt r fs M v0 v); [by rewrite HE|done]).
      cbn [exec_simple]. rewrite Hpath. cbn [obind]. by rewrite HE. }
    assert (forall M', m_env M' = fr1 :: E -> eval rt (EVar bv) M' = Done (v, M')) as Hbind.
    { intros M' HM'. cbn [eval]. rewrite HM'. cbn [lookup_var]. unfold fr1 at 1. by rewrite lookup_insert. }
    exists fr1. split; [by apply same_insert|]. unfold w_opt. fold st bv. eapply runs_simple; [exact H1|].
    assert ((v = JUndef \/ v = JNull) \/ ~ (v = JUndef \/ v = JNull)) as [Hv|Hv] by (destruct v; naive_solver).
    - assert (w = VNone) as ->.
      { destruct Hv as [-> | ->]; destruct w; cbn in Hr; try done; naive_solver. }
      eapply runs_switch_none; [by apply Hbind|done| |apply runs_nil]. cbn [exec_simple eval obind].
      rewrite decide_False by done. done.
    - assert (w ≠ VNone) as Hne by (intros ->; by apply Hv).
      assert (match w with VNone => rt_enc rt KU8 (NInt 0) | _ => rt_enc rt KU8 (NInt 1) ++ o end = rt_enc rt KU8 (NInt 1) ++ o) as -> by by destruct w.
      set (bl := SSimple (Write "uint8" (ENum 1)) :: p [bv]).
      destruct (Hp Hne bv (Mach (m_heap M) (hoist bl :: fr1 :: E) (m_rd M) (m_out M ++ rt_enc rt KU8 (NInt 1))) (hoist bl) (fr1 :: E) v v)
        as (fr2 & Hsame & Hrun); [done| |done|done|].
      { rewrite lookup_new; [cbn [lookup_var]; unfold fr1 at 1; by rewrite lookup_insert|].
        apply hoist_none. intros Hin. apply (ext_self bv). apply Hlets. exact Hin. }
      eapply runs_switch_some; [by apply Hbind|naive_solver|naive_solver| |].
      + apply runs_in_block. unfold bl at 1. eapply runs_simple; [|exact Hrun]. cbn [exec_simple eval obind].
        rewrite decide_False by done. done.
      + unfold exit_, with_env. cbn [m_env tl m_heap m_rd m_out]. rewrite <- app_assoc. apply runs_nil.
  Qed.

  Lemma emits_ext p q fs w o : (forall r, p (r :: fs) = q (r :: fs)) -> emits p fs w o -> emits q fs w o.
  Proof. intros H Hp r M fr E v0 v. rewrite <- H. apply Hp. Qed.

  Lemma kind_of_builtin tn b k : builtin_of_name tn = Some b -> builtin_kind b = Some k -> kind_of tn = Some k /\ tn ≠ "string".
  Proof.
    unfold builtin_of_name. intros H1 H2.
    repeat match goal with H : context [decide (tn = ?s)] |- _ => destruct (decide (tn = s)) as [->|?] end; try done;
      injection H1 as <-; try done; injection H2 as <-; done.
  Qed.
  Lemma kind_of_repr r : kind_of (repr_name r) = Some (repr_kind r).
  Proof. by destruct r. Qed.

  Lemma w_field_emits t tn a o fs w : fs ≠ [] ->
    (forall fs v, writable t v -> emits (w_ty t tn) fs v (wire t v)) ->
    wrapped a o (writable t) w -> emits (w_wrap a o (w_ty t tn)) fs w (wire_wrapped a o (wire t) w).
  Proof.
    intros Hfs IH Hw. unfold w_wrap, wire_wrapped.
    assert (forall fs', w ≠ VNone \/ o = false -> emits (if a then w_arr (w_ty t tn) else w_ty t tn) fs' w
      (if a then match w with VArr l => count (rt_enc rt) (length l) ++ concat (map (wire t) l) | _ => [] end else wire t w)) as Hin.
    { intros fs' Hne. destruct Hw as [[Ho Hw]|Hw]; [naive_solver|]. destruct a; [|by apply IH].
      destruct Hw as (l & -> & _ & Hl). apply w_array_emits; [|done]. rewrite Forall_forall in Hl. intros v Hv. by apply IH, Hl. }
    destruct o; [|apply Hin; by right]. apply w_opt_emits; [done|..].
    - intros b x Hx. destruct a; [by apply elem_of_nil in Hx|]. by eapply lets_w_ty.
    - intros Hne. apply Hin. by left.
  Qed.

  Lemma w_ty_emits t : forall tn fs w, leaf_ok t tn -> all_fields field_ok t -> writable t w -> emits (w_ty t tn) fs w (wire t w).
  Proof.
    induction t as [b|e|gs IH] using rtype_ind'; intros tn fs w Hl Ha Hw.
    - intros r M fr E v0 v HE Hlk Hwk Hr. exists fr. split; [done|].
      pose proof (eval_path rt r fs M v0 v ltac:(by rewrite HE) Hwk) as Hp.
      unfold writable in Hw. cbn [shape] in Hw. destruct (builtin_kind b) as [k|] eqn:Hk.
      + destruct Hw as (n & -> & _). cbn in Hr. subst v. destruct (kind_of_builtin _ _ _ Hl Hk) as [Hk' Hs].
        assert (w_ty (TBuiltin b) tn (r :: fs) = [SSimple (Write tn (path (r :: fs)))]) as -> by by destruct b.
        apply runs_simple1. cbn [exec_simple]. rewrite Hp. cbn [obind]. rewrite decide_False, Hk' by done.
        unfold with_out. cbn [wire]. rewrite Hk, HE. done.
      + destruct b; try done. destruct Hw as (s & -> & _). cbn in Hr. subst v. cbn [w_ty w_builtin].
        eapply runs_simple.
        { cbn [exec_simple eval]. rewrite Hp. cbn [obind get_prop]. rewrite decide_True by done. cbn [obind].
          rewrite decide_False by done. change (kind_of "uint32") with (Some KU32). reflexivity. }
        apply runs_simple1. cbn [exec_simple]. rewrite (eval_path rt r fs _ v0 (JStr s)); [|by rewrite <- HE in Hlk|done].
        cbn [obind]. rewrite decide_True by done. unfold with_out. cbn [m_out m_heap m_env m_rd wire]. by rewrite HE, <- app_assoc.
    - destruct Hw as (n & -> & Hx). intros r M fr E v0 v HE Hlk Hwk Hr. exists fr. split; [done|]. cbn in Hr. subst v.
      cbn [w_ty]. unfold w_enum. apply runs_simple1. cbn [exec_simple eval].
      rewrite (eval_path rt r fs M v0 _ ltac:(by rewrite HE) Hwk). cbn [obind]. rewrite decide_False by by destruct (e_repr e).
      rewrite kind_of_repr. unfold with_out. by rewrite HE.
    - destruct Hw as (vs & -> & Hw). cbn [wire]. intros r M fr E v0 v HE Hlk Hwk Hr.
      change (w_ty (TStruct gs) tn (r :: fs)) with (w_fields gs (r :: fs)).
      rewrite all_fields_struct in Ha. rewrite Forall_forall in IH.
      destruct Hr as (p & pr & props & -> & Hp & Hall).
      revert M fr vs HE Hlk Hwk Hp Hall Hw. induction gs as [|g gs IHgs]; intros M fr [|[gn gv] vs] HE Hlk Hwk Hp Hall Hw; try done.
      + exists fr. split; [done|]. rewrite app_nil_r. replace (Mach _ _ _ _) with M; [apply runs_nil|]. rewrite <- HE. by destruct M.
      + destruct Hw as (-> & Hwr & Hw). destruct Hall as ((y & Hy & Hry) & Hall).
        destruct (Ha g) as [[_ Hlg] Hag]; [by left|].
        destruct (w_field_emits (f_ty g) (f_tname g) (f_array g) (f_opt g) (fs ++ [f_name g]) gv) with (r := r) (M := M) (fr := fr) (E := E) (v0 := v0) (v := y)
          as (fr1 & Hsame & Hrun); try done.
        { by destruct fs. }
        { intros fs' v' Hv'. apply IH; [by left|done..]. }
        { rewrite walk_app, Hwk. cbn [obind walk]. by rewrite Hy. }
        destruct (IHgs) with (M := Mach (m_heap M) (fr1 :: E) (m_rd M) (m_out M ++ wire_wrapped (f_array g) (f_opt g) (wire (f_ty g)) gv)) (fr := fr1) (vs := vs)
          as (fr2 & Hsame2 & Hrun2); try done.
        { intros h Hh. apply IH. by right. }
        { intros h Hh. apply Ha. by right. }
        { rewrite (lookup_same r fr); [done..|]. apply ext_self. }
        exists fr2. split; [by eapply same_trans|]. unfold w_fields. cbn [List.map List.concat]. eapply runs_app; [exact Hrun|].
        unfold w_fields in Hrun2. cbn [m_heap m_rd m_out] in Hrun2. rewrite <- app_assoc in Hrun2. exact Hrun2.
  Qed.
End write.
