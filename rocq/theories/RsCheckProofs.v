(** Which schemas give Rust that compiles. *)
From Verif Require Export RsCheck RsClaims GenNames.
Export RsSem RsRun RsRun2 RsRun3 RsRun4.

Lemma find_key_ext {A} x (env : list (string * A)) v : find_key x ((x, v) :: env) = Some v.
Proof. cbn. by rewrite decide_True. Qed.

Section static.
  Context (items : list rs_item) (rank : string -> nat) (refs : bool).
  Context (Hprim : forall p, p ∈ rust_prims -> find_item p items = None).
  Notation known := (known items rank).
  Notation PT := (place_type items).
  Notation WA b env := (forallb (fun s => wcheck items refs s env) b).
  Notation RA := (rall items).

  Lemma field_type_snoc t ps f : field_type items t (ps ++ [f]) = match field_type items t ps with Some u => field_type items u [f] | None => None end.
  Proof.
    revert t. induction ps as [|g ps IH]; intros t; [done|]. cbn [app field_type]. destruct (rt_opt t || rt_vec t); [done|].
    destruct (find_item _ _) as [[]|]; [|done|done]. destruct (find_key g fields); [|done]. apply IH.
  Qed.
  (** the place has the type [t], possibly behind a reference *)
  Definition at_place (env : senv) (p : place) (ref : bool) (t : rs_type) : Prop := PT env p = Some ((if ref then Ref else Own) t).
  Lemma at_field env r ps ref tn fs f : at_place env (Place r ps) ref (Base tn) -> NoDup (map f_name fs) -> find_item tn items = Some (struct_item tn fs) -> f ∈ fs ->
    at_place env (Place r (ps ++ [f_name f])) false (field_rs_type f).
  Proof.
    unfold at_place, place_type. cbn [pl_root pl_path]. intros H Hn Hi Hf. destruct (find_key r env) as [s|]; [|done].
    assert (field_type items (Base tn) [f_name f] = Some (field_rs_type f)) as Hft.
    { cbn [field_type rt_opt rt_vec rt_base orb]. rewrite Hi. unfold struct_item.
      assert (find_key (f_name f) (List.map (fun f => (f_name f, field_rs_type f)) fs) = Some (field_rs_type f)) as ->; [|done].
      clear -Hn Hf. induction fs as [|g fs IH]; [by apply elem_of_nil in Hf|]. cbn [map] in Hn. apply NoDup_cons in Hn as [Hg Hn].
      cbn [List.map find_key]. apply elem_of_cons in Hf as [->|Hf]; [by rewrite decide_True|]. rewrite decide_False; [by apply IH|].
      intros E. apply Hg. rewrite E. apply elem_of_list_fmap. by exists f. }
    destruct ps as [|g ps].
    - injection H as ->. cbn [app]. by destruct ref; rewrite Hft.
    - cbn [app] in *. assert (forall t, field_type items t (g :: ps ++ [f_name f]) = match field_type items t (g :: ps) with Some u => field_type items u [f_name f] | None => None end) as Hs.
      { intros t. apply (field_type_snoc t (g :: ps)). }
      destruct s as [t|t|]; [| |done]; rewrite Hs; (destruct (field_type items t (g :: ps)) as [u|]; [|done]; destruct ref; [done|]; injection H as ->; by rewrite Hft).
  Qed.
  Lemma at_own (env : senv) x (ref : bool) t : at_place ((x, (if ref then Ref else Own) t) :: env) (Place x []) ref t.
  Proof. unfold at_place, place_type. cbn [pl_root pl_path]. by rewrite find_key_ext. Qed.
  Lemma base_name f : known (f_ty f) (f_tname f) -> field_rs_type f = RsType (f_opt f) (f_array f) (rs_name (f_tname f)).
  Proof.
    intros [Hk _]. unfold field_rs_type. f_equal. destruct (f_ty f); cbn [known_leaf] in Hk.
    - destruct Hk as [Hk _]. by rewrite (rs_name_prim _ _ Hk).
    - by destruct Hk as (_ & _ & -> & _).
    - by destruct Hk as (_ & _ & -> & _).
  Qed.
  Lemma method_builtin b tn : builtin_of_name tn = Some b -> b ≠ BString -> method_type tn = Some (rs_name tn).
  Proof. intros H Hb. rewrite (rs_name_prim _ _ H). unfold method_type. rewrite (kind_of_builtin _ _ H). by destruct b. Qed.
  Lemma method_repr r : method_type (repr_name r) = Some (repr_prim r).
  Proof. by destruct r. Qed.

  (** *** write *)
  Definition wleaf (ref : bool) (t : rtype) : bool :=
    match t with TBuiltin BString => true | TBuiltin _ => negb ref || refs | TEnum _ => negb ref | TStruct _ => true end.
  Definition w_local (f : sfield) : bool :=
    match f_ty f with TBuiltin BString => negb (f_opt f) | TBuiltin _ => negb (f_array f) || refs | TEnum _ => negb (f_array f) | TStruct _ => true end.
  Definition w_fine (fs : list sfield) : Prop := forall f, f ∈ fs -> w_local f = true.
  Definition w_says (t : rtype) (tn : string) (code : rs_emit) : Prop :=
    forall r ps env ref, at_place env (Place r ps) ref (Base (rs_name tn)) -> (is_struct t = true -> borrowed env (Place r ps) = true) ->
    WA (code (r :: ps)) env = true <-> wleaf ref t = true /\ all_structs w_fine t.
  Lemma is_copy_known t tn : known t tn -> is_copy items (Base (rs_name tn)) = match t with TBuiltin BString | TStruct _ => false | _ => true end.
  Proof.
    intros [Hk _]. unfold is_copy, is_enum. cbn [rt_opt rt_vec rt_base negb andb]. destruct t as [b|e|fs]; cbn [known_leaf] in Hk.
    - destruct Hk as [Hk _]. rewrite (rs_name_prim _ _ Hk), (Hprim _ (prim_in b)). by destruct b.
    - destruct Hk as (_ & Hi & -> & _). by rewrite Hi.
    - destruct Hk as (_ & Hi & -> & _). rewrite Hi. cbn [struct_item orb]. apply bool_decide_eq_false. intros [H _]. by rewrite (Hprim _ H) in Hi.
  Qed.
  Lemma w_field f r ps env : f_array f && f_opt f = false -> known (f_ty f) (f_tname f) -> w_says (f_ty f) (f_tname f) (rw_ty (f_ty f) (f_tname f)) ->
    at_place env (Place r (ps ++ [f_name f])) false (field_rs_type f) -> borrowed env (Place r []) = true ->
    WA (rw_field f (r :: ps)) env = true <-> w_local f = true /\ all_structs w_fine (f_ty f).
  Proof.
    intros Hao Hk Hs Hat Hb. rewrite (base_name _ Hk) in Hat. unfold rw_field, rw_wrap. cbn [app]. destruct (f_array f) eqn:Ea.
    - destruct (f_opt f) eqn:Eo; [done|]. unfold rw_arr. cbn [place_of forallb wcheck]. rewrite Hat. cbn [rt_opt rt_vec rt_base negb andb orb]. rewrite andb_true_r.
      specialize (Hs (varname (r :: ps ++ [f_name f]) "item") [] ((varname (r :: ps ++ [f_name f]) "item", Ref (Base (rs_name (f_tname f)))) :: env) true).
      rewrite Hs; [|apply (at_own _ _ true)|intros _; unfold borrowed; cbn [pl_root]; by rewrite find_key_ext].
      apply and_iff_compat_r. unfold wleaf, w_local. rewrite Ea, Eo. by destruct (f_ty f) as [[]| |].
    - destruct (f_opt f) eqn:Eo.
      + unfold rw_opt. cbn [place_of forallb wcheck]. rewrite Hat. cbn [rt_opt rt_vec rt_base negb andb orb].
        rewrite !andb_true_r. change (Nat.ltb 0 256) with true. change (Nat.ltb 1 256) with true. cbn [andb].
        rewrite (is_copy_known _ _ Hk). unfold borrowed at 1. cbn [pl_root]. unfold borrowed in Hb. cbn [pl_root] in Hb. rewrite Hb. cbn [negb]. rewrite orb_false_r.
        set (x := bindname (r :: ps ++ [f_name f])). rewrite orb_false_r.
        specialize (Hs x [] ((x, (if is_struct (f_ty f) then Ref else Own) (Base (rs_name (f_tname f)))) :: env) (is_struct (f_ty f)) (at_own _ _ _ _)).
        assert (w_local f = match f_ty f with TBuiltin BString => false | _ => true end) as -> by (unfold w_local; rewrite Ea, Eo; by destruct (f_ty f) as [[]| |]).
        destruct (f_ty f) as [b|e|fs]; cbn [is_struct orb] in *.
        * destruct b; cbn [andb]; try (split; [done|by intros [? _]]); rewrite Hs by done; cbn; tauto.
        * cbn [andb]. rewrite Hs by done. cbn. tauto.
        * rewrite andb_true_l. rewrite Hs; [tauto|]. intros _. unfold borrowed. cbn [pl_root]. by rewrite find_key_ext.
      + rewrite (Hs r (ps ++ [f_name f]) env false Hat); [|done]. apply and_iff_compat_r. unfold wleaf, w_local. rewrite Ea, Eo. by destruct (f_ty f) as [[]| |].
  Qed.
  Lemma w_static t : forall tn, known t tn -> w_says t tn (rw_ty t tn).
  Proof.
    induction t as [b|e|fs IH] using rtype_ind'; intros tn Hk r ps env ref Hat Hb.
    - destruct Hk as [[Hb' _] _]. cbn [rw_ty all_structs]. unfold rw_builtin. assert (b = BString \/ b ≠ BString) as [->|Hne] by (destruct b; auto).
      + cbn [forallb wcheck place_of]. rewrite Hat. rewrite (rs_name_prim _ _ Hb'). cbn. by destruct ref.
      + assert (WA [WCall tn (Place r ps)] env = true <-> wleaf ref (TBuiltin b) = true /\ True) as H; [|by destruct b].
        cbn [forallb wcheck]. rewrite (method_builtin _ _ Hb' Hne), Hat. destruct ref; rewrite bool_decide_true by done; destruct b; try done; cbn; rewrite ?andb_true_r; tauto.
    - destruct Hk as [(_ & Hi & Hn & _) _]. cbn [rw_ty all_structs]. unfold rw_enum. cbn [forallb wcheck place_of]. rewrite Hat. destruct ref; [split; [done|by intros [? _]]|].
      cbn [rt_opt rt_vec rt_base negb andb]. unfold is_enum. rewrite Hn, Hi. cbn [enum_item andb]. rewrite method_repr, bool_decide_true by done. done.
    - rewrite all_structs_struct. cbn [wleaf]. specialize (Hb eq_refl).
      assert (forall gs, (forall f, f ∈ gs -> f ∈ fs) -> WA (rw_fields gs (r :: ps)) env = true <-> forall f, f ∈ gs -> w_local f = true /\ all_structs w_fine (f_ty f)) as H.
      { pose proof Hk as [(Hnd & Hi & Hn & _) _]. rewrite Hn in Hat. induction gs as [|f gs IHg]; intros Hin.
        - split; [|done]. intros _ f Hf. by apply elem_of_nil in Hf.
        - change (rw_fields (f :: gs) (r :: ps)) with (rw_field f (r :: ps) ++ rw_fields gs (r :: ps)). rewrite forallb_app, andb_true_iff.
          rewrite IHg by (intros; apply Hin; by right). destruct (known_struct _ _ _ _ f Hk ltac:(apply Hin; by left)) as [Hkf Hao].
          rewrite Forall_forall in IH. rewrite w_field; [|done|done|apply IH; [apply Hin; by left|done]| |exact Hb].
          + split; [intros [H1 H2] g [->|Hg]%elem_of_cons; [done|by apply H2]|]. intros H. split; [apply H; by left|]. intros g Hg. apply H. by right.
          + eapply at_field; [done..|]. apply Hin. by left. }
      specialize (H fs (fun f Hf => Hf)). change (rw_ty (TStruct fs) tn (r :: ps)) with (rw_fields fs (r :: ps)). rewrite H. unfold w_fine.
      split; [intros Hf; split; [done|]; split; intros; by apply Hf|]. intros (_ & H1 & H2) f Hf. split; [by apply H1|by apply H2].
  Qed.

  (** *** read *)
  Definition s_longer (r : string) (news : senv) : Prop := Forall (longer r) news.*1.
  Lemma s_longer_not r news : s_longer r news -> r ∉ news.*1.
  Proof. intros H Hin. unfold s_longer in H. rewrite Forall_forall in H. exact (longer_irrefl _ (H _ Hin)). Qed.
  Lemma s_longer_app r a b : s_longer r (a ++ b) <-> s_longer r a /\ s_longer r b.
  Proof. unfold s_longer. by rewrite fmap_app, Forall_app. Qed.
  Lemma s_longer_trans r s news : longer r s -> s_longer s news -> s_longer r news.
  Proof. intros H Hn. unfold s_longer in *. eapply Forall_impl; [exact Hn|]. intros x. by apply longer_trans. Qed.
  Lemma place_skip p news env : pl_root p ∉ news.*1 -> PT (news ++ env) p = PT env p.
  Proof. intros H. unfold place_type. by rewrite find_key_skip. Qed.
  Lemma rall_app a b env : RA (a ++ b) env = match RA a env with Some env => RA b env | None => None end.
  Proof. revert env. induction a as [|s a IH]; intros env; [done|]. cbn [app rall]. destruct (rcheck items s env); [apply IH|done]. Qed.
  Lemma rall_one s env : RA [s] env = rcheck items s env.
  Proof. cbn [rall]. by destruct (rcheck items s env). Qed.
  Lemma rcheck_for x b env : rcheck items (RFor x b) env = match find_key x env, RA b env with Some Len, Some _ => Some env | _, _ => None end.
  Proof. reflexivity. Qed.
  Lemma rcheck_if b env : rcheck items (RIf b) env = match RA b env with Some _ => Some env | None => None end.
  Proof. reflexivity. Qed.
  Lemma rall_arr x p b env t : PT ((x, Len) :: env) p = Some (Own t) -> rt_opt t = false -> rt_vec t = true ->
    RA [RCount x; RReserve p x; RFor x b] env = match RA b ((x, Len) :: env) with Some _ => Some ((x, Len) :: env) | None => None end.
  Proof.
    intros Hp Ho Hv. change (RA [RCount x; RReserve p x; RFor x b] env) with
      (match rcheck items (RReserve p x) ((x, Len) :: env) with Some env => RA [RFor x b] env | None => None end).
    cbn [rcheck]. rewrite Hp, find_key_ext, Ho, Hv. cbn [negb andb]. by rewrite rall_one, rcheck_for, find_key_ext.
  Qed.

  Definition names (e : enum) : list string := map ev_name (e_variants e).
  Definition rleaf (t : rtype) : bool := match t with TEnum e => bool_decide ("try_from" ∉ names e) | _ => true end.
  Definition r_default (t : rtype) : bool := match t with TEnum e => bool_decide ("default" ∉ names e) | _ => true end.
  Definition r_local (f : sfield) : bool := rleaf (f_ty f) && (negb (f_array f || f_opt f) || r_default (f_ty f)).
  Definition r_fine (fs : list sfield) : Prop := forall f, f ∈ fs -> r_local f = true.
  (** the block is well typed if and only if [P], and then declares variables *)
  Definition r_block (b : list rstmt) (r : string) (env : senv) (P : Prop) : Prop :=
    match RA b env with Some env' => P /\ exists news, env' = news ++ env /\ s_longer r news | None => ~ P end.
  Definition r_says (t : rtype) (code : rs_emit) (tn : string) : Prop :=
    forall r ps env ref, at_place env (Place r ps) ref (Base (rs_name tn)) -> (is_struct t = false -> ref = false) ->
    r_block (code (r :: ps)) r env (rleaf t = true /\ all_structs r_fine t).
  Lemma r_block_iff b r env P Q : (P <-> Q) -> r_block b r env P -> r_block b r env Q.
  Proof. intros H. unfold r_block. destruct (RA b env); [by rewrite H|]. by rewrite H. Qed.
  Lemma r_block_when (c : bool) b r env P : RA b env = (if c then Some env else None) -> (c = true <-> P) -> r_block b r env P.
  Proof.
    intros H HP. unfold r_block. rewrite H. destruct c; [|intros Hp; by apply HP in Hp]. split; [by apply HP|]. exists []. split; [done|]. by apply Forall_nil.
  Qed.
  Lemma has_default_known t tn : known t tn -> has_default items (rs_name tn) = r_default t.
  Proof.
    intros [Hk _]. unfold has_default, variants_of, r_default. destruct t as [b|e|fs]; cbn [known_leaf] in Hk.
    - destruct Hk as [Hk _]. rewrite (rs_name_prim _ _ Hk), (Hprim _ (prim_in b)). rewrite (bool_decide_true (_ ∈ _)) by apply prim_in. done.
    - destruct Hk as (_ & Hi & -> & _). rewrite Hi. cbn [enum_item]. rewrite andb_true_r. unfold names. rewrite List.map_map. done.
    - destruct Hk as (_ & Hi & -> & _). by rewrite Hi.
  Qed.
  Lemma r_field f r ps env : f_array f && f_opt f = false -> known (f_ty f) (f_tname f) -> r_says (f_ty f) (rr_ty (f_ty f) (f_tname f)) (f_tname f) ->
    at_place env (Place r (ps ++ [f_name f])) false (field_rs_type f) ->
    r_block (rr_field f (r :: ps)) r env (r_local f = true /\ all_structs r_fine (f_ty f)).
  Proof.
    intros Hao Hk Hs Hat. rewrite (base_name _ Hk) in Hat. unfold rr_field, rr_wrap, r_local. cbn [app]. set (p := Place r (ps ++ [f_name f])) in *.
    destruct (f_opt f) eqn:Eo; [destruct (f_array f) eqn:Ea; [done|]|destruct (f_array f) eqn:Ea].
    - unfold rr_opt. cbn [place_of orb negb]. fold p. set (b := bindname (r :: ps ++ [f_name f])). assert (longer r b) as Hb by apply bindname_longer.
      unfold r_block. rewrite rall_one, rcheck_if. cbn [rall rcheck]. rewrite (has_default_known _ _ Hk). destruct (r_default (f_ty f)); [|rewrite andb_false_r; by intros [? _]].
      rewrite rall_app. rewrite andb_true_r. specialize (Hs b [] ((b, Own (Base (rs_name (f_tname f)))) :: env) false (at_own _ _ false _) ltac:(done)). unfold r_block in Hs.
      destruct (RA _ _) as [env'|]; [|exact Hs]. destruct Hs as [HP (news & -> & Hl)]. rewrite rall_one. cbn [rcheck].
      rewrite find_key_skip, find_key_ext by (by apply s_longer_not). rewrite (cons_middle _ news env), (assoc_L (++)), place_skip.
      2:{ cbn [pl_root p]. apply s_longer_not. apply s_longer_app. split; [by eapply s_longer_trans|by apply Forall_singleton]. }
      rewrite Hat. cbn [rt_opt rt_vec rt_base andb]. rewrite bool_decide_true by done. split; [exact HP|]. exists []. split; [done|by apply Forall_nil].
    - unfold rr_arr. cbn [place_of orb negb]. fold p. set (ln := varname (r :: ps ++ [f_name f]) "len"). set (it := varname (r :: ps ++ [f_name f]) "item").
      assert (longer r ln) as Hln by apply varname_longer. assert (longer r it) as Hit by apply varname_longer.
      assert (r ∉ [(ln, Len)].*1) as Hr. { apply (s_longer_not r [(ln, Len)]). by apply Forall_singleton. }
      assert (PT ((ln, Len) :: env) p = Some (Own (RsType false true (rs_name (f_tname f))))) as Hp by (change ((ln, Len) :: env) with ([(ln, Len)] ++ env); by rewrite (place_skip p [(ln, Len)])).
      unfold r_block. rewrite (rall_arr _ _ _ _ _ Hp) by done. cbn [rall rcheck]. rewrite (has_default_known _ _ Hk). destruct (r_default (f_ty f)); [|rewrite andb_false_r; by intros [? _]].
      rewrite rall_app. rewrite andb_true_r. specialize (Hs it [] ((it, Own (Base (rs_name (f_tname f)))) :: (ln, Len) :: env) false (at_own _ _ false _) ltac:(done)). unfold r_block in Hs.
      destruct (RA _ _) as [env'|]; [|exact Hs]. destruct Hs as [HP (news & -> & Hl)]. rewrite rall_one. cbn [rcheck].
      rewrite find_key_skip, find_key_ext by (by apply s_longer_not).
      change ((it, Own (Base (rs_name (f_tname f)))) :: (ln, Len) :: env) with ([(it, Own (Base (rs_name (f_tname f))))] ++ [(ln, Len)] ++ env). rewrite !(assoc_L (++)), place_skip.
      2:{ cbn [pl_root p]. apply s_longer_not. rewrite !s_longer_app. split; [split; [by eapply s_longer_trans|by apply Forall_singleton]|by apply Forall_singleton]. }
      rewrite Hat. cbn [rt_opt rt_vec rt_base negb andb]. rewrite bool_decide_true by done. split; [exact HP|]. exists [(ln, Len)]. split; [done|by apply Forall_singleton].
    - cbn [orb negb]. rewrite andb_true_r. apply (Hs r (ps ++ [f_name f]) env false Hat). done.
  Qed.
  Lemma r_static t : forall tn, known t tn -> r_says t (rr_ty t tn) tn.
  Proof.
    induction t as [b|e|fs IH] using rtype_ind'; intros tn Hk r ps env ref Hat Href.
    - specialize (Href eq_refl) as ->. destruct Hk as [[Hb' _] _]. cbn [rr_ty all_structs rleaf]. unfold rr_builtin. assert (b = BString \/ b ≠ BString) as [->|Hne] by (destruct b; auto).
      + unfold r_block. cbn [rall rcheck place_of]. set (ln := varname (r :: ps) "len"). assert (longer r ln) as Hln by apply varname_longer.
        change ((ln, Len) :: env) with ([(ln, Len)] ++ env). rewrite place_skip by (apply (s_longer_not r [(ln, Len)]); by apply Forall_singleton). rewrite Hat. cbn [app]. rewrite find_key_ext.
        rewrite (rs_name_prim _ _ Hb'). cbn. split; [done|]. exists [(ln, Len)]. split; [done|by apply Forall_singleton].
      + assert (r_block [RCall (Place r ps) tn] r env (true = true /\ True)) as H; [|by destruct b].
        apply (r_block_when true); [|done]. rewrite rall_one. cbn [rcheck]. rewrite (method_builtin _ _ Hb' Hne), Hat. by rewrite bool_decide_true.
    - specialize (Href eq_refl) as ->. destruct Hk as [(_ & Hi & Hn & _) _]. cbn [rr_ty all_structs rleaf]. unfold rr_enum. apply (r_block_when (bool_decide ("try_from" ∉ names e))); [|tauto].
      rewrite rall_one. cbn [rcheck place_of]. rewrite Hat, Hi, Hn. unfold variants_of. rewrite Hi. cbn [enum_item]. rewrite bool_decide_true by done. rewrite method_repr, (bool_decide_true (Some _ = _)) by done.
      cbn [andb]. unfold names. rewrite List.map_map. done.
    - clear Href.
      assert (forall gs env, (forall f, f ∈ gs -> f ∈ fs) -> at_place env (Place r ps) ref (Base (rs_name tn)) ->
        r_block (rr_fields gs (r :: ps)) r env (forall f, f ∈ gs -> r_local f = true /\ all_structs r_fine (f_ty f))) as H.
      { clear env Hat. pose proof Hk as [(Hnd & Hi & Hn & _) _]. rewrite Hn. induction gs as [|f gs IHg]; intros env Hin Hat.
        - apply (r_block_when true); [done|]. split; [|done]. intros _ f Hf. by apply elem_of_nil in Hf.
        - change (rr_fields (f :: gs) (r :: ps)) with (rr_field f (r :: ps) ++ rr_fields gs (r :: ps)). unfold r_block. rewrite rall_app.
          destruct (known_struct _ _ _ _ f Hk ltac:(apply Hin; by left)) as [Hkf Hao]. rewrite Forall_forall in IH.
          pose proof (r_field f r ps env Hao Hkf (IH f ltac:(apply Hin; by left) _ Hkf)) as Hf. unfold r_block in Hf.
          assert (at_place env (Place r (ps ++ [f_name f])) false (field_rs_type f)) as Hatf by (eapply at_field; [done..|apply Hin; by left]). specialize (Hf Hatf).
          destruct (RA (rr_field f (r :: ps)) env) as [env'|]; [|intros H; apply Hf, H; by left]. destruct Hf as [HP (news & -> & Hl)].
          assert (at_place (news ++ env) (Place r ps) ref (Base tn)) as Hat' by (unfold at_place; rewrite place_skip by (by apply s_longer_not); exact Hat).
          specialize (IHg (news ++ env) ltac:(intros; apply Hin; by right) Hat'). unfold r_block in IHg.
          destruct (RA (rr_fields gs (r :: ps)) (news ++ env)) as [env'|]; [|intros H; apply IHg; intros g Hg; apply H; by right].
          destruct IHg as [HPg (news' & -> & Hl')]. split; [intros g [->|Hg]%elem_of_cons; [done|by apply HPg]|]. exists (news' ++ news). rewrite (assoc_L (++)). split; [done|]. by apply s_longer_app. }
      eapply r_block_iff; [|exact (H fs env (fun f Hf => Hf) Hat)]. rewrite all_structs_struct. cbn [rleaf]. unfold r_fine.
      split; [intros Hf; split; [done|]; split; intros; by apply Hf|]. intros (_ & H1 & H2) f Hf. split; [by apply H1|by apply H2].
  Qed.
End static.

(** ** The declarations *)
Lemma forallb_elem {A} (f : A -> bool) l : forallb f l = true <-> forall x, x ∈ l -> f x = true.
Proof. rewrite forallb_forall. split; intros H x; specialize (H x); rewrite ?elem_of_list_In in *; done. Qed.
Lemma map_fst_pairs {A B C} (f : A -> B) (g : A -> C) l : (List.map (fun x => (f x, g x)) l).*1 = map f l.
Proof. induction l as [|x l IH]; [done|]. cbn. by f_equal. Qed.
Lemma map_snd_pairs {A B C} (f : A -> B) (g : A -> C) l : (List.map (fun x => (f x, g x)) l).*2 = map g l.
Proof. induction l as [|x l IH]; [done|]. cbn. by f_equal. Qed.
Lemma unsigned_repr r : unsigned_bits (repr_prim r) = Some (Z.of_nat (repr_bits r)).
Proof. by destruct r. Qed.
Lemma enum_checks items tn e : good_enum e -> icheck items (enum_item tn e) = true <->
  tn ∉ rust_keywords ++ rust_taken /\ length (e_variants e) < 32 /\ forall v, v ∈ names e -> v ∉ "Error" :: rust_keywords.
Proof.
  intros (vs & r & Hlen & Hnd & Hsm & ->). unfold enum_item, icheck. cbn [e_repr e_variants]. rewrite unsigned_repr, map_fst_pairs, map_snd_pairs.
  assert (map ev_name (imap (fun i v => EnumVariant v i) vs) = vs) as En.
  { clear. assert (forall k, map ev_name (imap (fun i v => EnumVariant v (k + i)) vs) = vs) as H; [|exact (H 0)].
    induction vs as [|v vs IH]; intros k; [done|]. rewrite imap_cons. cbn [map ev_name]. f_equal. rewrite <- (IH (S k)) at 2. f_equal. apply imap_ext. intros. cbn. f_equal. lia. }
  assert (map ev_value (imap (fun i v => EnumVariant v i) vs) = seq 0 (length vs)) as Ev.
  { clear. assert (forall k, map ev_value (imap (fun i v => EnumVariant v (k + i)) vs) = seq k (length vs)) as H; [|exact (H 0)].
    induction vs as [|v vs IH]; intros k; [done|]. rewrite imap_cons. cbn [map ev_value length seq]. f_equal; [lia|]. rewrite <- (IH (S k)). f_equal. apply imap_ext. intros. cbn. f_equal. lia. }
  unfold names. cbn [e_variants]. rewrite En, Ev, imap_length.
  rewrite (bool_decide_true (NoDup vs)) by done. rewrite (bool_decide_true (NoDup (seq _ _))) by apply NoDup_seq.
  set (d := match imap _ vs with [] => _ | _ :: _ => _ end). assert (d ∈ vs) as Hd. { unfold d. destruct vs as [|v vs]; [cbn in Hlen; lia|]. left. }
  rewrite (bool_decide_true (d ∈ vs)) by done.
  set (low := forallb (fun v => _) (List.map _ _)). assert (low = true) as ->.
  { unfold low. apply forallb_elem. intros x (y & -> & Hy)%elem_of_list_fmap. cbn [snd].
    assert (ev_value y ∈ seq 0 (length vs)) as Hv by (rewrite <- Ev; apply elem_of_list_fmap; by exists y). apply elem_of_seq in Hv. apply Z.ltb_lt. destruct Hsm as [Hsm _]. lia. }
  rewrite !andb_true_r, !andb_true_iff. rewrite !bool_decide_eq_true, not_elem_of_app, !forallb_elem.
  assert ((forall x, x ∈ List.map (fun v => (shl1 (ev_value v), ev_name v)) (imap (fun i v => EnumVariant v i) vs) ->
    (0 <=? x.1)%Z && (x.1 <? 2 ^ Z.of_nat (repr_bits r))%Z && bool_decide (x.2 ∈ vs) = true) <-> length vs < 32) as ->.
  { split.
    - intros H. destruct (decide (length vs = 32)) as [E|]; [|lia]. exfalso. destruct (lookup_lt_is_Some_2 vs 31 ltac:(lia)) as [v Hv].
      specialize (H (shl1 31, v)). apply andb_true_iff in H as [H _]; [by vm_compute in H|]. apply elem_of_list_fmap. exists (EnumVariant v 31). split; [done|].
      apply elem_of_list_lookup. exists 31. by rewrite list_lookup_imap, Hv.
    - intros Hlt x (y & -> & Hy)%elem_of_list_fmap. cbn [fst snd].
      assert (ev_value y ∈ seq 0 (length vs)) as Hv by (rewrite <- Ev; apply elem_of_list_fmap; by exists y). apply elem_of_seq in Hv. destruct Hsm as [Hsm _].
      rewrite shl1_pow by lia. assert (ev_name y ∈ vs) as Hyn by (rewrite <- En; apply elem_of_list_fmap; by exists y). rewrite (bool_decide_true (_ ∈ _)) by done. rewrite andb_true_r. apply andb_true_iff.
      split; [apply Z.leb_le, Z.pow_nonneg; lia|]. apply Z.ltb_lt, Z.pow_lt_mono_r; lia. }
  assert (forall x, rust_ident x = true <-> x ∉ rust_keywords) as Hid by (intros x; apply bool_decide_eq_true). setoid_rewrite Hid. split.
  - intros ((((H1 & H2) & H3) & H4) & H5). split; [done|]. split; [done|]. intros v Hv [->|Hk]%elem_of_cons; [done|by apply (H3 v)].
  - intros ((H1 & H2) & H3 & H4). split; [|done]. split; [split; [done|]|].
    + intros v Hv Hk. apply (H4 v Hv). by right.
    + intros Hv. apply (H4 _ Hv). by left.
Qed.

Section result.
  Context iter a r (Hfair : fair_order iter) (Hnb : no_builtin_decl a) (Hr : type_check iter a = Ok r) titer (Ht : fair_types titer).
  Notation m := (rs_module_of titer r).
  Notation items := (rm_items m).
  Notation entry n t := (r_types r !! n = Some (n, t)).
  Record names_fit : Prop := {
    nf_types : forall n t, entry n t -> (forall b, t ≠ TBuiltin b) -> n ∉ rust_keywords ++ rust_taken;
    nf_fields : forall n fs, entry n (TStruct fs) -> NoDup (map f_name fs) /\ forall f, f ∈ fs -> f_name f ∉ rust_keywords;
    nf_enums : forall n e, entry n (TEnum e) -> length (e_variants e) < 32 /\ forall v, v ∈ names e -> v ∉ "Error" :: rust_keywords }.
  Lemma find_entry n t i : entry n t -> item_of (n, (n, t)) = [i] -> find_item n items = Some i.
  Proof. intros Hn Hi. apply (find_item_in _ (n, (n, t))); [by eapply entries_nodup|by eapply entry_in|done]. Qed.
  Lemma item_entry i : i ∈ items -> exists n t, entry n t /\ i ∈ item_of (n, (n, t)).
  Proof.
    cbn [rs_module_of rm_items]. intros (d & Hd & Hi)%elem_of_items. destruct (titer_entry _ _ _ Hfair Hnb Hr titer Ht d Hd) as [E He]. destruct d as [n [n' t]]. cbn in *. subst n'. by exists n, t.
  Qed.
  Lemma fit_prims : names_fit -> forall p, p ∈ rust_prims -> find_item p items = None.
  Proof.
    intros Hf p Hp. apply find_item_none. intros i Hi E. destruct (item_entry i Hi) as (n & t & Hn & Hi'). apply item_of_name in Hi' as [Hi' Hpl]. cbn in Hi'.
    apply (nf_types Hf n t Hn); [intros b ->; done|]. apply elem_of_app. right. unfold rust_taken. apply elem_of_app. left. by rewrite <- Hi', E.
  Qed.
  Lemma fit_leaf : names_fit -> forall n t, entry n t -> known_leaf items (rank r titer) t n.
  Proof.
    intros Hf n t Hn. pose proof (entry_leaf _ _ _ Hfair Hnb Hr _ _ Hn) as Hleaf. destruct t as [b|e|fs]; cbn [known_leaf].
    - split; [done|]. unfold rank. by rewrite Hn.
    - destruct (plain_declared _ _ _ Hfair Hnb Hr _ _ Hn ltac:(done)) as [_ Hni]. split; [done|]. split; [|split; [by apply resolve_none|by eapply rank_in]].
      by eapply find_entry.
    - destruct (plain_declared _ _ _ Hfair Hnb Hr _ _ Hn ltac:(done)) as [_ Hni]. split; [by eapply (nf_fields Hf)|]. split; [by eapply find_entry|]. split; [by apply resolve_none|].
      split; [by eapply rank_in|]. intros f Hin. by eapply rank_field.
  Qed.
  Lemma fit_known : names_fit -> forall n t, entry n t -> known items (rank r titer) t n.
  Proof.
    intros Hf n t Hn. split; [by apply fit_leaf|]. eapply entry_checked; [done..| |exact Hn]. intros k rs f Hk Hin.
    split; [by eapply field_is_ok|]. apply fit_leaf; [done|]. destruct (GenProofs.entry_struct _ _ _ Hfair Hnb Hr _ _ _ Hk Hin) as (_ & _ & _ & _ & _ & _ & _ & E). exact E.
  Qed.
  Lemma finite_known : names_fit -> forall t tn, known items (rank r titer) t tn -> forall fuel, rank r titer tn < fuel -> finite items fuel (rs_name tn) = true.
  Proof.
    intros Hf. induction t as [b|e|fs IH] using rtype_ind'; intros tn Hk fuel Hlt; (destruct fuel as [|fuel]; [lia|]); cbn [finite].
    - destruct Hk as [[Hb _] _]. rewrite (rs_name_prim _ _ Hb), (fit_prims Hf _ (prim_in b)). by apply bool_decide_true, prim_in.
    - destruct Hk as [(_ & Hi & -> & _) _]. by rewrite Hi.
    - pose proof Hk as [(_ & Hi & -> & _ & Hlow) _]. rewrite Hi. cbn [struct_item]. apply forallb_elem. intros x (f & -> & Hin)%elem_of_list_fmap. cbn [snd].
      destruct (known_struct _ _ _ _ f Hk Hin) as [Hkf _]. rewrite (base_name items (rank r titer) _ Hkf). cbn [rt_vec rt_base]. apply orb_true_iff. right.
      rewrite Forall_forall in IH. apply (IH f Hin _ Hkf). specialize (Hlow f Hin). lia.
  Qed.
  Lemma entry_item n t : entry n t -> (forall b, t ≠ TBuiltin b) -> exists i, i ∈ items /\ i = match t with TEnum e => enum_item n e | TStruct fs => struct_item n fs | _ => i end.
  Proof.
    intros Hn Hb. destruct t as [b|e|fs]; [by destruct (Hb b)|exists (enum_item n e)|exists (struct_item n fs)]; (split; [|done]); cbn [rs_module_of rm_items]; apply elem_of_items;
      (eexists; split; [by eapply entry_in|]); by left.
  Qed.
  Lemma items_checked : forallb (icheck items) items = true <-> names_fit.
  Proof.
    rewrite forallb_elem. split.
    - intros H.
      assert (forall n fs, entry n (TStruct fs) -> n ∉ rust_keywords ++ rust_taken /\ NoDup (map f_name fs) /\ forall f, f ∈ fs -> f_name f ∉ rust_keywords) as Hs.
      { intros n fs Hn. destruct (entry_item n _ Hn ltac:(done)) as (i & Hi & ->). apply H in Hi. unfold struct_item, icheck in Hi. rewrite map_fst_pairs, !andb_true_iff in Hi.
        destruct Hi as (((((H1 & H2) & H3) & H4) & _) & _). apply bool_decide_eq_true in H1, H2, H3. rewrite forallb_elem in H4. split; [rewrite not_elem_of_app; by split|]. split; [done|].
        intros f Hf. apply (bool_decide_eq_true (f_name f ∉ rust_keywords)), H4. apply elem_of_list_fmap. by exists f. }
      assert (forall n e, entry n (TEnum e) -> n ∉ rust_keywords ++ rust_taken /\ length (e_variants e) < 32 /\ forall v, v ∈ names e -> v ∉ "Error" :: rust_keywords) as He.
      { intros n e Hn. destruct (entry_item n _ Hn ltac:(done)) as (i & Hi & ->). apply H in Hi. apply enum_checks in Hi; [done|].
        exact (entry_leaf _ _ _ Hfair Hnb Hr _ _ Hn). }
      constructor; [|intros; by apply (Hs n)|intros; by apply (He n)]. intros n t Hn Hb. destruct t; [by destruct (Hb b)|by apply (He n _ Hn)|by apply (Hs n _ Hn)].
    - intros Hf i Hi. destruct (item_entry i Hi) as (n & t & Hn & Hit). destruct t as [b|e|fs]; cbn [item_of] in Hit; [by apply elem_of_nil in Hit|apply elem_of_list_singleton in Hit as ->..].
      + apply (enum_checks items n e); [exact (entry_leaf _ _ _ Hfair Hnb Hr _ _ Hn)|]. split; [by eapply (nf_types Hf)|by eapply (nf_enums Hf)].
      + unfold icheck. rewrite map_fst_pairs, !andb_true_iff, !bool_decide_eq_true, !forallb_elem. pose proof (nf_types Hf n _ Hn ltac:(done)) as Hnt. rewrite not_elem_of_app in Hnt.
        destruct (nf_fields Hf n _ Hn) as [Hnd Hid]. pose proof (fit_known Hf n _ Hn) as Hk. repeat split; try by apply Hnt.
        * apply bool_decide_eq_true. by apply Hnt.
        * done.
        * intros x (f & -> & Hin)%elem_of_list_fmap. apply bool_decide_eq_true. by apply Hid.
        * intros x (f & -> & Hin)%elem_of_list_fmap. cbn [snd]. destruct (known_struct _ _ _ _ f Hk Hin) as [Hkf _]. rewrite (base_name items (rank r titer) _ Hkf). cbn [rt_base].
          destruct Hkf as [Hkl _]. destruct (f_ty f); cbn [known_leaf] in Hkl.
          -- destruct Hkl as [Hb _]. rewrite (rs_name_prim _ _ Hb), (fit_prims Hf _ (prim_in b)). by apply bool_decide_true, prim_in.
          -- destruct Hkl as (_ & Hi' & -> & _). by rewrite Hi'.
          -- destruct Hkl as (_ & Hi' & -> & _). by rewrite Hi'.
        * pose proof Hk as [(_ & _ & Hrn & Hrank & _) _]. pose proof (finite_known Hf _ _ Hk (S (length items)) ltac:(lia)) as Hfin. by rewrite Hrn in Hfin.
  Qed.

  (** *** the schema *)
  Notation ex := (x_name (r_export r)).
  Lemma entry_cases n t : entry n t ->
    (exists b, t = TBuiltin b /\ builtin_of_name n = Some b /\ (forall vs, ~ declares_enum a n vs)) \/
    (exists e vs, t = TEnum e /\ declares_enum a n vs /\ names e = vs /\ length (e_variants e) = length vs /\ n ∉ builtin_names /\ (forall vs', declares_enum a n vs' -> vs' = vs)) \/
    (exists fs, t = TStruct fs /\ n ∉ builtin_names /\ (forall vs, ~ declares_enum a n vs)).
  Proof.
    intros Hn. destruct (type_check_result _ _ _ Hfair Hnb Hr) as (_ & _ & _ & Hent). pose proof (vs_decls _ (result_valid _ _ _ Hfair Hnb Hr)) as Hu.
    destruct (Hent _ _ _ Hn) as [_ [(b & Hb & ->)|[(vs & rp & Hd & _ & ->)|(fs & ds & rs & Hd & _ & _ & ->)]]].
    - left. exists b. split; [done|]. split; [done|]. intros vs Hv. destruct (Hnb n); [by eapply decl_names_elem|]. apply builtin_names_spec. by exists b.
    - right. left. exists (Enum rp (imap (fun i v => EnumVariant v i) vs)), vs. split; [done|]. split; [done|]. split; [|split; [cbn [e_variants]; by rewrite imap_length|]].
      + unfold names. cbn [e_variants]. clear. assert (forall k, map ev_name (imap (fun i v => EnumVariant v (k + i)) vs) = vs) as H; [|exact (H 0)].
        induction vs as [|v vs IH]; intros k; [done|]. rewrite imap_cons. cbn [map ev_name]. f_equal. rewrite <- (IH (S k)) at 2. f_equal. apply imap_ext. intros. cbn. f_equal. lia.
      + split; [apply Hnb; by eapply decl_names_elem|]. intros vs' Hv. pose proof (decl_unique _ _ _ _ Hu Hd Hv) as [=]. done.
    - right. right. exists rs. split; [done|]. split; [apply Hnb; by eapply decl_names_elem|]. intros vs Hv. pose proof (decl_unique _ _ _ _ Hu Hd Hv) as [=].
  Qed.
  Lemma builtin_kinds n b : builtin_of_name n = Some b -> (n = "string" <-> b = BString) /\ (n ∈ number_names <-> b ≠ BString).
  Proof.
    intros Hb. assert (n = match b with Uint8 => "uint8" | Uint16 => "uint16" | Uint32 => "uint32" | Int8 => "int8" | Int16 => "int16" | Int32 => "int32" | Float => "float" | BString => "string" end) as ->.
    { unfold builtin_of_name in Hb. by repeat (case_decide; [by injection Hb as <-|]). }
    unfold number_names. rewrite !elem_of_cons, elem_of_nil. destruct b; split; split; first [done|tauto|intros H; repeat (destruct H as [H|H]; try done)].
  Qed.
  Lemma field_locals refs f x u : field_matches (r_types r) (x, u) f -> f_array f && f_opt f = false ->
    w_local refs f = true /\ r_local f = true <-> rust_field refs a u.
  Proof.
    intros (_ & _ & Ea & Eo & He) Hao. cbn [fst snd] in *. destruct (entry_cases _ _ He) as [(b & Et & Hb & Hno)|[(e & vs & Et & Hd & Hns & _ & Hnb' & Hu)|(fs & Et & Hnb' & Hno)]];
      unfold w_local, r_local; rewrite Et; cbn [rleaf r_default].
    - assert (forall s, u_name u ∈ [s] <-> u_name u = s) as Hs by (intros; apply elem_of_list_singleton).
      assert ((u_name u = "string" <-> b = BString) /\ (u_name u ∈ number_names <-> b ≠ BString)) as [H1 H2].
      { exact (builtin_kinds _ _ Hb). }
      rewrite orb_true_r. cbn [andb]. split.
      + intros [Hw _]. constructor; [| |by intros vs Hv; destruct (Hno vs)].
        * intros Harr Hnum. apply H2 in Hnum. rewrite <- Ea in Harr. rewrite Harr in Hw. by destruct b, refs.
        * intros Hopt Hst. apply H1 in Hst as ->. rewrite <- Eo in Hopt. by rewrite Hopt in Hw.
      + intros [R1 R2 _]. split; [|done]. rewrite <- Ea in R1. rewrite <- Eo in R2. assert (b = BString \/ b ≠ BString) as [->|Hne] by (destruct b; auto).
        * destruct (f_opt f); [|done]. destruct R2; [done|]. by apply H1.
        * specialize (R1). destruct (f_array f); [|by destruct b]. rewrite R1; [|done|by apply H2]. by destruct b.
    - rewrite Hns, negb_true_iff, andb_true_iff, orb_true_iff, !bool_decide_eq_true, negb_true_iff. split.
      + intros (H1 & H2 & H3). constructor.
        * intros _ Hnum. destruct Hnb'. revert Hnum. unfold number_names, builtin_names. rewrite !elem_of_cons. tauto.
        * intros _ Hst. destruct Hnb'. rewrite Hst. apply (bool_decide_unpack _). by vm_compute.
        * intros vs' Hv. rewrite (Hu _ Hv). rewrite <- Ea, <- Eo. split; [done|]. split; [done|]. intros Hopt. destruct H3 as [H3|H3]; [|done]. rewrite Hopt, orb_true_r in H3. done.
      + intros [_ _ R3]. destruct (R3 vs Hd) as (H1 & H2 & H3). rewrite <- Ea in H1. rewrite <- Eo in H3. split; [done|]. split; [done|]. rewrite H1. cbn [orb].
        destruct (f_opt f); [right; by apply H3|by left].
    - rewrite orb_true_r. split; [|done]. intros _. constructor; [| |by intros vs Hv; destruct (Hno vs)].
      + intros _ Hnum. destruct Hnb'. revert Hnum. unfold number_names, builtin_names. rewrite !elem_of_cons. tauto.
      + intros _ Hst. destruct Hnb'. rewrite Hst. apply (bool_decide_unpack _). by vm_compute.
  Qed.
  Lemma entry_needed n : needed a ex n <-> exists t, entry n t.
  Proof.
    destruct (type_check_result _ _ _ Hfair Hnb Hr) as (_ & _ & Hdom & Hent). rewrite <- (Hdom n). split; [|intros (t & H); by eexists].
    intros [[n' t] H]. destruct (Hent _ _ _ H) as [-> _]. by exists t.
  Qed.
  Lemma declared_entry n fs : needed a ex n -> declares_struct a n fs -> exists ds rs, entry n (TStruct rs) /\ ds ≡ₚ fs /\ Forall2 (field_matches (r_types r)) ds rs.
  Proof. intros [t Hn]%entry_needed Hd. destruct (GenNames.entry_fields _ _ _ Hfair Hnb Hr _ _ _ Hn Hd) as (rs & ds & -> & Hp & Hm). by exists ds, rs. Qed.
  Lemma matched_names ds rs : Forall2 (field_matches (r_types r)) ds rs -> map f_name rs = ds.*1.
  Proof. induction 1 as [|d f ds rs [E _] _ IH]; [done|]. cbn. by rewrite E, <- IH. Qed.
  Lemma fit_iff : names_fit <->
    (forall n, needed a ex n -> n ∉ builtin_names -> n ∉ rust_keywords ++ rust_taken) /\
    (forall n fs, needed a ex n -> declares_struct a n fs -> NoDup fs.*1 /\ Forall (fun f => f.1 ∉ rust_keywords) fs) /\
    (forall n vs, needed a ex n -> declares_enum a n vs -> length vs < 32 /\ Forall (fun v => v ∉ "Error" :: rust_keywords) vs).
  Proof.
    destruct (type_check_result _ _ _ Hfair Hnb Hr) as (_ & _ & _ & Hent). split.
    - intros Hf. split; [|split].
      + intros n [t Hn]%entry_needed Hnbn. apply (nf_types Hf n t Hn). intros b ->. apply Hnbn. apply builtin_names_spec. exists b.
        destruct (entry_cases _ _ Hn) as [(b' & [= ->] & Hb & _)|[(? & ? & [=] & _)|(? & [=] & _)]]. done.
      + intros n fs Hn Hd. destruct (declared_entry _ _ Hn Hd) as (ds & rs & He & Hp & Hm). destruct (nf_fields Hf n rs He) as [Hnd Hid]. rewrite (matched_names _ _ Hm) in Hnd.
        rewrite <- Hp. split; [done|]. apply Forall_forall. intros x Hx. assert (x.1 ∈ map f_name rs) as (f & -> & Hin)%elem_of_list_fmap; [|by apply Hid].
        rewrite (matched_names _ _ Hm). apply elem_of_list_fmap. by exists x.
      + intros n vs [t Hn]%entry_needed Hd. destruct (entry_cases _ _ Hn) as [(b' & _ & _ & Hno)|[(e & vs' & -> & Hd' & Hns & Hlen & _ & Hu)|(? & _ & _ & Hno)]]; [by destruct (Hno vs)| |by destruct (Hno vs)].
        pose proof (Hu _ Hd) as ->. destruct (nf_enums Hf n e Hn) as [H1 H2]. rewrite Hlen in H1. rewrite Hns in H2. split; [done|]. by apply Forall_forall.
    - intros (H1 & H2 & H3). constructor.
      + intros n t Hn Hb. apply H1; [apply entry_needed; by exists t|]. destruct (entry_cases _ _ Hn) as [(b' & -> & _)|[(? & ? & _ & _ & _ & _ & H & _)|(? & _ & H & _)]]; [by destruct (Hb b')|done..].
      + intros n rs Hn. destruct (Hent _ _ _ Hn) as [_ [(? & _ & [=])|[(? & ? & _ & _ & [=])|(fs & ds & rs' & Hd & Hp & Hm & [= <-])]]].
        destruct (H2 n fs ltac:(apply entry_needed; by eexists) Hd) as [Hnd Hid]. rewrite (matched_names _ _ Hm). rewrite <- Hp in Hnd, Hid. split; [done|].
        intros f Hin. assert (f_name f ∈ ds.*1) as (x & -> & Hx)%elem_of_list_fmap. { rewrite <- (matched_names _ _ Hm). apply elem_of_list_fmap. by exists f. }
        rewrite Forall_forall in Hid. by apply Hid.
      + intros n e Hn. destruct (entry_cases _ _ Hn) as [(b' & [=] & _)|[(e' & vs & [= <-] & Hd & Hns & Hlen & _)|(? & [=] & _)]].
        destruct (H3 n vs ltac:(apply entry_needed; by eexists) Hd) as [Hl Hv]. rewrite Hlen, Hns. split; [done|]. by rewrite Forall_forall in Hv.
  Qed.
  Lemma fine_iff refs : all_structs (w_fine refs) (TStruct (x_fields (r_export r))) /\ all_structs r_fine (TStruct (x_fields (r_export r))) <->
    forall n fs, needed a ex n -> declares_struct a n fs -> Forall (fun f => rust_field refs a f.2) fs.
  Proof.
    assert (forall (P Q : list sfield -> Prop) t, all_structs P t /\ all_structs Q t <-> all_structs (fun fs => P fs /\ Q fs) t) as Hand.
    { intros P Q. induction t as [b|e|fs IH] using rtype_ind'; [done..|]. rewrite !all_structs_struct. rewrite Forall_forall in IH. split.
      - intros [[H1 H2] [H3 H4]]. split; [done|]. intros f Hf. apply (IH f Hf). split; [by apply H2|by apply H4].
      - intros [[H1 H2] H3]. split; (split; [done|]); intros f Hf; by apply (IH f Hf), H3. }
    rewrite Hand. apply (structs_needed _ _ _ Hfair Hnb Hr). intros n fs ds rs Hd Hp Hm.
    pose proof (vs_optarr _ (result_valid _ _ _ Hfair Hnb Hr)) as Hoa.
    assert (forall d f, d ∈ fs -> field_matches (r_types r) d f -> (w_local refs f = true /\ r_local f = true <-> rust_field refs a d.2)) as Hloc.
    { intros [x u] f Hin Hfm. apply (field_locals refs f x u Hfm). destruct Hfm as (_ & _ & Ea & Eo & _). cbn [snd] in *. rewrite Ea, Eo. destruct (u_array u) eqn:E1, (u_opt u) eqn:E2; try done.
      by destruct (Hoa _ _ _ _ Hd Hin). }
    rewrite Forall_forall. split.
    - intros [Hw Hrd] d Hin. pose proof Hin as Hin'. rewrite <- Hp in Hin'. apply elem_of_list_lookup in Hin' as [i Hi]. destruct (Forall2_lookup_l _ _ _ _ _ Hm Hi) as (f & Hfi & Hfm).
      apply (Hloc d f Hin Hfm). apply elem_of_list_lookup_2 in Hfi. split; [by apply Hw|by apply Hrd].
    - intros H. assert (forall f, f ∈ rs -> w_local refs f = true /\ r_local f = true) as Hall; [|split; intros f Hf; by apply Hall].
      intros f [i Hi]%elem_of_list_lookup. destruct (Forall2_lookup_r _ _ _ _ _ Hm Hi) as (d & Hdi & Hfm). apply elem_of_list_lookup_2 in Hdi. rewrite Hp in Hdi. by apply (Hloc d f Hdi Hfm), H.
  Qed.
  Lemma module_compiles refs : compiles refs m = true <-> rust_ready refs a ex.
  Proof.
    unfold compiles. rewrite !andb_true_iff, items_checked. destruct (type_check_result _ _ _ Hfair Hnb Hr) as (_ & Hexp & _ & _).
    assert (names_fit -> (forallb (fun s => wcheck items refs s [("input", Ref (Base ex))]) (rm_write m) = true <-> all_structs (w_fine refs) (TStruct (x_fields (r_export r)))) /\
      ((match rall items (rm_read m) [("output", Ref (Base ex))] with Some _ => true | None => false end) = true <-> all_structs r_fine (TStruct (x_fields (r_export r))))) as Hbody.
    { intros Hf. pose proof (fit_known Hf _ _ Hexp) as Hk. pose proof Hk as [(_ & _ & Hrn & _) _]. split.
      - change (rm_write m) with (rw_ty (TStruct (x_fields (r_export r))) ex ["input"]).
        rewrite (w_static items (rank r titer) refs (fit_prims Hf) _ _ Hk "input" [] _ true); [cbn [wleaf]; tauto| |done]. rewrite Hrn. by apply (at_own items [] "input" true).
      - change (rm_read m) with (rr_ty (TStruct (x_fields (r_export r))) ex ["output"]).
        assert (at_place items [("output", Ref (Base ex))] (Place "output" []) true (Base (rs_name ex))) as Hat. { rewrite Hrn. by apply (at_own items [] "output" true). }
        pose proof (r_static items (rank r titer) (fit_prims Hf) _ _ Hk "output" [] _ true Hat ltac:(done)) as H. unfold r_block in H.
        cbn [rleaf] in H. destruct (rall _ _ _); [split; [intros _; by apply H|done]|]. split; [done|]. intros H'. by destruct H. }
    change (rm_type m) with ex. rewrite (find_entry _ _ _ Hexp eq_refl), bool_decide_eq_true. split.
    - intros ((((_ & Hf) & _) & Hw) & Hrd). destruct (Hbody Hf) as [Hb1 Hb2]. apply Hb1 in Hw. apply Hb2 in Hrd. pose proof (proj1 (fine_iff refs) (conj Hw Hrd)) as Hfine.
      apply fit_iff in Hf as (H1 & H2 & H3). constructor; [done| |done]. intros n fs Hn Hd. destruct (H2 n fs Hn Hd) as [H4 H5]. split; [done|]. apply Forall_and. split; [done|by eapply Hfine].
    - intros [H1 H2 H3]. assert (names_fit) as Hf.
      { apply fit_iff. split; [done|]. split; [|done]. intros n fs Hn Hd. destruct (H2 n fs Hn Hd) as [H4 [H5 _]%Forall_and]. done. }
      destruct (Hbody Hf) as [Hb1 Hb2]. assert (all_structs (w_fine refs) (TStruct (x_fields (r_export r))) /\ all_structs r_fine (TStruct (x_fields (r_export r)))) as [Hw Hrd].
      { apply fine_iff. intros n fs Hn Hd. destruct (H2 n fs Hn Hd) as [_ [_ H5]%Forall_and]. done. }
      split; [|by apply Hb2]. split; [|by apply Hb1]. split; [|done]. split; [|exact Hf]. by eapply module_nodup.
  Qed.
End result.

Lemma rust_compiles a refs : for_rust a (fun m t => compiles refs m = true <-> rust_ready refs a (rm_type m)).
Proof. apply for_rust_intro. intros iter r titer Hf Hn Hr Ht. by eapply module_compiles. Qed.
