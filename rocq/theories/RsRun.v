(** The emitted Rust against a decoder and the wire format: variables, [write]. *)
From Verif Require Export WireProofs RsSpec.
Export RsSem RsSpec.

(** ** Variables *)
Lemma find_key_skip {A} x (news e : list (string * A)) : x ∉ news.*1 -> find_key x (news ++ e) = find_key x e.
Proof.
  induction news as [|[y v] news IH]; intros H; [done|]. cbn [app find_key]. rewrite fmap_cons, not_elem_of_cons in H.
  destruct H as [H1 H2]. cbn [fst] in H1. rewrite decide_False by congruence. by apply IH.
Qed.
Lemma set_key_skip {A} x (w : A) news e : x ∉ news.*1 -> set_key x w (news ++ e) = match set_key x w e with Some e => Some (news ++ e) | None => None end.
Proof.
  induction news as [|[y v] news IH]; intros H; [by cbn; destruct (set_key x w e)|]. cbn [app set_key]. rewrite fmap_cons, not_elem_of_cons in H.
  destruct H as [H1 H2]. cbn [fst] in H1. rewrite decide_False by congruence. rewrite IH by done. by destruct (set_key x w e).
Qed.
Lemma set_key_some {A} x (v w : A) e : find_key x e = Some v -> exists e', set_key x w e = Some e'.
Proof.
  induction e as [|[y u] e IH]; [done|]. cbn [find_key set_key]. case_decide; [by eexists|]. intros [e' ->]%IH. by eexists.
Qed.
Lemma set_key_find {A} x (w : A) e e' : set_key x w e = Some e' -> find_key x e' = Some w.
Proof.
  revert e'. induction e as [|[y u] e IH]; intros e'; [done|]. cbn [set_key]. case_decide.
  - intros [= <-]. cbn [find_key]. by rewrite decide_True.
  - destruct (set_key x w e); [|done]. intros [= <-]. cbn [find_key]. rewrite decide_False by done. by apply IH.
Qed.
Lemma set_key_set {A} x (w w' : A) e e' : set_key x w e = Some e' -> set_key x w' e' = set_key x w' e.
Proof.
  revert e'. induction e as [|[y u] e IH]; intros e'; [done|]. cbn [set_key]. case_decide.
  - intros [= <-]. cbn [set_key]. by rewrite decide_True.
  - destruct (set_key x w e); [|done]. intros [= <-]. cbn [set_key]. rewrite decide_False by done. by rewrite (IH _ eq_refl).
Qed.
Lemma set_key_length {A} x (w : A) e e' : set_key x w e = Some e' -> length e' = length e.
Proof.
  revert e'. induction e as [|[y u] e IH]; intros e'; [done|]. cbn [set_key]. case_decide; [by intros [= <-]|].
  destruct (set_key x w e); [|done]. intros [= <-]. cbn. by rewrite (IH _ eq_refl).
Qed.
Lemma find_key_mid {A} x (v : A) l l' : x ∉ l.*1 -> find_key x (l ++ (x, v) :: l') = Some v.
Proof. intros H. rewrite find_key_skip by done. cbn. by rewrite decide_True. Qed.
Lemma set_key_mid {A} x (v w : A) l l' : x ∉ l.*1 -> set_key x w (l ++ (x, v) :: l') = Some (l ++ (x, w) :: l').
Proof. intros H. rewrite set_key_skip by done. cbn. by rewrite decide_True. Qed.

(** ** Places *)
Lemma set_path_some v ps u w : get_path v ps = Some u -> exists v', set_path v ps w = Some v'.
Proof.
  revert v. induction ps as [|f ps IH]; intros v; [by eexists|]. destruct v; try done. cbn [get_path set_path].
  destruct (find_key f fs) as [x|] eqn:E; [|done]. intros [v' ->]%IH. destruct (set_key_some f _ v' _ E) as [e' ->]. by eexists.
Qed.
Lemma get_set_path v ps w v' : set_path v ps w = Some v' -> get_path v' ps = Some w.
Proof.
  revert v v'. induction ps as [|f ps IH]; intros v v'; [by intros [= <-]|]. destruct v; try done. cbn [set_path].
  destruct (find_key f fs) as [x|] eqn:E; [|done]. destruct (set_path x ps w) as [y|] eqn:E1; [|done].
  destruct (set_key f y fs) as [fs'|] eqn:E2; [|done]. intros [= <-]. cbn [get_path]. rewrite (set_key_find _ _ _ _ E2). by apply (IH x).
Qed.
Lemma set_set_path v ps w w' v' : set_path v ps w = Some v' -> set_path v' ps w' = set_path v ps w'.
Proof.
  revert v v'. induction ps as [|f ps IH]; intros v v'; [done|]. destruct v; try done. cbn [set_path].
  destruct (find_key f fs) as [x|] eqn:E; [|done]. destruct (set_path x ps w) as [y|] eqn:E1; [|done].
  destruct (set_key f y fs) as [fs'|] eqn:E2; [|done]. intros [= <-]. cbn [set_path]. rewrite (set_key_find _ _ _ _ E2), (IH x y) by done.
  destruct (set_path x ps w'); [|done]. by rewrite (set_key_set _ _ _ _ _ E2).
Qed.
Lemma get_path_snoc v ps f : get_path v (ps ++ [f]) = match get_path v ps with Some (RRec xs) => find_key f xs | _ => None end.
Proof.
  revert v. induction ps as [|g ps IH]; intros v; cbn [app get_path].
  - destruct v; try done. by destruct (find_key f fs).
  - destruct v; try done. destruct (find_key g fs); [apply IH|done].
Qed.
Lemma set_path_snoc v ps f xs w xs' : get_path v ps = Some (RRec xs) -> set_key f w xs = Some xs' -> (exists u, find_key f xs = Some u) ->
  set_path v (ps ++ [f]) w = set_path v ps (RRec xs').
Proof.
  intros Hg Hs [u Hu]. revert v Hg. induction ps as [|g ps IH]; intros v; cbn [app get_path set_path].
  - intros [= ->]. by rewrite Hu, Hs.
  - destruct v; try done. destruct (find_key g fs) as [x|]; [|done]. intros H. by rewrite (IH x H).
Qed.

Lemma get_place_snoc r ps f env : get_place (Place r (ps ++ [f])) env = match get_place (Place r ps) env with Some (RRec xs) => find_key f xs | _ => None end.
Proof. unfold get_place. cbn [pl_root pl_path]. destruct (find_key r env); [apply get_path_snoc|done]. Qed.
Lemma set_place_some p env u w : get_place p env = Some u -> exists env', set_place p w env = Some env'.
Proof.
  unfold get_place, set_place. destruct (find_key (pl_root p) env) as [v|] eqn:E; [|done]. intros [v' ->]%(set_path_some _ _ _ w).
  by eapply set_key_some.
Qed.
Lemma get_set_place p env w env' : set_place p w env = Some env' -> get_place p env' = Some w.
Proof.
  unfold get_place, set_place. destruct (find_key (pl_root p) env) as [v|] eqn:E; [|done]. destruct (set_path v (pl_path p) w) as [v'|] eqn:E1; [|done].
  intros H%set_key_find. rewrite H. by eapply get_set_path.
Qed.
Lemma set_set_place p env w w' env' : set_place p w env = Some env' -> set_place p w' env' = set_place p w' env.
Proof.
  unfold set_place. destruct (find_key (pl_root p) env) as [v|] eqn:E; [|done]. destruct (set_path v (pl_path p) w) as [v'|] eqn:E1; [|done].
  intros H. rewrite (set_key_find _ _ _ _ H), (set_set_path _ _ _ _ _ E1). destruct (set_path v (pl_path p) w'); [|done]. by eapply set_key_set.
Qed.
Lemma set_place_snoc r ps f env xs w xs' u : get_place (Place r ps) env = Some (RRec xs) -> set_key f w xs = Some xs' -> find_key f xs = Some u ->
  set_place (Place r (ps ++ [f])) w env = set_place (Place r ps) (RRec xs') env.
Proof.
  unfold get_place, set_place. cbn [pl_root pl_path]. destruct (find_key r env) as [v|]; [|done]. intros Hg Hs Hu. by rewrite (set_path_snoc _ _ _ _ _ _ Hg Hs (ex_intro _ _ Hu)).
Qed.
Lemma set_place_length p env w env' : set_place p w env = Some env' -> length env' = length env.
Proof.
  unfold set_place. destruct (find_key (pl_root p) env) as [v|] eqn:E; [|done]. destruct (set_path v (pl_path p) w) as [v'|] eqn:E1; [|done].
  apply set_key_length.
Qed.
Lemma get_place_skip p news env : pl_root p ∉ news.*1 -> get_place p (news ++ env) = get_place p env.
Proof. intros H. unfold get_place. by rewrite find_key_skip. Qed.
Lemma set_place_skip p w news env : pl_root p ∉ news.*1 -> set_place p w (news ++ env) = match set_place p w env with Some e => Some (news ++ e) | None => None end.
Proof.
  intros H. unfold set_place. rewrite find_key_skip by done. destruct (find_key (pl_root p) env); [|done]. destruct (set_path _ _ _); [|done].
  by apply set_key_skip.
Qed.

(** fields of structs, by position *)
Section fields.
  Context (str_ok : rstr -> Prop).
  Definition stands_field (f : sfield) (gx : string * rval) (hv : string * value) : Prop :=
    gx.1 = f_name f /\ hv.1 = f_name f /\ stands_wrapped (f_array f) (f_opt f) (stands str_ok (f_ty f) (f_tname f)) gx.2 hv.2.
  Fixpoint stands_fields (fs : list sfield) (xs : list (string * rval)) (vs : list (string * value)) : Prop :=
    match fs, xs, vs with
    | [], [], [] => True
    | f :: fs, gx :: xs, hv :: vs => stands_field f gx hv /\ stands_fields fs xs vs
    | _, _, _ => False
    end.
  Lemma stands_struct fs tn x v : stands str_ok (TStruct fs) tn x v <-> exists xs vs, x = RRec xs /\ v = VRec vs /\ stands_fields fs xs vs.
  Proof.
    cbn [stands]. apply exist_proper. intros xs. apply exist_proper. intros vs. apply and_iff_compat_l, and_iff_compat_l.
    revert xs vs. induction fs as [|f fs IH]; intros [|[g y] xs] [|[h w] vs]; try done. cbn [stands_fields]. rewrite <- IH. unfold stands_field. cbn [fst snd]. tauto.
  Qed.
  Lemma stands_fields_keys fs xs vs : stands_fields fs xs vs -> xs.*1 = map f_name fs.
  Proof.
    revert xs vs. induction fs as [|f fs IH]; intros [|[g y] xs] [|[h w] vs]; try done. intros [(H & _) H2]. cbn [fmap list_fmap map fst] in *. f_equal; [done|]. by eapply IH.
  Qed.
End fields.

(** ** What the code needs to know of the items *)
Definition enum_item (tn : string) (e : enum) : rs_item :=
  IEnum tn (repr_prim (e_repr e)) (List.map (fun v => (ev_name v, ev_value v)) (e_variants e))
    (match e_variants e with [] => "" | v :: _ => ev_name v end) (List.map (fun v => (shl1 (ev_value v), ev_name v)) (e_variants e)).
Definition struct_item (tn : string) (fs : list sfield) : rs_item := IStruct tn (List.map (fun f => (f_name f, field_rs_type f)) fs).
Section items.
  Context (items : list rs_item) (rank : string -> nat).
  Definition known_leaf (t : rtype) (tn : string) : Prop :=
    match t with
    | TBuiltin b => builtin_of_name tn = Some b /\ rank tn = 0
    | TEnum e => good_enum e /\ find_item tn items = Some (enum_item tn e) /\ rs_name tn = tn /\ 0 < rank tn <= length items
    | TStruct fs => NoDup (map f_name fs) /\ find_item tn items = Some (struct_item tn fs) /\ rs_name tn = tn /\
        0 < rank tn <= length items /\ forall f, f ∈ fs -> rank (f_tname f) < rank tn
    end.
  Definition known_field (f : sfield) : Prop := f_array f && f_opt f = false /\ known_leaf (f_ty f) (f_tname f).
  Definition known (t : rtype) (tn : string) : Prop := known_leaf t tn /\ all_fields known_field t.
  Lemma known_struct fs tn f : known (TStruct fs) tn -> f ∈ fs -> known (f_ty f) (f_tname f) /\ f_array f && f_opt f = false.
  Proof. intros [_ H] Hf. rewrite all_fields_struct in H. destruct (H f Hf) as [[H1 H2] H3]. by repeat split. Qed.

  Lemma kind_of_builtin b tn : builtin_of_name tn = Some b -> kind_of tn = builtin_kind b.
  Proof.
    unfold builtin_of_name. repeat (case_decide; [subst; by intros [= <-]|]). done.
  Qed.
  Lemma kind_of_repr r : kind_of (repr_name r) = Some (repr_kind r).
  Proof. by destruct r. Qed.

  (** *** write *)
  Context (lib : rs_lib) (str_ok : rstr -> Prop).
  Notation WB := (wblock lib items).
  Notation W := (wire (lb_enc lib) (lb_encs lib)).
  Lemma wblock_app a b env : WB (a ++ b) env = match WB a env, WB b env with Some x, Some y => Some (x ++ y) | _, _ => None end.
  Proof.
    induction a as [|s a IH]; cbn [app wblock]; [by destruct (WB b env)|]. rewrite IH. destruct (wrun lib items s env); [|done].
    destruct (WB a env); [|done]. destruct (WB b env); [|done]. by rewrite (assoc_L (++)).
  Qed.
  Lemma wrun_for x p b env : wrun lib items (WFor x p b) env =
    match get_place p env with
    | Some (RVec l) => (fix each (l : list rval) : option (list byte) :=
        match l with
        | [] => Some []
        | v :: l => match WB b ((x, v) :: env), each l with Some a, Some c => Some (a ++ c) | _, _ => None end
        end) l
    | _ => None
    end.
  Proof. reflexivity. Qed.
  Lemma wrun_match r p n x b env : wrun lib items (WMatch r p n x b) env =
    match get_place p env with
    | Some (ROpt None) => Some (lb_enc lib KU8 (NInt (Z.of_nat n)))
    | Some (ROpt (Some v)) => WB b ((x, v) :: env)
    | _ => None
    end.
  Proof. reflexivity. Qed.

  Lemma enum_value_bounds e x : good_enum e -> x ∈ e_variants e -> (0 < 2 ^ Z.of_nat (ev_value x) < 2 ^ Z.of_nat (repr_bits (e_repr e)))%Z.
  Proof.
    intros (n & Hn & HL & Hb & _ & _ & Hx)%good_enum_bounds Hin. apply Hx in Hin as (i & v & -> & Hi & _). cbn [ev_value].
    split; [apply Z.pow_pos_nonneg; lia|apply Z.pow_lt_mono_r; lia].
  Qed.
  Lemma good_enum_find e x : good_enum e -> x ∈ e_variants e -> find_key (ev_name x) (List.map (fun v => (ev_name v, ev_value v)) (e_variants e)) = Some (ev_value x).
  Proof.
    intros (vs & r & Hlen & Hnd & _ & ->) Hx. cbn [e_variants] in *. apply elem_of_list_lookup in Hx as [i Hi].
    rewrite list_lookup_imap in Hi. destruct (vs !! i) as [v|] eqn:E; [|done]. injection Hi as <-. cbn [ev_name ev_value].
    assert (forall k, find_key v (List.map (fun v => (ev_name v, ev_value v)) (imap (fun i v => EnumVariant v (k + i)) vs)) = Some (k + i)) as H; [|exact (H 0)].
    clear Hlen r. revert i E. induction Hnd as [|u vs Hu Hnd IH]; intros i E k; [done|].
    rewrite imap_cons. cbn [List.map find_key ev_name ev_value]. destruct i as [|i]; [injection E as ->; rewrite decide_True by done; f_equal; lia|].
    rewrite decide_False; [|intros ->; apply Hu; by eapply elem_of_list_lookup_2].
    specialize (IH i E (S k)). rewrite Nat.add_succ_r. cbn [Nat.add] in IH. rewrite <- IH. do 2 f_equal. apply imap_ext. intros. cbn. f_equal. lia.
  Qed.

  Lemma w_wrapped (P : rval -> value -> Prop) E body (f : sfield) r ps env x v :
    f_array f && f_opt f = false ->
    (forall r ps env x v, get_place (Place r ps) env = Some x -> P x v -> WB (body (r :: ps)) env = Some (E v) /\ v ≠ VNone) ->
    get_place (Place r ps) env = Some x -> stands_wrapped (f_array f) (f_opt f) P x v -> forall by_ref,
    WB (rw_wrap (f_array f) (f_opt f) by_ref body (r :: ps)) env = Some (wire_wrapped (lb_enc lib) (f_array f) (f_opt f) E v).
  Proof.
    intros Hao HP Hg Hs br. unfold rw_wrap, wire_wrapped. destruct (f_array f), (f_opt f); try done.
    - destruct Hs as (l & l' & -> & -> & Hlen & HF). unfold rw_arr. cbn [wblock place_of]. rewrite wrun_for. cbn [wrun]. rewrite Hg. cbn [length_of].
      rewrite Z.mod_small by lia. unfold count. rewrite <- (Forall2_length _ _ _ HF).
      match goal with |- match ?E' with _ => _ end = _ => assert (E' = Some (concat (map E l') ++ [])) as ->; [|by rewrite app_nil_r] end.
      rewrite app_nil_r. clear Hlen Hg.
      match goal with |- match ?E' with _ => _ end = _ => assert (E' = Some (concat (map E l'))) as ->; [|by rewrite app_nil_r] end.
      induction HF as [|y w l l' Hy HF IH]; [done|]. destruct (HP (varname (r :: ps) "item") [] ((varname (r :: ps) "item", y) :: env) y w) as [HW _]; [|done|].
      { unfold get_place. cbn [pl_root find_key]. by rewrite decide_True. }
      rewrite HW, IH. done.
    - unfold rw_opt. cbn [wblock place_of]. rewrite wrun_match, Hg. destruct Hs as [[-> ->]|(y & -> & Hy)]; [by rewrite app_nil_r|]. cbn [stands_items] in Hy.
      destruct (HP (bindname (r :: ps)) [] ((bindname (r :: ps), y) :: env) y v) as [HW Hv]; [|done|].
      { unfold get_place. cbn [pl_root find_key]. by rewrite decide_True. }
      cbn [wblock wrun]. rewrite HW. rewrite app_nil_r. by destruct v.
    - by destruct (HP r ps env x v Hg Hs).
  Qed.

  Lemma w_ty t : forall tn, known t tn -> forall r ps env x v, get_place (Place r ps) env = Some x -> stands str_ok t tn x v ->
    WB (rw_ty t tn (r :: ps)) env = Some (W t v) /\ v ≠ VNone.
  Proof.
    induction t as [b|e|fs IH] using rtype_ind'; intros tn Hk r ps env x v Hg Hs.
    - destruct Hk as [[Hb _] _]. pose proof (kind_of_builtin _ _ Hb) as Hkd. cbn [stands] in Hs. cbn [rw_ty].
      destruct (builtin_kind b) as [k|] eqn:Ek.
      + destruct Hs as (n & -> & -> & Hn). split; [|done]. unfold rw_builtin.
        assert (WB [WCall tn (Place r ps)] env = Some (W (TBuiltin b) (VNum n))) as H.
        { cbn [wblock wrun wire]. by rewrite Hkd, Hg, Ek, app_nil_r. }
        destruct b; done.
      + destruct Hs as (s & -> & -> & Hl & _). split; [|done]. assert (b = BString) as -> by (by destruct b). cbn [rw_builtin wblock wrun place_of].
        rewrite Hg. cbn [length_of]. rewrite Z.mod_small by lia. cbn [wire]. by rewrite app_nil_r.
    - destruct Hk as [(He & Hf & _) _]. destruct Hs as (y & Hy & -> & ->). split; [|done]. cbn [rw_ty]. unfold rw_enum. cbn [place_of wblock wrun].
      rewrite kind_of_repr, Hg. unfold discriminant. rewrite Hf. unfold enum_item. rewrite (good_enum_find _ _ He Hy).
      destruct (enum_value_bounds _ _ He Hy) as [B1 B2]. cbn [wire].
      assert (cast_to (repr_prim (e_repr e)) (2 ^ Z.of_nat (ev_value y)) = Some (2 ^ Z.of_nat (ev_value y))%Z) as ->; [|by rewrite app_nil_r].
      destruct (e_repr e); unfold cast_to; cbn [repr_prim repr_bits] in *; repeat (rewrite decide_False by done || rewrite decide_True by done); by rewrite Z.mod_small by lia.
    - apply stands_struct in Hs as (xs & vs & -> & -> & Hs). split; [|done].
      pose proof (fun f Hf => known_struct fs tn f Hk Hf) as Hkf. destruct Hk as [[Hnd _] _].
      change (rw_ty (TStruct fs) tn (r :: ps)) with (List.concat (List.map (fun f => rw_wrap (f_array f) (f_opt f) (is_struct (f_ty f)) (rw_ty (f_ty f) (f_tname f)) (r :: (ps ++ [f_name f]))) fs)).
      assert (forall fs0 xs0 vs0 before, Forall (fun f => f ∈ fs) fs0 -> xs = before ++ xs0 -> NoDup xs.*1 -> stands_fields str_ok fs0 xs0 vs0 ->
        WB (List.concat (List.map (fun f => rw_wrap (f_array f) (f_opt f) (is_struct (f_ty f)) (rw_ty (f_ty f) (f_tname f)) (r :: (ps ++ [f_name f]))) fs0)) env
        = Some (W (TStruct fs0) (VRec vs0))) as HM; [|apply (HM fs xs vs []); [by apply Forall_forall|done|by rewrite (stands_fields_keys _ _ _ _ Hs)|done]].
      rewrite Forall_forall in IH.
      intros fs0. induction fs0 as [|f fs0 IH0]; intros [|[g y] xs0] [|[h w] vs0] before Hin E HN Hst; try done.
      apply Forall_cons in Hin as [Hf Hin]. destruct Hst as [(E1 & E2 & Hw) Hst]. cbn [fst snd] in E1, E2, Hw. subst g h.
      cbn [List.map List.concat]. rewrite wblock_app. destruct (Hkf f Hf) as [Hkf1 Hao].
      rewrite (w_wrapped (stands str_ok (f_ty f) (f_tname f)) (W (f_ty f)) _ f r (ps ++ [f_name f]) env y w Hao).
      + rewrite (IH0 xs0 vs0 (before ++ [(f_name f, y)])); [done|done|by rewrite <- (assoc_L (++))|done|done].
      + intros r' ps' env' x' v' Hg' Hs'. by apply (IH f Hf (f_tname f) Hkf1 r' ps' env' x' v').
      + rewrite get_place_snoc, Hg, E. apply find_key_mid. rewrite E, fmap_app in HN. apply NoDup_app in HN as (_ & HN & _).
        intros Hx. apply (HN _ Hx). rewrite fmap_cons. by left.
      + done.
  Qed.
End items.
