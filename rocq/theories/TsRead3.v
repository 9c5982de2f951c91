(** The read simulation: arrays, structs, whole classes. *)
From Verif Require Export TsRead2.

Lemma len_item st s : varname st "len" ≠ varname st "item" +:+ s.
Proof.
  unfold varname. rewrite !sapp_assoc. intros H%sapp_inj_l. change ("_" +:+ ?x) with (String "_" x) in H. injection H as H.
  change ("item" +:+ s) with (String "i" ("tem" +:+ s)) in H. discriminate H.
Qed.
Lemma len_index st : varname st "len" ≠ varname st "index".
Proof. unfold varname. intros H%sapp_inj_l. change ("_" +:+ ?x) with (String "_" x) in H. discriminate H. Qed.

Section read.
  Context (rt : runtime) (str_ok : jstr -> Prop) (Hrt : rt_ok rt str_ok).
  Notation fills := (fills rt).
  Notation fills_var := (fills_var rt).

  Lemma arr_fills i p d D : sticky d -> (forall b x, x ∈ lets (p [b]) -> ext b x) -> fills_var i p d D -> fills (r_arr i p) (dec_arr rt d) D.
  Proof.
    intros Hst Hlets Hp r f M fr E o pr props HE Hr Ho Hs. unfold dec_arr, r_arr.
    destruct (read_num rt KU32 (m_rd M)) as [n r1] eqn:Hrd. destruct (read_u32 rt str_ok Hrt _ _ _ Hrd) as [Hn Hz]. set (z := int_of n) in *.
    set (L := Z.to_nat z). set (st := [r; f]). set (len := varname st "len"). set (idx := varname st "index"). set (it := varname st "item").
    assert (ext r len) as Elen by apply varname_ext'. assert (ext r idx) as Eidx by apply varname_ext'. assert (ext r it) as Eit by apply varname_ext'.
    set (fr1 := <[len := Some (JNum n)]> fr). set (a := length (m_heap M)).
    assert (o < a) as Hoa by (by eapply lookup_lt_Some).
    set (props2 := put f (JLoc a) props). set (M1 := Mach (m_heap M) (fr1 :: E) r1 (m_out M)).
    assert (exec_simple rt (Let false len (ERead "uint32")) M = Done M1) as H1.
    { cbn [exec_simple eval]. change (kind_of "uint32") with (Some KU32). cbv beta iota. rewrite Hrd. cbn [obind m_env with_rd]. by rewrite HE. }
    assert (lookup_var r (fr1 :: E) = Done (JLoc o)) as Hr1.
    { rewrite (lookup_same r fr); [done| |apply ext_self]. by apply same_insert. }
    set (h1 := m_heap M ++ [OArr (repeat JUndef L)]). set (h2 := <[o := OPlain pr props2]> h1).
    assert (exec_simple rt (Assign (path st) (ENewArr (EVar len))) M1 = Done (Mach h2 (fr1 :: E) r1 (m_out M))) as H2.
    { eapply (assign_field rt r f _ M1 (Mach h1 (fr1 :: E) r1 (m_out M)) o pr props (JLoc a)); try done.
      - cbn [eval M1 m_env lookup_var]. unfold fr1 at 1. rewrite lookup_insert. cbn [obind]. rewrite Hn at 1. by rewrite decide_True.
      - cbn [m_heap]. unfold h1. by rewrite lookup_app_l. }
    set (bl := SSimple (Let true it (if i then EObj else EUndef)) :: p [it] ++ [SSimple (Assign (EElem (path st) (EVar idx)) (EVar it))]).
    assert (forall x, ~ (x = it \/ ext it x) -> hoist bl !! x = None) as Hho.
    { intros x Hx. apply hoist_none. unfold bl. rewrite lets_cons_simple, lets_app. intros [H|H]%elem_of_app; [|apply elem_of_app in H as [H|H]].
      - apply Hx. left. by apply elem_of_list_singleton in H.
      - apply Hx. right. by eapply Hlets.
      - by apply elem_of_nil in H. }
    assert (hoist bl !! r = None) as Hhr.
    { apply Hho. intros [Hx|Hx]; [apply (ext_self r); by rewrite Hx at 2|]. apply (ext_self r). by eapply ext_trans. }
    assert (~ (idx = it \/ ext it idx)) as Hidx'.
    { intros [Hx|[s Hx]]; [apply (index_item st ""); by rewrite sapp_nil_r|]. by eapply index_item. }
    assert (r ≠ it) as Hrit by (intros Hx; apply (ext_self r); by rewrite Hx at 2).
    assert (~ ext it r) as Hrit' by (intros Hx; apply (ext_self r); by eapply ext_trans).
    assert (idx ≠ r) as Hir by (intros Hx; apply (ext_self r); by rewrite <- Hx at 2).
    assert (idx ≠ len) as Hil by (intros Hx; by apply (len_index st)).
    set (res j := dec_times j d r1).
    set (P := fun (j : nat) (M' : mach) => exists hj items,
      M' = Mach hj ({[ idx := Some (JNum (NInt (Z.of_nat j))) ]} :: fr1 :: E) (res j).2 (m_out M) /\ length items = L /\ a < length hj /\
      grows o (m_heap M) hj /\ hj !! o = Some (OPlain pr props2) /\ hj !! a = Some (OArr items) /\
      (D -> r_failed (res j).2 = false -> chain2 (fun lo hi => rep_in lo hi hj) (S a) (length hj) (take j items) (res j).1)).
    assert (forall hj e0 j rj oj, eval rt (EGt (EVar len) (EVar idx)) (Mach hj ({[ idx := Some (JNum (NInt (Z.of_nat j))) ]} :: fr1 :: e0) rj oj) =
      Done (JNum (NInt (if decide (z > Z.of_nat j)%Z then 1 else 0)), Mach hj ({[ idx := Some (JNum (NInt (Z.of_nat j))) ]} :: fr1 :: e0) rj oj)) as Hcond.
    { intros hj e0 j rj oj. cbn [eval m_env lookup_var]. rewrite lookup_singleton_ne by done. unfold fr1 at 1. rewrite lookup_insert. cbn [obind m_env lookup_var].
      rewrite lookup_singleton. cbn [obind]. by rewrite Hn at 1. }
    destruct (runs_for_ex rt idx (EVar len) bl [] (Mach h2 (fr1 :: E) r1 (m_out M)) P L) as (Me & HPe & Hk).
    - exists h2, (repeat JUndef L). split; [done|]. split; [apply repeat_length|].
      assert (length h2 = S a) as HL2 by (unfold h2, h1; rewrite insert_length, app_length; cbn; lia).
      split; [lia|]. split; [eapply grows_trans; [apply grows_app|apply grows_insert]|].
      split; [apply list_lookup_insert; unfold h1; rewrite app_length; lia|].
      split; [unfold h2, h1; rewrite list_lookup_insert_ne by lia; by rewrite list_lookup_middle|].
      intros _ _. change (S a <= length h2). lia.
    - intros j M' Hj (hj & items & HM' & Hitl & Haj & HG & Hoj & Haj' & Hrep). rewrite HM'. clear HM' M'.
      set (Ej := {[ idx := Some (JNum (NInt (Z.of_nat j))) ]} :: fr1 :: E).
      set (w0 := if i then JLoc (length hj) else JUndef). set (h3 := if i then hj ++ [OPlain PObject []] else hj).
      set (frb := <[it := Some w0]> (hoist bl)). set (rj := (res j).2).
      assert (hj `prefix_of` h3) as Hpre by (unfold h3; destruct i; [by eexists|done]).
      destruct (Hp it (Mach h3 (frb :: Ej) rj (m_out M)) frb Ej (length hj)) as (fr4 & h4 & y & Hsame & Hy & Hrun & HL4 & Hold & Hr4).
      { done. } { unfold frb. by rewrite lookup_insert. }
      { cbn [m_heap]. unfold h3. destruct i; [|done]. split; [by rewrite list_lookup_middle|rewrite app_length; cbn; lia]. }
      cbn [m_heap m_rd m_out] in *.
      assert (length hj <= length h3) as HL3 by by apply prefix_length.
      assert (forall q, q < length hj -> h4 !! q = hj !! q) as Hold'.
      { intros q Hq. rewrite Hold by done. destruct (lookup_lt_is_Some_2 hj q Hq) as [ob Hob]. rewrite Hob. by eapply prefix_lookup. }
      assert (forall x, x ≠ it -> ~ ext it x -> fr4 !! x = None) as Hfr4.
      { intros x H3 H4. rewrite Hsame by done. unfold frb. rewrite lookup_insert_ne by done. apply Hho. naive_solver. }
      assert (h4 !! a = Some (OArr items)) as Ha4 by (by rewrite Hold').
      assert (h4 !! o = Some (OPlain pr props2)) as Ho4 by (rewrite Hold'; [done|lia]).
      set (h5 := <[a := OArr (<[j := y]> items)]> h4).
      assert (runs rt bl (enter bl (Mach hj Ej rj (m_out M))) (Mach h5 (fr4 :: Ej) (d rj).2 (m_out M))) as Hb.
      { unfold bl at 1. eapply runs_simple.
        { instantiate (1 := Mach h3 (frb :: Ej) rj (m_out M)). unfold enter, h3, frb, w0. by destruct i. }
        eapply runs_app; [exact Hrun|]. apply runs_simple1.
        cbn [exec_simple path foldl st eval m_env].
        rewrite lookup_new by (by apply Hfr4). unfold Ej at 1. rewrite lookup_new by (by rewrite lookup_singleton_ne). rewrite Hr1.
        cbn [obind get_prop m_heap]. rewrite Ho4. unfold props2 at 1. rewrite own_put. cbn [obind m_env].
        rewrite lookup_new by (apply Hfr4; naive_solver). unfold Ej at 1. cbn [lookup_var]. rewrite lookup_singleton. cbn [obind m_env].
        cbn [lookup_var]. rewrite Hy. cbn [obind set_elem m_heap]. rewrite Ha4. rewrite decide_True by lia. cbn [obind]. unfold with_heap. cbn [m_env m_rd m_out].
        unfold h5. by rewrite Nat2Z.id. }
      eexists _, _, _. split; [|split; [exact (runs_in_block _ _ _ _ Hb)|]].
      { unfold Ej. rewrite Hcond. by rewrite decide_True by lia. }
      unfold exit_, with_env. cbn [m_env tl]. split; [cbn [Ej lookup_var]; by rewrite lookup_singleton|].
      split; [cbn [Ej assign_var]; by rewrite lookup_singleton|].
      assert (res (S j) = ((res j).1 ++ [(d rj).1], (d rj).2)) as Hres.
      { unfold res, rj. rewrite dec_times_snoc. unfold res. destruct (dec_times j d r1) as [vs rr]. cbn. by destruct (d rr). }
      exists h5, (<[j := y]> items). cbn [m_heap m_rd m_out]. rewrite Hres. cbn [fst snd].
      split; [by rewrite insert_singleton|]. split; [by rewrite insert_length|]. split; [unfold h5; rewrite insert_length; lia|].
      split.
      { destruct HG as [HG1 HG2]. split; [unfold h5; rewrite insert_length; lia|]. intros q Hq Hqo. unfold h5. rewrite list_lookup_insert_ne by (unfold a; lia).
        rewrite Hold' by lia. by apply HG2. }
      split; [unfold h5; by rewrite list_lookup_insert_ne by lia|]. split; [unfold h5; apply list_lookup_insert; lia|].
      intros HD Hnf.
      assert (forall q ob, S a <= q < length hj -> hj !! q = Some ob -> h5 !! q = Some ob) as Hfr.
      { intros q ob Hq Hob. unfold h5. rewrite list_lookup_insert_ne by lia. rewrite Hold'; [done|lia]. }
      rewrite (take_S_r _ _ y) by (apply list_lookup_insert; lia). rewrite take_insert by lia. unfold h5 at 2. rewrite insert_length.
      apply (chain2_snoc _ _ _ _ (length hj)); [|apply (chain2_mono (fun lo hi => rep_in lo hi hj) _ _ _ _ (length hj)); [done| |apply (Hrep HD)]|].
      + lia.
      + apply Forall_forall. intros w _ y' l m Hl Hm. apply rep_in_frame; [done..|]. intros q ob Hq. apply Hfr. lia.
      + destruct (r_failed rj) eqn:Hf; [|exact Hf]. pose proof (Hst rj Hf). congruence.
      + intros l Hl. eapply rep_in_frame; [| | |exact (Hr4 HD Hnf)]; [lia|done|].
        intros q ob Hq Hob. unfold h5. by rewrite list_lookup_insert_ne by lia.
    - intros M' (hj & items & -> & _). rewrite Hcond. by rewrite decide_False by lia.
    - destruct HPe as (hL & items & -> & Hitl & HaL & HG & HoL & HaL' & Hrep).
      exists fr1, hL, props2. split; [by apply same_insert|]. split.
      { eapply runs_simple; [exact H1|]. eapply runs_simple; [exact H2|]. apply Hk. unfold exit_, with_env. cbn [m_env tl m_heap m_rd m_out].
        unfold res. fold L. destruct (dec_times L d r1). apply runs_nil. }
      split; [done|]. split; [done|]. split; [intros g Hg; by apply own_put_ne|].
      pose proof (dec_times_length L d r1) as Hlen. fold (res L) in Hlen. fold L. change (dec_times L d r1) with (res L).
      destruct (res L) as [vs rL]. cbn [fst snd] in *. intros HD Hnf. exists (JLoc a). split; [apply own_put|].
      apply rep_in_arr. exists a, items. split; [done|]. split; [done|]. split; [done|]. rewrite <- (take_ge items L) by lia. by apply Hrep.
  Qed.

  (** ** structs *)
  Definition no_proto (f : sfield) : Prop := f_name f ≠ "__proto__".
  Definition r_at (g : sfield) : emit := r_wrap (f_array g) (f_opt g) (is_struct (f_ty g)) (r_ty (f_ty g) (f_tname g) (negb (f_array g))).
  Definition fills_obj (gs : list sfield) : Prop :=
    forall r M fr E o pr props, m_env M = fr :: E -> lookup_var r (fr :: E) = Done (JLoc o) ->
      m_heap M !! o = Some (OPlain pr props) -> (forall g, g ∈ gs -> settable pr (f_name g)) ->
      exists fr' h' props', same_but r fr fr' /\ runs rt (r_fields gs [r]) M (Mach h' (fr' :: E) (dec_fields rt gs (m_rd M)).2 (m_out M)) /\
        grows o (m_heap M) h' /\ h' !! o = Some (OPlain pr props') /\ (forall n, n ∉ List.map f_name gs -> own n props' = own n props) /\
        (distinct (TStruct gs) -> r_failed (dec_fields rt gs (m_rd M)).2 = false ->
          chain (prop_in h' props') (length (m_heap M)) (length h') (dec_fields rt gs (m_rd M)).1).

  Lemma dec_fields_names gs r : map fst (dec_fields rt gs r).1 = List.map f_name gs.
  Proof.
    revert r. induction gs as [|g gs IH]; intros r; [done|]. unfold dec_fields. cbn [List.map dec_list].
    destruct (dec_field rt g r) as [v r1]. specialize (IH r1). unfold dec_fields in IH. destruct (dec_list _ r1). cbn in *. by rewrite IH.
  Qed.
  Lemma fields_fill gs : (forall g, g ∈ gs -> fills (r_at g) (dec_field rt g) (distinct (f_ty g))) -> fills_obj gs.
  Proof.
    induction gs as [|g gs IH]; intros HF r M fr E o pr props HE Hr Ho Hset.
    - exists fr, (m_heap M), props. split; [done|]. split; [|split; [done|]; split; [done|]; split; [done|]; intros _ _; exact (le_n _)].
      cbn [dec_fields List.map dec_list snd]. replace (Mach _ _ _ _) with M; [apply runs_nil|]. rewrite <- HE. by destruct M.
    - destruct (HF g ltac:(by left) r (f_name g) M fr E o pr props HE Hr Ho (Hset g ltac:(by left)))
        as (fr1 & h1 & props1 & Hsame1 & Hrun1 & HG1 & Ho1 & Hown1 & Hrep1).
      set (M1 := Mach h1 (fr1 :: E) (dec_field rt g (m_rd M)).2 (m_out M)) in *.
      destruct (IH ltac:(intros h Hh; apply HF; by right) r M1 fr1 E o pr props1)
        as (fr2 & h2 & props2 & Hsame2 & Hrun2 & HG2 & Ho2 & Hown2 & Hrep2); [done| |done|intros h Hh; apply Hset; by right|].
      { rewrite (lookup_same r fr); [done..|apply ext_self]. }
      cbn [M1 m_heap m_rd m_out] in *.
      assert (dec_fields rt (g :: gs) (m_rd M) = ((f_name g, (dec_field rt g (m_rd M)).1) :: (dec_fields rt gs (dec_field rt g (m_rd M)).2).1,
        (dec_fields rt gs (dec_field rt g (m_rd M)).2).2)) as Hdec.
      { unfold dec_fields. cbn [List.map dec_list]. destruct (dec_field rt g (m_rd M)) as [v r1]. cbn [fst snd]. by destruct (dec_list _ r1). }
      rewrite Hdec. cbn [fst snd].
      exists fr2, h2, props2. split; [by eapply same_trans|]. split; [|split; [by eapply grows_trans|]; split; [done|]; split].
      + unfold r_fields. cbn [List.map List.concat]. eapply runs_app; [exact Hrun1|exact Hrun2].
      + intros n Hn. cbn [List.map] in Hn. apply not_elem_of_cons in Hn as [Hn1 Hn2]. by rewrite Hown2, Hown1.
      + rewrite distinct_struct. intros [Hnd HD] Hnf. cbn [List.map] in Hnd. apply NoDup_cons in Hnd as [Hnotin Hnd].
        assert (o < length (m_heap M)) as Hoa by (by eapply lookup_lt_Some). pose proof HG1 as [HL1 _].
        exists (length h1). split; [done|]. split.
        * destruct Hrep1 as (y & Hy & Hry); [apply HD; by left| |].
          { destruct (r_failed (dec_field rt g (m_rd M)).2) eqn:Hf; [|done]. rewrite <- Hnf. symmetry.
            unfold dec_fields. apply sticky_list; [|done]. apply Forall_forall. intros x (h & <- & Hh)%elem_of_list_In%in_map_iff. by eapply sticky_field. }
          exists y. split; [by rewrite Hown2|]. eapply grows_frame; [exact Hoa|done|exact HG2|exact Hry].
        * apply Hrep2; [|done]. apply distinct_struct. split; [done|]. intros h Hh. apply HD. by right.
  Qed.

  Lemma dec_struct gs r : dec rt (TStruct gs) r = (VRec (dec_fields rt gs r).1, (dec_fields rt gs r).2).
  Proof. cbn [dec]. unfold dec_fields. change (fun f => (f_name f, dec_field rt f)) with (fun f => (f_name f, dec_wrap rt (f_array f) (f_opt f) (dec rt (f_ty f)))). by destruct (dec_list _ r). Qed.

  Lemma struct_fills gs tn (D : Prop) : fills_obj gs -> (forall g, g ∈ gs -> no_proto g) -> (D -> distinct (TStruct gs)) ->
    fills (r_ty (TStruct gs) tn true) (dec rt (TStruct gs)) D.
  Proof.
    intros HF Hnp HD r f M fr E o pr props HE Hr Ho Hs. rewrite r_ty_struct. set (b := bindname [r; f]). set (a := length (m_heap M)).
    assert (ext r b) as Hb by by apply bindname_ext. assert (o < a) as Hoa by (by eapply lookup_lt_Some).
    set (fr1 := <[b := Some (JLoc a)]> fr). set (h1 := m_heap M ++ [OPlain PObject []]).
    set (M1 := Mach h1 (fr1 :: E) (m_rd M) (m_out M)).
    assert (exec_simple rt (Let true b EObj) M = Done M1) as H1.
    { cbn [exec_simple eval obind m_env with_heap]. by rewrite HE. }
    destruct (HF b M1 fr1 E a PObject []) as (fr2 & h2 & props2 & Hsame & Hrun & [HL2 HG2] & Ha2 & Hown & Hrep).
    { done. } { cbn [lookup_var]. unfold fr1 at 1. by rewrite lookup_insert. }
    { cbn [M1 m_heap]. unfold h1. by rewrite list_lookup_middle. }
    { intros g Hg. split; [by apply Hnp|done]. }
    rewrite dec_struct. cbn [fst snd]. cbn [M1 m_heap m_rd m_out] in *.
    assert (length h1 = S a) as HL1 by (unfold h1; rewrite app_length; cbn; lia).
    assert (forall q, q < a -> h2 !! q = m_heap M !! q) as Hold.
    { intros q Hq. rewrite HG2 by lia. unfold h1. by rewrite lookup_app_l. }
    set (h3 := <[o := OPlain pr (put f (JLoc a) props)]> h2).
    exists fr2, h3, (put f (JLoc a) props). split; [|split; [|split; [|split; [|split]]]].
    - eapply same_trans; [by apply same_insert|]. by eapply same_weaken.
    - eapply runs_simple; [exact H1|]. eapply runs_app; [exact Hrun|]. apply runs_simple1.
      eapply (assign_field rt r f _ (Mach h2 (fr2 :: E) (dec_fields rt gs (m_rd M)).2 (m_out M)) (Mach h2 (fr2 :: E) (dec_fields rt gs (m_rd M)).2 (m_out M)) o pr props (JLoc a)); [| | |done].
      + cbn [m_env]. assert (~ ext b r) as Hnb by (intros Hx; apply (ext_self r); by eapply ext_trans).
        rewrite (lookup_same b fr1) by done. rewrite (lookup_same r fr); [done| |apply ext_self]. by apply same_insert.
      + cbn [eval m_env lookup_var]. rewrite (Hsame b (ext_self b)). unfold fr1. by rewrite lookup_insert.
      + cbn [m_heap]. by rewrite Hold.
    - split; [unfold h3; rewrite insert_length; lia|]. intros q Hq Hqo. unfold h3. rewrite list_lookup_insert_ne by done. by apply Hold.
    - apply list_lookup_insert. lia.
    - intros g Hg. by apply own_put_ne.
    - intros D' Hnf. exists (JLoc a). split; [apply own_put|]. apply rep_in_rec. exists a, PObject, props2.
      split; [done|]. split; [unfold h3; rewrite insert_length; lia|]. split; [unfold h3; by rewrite list_lookup_insert_ne by lia|].
      split; [intros n Hnn; rewrite dec_fields_names in Hnn; by rewrite Hown|].
      rewrite <- HL1. eapply chain_mono; [|apply Forall_forall|exact (Hrep (HD D') Hnf)]; [unfold h3; by rewrite insert_length|].
      intros [g v] _ l m Hl Hm (y & Hy & Hry). exists y. split; [done|].
      eapply rep_in_frame; [done|done| |exact Hry]. intros q ob Hq Hob. unfold h3. by rewrite list_lookup_insert_ne by lia.
  Qed.
  Lemma struct_fills_var gs tn (D : Prop) : fills_obj gs -> (forall g, g ∈ gs -> no_proto g) -> (D -> distinct (TStruct gs)) ->
    fills_var true (r_ty (TStruct gs) tn false) (dec rt (TStruct gs)) D.
  Proof.
    intros HF Hnp HD x M fr E o HE Hx [Ho HL]. rewrite r_ty_struct.
    destruct (HF x M fr E o PObject []) as (fr2 & h2 & props2 & Hsame & Hrun & [HL2 HG2] & Ho2 & Hown & Hrep); [done| |done| |].
    { cbn [lookup_var]. by rewrite Hx. } { intros g Hg. split; [by apply Hnp|done]. }
    rewrite dec_struct. cbn [fst snd].
    exists fr2, h2, (JLoc o). split; [intros z _ Hz; by apply Hsame|]. split; [by rewrite (Hsame x (ext_self x))|]. split; [done|].
    split; [done|]. split; [intros q Hq; apply HG2; lia|].
    intros D' Hnf. apply rep_in_rec. exists o, PObject, props2. split; [done|]. split; [lia|]. split; [done|].
    split; [intros n Hnn; rewrite dec_fields_names in Hnn; by rewrite Hown|]. rewrite <- HL. exact (Hrep (HD D') Hnf).
  Qed.

  Lemma field_fills g (D : Prop) : leaf_ok (f_ty g) (f_tname g) ->
    fills (r_ty (f_ty g) (f_tname g) true) (dec rt (f_ty g)) D -> fills_var (is_struct (f_ty g)) (r_ty (f_ty g) (f_tname g) false) (dec rt (f_ty g)) D ->
    fills (r_at g) (dec_field rt g) D.
  Proof.
    intros Hl HF HV. unfold r_at, r_wrap, dec_field, dec_wrap.
    assert (fills (if f_array g then r_arr (is_struct (f_ty g)) (r_ty (f_ty g) (f_tname g) (negb (f_array g))) else r_ty (f_ty g) (f_tname g) (negb (f_array g)))
      (if f_array g then dec_arr rt (dec rt (f_ty g)) else dec rt (f_ty g)) D) as H.
    { destruct (f_array g); [|done]. apply arr_fills; [by eapply sticky_dec| |done]. intros b x Hx. by eapply lets_r_ty in Hx. }
    destruct (f_opt g); [|done]. eapply opt_fills; [done| |done]. intros r f x Hx. destruct (f_array g).
    - unfold r_arr in Hx. rewrite lets_cons_simple in Hx. apply elem_of_app in Hx as [Hx|Hx]; [|by apply elem_of_nil in Hx].
      apply elem_of_list_singleton in Hx as ->. apply varname_ext'.
    - by eapply lets_r_ty in Hx.
  Qed.

  Lemma r_ty_fills t : forall tn, leaf_ok t tn -> all_fields field_ok t -> all_fields no_proto t ->
    fills (r_ty t tn true) (dec rt t) (distinct t) /\ fills_var (is_struct t) (r_ty t tn false) (dec rt t) (distinct t).
  Proof.
    induction t as [b|e|gs IH] using rtype_ind'; intros tn Hl Ha Hn.
    - split; [by eapply leaf_fills|by eapply leaf_fills_var].
    - split; [by eapply leaf_fills|by eapply leaf_fills_var].
    - rewrite all_fields_struct in Ha, Hn. rewrite Forall_forall in IH.
      assert (fills_obj gs) as HF.
      { apply fields_fill. intros g Hg. destruct (Ha g Hg) as [[_ Hlg] Hag]. destruct (Hn g Hg) as [_ Hng].
        destruct (IH g Hg _ Hlg Hag Hng) as [H1 H2]. by apply field_fills. }
      split; [apply struct_fills|apply struct_fills_var]; try done; intros g Hg; by apply Hn.
  Qed.
  Lemma all_fill gs : all_fields field_ok (TStruct gs) -> all_fields no_proto (TStruct gs) -> fills_obj gs.
  Proof.
    intros Ha Hn. rewrite all_fields_struct in Ha, Hn. apply fields_fill. intros g Hg. destruct (Ha g Hg) as [[_ Hlg] Hag]. destruct (Hn g Hg) as [_ Hng].
    destruct (r_ty_fills (f_ty g) _ Hlg Hag Hng) as [H1 H2]. by apply field_fills.
  Qed.
End read.
