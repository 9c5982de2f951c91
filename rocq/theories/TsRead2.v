(** The read simulation, continued: the statements of [r_ty]. *)
From Verif Require Export TsRead.

(** ** declared names *)
Lemma lets_r_field_at f r fs x : (forall r fs x, fs ≠ [] -> x ∈ lets (r_ty (f_ty f) (f_tname f) (negb (f_array f)) (r :: fs)) -> ext r x) ->
  x ∈ lets (r_field f (r :: fs)) -> ext r x.
Proof.
  intros IH. unfold r_field, r_wrap. cbn [app]. destruct (f_opt f).
  - intros H. by apply elem_of_nil in H.
  - destruct (f_array f).
    + unfold r_arr. rewrite lets_cons_simple. intros [H|H]%elem_of_app; [|by apply elem_of_nil in H].
      apply elem_of_list_singleton in H as ->. apply varname_ext'.
    + apply IH. by destruct fs.
Qed.
Lemma lets_r_fields (P : string -> Prop) fs st : (forall f, f ∈ fs -> forall x, x ∈ lets (r_field f st) -> P x) -> forall x, x ∈ lets (r_fields fs st) -> P x.
Proof.
  intros H x. unfold r_fields. rewrite lets_concat. intros (l & Hl & Hx)%elem_of_list_In%in_concat.
  rewrite List.map_map in Hl. apply in_map_iff in Hl as (f & <- & Hf). apply (H f); by apply elem_of_list_In.
Qed.
Lemma r_ty_struct gs tn init st : r_ty (TStruct gs) tn init st =
  if init then SSimple (Let true (bindname st) EObj) :: r_fields gs [bindname st] ++ [SSimple (Assign (path st) (EVar (bindname st)))] else r_fields gs st.
Proof. done. Qed.
Lemma lets_r_ty t : forall tn init r fs x, (init = true -> fs ≠ []) -> x ∈ lets (r_ty t tn init (r :: fs)) -> ext r x.
Proof.
  induction t as [b|e|gs IH] using rtype_ind'; intros tn init r fs x Hi Hx.
  - destruct b; try by apply elem_of_nil in Hx. cbn [r_ty r_builtin] in Hx. rewrite lets_cons_simple in Hx.
    apply elem_of_app in Hx as [Hx|Hx]; [|by apply elem_of_nil in Hx]. apply elem_of_list_singleton in Hx as ->. apply varname_ext'.
  - cbn [r_ty] in Hx. unfold r_enum in Hx. rewrite lets_cons_simple in Hx.
    apply elem_of_app in Hx as [Hx|Hx]; [|by apply elem_of_nil in Hx]. apply elem_of_list_singleton in Hx as ->. apply varname_ext'.
  - rewrite Forall_forall in IH. rewrite r_ty_struct in Hx.
    assert (forall r fs x, x ∈ lets (r_fields gs (r :: fs)) -> ext r x) as HF.
    { intros r' fs'. apply lets_r_fields. intros f Hf x' Hx'. eapply lets_r_field_at; [|exact Hx'].
      intros r1 fs1 x1 Hfs1 Hx1. eapply (IH f Hf); [|exact Hx1]. done. }
    destruct init; [|by eapply HF]. rewrite lets_cons_simple, lets_app in Hx. pose proof (bindname_ext r fs (Hi eq_refl)) as Hb.
    apply elem_of_app in Hx as [Hx|Hx]; [by apply elem_of_list_singleton in Hx as ->|].
    apply elem_of_app in Hx as [Hx|Hx]; [|by apply elem_of_nil in Hx]. eapply ext_trans; [exact Hb|]. by eapply HF.
Qed.
Lemma lets_r_field f r fs x : x ∈ lets (r_field f (r :: fs)) -> ext r x.
Proof. apply lets_r_field_at. intros r' fs' x' Hfs. by apply lets_r_ty. Qed.

Definition enum_ty (t : rtype) : bool := match t with TEnum _ => true | _ => false end.

(** ** assignment to a path *)
Definition set_path (st : list string) (y : val) (M : mach) : out mach :=
  match st with
  | [x] => go env <- assign_var x y (m_env M); Done (with_env env M)
  | [r; f] => go o <- lookup_var r (m_env M); go h <- set_prop (m_heap M) o f y; Done (with_heap h M)
  | _ => Stuck
  end.
Definition short (fs : list string) : Prop := fs = [] \/ exists f, fs = [f].
Lemma assign_set rt r fs e y M M1 : short fs -> eval rt e M = Done (y, M1) -> m_env M1 = m_env M ->
  exec_simple rt (Assign (path (r :: fs)) e) M = set_path (r :: fs) y M1.
Proof.
  intros [->|[f ->]] He HE.
  - cbn [path foldl exec_simple]. by rewrite He.
  - cbn [path foldl exec_simple eval set_path]. rewrite HE. destruct (lookup_var r (m_env M)); [|done..]. cbn [obind]. by rewrite He.
Qed.

(** the heap after code that fills the object at [o] *)
Definition grows (o : nat) (h h' : heap) : Prop := length h <= length h' /\ forall p, p < length h -> p ≠ o -> h' !! p = h !! p.
Lemma grows_refl o h : grows o h h.
Proof. done. Qed.
Lemma grows_trans o a b c : grows o a b -> grows o b c -> grows o a c.
Proof. intros [L1 H1] [L2 H2]. split; [lia|]. intros p Hp Hne. rewrite H2 by (done || lia). by apply H1. Qed.
Lemma grows_frame o h h' v lo lo' hi x : o < lo -> lo' <= lo -> grows o h h' -> rep_in lo hi h x v -> rep_in lo' hi h' x v.
Proof.
  intros Ho Hlo [HL HG]. apply rep_in_frame; [done|done|]. intros p ob Hp Hob. rewrite HG; [done| |lia]. by eapply lookup_lt_Some.
Qed.
Lemma grows_insert o h x : grows o h (<[o := x]> h).
Proof. split; [by rewrite insert_length|]. intros p _ Hne. by rewrite list_lookup_insert_ne. Qed.
Lemma grows_app o h l : grows o h (h ++ l).
Proof. split; [rewrite app_length; lia|]. intros p Hp _. by rewrite lookup_app_l. Qed.

Section read.
  Context (rt : runtime) (str_ok : jstr -> Prop) (Hrt : rt_ok rt str_ok).

  (** what numbers are read *)
  Lemma read_num_int k r n r' : read_num rt k r = (n, r') -> k ≠ KF32 -> n = NInt (int_of n).
  Proof.
    intros H Hk. pose proof (read_num_kind rt str_ok Hrt k r) as Hin. rewrite H in Hin. by destruct k, n.
  Qed.
  Lemma read_u32 r n r' : read_num rt KU32 r = (n, r') -> n = NInt (int_of n) /\ (0 <= int_of n < 2 ^ 32)%Z.
  Proof.
    intros H. pose proof (read_num_kind rt str_ok Hrt KU32 r) as Hin. rewrite H in Hin. destruct n; [|done]. cbn in *. done.
  Qed.

  (** numbers, strings, enumerations: read, and unless that failed, assign *)
  Lemma leaf_runs t tn init r fs M fr E : is_struct t = false -> leaf_ok t tn -> short fs -> m_env M = fr :: E ->
    exists fr1, same_but r fr fr1 /\
      let M1 := Mach (m_heap M) (fr1 :: E) (dec rt t (m_rd M)).2 (m_out M) in
      (exists y, (forall lo hi h, rep_in lo hi h y (dec rt t (m_rd M)).1) /\
         ends rt (r_ty t tn init (r :: fs)) M (set_path (r :: fs) y M1)) \/
      (enum_ty t = true /\ r_failed (m_rd M1) = true /\ runs rt (r_ty t tn init (r :: fs)) M M1).
  Proof.
    intros Ht Hl Hfs HE. destruct t as [b|e|gs]; [| |done].
    - cbn [dec]. unfold dec_builtin. destruct (builtin_kind b) as [k|] eqn:Hk.
      + destruct (kind_of_builtin _ _ _ Hl Hk) as [Hk' Hs].
        assert (r_ty (TBuiltin b) tn init (r :: fs) = [SSimple (Assign (path (r :: fs)) (ERead tn))]) as -> by by destruct b.
        destruct (read_num rt k (m_rd M)) as [n r1] eqn:Hrd. exists fr. split; [done|]. left. exists (JNum n). split; [done|].
        apply ends_simple1. cbn [snd]. apply assign_set; [done| |by rewrite HE].
        cbn [eval]. rewrite Hk', Hrd. unfold with_rd. by rewrite HE.
      + destruct b; try done. cbn [r_ty r_builtin]. set (len := varname (r :: fs) "len").
        destruct (read_num rt KU32 (m_rd M)) as [n r1] eqn:Hrd. destruct (read_u32 _ _ _ Hrd) as [Hn _]. set (z := int_of n) in *.
        destruct (read_str rt z r1) as [s r2] eqn:Hs. exists (<[len := Some (JNum n)]> fr). split; [by apply same_insert, varname_ext'|].
        left. exists (JStr s). split; [done|].
        eapply ends_simple.
        { cbn [exec_simple eval]. change (kind_of "uint32") with (Some KU32). cbv beta iota. rewrite Hrd. cbn [obind m_env with_rd]. rewrite HE. cbn [init_var obind]. reflexivity. }
        apply ends_simple1. cbn [snd]. apply assign_set; [done| |done].
        cbn [eval m_env with_env lookup_var]. rewrite lookup_insert. cbn [obind]. rewrite Hn at 1. cbn [m_rd with_env with_rd]. by rewrite Hs.
    - cbn [dec r_ty]. unfold dec_enum, r_enum. set (temp := varname (r :: fs) "temp").
      destruct (read_num rt (repr_kind (e_repr e)) (m_rd M)) as [n r1] eqn:Hrd.
      pose proof (read_num_int _ _ _ _ Hrd ltac:(by destruct (e_repr e))) as Hn. set (z := int_of n) in *.
      set (fr1 := <[temp := Some (JNum n)]> fr). exists fr1. split; [by apply same_insert, varname_ext'|].
      assert (exec_simple rt (Let false temp (ERead (repr_name (e_repr e)))) M = Done (Mach (m_heap M) (fr1 :: E) r1 (m_out M))) as H1.
      { cbn [exec_simple eval]. rewrite kind_of_repr, Hrd. cbn [obind m_env with_rd]. rewrite HE. done. }
      set (M1 := Mach (m_heap M) (fr1 :: E) r1 (m_out M)) in *.
      assert (eval rt (EVar temp) M1 = Done (JNum n, M1)) as Hv.
      { cbn [eval lookup_var m_env M1]. unfold fr1 at 1. by rewrite lookup_insert. }
      assert (exists v b, eval rt (EAnd (ELe (ENum (enum_lo e)) (EVar temp)) (ELe (EVar temp) (ENum (enum_hi e)))) M1 = Done (v, M1) /\
        truthy v = Done b /\ b = bool_decide (enum_lo e <= z <= enum_hi e)%Z) as (v & b & Hev & Htr & Hb).
      { assert (eval rt (ELe (ENum (enum_lo e)) (EVar temp)) M1 = Done (JNum (NInt (if decide (enum_lo e <= z)%Z then 1 else 0)), M1)) as E1.
        { change (eval rt (ELe (ENum (enum_lo e)) (EVar temp)) M1) with
            (go (w, M) <- eval rt (EVar temp) M1; match w with JNum (NInt y) => Done (JNum (NInt (if decide (enum_lo e <= y)%Z then 1 else 0)), M) | _ => Stuck end).
          rewrite Hv. cbn [obind]. by rewrite Hn at 1. }
        assert (eval rt (ELe (EVar temp) (ENum (enum_hi e))) M1 = Done (JNum (NInt (if decide (z <= enum_hi e)%Z then 1 else 0)), M1)) as E2.
        { change (eval rt (ELe (EVar temp) (ENum (enum_hi e))) M1) with
            (go (v, M) <- eval rt (EVar temp) M1; match v with JNum (NInt x) => Done (JNum (NInt (if decide (x <= enum_hi e)%Z then 1 else 0)), M) | _ => Stuck end).
          rewrite Hv. cbn [obind]. by rewrite Hn at 1. }
        change (eval rt (EAnd ?a ?b) M1) with (go (v, M) <- eval rt a M1; match v with JNum (NInt 0) => Done (v, M) | JNum (NInt _) => eval rt b M | _ => Stuck end).
        rewrite E1. cbn [obind]. clear E1. destruct (decide (enum_lo e <= z)%Z) as [D1|D1].
        - rewrite E2. clear E2. destruct (decide (z <= enum_hi e)%Z) as [D2|D2].
          + exists (JNum (NInt 1)), true. split; [done|]. split; [done|]. by rewrite bool_decide_true.
          + exists (JNum (NInt 0)), false. split; [done|]. split; [done|]. rewrite bool_decide_false; [done|lia].
        - exists (JNum (NInt 0)), false. split; [done|]. split; [done|]. rewrite bool_decide_false; [done|lia]. }
      destruct (decide (enum_lo e <= z <= enum_hi e)%Z) as [Hz|Hz].
      + rewrite bool_decide_true in Hb by done. subst b. left. exists (JNum n). split; [done|].
        eapply ends_simple; [exact H1|]. eapply ends_ifline1; [exact Hev|exact Htr|].
        cbn [snd]. fold M1. by apply assign_set.
      + rewrite bool_decide_false in Hb by done. subst b. right. split; [done|]. split; [done|].
        eapply runs_simple; [exact H1|]. eapply runs_ifline; [exact Hev|exact Htr| |apply runs_nil]. done.
  Qed.

  (** ** What code for a property does *)
  Definition fills (p : emit) (d : decoder) (D : Prop) : Prop :=
    forall r f M fr E o pr props, m_env M = fr :: E -> lookup_var r (fr :: E) = Done (JLoc o) ->
      m_heap M !! o = Some (OPlain pr props) -> settable pr f ->
      exists fr' h' props', same_but r fr fr' /\ runs rt (p [r; f]) M (Mach h' (fr' :: E) (d (m_rd M)).2 (m_out M)) /\
        grows o (m_heap M) h' /\ h' !! o = Some (OPlain pr props') /\ (forall g, g ≠ f -> own g props' = own g props) /\
        (D -> r_failed (d (m_rd M)).2 = false -> exists y, own f props' = Some y /\ rep_in (length (m_heap M)) (length h') h' y (d (m_rd M)).1).
  (** ... and for a new variable: [o] is the first location that it may change *)
  Definition fills_var (init : bool) (p : emit) (d : decoder) (D : Prop) : Prop :=
    forall x M fr E o, m_env M = fr :: E -> fr !! x = Some (Some (if init then JLoc o else JUndef)) ->
      (if init then m_heap M !! o = Some (OPlain PObject []) /\ length (m_heap M) = S o else o = length (m_heap M)) ->
      exists fr' h' y, (forall z, z ≠ x -> ~ ext x z -> fr' !! z = fr !! z) /\ fr' !! x = Some (Some y) /\
        runs rt (p [x]) M (Mach h' (fr' :: E) (d (m_rd M)).2 (m_out M)) /\
        length (m_heap M) <= length h' /\ (forall q, q < o -> h' !! q = m_heap M !! q) /\
        (D -> r_failed (d (m_rd M)).2 = false -> rep_in o (length h') h' y (d (m_rd M)).1).

  Lemma leaf_fills t tn init D : is_struct t = false -> leaf_ok t tn -> fills (r_ty t tn init) (dec rt t) D.
  Proof.
    intros Ht Hl r f M fr E o pr props HE Hr Ho Hs.
    destruct (leaf_runs t tn init r [f] M fr E Ht Hl ltac:(right; by eexists) HE) as (fr1 & Hsame & [(y & Hy & H)|(_ & Hfail & H)]).
    - exists fr1, (<[o := OPlain pr (put f y props)]> (m_heap M)), (put f y props). split; [done|]. split.
      { revert H. cbn [set_path m_env m_heap]. rewrite (lookup_same r fr) by (done || apply ext_self). rewrite Hr. cbn [obind].
        by rewrite (set_prop_ok _ _ _ _ _ _ Ho Hs). }
      split; [apply grows_insert|]. split; [apply list_lookup_insert; by eapply lookup_lt_Some|]. split; [intros g Hg; by apply own_put_ne|].
      intros _ _. exists y. split; [apply own_put|apply Hy].
    - exists fr1, (m_heap M), props. split; [done|]. split; [done|]. split; [done|]. split; [done|]. split; [done|].
      cbn [m_rd] in Hfail. rewrite Hfail. done.
  Qed.
  Lemma leaf_fills_var t tn init D : is_struct t = false -> leaf_ok t tn -> fills_var false (r_ty t tn init) (dec rt t) D.
  Proof.
    intros Ht Hl x M fr E o HE Hx ->.
    destruct (leaf_runs t tn init x [] M fr E Ht Hl ltac:(by left) HE) as (fr1 & Hsame & [(y & Hy & H)|(_ & Hfail & H)]).
    - exists (<[x := Some y]> fr1), (m_heap M), y. split; [intros z Hz Hz'; rewrite lookup_insert_ne by done; by apply Hsame|].
      split; [by rewrite lookup_insert|]. split; [|split; [done|]; split; [done|]; intros _ _; apply Hy].
      revert H. cbn [set_path m_env assign_var]. rewrite (Hsame x (ext_self x)), Hx. done.
    - exists fr1, (m_heap M), JUndef. split; [intros z _ Hz; by apply Hsame|]. split; [by rewrite (Hsame x (ext_self x))|].
      split; [done|]. split; [done|]. split; [done|]. cbn [m_rd] in Hfail. rewrite Hfail. done.
  Qed.

  (** optional *)
  Lemma opt_fills p d D : (forall r f x, x ∈ lets (p [r; f]) -> ext r x) -> fills p d D -> fills (r_opt p) (dec_opt rt d) D.
  Proof.
    intros Hlets Hp r f M fr E o pr props HE Hr Ho Hs. unfold dec_opt, r_opt.
    destruct (read_num rt KU8 (m_rd M)) as [n r1] eqn:Hrd.
    pose proof (read_num_int _ _ _ _ Hrd ltac:(done)) as Hn. set (z := int_of n) in *.
    set (M1 := with_rd r1 M).
    assert (eval rt (EGt (ERead "uint8") (ENum 0)) M = Done (JNum (NInt (if decide (z > 0)%Z then 1 else 0)), M1)) as Hev.
    { cbn [eval]. change (kind_of "uint8") with (Some KU8). cbv beta iota. rewrite Hrd. cbn [obind]. by rewrite Hn at 1. }
    destruct (decide (z > 0)%Z) as [Hz|Hz].
    - set (bl := p [r; f]).
      assert (hoist bl !! r = None) as Hho. { apply hoist_none. intros Hin. apply (ext_self r). by eapply Hlets. }
      destruct (Hp r f (enter bl M1) (hoist bl) (fr :: E) o pr props) as (fr2 & h2 & props2 & Hsame & Hrun & HG & Ho2 & Hown & Hrep); try done.
      { cbn [enter with_env m_env M1 with_rd]. by rewrite HE. }
      { by rewrite lookup_new. }
      exists fr, h2, props2. split; [done|]. split; [|split; [exact HG|]; split; [exact Ho2|]; split; [exact Hown|exact Hrep]].
      eapply runs_if; [exact Hev|done|exact (runs_in_block _ _ _ _ Hrun)|]. unfold exit_, with_env. cbn [m_env tl m_heap m_rd m_out]. apply runs_nil.
    - exists fr, (<[o := OPlain pr (put f JUndef props)]> (m_heap M)), (put f JUndef props). split; [done|]. split.
      { eapply runs_if; [exact Hev|done| |].
        - apply runs_in_block. apply runs_simple1. apply assign_field with (o := o) (pr := pr) (props := props) (v := JUndef) (M' := enter [SSimple (Assign (path [r; f]) EUndef)] M1); try done.
          cbn [enter with_env m_env M1 with_rd]. rewrite HE. rewrite lookup_new; [done|]. apply hoist_none, not_elem_of_nil.
        - unfold exit_, with_env, with_heap. cbn [enter with_env m_env tl m_heap m_rd m_out M1 with_rd]. rewrite HE. apply runs_nil. }
      split; [apply grows_insert|]. split; [apply list_lookup_insert; by eapply lookup_lt_Some|]. split; [intros g Hg; by apply own_put_ne|].
      intros _ _. exists JUndef. split; [apply own_put|done].
  Qed.
End read.
