(** What read does if a field of the export cannot be assigned. *)
From Verif Require Export EvolveProofs2 ThrowSpec.

Definition throws rt (b : list stmt) (M : mach) : Prop := exists e, ends rt b M (Throws e).
Lemma throws_here rt s b M e : exec_simple rt s M = Throws e -> throws rt (SSimple s :: b) M.
Proof. intros H. exists e, 0. intros n _. cbn [exec_seq exec]. by rewrite H. Qed.
Lemma throws_next rt s b M M1 : exec_simple rt s M = Done M1 -> throws rt b M1 -> throws rt (SSimple s :: b) M.
Proof. intros H [e He]. exists e. by eapply ends_simple. Qed.
Lemma exec_seq_app rt n a b M : exec_seq rt n (a ++ b) M =
  match exec_seq rt n a M with Some (Done M1) => exec_seq rt n b M1 | x => x end.
Proof.
  revert M. induction a as [|s a IH]; intros M; [done|]. cbn [app exec_seq]. destruct (exec rt n s M) as [[M1| |]|]; [apply IH|done..].
Qed.
Lemma throws_app_l rt a b M : throws rt a M -> throws rt (a ++ b) M.
Proof. intros (e & n0 & H). exists e, n0. intros n Hn. by rewrite exec_seq_app, H. Qed.
Lemma throws_app_r rt a b M M1 : runs rt a M M1 -> throws rt b M1 -> throws rt (a ++ b) M.
Proof. intros [n1 H1] (e & n2 & H2). exists e, (n1 + n2). intros n Hn. rewrite exec_seq_app, H1 by lia. apply H2. lia. Qed.
Lemma throws_if rt c b1 b2 M v (t : bool) M1 : eval rt c M = Done (v, M1) -> truthy v = Done t ->
  throws rt (if t then b1 else b2) (enter (if t then b1 else b2) M1) -> throws rt [SIf c b1 b2] M.
Proof.
  intros He Ht (e & n0 & H). exists e. apply ends_one. exists n0. intros n Hn. rewrite exec_if, He, Ht.
  unfold exec_block. unfold enter in H. destruct t; by rewrite (H n Hn).
Qed.

(** [o] is an object like those that read creates, without an own property that cannot be assigned *)
Definition fresh_ctor (h : heap) (o : nat) : Prop :=
  exists props, h !! o = Some (OPlain PCtor props) /\ forall f, f ∈ readonly_names -> own f props = None.
Lemma set_readonly h o f y : fresh_ctor h o -> f ∈ readonly_names -> set_prop h (JLoc o) f y = Throws "TypeError".
Proof.
  intros (props & Ho & Hown) Hf. cbn [set_prop]. rewrite Ho, (Hown f Hf). rewrite decide_False, decide_True; [done|done|].
  intros [_ ->]. revert Hf. apply (bool_decide_unpack _). by vm_compute.
Qed.

Section throw.
  Context (rt : runtime) (str_ok : jstr -> Prop) (Hrt : rt_ok rt str_ok).

  (** code for a property that cannot be assigned: it throws, or the reader has failed *)
  Definition refuses (p : emit) (d : decoder) (C : Prop) : Prop :=
    forall r f M fr E o, m_env M = fr :: E -> lookup_var r (fr :: E) = Done (JLoc o) -> fresh_ctor (m_heap M) o -> f ∈ readonly_names ->
      throws rt (p [r; f]) M \/
      (C /\ r_failed (d (m_rd M)).2 = true /\ exists fr', same_but r fr fr' /\ runs rt (p [r; f]) M (Mach (m_heap M) (fr' :: E) (d (m_rd M)).2 (m_out M))).

  Lemma leaf_refuses t tn init : is_struct t = false -> leaf_ok t tn -> refuses (r_ty t tn init) (dec rt t) (enum_ty t = true).
  Proof.
    intros Ht Hl r f M fr E o HE Hr Ho Hf.
    destruct (leaf_runs rt str_ok Hrt t tn init r [f] M fr E Ht Hl ltac:(right; by eexists) HE) as (fr1 & Hsame & [(y & _ & H)|(He & Hfail & H)]).
    - left. exists "TypeError". revert H. cbn [set_path m_env m_heap]. rewrite (lookup_same r fr) by (done || apply ext_self). rewrite Hr. cbn [obind].
      by rewrite (set_readonly _ _ _ _ Ho Hf).
    - right. split; [done|]. split; [done|]. by exists fr1.
  Qed.
  Lemma arr_refuses i p d : refuses (r_arr i p) d False.
  Proof.
    intros r f M fr E o HE Hr Ho Hf. left. unfold r_arr. set (len := varname [r; f] "len").
    destruct (read_num rt KU32 (m_rd M)) as [n r1] eqn:Hrd. destruct (read_u32 rt str_ok Hrt _ _ _ Hrd) as [Hn Hz].
    eapply throws_next.
    { cbn [exec_simple eval]. change (kind_of "uint32") with (Some KU32). cbv beta iota. rewrite Hrd. cbn [obind m_env with_rd]. rewrite HE. cbn [init_var obind]. reflexivity. }
    eapply (throws_here _ _ _ _ "TypeError"). cbn [path foldl exec_simple eval with_env m_env].
    assert (~ ext r r) as Hrr by apply ext_self.
    rewrite (lookup_same r fr); [|by apply same_insert, varname_ext'|done]. rewrite Hr. cbn [obind]. cbn [m_env with_env lookup_var]. rewrite lookup_insert. cbn [obind].
    rewrite Hn at 1. rewrite decide_True by done. cbn [obind m_heap with_heap with_env with_rd]. rewrite set_readonly; [done| |done].
    destruct Ho as (props & Ho & Hown). exists props. split; [|done]. apply lookup_app_l_Some. exact Ho.
  Qed.
  Lemma struct_refuses gs tn : all_fields field_ok (TStruct gs) -> all_fields no_proto (TStruct gs) -> refuses (r_ty (TStruct gs) tn true) (dec rt (TStruct gs)) False.
  Proof.
    intros Ha Hnp r f M fr E o HE Hr Ho Hf. left. rewrite r_ty_struct. set (b := bindname [r; f]). set (a := length (m_heap M)).
    assert (ext r b) as Hb by by apply bindname_ext.
    destruct Ho as (props & Ho & Hown). assert (o < a) as Hoa by (by eapply lookup_lt_Some).
    set (fr1 := <[b := Some (JLoc a)]> fr). set (h1 := m_heap M ++ [OPlain PObject []]).
    set (M1 := Mach h1 (fr1 :: E) (m_rd M) (m_out M)).
    assert (exec_simple rt (Let true b EObj) M = Done M1) as H1.
    { cbn [exec_simple eval obind m_env with_heap]. by rewrite HE. }
    destruct (all_fill rt str_ok Hrt gs Ha Hnp b M1 fr1 E a PObject []) as (fr2 & h2 & props2 & Hsame & Hrun & [HL2 HG2] & Ha2 & _).
    { done. } { cbn [lookup_var]. unfold fr1 at 1. by rewrite lookup_insert. }
    { cbn [M1 m_heap]. unfold h1. by rewrite list_lookup_middle. }
    { intros g Hg. split; [|done]. rewrite all_fields_struct in Hnp. by apply Hnp. }
    cbn [M1 m_heap m_rd m_out] in *.
    eapply throws_next; [exact H1|]. eapply throws_app_r; [exact Hrun|]. eapply (throws_here _ _ _ _ "TypeError").
    cbn [path foldl exec_simple eval m_env].
    assert (~ ext b r) as Hnb by (intros Hx; apply (ext_self r); by eapply ext_trans).
    rewrite (lookup_same b fr1) by done. rewrite (lookup_same r fr) by (by apply same_insert || apply ext_self). rewrite Hr. cbn [obind m_env lookup_var].
    rewrite (Hsame b (ext_self b)). unfold fr1 at 1. rewrite lookup_insert. cbn [obind m_heap]. rewrite set_readonly; [done| |done].
    exists props. split; [|done]. assert (length h1 = S a) as HL1 by (unfold h1; rewrite app_length; cbn; lia).
    rewrite HG2 by lia. unfold h1. by apply lookup_app_l_Some.
  Qed.
  Lemma opt_refuses p d C : (forall r f x, x ∈ lets (p [r; f]) -> ext r x) -> refuses p d C -> refuses (r_opt p) (dec_opt rt d) C.
  Proof.
    intros Hlets Hp r f M fr E o HE Hr Ho Hf. unfold dec_opt, r_opt.
    destruct (read_num rt KU8 (m_rd M)) as [n r1] eqn:Hrd.
    pose proof (read_num_int rt str_ok Hrt _ _ _ _ Hrd ltac:(done)) as Hn. set (z := int_of n) in *.
    set (M1 := with_rd r1 M).
    assert (eval rt (EGt (ERead "uint8") (ENum 0)) M = Done (JNum (NInt (if decide (z > 0)%Z then 1 else 0)), M1)) as Hev.
    { cbn [eval]. change (kind_of "uint8") with (Some KU8). cbv beta iota. rewrite Hrd. cbn [obind]. by rewrite Hn at 1. }
    destruct (decide (z > 0)%Z) as [Hz|Hz].
    - set (bl := p [r; f]).
      assert (hoist bl !! r = None) as Hho. { apply hoist_none. intros Hin. apply (ext_self r). by eapply Hlets. }
      destruct (Hp r f (enter bl M1) (hoist bl) (fr :: E) o) as [Ht|(HC & Hfail & fr2 & Hsame & Hrun)]; try done.
      { cbn [enter with_env m_env M1 with_rd]. by rewrite HE. }
      { by rewrite lookup_new. }
      + left. by eapply (throws_if _ _ _ _ _ _ true); [exact Hev|done|].
      + right. split; [done|]. split; [exact Hfail|]. exists fr. split; [done|].
        eapply runs_if; [exact Hev|done|exact (runs_in_block _ _ _ _ Hrun)|]. unfold exit_, with_env. cbn [m_env tl m_heap m_rd m_out]. apply runs_nil.
    - left. eapply (throws_if _ _ _ _ _ _ false); [exact Hev|done|]. apply (throws_here _ _ _ _ "TypeError").
      cbn [path foldl exec_simple eval enter with_env m_env M1 with_rd]. rewrite HE.
      rewrite lookup_new by (apply hoist_none, not_elem_of_nil). rewrite Hr. cbn [obind m_heap]. by rewrite (set_readonly _ _ _ _ Ho Hf).
  Qed.
  Lemma field_refuses g : field_ok g -> all_fields field_ok (f_ty g) -> all_fields no_proto (f_ty g) ->
    refuses (r_at g) (dec_field rt g) (f_array g = false /\ enum_ty (f_ty g) = true).
  Proof.
    intros [_ Hl] Ha Hn. unfold r_at, r_wrap, dec_field, dec_wrap.
    assert (refuses (if f_array g then r_arr (is_struct (f_ty g)) (r_ty (f_ty g) (f_tname g) (negb (f_array g))) else r_ty (f_ty g) (f_tname g) (negb (f_array g)))
      (if f_array g then dec_arr rt (dec rt (f_ty g)) else dec rt (f_ty g)) (f_array g = false /\ enum_ty (f_ty g) = true)) as H.
    { intros r f M fr E o HE Hr Ho Hf. destruct (f_array g).
      - destruct (arr_refuses (is_struct (f_ty g)) (r_ty (f_ty g) (f_tname g) (negb true)) (dec_arr rt (dec rt (f_ty g))) r f M fr E o HE Hr Ho Hf) as [?|[[] _]]; by left.
      - destruct (f_ty g) as [b|e|gs].
        + destruct (leaf_refuses (TBuiltin b) _ (negb false) eq_refl Hl r f M fr E o HE Hr Ho Hf) as [?|[? ?]]; [by left|done].
        + destruct (leaf_refuses (TEnum e) _ (negb false) eq_refl Hl r f M fr E o HE Hr Ho Hf) as [?|[? ?]]; [by left|by right].
        + destruct (struct_refuses gs (f_tname g) Ha Hn r f M fr E o HE Hr Ho Hf) as [?|[[] _]]; by left. }
    destruct (f_opt g); [|done]. eapply opt_refuses; [|done]. intros r f x Hx. destruct (f_array g).
    - unfold r_arr in Hx. rewrite lets_cons_simple in Hx. apply elem_of_app in Hx as [Hx|Hx]; [|by apply elem_of_nil in Hx].
      apply elem_of_list_singleton in Hx as ->. apply varname_ext'.
    - by eapply lets_r_ty in Hx.
  Qed.

  Definition stubborn (g : sfield) : Prop := f_name g ∈ readonly_names.
  Lemma fields_refuse gs : all_fields field_ok (TStruct gs) -> all_fields no_proto (TStruct gs) ->
    forall r M fr E o, m_env M = fr :: E -> lookup_var r (fr :: E) = Done (JLoc o) -> fresh_ctor (m_heap M) o ->
      throws rt (r_fields gs [r]) M \/
      exists M', runs rt (r_fields gs [r]) M M' /\ m_rd M' = (dec_fields rt gs (m_rd M)).2 /\
        forall g, g ∈ gs -> stubborn g -> f_array g = false /\ enum_ty (f_ty g) = true /\ r_failed (m_rd M') = true.
  Proof.
    induction gs as [|g gs IH]; intros Ha Hn r M fr E o HE Hr Ho.
    - right. exists M. split; [apply runs_nil|]. split; [done|]. intros g Hg. by apply elem_of_nil in Hg.
    - rewrite all_fields_struct in Ha, Hn.
      assert (all_fields field_ok (TStruct gs)) as Ha' by (apply all_fields_struct; intros h Hh; apply Ha; by right).
      assert (all_fields no_proto (TStruct gs)) as Hn' by (apply all_fields_struct; intros h Hh; apply Hn; by right).
      destruct (Ha g ltac:(left)) as [Hg1 Hg2]. destruct (Hn g ltac:(left)) as [Hg3 Hg4].
      assert (dec_fields rt (g :: gs) (m_rd M) = ((f_name g, (dec_field rt g (m_rd M)).1) :: (dec_fields rt gs (dec_field rt g (m_rd M)).2).1,
        (dec_fields rt gs (dec_field rt g (m_rd M)).2).2)) as Hdec.
      { unfold dec_fields. cbn [List.map dec_list]. destruct (dec_field rt g (m_rd M)) as [v r1]. cbn [fst snd]. by destruct (dec_list _ r1). }
      rewrite Hdec. cbn [snd]. change (r_fields (g :: gs) [r]) with (r_at g [r; f_name g] ++ r_fields gs [r]).
      destruct (decide (f_name g ∈ readonly_names)) as [Hs|Hs].
      + destruct (field_refuses g Hg1 Hg2 Hg4 r (f_name g) M fr E o HE Hr Ho Hs) as [Ht|([HC1 HC2] & Hfail & fr1 & Hsame & Hrun)].
        { left. by apply throws_app_l. }
        destruct (IH Ha' Hn' r (Mach (m_heap M) (fr1 :: E) (dec_field rt g (m_rd M)).2 (m_out M)) fr1 E o) as [Ht|(M' & Hrun' & Hrd & Hst)]; try done.
        { rewrite (lookup_same r fr); [done..|apply ext_self]. }
        { left. by eapply throws_app_r. }
        right. exists M'. split; [by eapply runs_app|]. split; [done|]. intros h [->|Hh]%elem_of_cons Hsh; [|by apply Hst].
        split; [done|]. split; [done|]. rewrite Hrd. cbn [m_rd]. unfold dec_fields. apply sticky_list; [|done].
        apply Forall_forall. intros y (h & <- & Hh)%elem_of_list_In%in_map_iff. by eapply sticky_field.
      + destruct Ho as (props & Ho & Hown).
        assert (fills rt (r_at g) (dec_field rt g) (distinct (f_ty g))) as HF.
        { destruct Hg1 as [_ Hlg]. destruct (r_ty_fills rt str_ok Hrt (f_ty g) _ Hlg Hg2 Hg4) as [H1 H2]. by eapply field_fills. }
        destruct (HF r (f_name g) M fr E o PCtor props HE Hr Ho) as (fr1 & h1 & props1 & Hsame & Hrun & HG & Ho1 & Hown1 & _); [by split|].
        destruct (IH Ha' Hn' r (Mach h1 (fr1 :: E) (dec_field rt g (m_rd M)).2 (m_out M)) fr1 E o) as [Ht|(M' & Hrun' & Hrd & Hst)]; try done.
        { rewrite (lookup_same r fr); [done..|apply ext_self]. }
        { exists props1. split; [done|]. intros f Hf. rewrite Hown1; [by apply Hown|]. intros ->. done. }
        { left. by eapply throws_app_r. }
        right. exists M'. split; [by eapply runs_app|]. split; [done|]. intros h [->|Hh]%elem_of_cons Hsh; [done|by apply Hst].
  Qed.

  (** a whole call *)
  Lemma reads_refuse x h data : loads (class_of x) -> prologue (class_of x) = Done () -> checked (x_fields x) -> all_fields no_proto (TStruct (x_fields x)) ->
    let res := dec rt (TStruct (x_fields x)) (RState data false 0) in
    (exists e, reads rt (class_of x) h data (Throws e)) \/
    ((exists y M, reads rt (class_of x) h data (Done (y, M)) /\ (r_failed res.2 = true -> y = JNull)) /\
     forall g, g ∈ x_fields x -> stubborn g -> f_array g = false /\ enum_ty (f_ty g) = true /\ r_failed res.2 = true).
  Proof.
    intros Hl Hp Hc Hn. set (k := class_of x). set (fs := x_fields x) in *. rewrite (dec_struct rt). cbn [fst snd].
    set (M0 := Mach (h ++ [OPlain PCtor []]) [<["output" := Some (JLoc (length h))]> (hoist (k_read k))] (RState data false 0) []).
    destruct (fields_refuse fs Hc Hn "output" M0 (<["output" := Some (JLoc (length h))]> (hoist (k_read k))) [] (length h))
      as [(e & n0 & H)|(M' & [n0 Hrun] & Hrd & Hst)].
    { done. } { cbn [lookup_var]. by rewrite lookup_insert. } { exists []. split; [|done]. cbn [M0 m_heap]. by rewrite list_lookup_middle. }
    - left. exists e, n0. intros n Hn'. unfold call_read. rewrite decide_True by done. fold k in Hp. fold k. rewrite Hp. fold M0. specialize (H n Hn').
      change (r_fields fs ["output"]) with (k_read k) in H. by rewrite H.
    - right. cbn [M0 m_rd] in Hrd. split; [|intros g Hg Hs; destruct (Hst g Hg Hs) as (H1 & H2 & H3); by rewrite Hrd in H3].
      eexists _, M'. split.
      + exists n0. intros n Hn'. unfold call_read. rewrite decide_True by done. fold k in Hp. fold k. rewrite Hp. fold M0. specialize (Hrun n Hn').
        change (r_fields fs ["output"]) with (k_read k) in Hrun. by rewrite Hrun.
      + rewrite Hrd. by intros ->.
  Qed.
End throw.

(** ** The code of a schema *)
Lemma starts_or_throws rt k : k_name k ∉ outside_model -> (loads k /\ prologue k = Done ()) \/ forall h data, exists e, reads rt k h data (Throws e).
Proof.
  intros Hk. destruct (decide (loads k)) as [Hl|Hl].
  - assert (prologue k = Done () \/ exists e, prologue k = Throws e) as [Hp|[e Hp]].
    { unfold prologue. case_decide; [eauto|]. case_decide; [eauto|]. rewrite decide_False by done. by left. }
    + by left.
    + right. intros h data. exists e, 0. intros n _. unfold call_read. rewrite decide_True by done. by rewrite Hp.
  - right. intros h data. exists "SyntaxError", 0. intros n _. unfold call_read. by rewrite decide_False.
Qed.
Section code.
  Context iter a r (Hf : fair_order iter) (Hn : no_builtin_decl a) (Hr : type_check iter a = Ok r) (Hnp : no_proto_fields a).
  Context (rt : runtime) (str_ok : jstr -> Prop) (Hrt : rt_ok rt str_ok).
  Notation k := (class_of (r_export r)).
  Notation fs := (x_fields (r_export r)).

  Lemma export_no_proto : all_fields no_proto (TStruct fs).
  Proof.
    apply (export_fields _ _ _ Hf Hn Hr). intros n gs f u HN Hd Hu _ _ _ _ Hname. destruct (type_check_result _ _ _ Hf Hn Hr) as (He & _). apply (Hnp _ _ _ He HN Hd). apply elem_of_list_fmap.
    exists (f_name f, u). by split; [rewrite <-Hname|].
  Qed.
  Lemma declared_top gs f u : declares_struct a (k_name k) gs -> (f, u) ∈ gs -> exists g, g ∈ fs /\ field_matches (r_types r) (f, u) g.
  Proof.
    intros Hd Hu. destruct (entry_fields _ _ _ Hf Hn Hr _ _ _ (export_entry _ _ _ Hf Hn Hr) Hd) as (rs & ds & [= <-] & Hp & Hm).
    by eapply declared_field.
  Qed.
  Lemma code_refuses gs f u h data : k_name k ∉ outside_model -> declares_struct a (k_name k) gs -> (f, u) ∈ gs -> f ∈ readonly_names ->
    (exists e, reads rt k h data (Throws e)) \/
    (single_enum a u /\ r_failed (dec rt (TStruct fs) (RState data false 0)).2 = true /\ exists M, reads rt k h data (Done (JNull, M))).
  Proof.
    intros Hk Hd Hu Hro. destruct (starts_or_throws rt k Hk) as [[Hl Hp]|H]; [|left; apply H].
    destruct (reads_refuse rt str_ok Hrt (r_export r) h data Hl Hp (export_checked _ _ _ Hf Hn Hr) export_no_proto) as [H|((y & M & H & Hy) & Hst)]; [by left|].
    right. destruct (declared_top gs f u Hd Hu) as (g & Hg & E1 & E2 & E3 & E4 & E5). cbn [fst snd] in *.
    destruct (Hst g Hg) as (H1 & H2 & H3); [unfold stubborn; by rewrite E1|]. split; [|split; [done|]].
    - split; [congruence|]. destruct (f_ty g) as [|e|]; try done. destruct (entry_declared_enum _ _ _ Hf Hn Hr _ _ E5) as (vs & Hvs & _). by exists vs.
    - exists M. by rewrite (Hy H3) in H.
  Qed.
  Lemma code_result_names : k_name k ∉ outside_model -> str_ok [] -> small_enums a ->
    (forall h data e, ~ reads rt k h data (Throws e)) <-> result_names a.
  Proof.
    intros Hk Hs0 Hs. destruct (export_declared _ _ _ Hf Hn Hr) as (gs & He & Hd & Hp & Hu & _). split.
    - intros Hnt. constructor.
      + apply (module_names_iff _ _ _ Hf Hn Hr). destruct (starts_or_throws rt k Hk) as [H|H]; [done|]. destruct (H [] []) as [e He']. by destruct (Hnt [] [] e).
      + intros e fs' He' Hd'. destruct (Hu _ _ He' Hd') as [-> ->]. apply Forall_forall. intros f ([f' u] & -> & Hfu)%elem_of_list_fmap Hro.
        assert (all_enums (fun e => exists n, declared e n) (TStruct fs)) as Hdecl.
        { apply (export_enums _ _ _ Hf Hn Hr). intros n e He2. destruct (entry_leaf _ _ _ Hf Hn Hr _ _ He2) as (vs & rp & Hg & _ & _ & ->).
          destruct vs as [|w vs]; [cbn in Hg; lia|]. eexists. exists (EnumVariant w 0). split; [left|done]. }
        destruct (some_value str_ok (TStruct fs) Hs0 Hdecl) as [v Hv].
        destruct (dec_inverts rt str_ok Hrt (TStruct fs) (export_readable _ _ _ Hf Hn Hr Hs) v [] 0 Hv) as [c E].
        destruct (code_refuses gs f' u [] (wire (rt_enc rt) (rt_encs rt) (TStruct fs) v ++ []) Hk Hd Hfu Hro) as [[e H]|(_ & Hfail & _)]; [by eapply Hnt|].
        rewrite E in Hfail. done.
    - intros [Hm Ht] h data e Hthrow. apply (module_names_iff _ _ _ Hf Hn Hr) in Hm as [Hl Hpr].
      destruct (reads_of rt str_ok (r_export r) h data Hrt Hl Hpr (export_checked _ _ _ Hf Hn Hr) export_no_proto) as (M & props & H & _).
      + intros f Hfin. specialize (Ht _ _ He Hd). rewrite Forall_forall in Ht. apply Ht. rewrite <- Hp, params_names.
        apply elem_of_list_In, in_map, elem_of_list_In. done.
      + pose proof (reads_det _ _ _ _ _ _ H Hthrow) as [=].
  Qed.
End code.

Lemma refused_fields a rt str_ok : rt_ok rt str_ok -> no_proto_fields a -> for_code a (fun k t => k_name k ∉ outside_model ->
  forall fs f u, declares_struct a (k_name k) fs -> (f, u) ∈ fs -> f ∈ readonly_names ->
  forall h data, (exists e, reads rt k h data (Throws e)) \/ (single_enum a u /\ exists M, reads rt k h data (Done (JNull, M)))).
Proof.
  intros Hrt Hnp. apply for_code_intro. intros iter r Hf Hn Hr Hk fs f u Hd Hu Hro h data.
  destruct (code_refuses _ _ _ Hf Hn Hr Hnp rt str_ok Hrt fs f u h data Hk Hd Hu Hro) as [H|(H1 & _ & H2)]; [by left|by right].
Qed.
Lemma throwing_names a rt str_ok : rt_ok rt str_ok -> str_ok [] -> small_enums a -> no_proto_fields a -> for_code a (fun k t => k_name k ∉ outside_model ->
  ((forall h data e, ~ reads rt k h data (Throws e)) <-> result_names a)).
Proof. intros Hrt Hs0 Hs Hnp. apply for_code_intro. intros iter r Hf Hn Hr Hk. by eapply code_result_names. Qed.
