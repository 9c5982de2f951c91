(** Proofs for C31, for every schema. *)
From Verif Require Export ProtoSpec Needs RunsCore.

(** ** What emitted code does to the heap: it makes objects and arrays, and assigns to properties and elements *)
Section invariant.
  Context (rt : runtime) (fine : heap -> Prop).
  Context (Hadd : forall h o, fine h -> (o = OPlain PObject [] \/ exists items, o = OArr items) -> fine (h ++ [o]))
    (Hset : forall h v f y h', fine h -> set_prop h v f y = Done h' -> fine h') (Helem : forall h v i y h', fine h -> set_elem h v i y = Done h' -> fine h').
  Lemma plain_eval e : forall M v M', fine (m_heap M) -> eval rt e M = Done (v, M') -> fine (m_heap M').
  Proof.
    induction e; intros M v M' Hh H; cbn [eval] in H.
    - destruct (lookup_var _ _); try done. by injection H as <- <-.
    - by injection H as <- <-.
    - by injection H as <- <-.
    - injection H as <- <-. cbn. apply Hadd; [done|by left].
    - destruct (eval rt e M) as [[w M1]| |] eqn:E1; try done. cbn in H. destruct (get_prop _ _ _); try done. injection H as <- <-. by eapply IHe.
    - destruct (eval rt e1 M) as [[w M1]| |] eqn:E1; try done. cbn in H. destruct (eval rt e2 M1) as [[w2 M2]| |] eqn:E2; try done. cbn in H. destruct (get_elem _ _ _); try done.
      injection H as <- <-. eapply IHe2; [|exact E2]. by eapply IHe1.
    - destruct (kind_of m); [|done]. destruct (read_num _ _ _). by injection H as <- <-.
    - destruct (eval rt e M) as [[w M1]| |] eqn:E1; try done. cbn in H. destruct w as [| |[z|]| | |]; try done. destruct (read_str _ _ _). injection H as <- <-. cbn. by eapply IHe.
    - destruct (eval rt e M) as [[w M1]| |] eqn:E1; try done. cbn in H. destruct w as [| |[z|]| | |]; try done. destruct (decide _); [|done]. injection H as <- <-. cbn.
      apply Hadd; [by eapply IHe|right; by eexists].
    - destruct (eval rt e1 M) as [[w M1]| |] eqn:E1; try done. cbn in H. destruct (eval rt e2 M1) as [[w2 M2]| |] eqn:E2; try done. cbn in H.
      destruct w as [| |[z|]| | |]; try done. destruct w2 as [| |[z2|]| | |]; try done. injection H as <- <-. eapply IHe2; [|exact E2]. by eapply IHe1.
    - destruct (eval rt e1 M) as [[w M1]| |] eqn:E1; try done. cbn in H. destruct (eval rt e2 M1) as [[w2 M2]| |] eqn:E2; try done. cbn in H.
      destruct w as [| |[z|]| | |]; try done. destruct w2 as [| |[z2|]| | |]; try done. injection H as <- <-. eapply IHe2; [|exact E2]. by eapply IHe1.
    - destruct (eval rt e1 M) as [[w M1]| |] eqn:E1; try done. cbn in H. destruct w as [| |[z|]| | |]; try done.
      destruct z as [|z|z]; [injection H as <- <-; by eapply IHe1|..]; (eapply IHe2; [|exact H]; by eapply IHe1).
    - by eapply IHe.
  Qed.
  Lemma plain_simple s M M' : fine (m_heap M) -> exec_simple rt s M = Done M' -> fine (m_heap M').
  Proof.
    intros Hh H. destruct s as [any x e|l e|m e|]; cbn [exec_simple] in H.
    - destruct (eval rt e M) as [[w M1]| |] eqn:E1; try done. cbn in H. destruct (init_var _ _ _); try done. injection H as <-. cbn. by eapply plain_eval.
    - destruct l as [x| | | |b f|b i| | | | | | |]; try done.
      + destruct (eval rt e M) as [[w M1]| |] eqn:E1; try done. cbn in H. destruct (assign_var _ _ _); try done. injection H as <-. cbn. by eapply plain_eval.
      + destruct (eval rt b M) as [[w M1]| |] eqn:E1; try done. cbn in H. destruct (eval rt e M1) as [[w2 M2]| |] eqn:E2; try done. cbn in H.
        destruct (set_prop _ _ _ _) as [h'| |] eqn:E3; try done. injection H as <-. cbn. eapply Hset; [|exact E3]. eapply plain_eval; [|exact E2]. by eapply plain_eval.
      + destruct (eval rt b M) as [[w M1]| |] eqn:E1; try done. cbn in H. destruct (eval rt i M1) as [[w2 M2]| |] eqn:E2; try done. cbn in H.
        destruct (eval rt e M2) as [[w3 M3]| |] eqn:E3; try done. cbn in H. destruct (set_elem _ _ _ _) as [h'| |] eqn:E4; try done. injection H as <-. cbn.
        eapply Helem; [|exact E4]. eapply plain_eval; [|exact E3]. eapply plain_eval; [|exact E2]. by eapply plain_eval.
    - destruct (eval rt e M) as [[w M1]| |] eqn:E1; try done. cbn in H. assert (fine (m_heap M1)) as H1 by by eapply plain_eval.
      destruct (decide _); [destruct w; try done; by injection H as <-|]. destruct (kind_of m); [|done]. destruct w; try done. by injection H as <-.
    - by injection H as <-.
  Qed.
  Definition keeps (s : stmt) : Prop := forall n M M', fine (m_heap M) -> exec rt n s M = Some (Done M') -> fine (m_heap M').
  Lemma plain_seq b n : Forall keeps b -> forall M M', fine (m_heap M) -> exec_seq rt n b M = Some (Done M') -> fine (m_heap M').
  Proof.
    induction 1 as [|s b Hs _ IH]; intros M M' Hh H; cbn [exec_seq] in H; [by injection H as <-|].
    destruct (exec rt n s M) as [[M1| |]|] eqn:E; try done. eapply IH; [|exact H]. by eapply Hs.
  Qed.
  Lemma plain_block b n : Forall keeps b -> forall M M', fine (m_heap M) -> exec_block rt n b M = Some (Done M') -> fine (m_heap M').
  Proof.
    intros Hb M M' Hh H. unfold exec_block, leave in H. destruct (exec_seq _ _ _ _) as [[M1| |]|] eqn:E; try done. injection H as <-. cbn.
    eapply plain_seq; [exact Hb| |exact E]. done.
  Qed.
  Lemma plain_loops i e b n : Forall keeps b -> forall k M M', fine (m_heap M) -> loops rt n i e b k M = Some (Done M') -> fine (m_heap M').
  Proof.
    intros Hb. induction k as [|k IH]; intros M M' Hh H; [done|]. cbn [loops] in H. unfold turn in H.
    destruct (eval rt (EGt e (EVar i)) M) as [[v M1]| |] eqn:E1; try done. apply plain_eval in E1; [|done]. destruct (truthy v) as [[]| |]; try done; [|by injection H as <-].
    destruct (exec_block _ _ _ _) as [[M2| |]|] eqn:E2; try done. apply (plain_block _ _ Hb) in E2; [|done]. destruct (lookup_var _ _) as [w| |]; try done.
    destruct w as [| |[z|]| | |]; try done. destruct (assign_var _ _ _); try done. eapply IH; [|exact H]. done.
  Qed.
  Lemma plain_stmt s : keeps s.
  Proof.
    induction s as [s|c b1 b2 H1 H2|c s1 s2|i e b Hb|e s b Hb] using stmt_ind2; intros n M M' Hh H.
    - cbn [exec] in H. injection H as H. by eapply plain_simple.
    - rewrite exec_if in H. destruct (eval rt c M) as [[v M1]| |] eqn:E1; try done. apply plain_eval in E1; [|done]. destruct (truthy v) as [[]| |]; try done; (eapply plain_block; [| |exact H]; done).
    - cbn [exec] in H. destruct (eval rt c M) as [[v M1]| |] eqn:E1; try done. apply plain_eval in E1; [|done]. destruct (truthy v) as [[]| |]; try done; injection H as H; by eapply plain_simple.
    - rewrite exec_for in H. unfold leave in H. destruct (loops _ _ _ _ _ _ _) as [[M1| |]|] eqn:E; try done. injection H as <-. cbn. by eapply plain_loops; [| |exact E].
    - rewrite exec_switch in H. destruct (eval rt e M) as [[v M1]| |] eqn:E1; try done. apply plain_eval in E1; [|done].
      destruct v; try (eapply plain_block; [| |exact H]; done); injection H as H; by eapply plain_simple.
  Qed.
  Lemma invariant_reads k h data v M : fine (h ++ [OPlain PCtor []]) -> reads rt k h data (Done (v, M)) -> fine (m_heap M).
  Proof.
    intros Hh [n Hn]. specialize (Hn n (le_n _)). unfold call_read in Hn. case_decide; [|done]. destruct (prologue k); try done.
    destruct (exec_seq _ _ _ _) as [[M1| |]|] eqn:E; try done. injection Hn as _ <-. eapply plain_seq; [| |exact E]; [|exact Hh].
    apply Forall_forall. intros s _. apply plain_stmt.
  Qed.
End invariant.
Lemma set_elem_inv h v i y h' : set_elem h v i y = Done h' -> exists l items items', h !! l = Some (OArr items) /\ h' = <[l := OArr items']> h.
Proof.
  unfold set_elem. destruct v; try done. destruct i as [| |[z|]| | |]; try done. destruct (h !! l) as [[|items]|] eqn:E; try done. case_decide; [|done]. intros [= <-]. eauto.
Qed.
Lemma set_prop_inv h v f y h' : set_prop h v f y = Done h' -> h' = h \/ exists l p props, v = JLoc l /\ h !! l = Some (OPlain p props) /\ h' = <[l := OPlain p (put f y props)]> h /\
  ~ (own f props = None /\ f = "__proto__") /\ ~ (own f props = None /\ p = PCtor /\ f ∈ readonly_names).
Proof.
  unfold set_prop. destruct v; try done. destruct (h !! l) as [[p props|]|] eqn:Hl; try done.
  case_decide as D1; [destruct y; try done; intros [= <-]; by left|]. case_decide as D2; [done|]. intros [= <-]. right. exists l, p, props. done.
Qed.
(** no property __proto__ is made *)
Lemma reads_plain rt k h data v M : plain_heap h -> reads rt k h data (Done (v, M)) -> plain_heap (m_heap M).
Proof.
  intros Hh. apply invariant_reads.
  - clear. intros h o Hh Ho l p props Hl. apply lookup_app_Some in Hl as [Hl|[_ Hl]]; [by eapply Hh|]. apply list_lookup_singleton_Some in Hl as [_ ->]. by destruct Ho as [[= -> ->]|[? [=]]].
  - clear. intros h v f y h' Hh [->|(l & p & props & _ & Hl & -> & Hno & _)]%set_prop_inv; [done|]. intros l' p' props' Hl'. destruct (decide (l = l')) as [<-|Hne].
    + apply list_lookup_insert_Some in Hl' as [(_ & [= <- <-] & _)|[? _]]; [|done]. pose proof (Hh _ _ _ Hl) as E.
      destruct (decide (f = "__proto__")) as [->|Hf]; [by destruct Hno|by rewrite own_put_ne].
    + rewrite list_lookup_insert_ne in Hl' by done. by eapply Hh.
  - clear. intros h v i y h' Hh (l & items & items' & Hl & ->)%set_elem_inv. intros l' p' props' Hl'. destruct (decide (l = l')) as [<-|Hne].
    + by apply list_lookup_insert_Some in Hl' as [(_ & [=] & _)|[? _]].
    + rewrite list_lookup_insert_ne in Hl' by done. by eapply Hh.
  - intros l p props Hl. apply lookup_app_Some in Hl as [Hl|[_ Hl]]; [by eapply Hh|]. by apply list_lookup_singleton_Some in Hl as [_ [= <- <-]].
Qed.
(** nor, on the result, one of those that a constructor has for itself *)
Definition result_at (x : string) (l : nat) (h : heap) : Prop := exists props, h !! l = Some (OPlain PCtor props) /\ own x props = None.
Lemma reads_readonly rt k h data v M x : x ∈ readonly_names -> reads rt k h data (Done (v, M)) -> result_at x (length h) (m_heap M).
Proof.
  intros Hx. apply (invariant_reads rt (result_at x (length h))); [generalize (length h) as L|generalize (length h) as L|generalize (length h) as L|].
  - clear. intros L h o (props & Hl & E) _. exists props. split; [|done]. by apply lookup_app_l_Some.
  - clear - Hx. intros L h v f y h' (props & Hl & E) [->|(l & p & props' & _ & Hl' & -> & _ & Hno)]%set_prop_inv; [by exists props|].
    destruct (decide (l = L)) as [->|Hne]; [|exists props; by rewrite list_lookup_insert_ne]. rewrite Hl in Hl'. injection Hl' as <- <-.
    exists (put f y props). rewrite list_lookup_insert by (by eapply lookup_lt_Some). split; [done|]. rewrite own_put_ne; [done|]. intros ->. by destruct Hno.
  - clear. intros L h v i y h' (props & Hl & E) (l & items & items' & Hl' & ->)%set_elem_inv. exists props. split; [|done]. rewrite list_lookup_insert_ne; [done|]. intros ->. congruence.
  - exists []. by rewrite lookup_app_r, Nat.sub_diag by done.
Qed.

(** ** what no such heap holds *)
Definition unheld (v : value) : Prop := forall h x, plain_heap h -> ~ rep h x v.
Lemma rep_field h x fs f v : rep h x (VRec fs) -> (f, v) ∈ fs -> exists y, get_prop h x f = Done y /\ rep h y v.
Proof.
  intros (p & pr & props & _ & _ & H) Hin. induction fs as [|[g w] fs IH]; [by apply elem_of_nil in Hin|]. destruct H as [H1 H].
  apply elem_of_cons in Hin as [[= -> ->]|Hin]; [exact H1|]. by apply IH.
Qed.
Lemma unheld_field fs f v : (f, v) ∈ fs -> unheld v -> unheld (VRec fs).
Proof. intros Hin Hv h x Hh Hrep. destruct (rep_field _ _ _ _ _ Hrep Hin) as (y & _ & Hy). by eapply Hv. Qed.
Lemma unheld_proto fs v : ("__proto__", v) ∈ fs -> unheld (VRec fs).
Proof.
  intros Hin h x Hh Hrep. destruct (rep_field _ _ _ _ _ Hrep Hin) as (y & Hy & Hv). destruct Hrep as (p & pr & props & -> & Hp & _).
  cbn [get_prop] in Hy. rewrite Hp, (Hh _ _ _ Hp) in Hy. unfold inherited in Hy. rewrite decide_True in Hy by (apply (bool_decide_unpack _); by vm_compute). injection Hy as <-.
  clear - Hv. destruct v; cbn [rep] in Hv; try done; naive_solver.
Qed.
Section plug.
  Context (str_ok : jstr -> Prop) (Hs0 : str_ok []).
  Lemma plug_proto t : inside (fun f => f_name f = "__proto__") t -> all_enums good_enum t -> exists v, shape declared str_ok t v /\ unheld v.
  Proof.
    intros Hin. induction Hin as [fs f Hf Hq|fs f Hf Hin IH]; intros Hg.
    - destruct (some_value str_ok (TStruct fs) Hs0) as [v Hv].
      { eapply all_enums_mono; [|exact Hg]. intros e H. by apply good_variants. }
      exists v. split; [done|]. apply shape_struct in Hv as (vs & -> & Hv). pose proof (fields_shape_fst _ _ _ _ Hv) as E.
      assert ("__proto__" ∈ vs.*1) as Hp by (rewrite E, <- Hq; apply elem_of_list_In, in_map, elem_of_list_In; done).
      apply elem_of_list_fmap in Hp as ([g w] & E' & Hp). cbn in E'. subst g. by eapply unheld_proto.
    - rewrite all_enums_struct in Hg. destruct (IH (Hg f Hf)) as (v & Hv & Hu). apply elem_of_list_split in Hf as (pre & post & ->).
      destruct (usual_values str_ok Hs0 pre) as [vs Hvs]; [intros g Hg'; apply Hg, elem_of_app; by left|].
      destruct (usual_values str_ok Hs0 post) as [ws Hws]; [intros g Hg'; apply Hg, elem_of_app; right; by right|].
      exists (VRec (vs ++ (f_name f, Needs.one f v) :: ws)). split.
      + eexists. split; [done|]. apply fields_shape_app. pose proof (fields_shape_length _ _ _ _ Hvs) as HL. rewrite <- HL, take_app, drop_app.
        split; [done|]. split; [done|]. split; [by apply one_shape|done].
      + eapply unheld_field; [apply elem_of_app; right; by left|]. unfold Needs.one. destruct (f_array f); [|done].
        intros h x Hh (p & items & _ & _ & H). destruct items as [|y items]; [done|]. destruct H as [H _]. by eapply Hu.
  Qed.
End plug.
(** ** the criterion *)
Section criterion.
  Context (a : ast) (rt : runtime) (str_ok : jstr -> Prop) (Hs0 : str_ok []) (e : string) (He : exports a = [e]).
  (** values that do not come out of read if a name is not fine *)
  Lemma proto_value iter r n fs u : fair_order iter -> no_builtin_decl a -> type_check iter a = Ok r -> x_name (r_export r) = e -> needed a e n -> declares_struct a n fs ->
    ("__proto__", u) ∈ fs -> exists v, has_type str_ok (TStruct (x_fields (r_export r))) v /\ unheld v.
  Proof.
    intros Hf Hn Hr He' HN Hd Hin. apply (plug_proto _ Hs0); [|exact (Needs.export_good _ _ _ Hf Hn Hr)].
    eapply (entry_inside _ _ _ Hf Hn Hr); [exact HN|exact Hd|exact Hin| |rewrite <- He'; by eapply export_entry].
    intros f' (E & _). exact E.
  Qed.
  Lemma call_started k h data x M : reads rt k h data (Done (x, M)) -> loads k /\ prologue k = Done () /\ (x = JNull \/ x = JLoc (length h)).
  Proof.
    intros [n Hn]. specialize (Hn n (le_n _)). unfold call_read in Hn. case_decide; [|done]. destruct (prologue k) as [[]| |]; try done.
    destruct (exec_seq _ _ _ _) as [[M1| |]|] eqn:E; try done. injection Hn as <- <-. split; [done|]. split; [done|]. destruct (r_failed _); tauto.
  Qed.
  Lemma readonly_held x fs v rs : x ∈ readonly_names -> (x, v) ∈ fs -> forall k h data M, reads rt k h data (Done (rs, M)) -> ~ rep (m_heap M) rs (VRec fs).
  Proof.
    intros Hx Hin k h data M Hrd Hrep. destruct (rep_field _ _ _ _ _ Hrep Hin) as (y & Hy & Hv). destruct (call_started _ _ _ _ _ Hrd) as (_ & _ & [-> | ->]); [by destruct Hrep as (? & ? & ? & [=] & _)|].
    destruct (reads_readonly _ _ _ _ _ _ _ Hx Hrd) as (props & Hl & E). cbn [get_prop] in Hy. rewrite Hl, E in Hy.
    assert (inherited PCtor x = Done JFun \/ inherited PCtor x = Throws "TypeError") as [E'|E'].
    { unfold readonly_names in Hx. rewrite !elem_of_cons, elem_of_nil in Hx. destruct Hx as [->|[->|[->|[->|[->|[]]]]]]; vm_compute; tauto. }
    - rewrite E' in Hy. injection Hy as <-. clear - Hv. destruct v; cbn [rep] in Hv; try done; naive_solver.
    - by rewrite E' in Hy.
  Qed.
  Lemma code_gets_through : rt_ok rt str_ok -> modelled_names a e -> distinct_fields a e ->
    for_code a (fun k t => gets_through rt str_ok k t <-> plain_names a /\ ~ needs_enum 32 a e).
  Proof.
    intros Hrt _ Hd. apply (for_needs _ _ He). intros iter r Hf Hn Hr He'. set (k := class_of (r_export r)). set (t := TStruct (x_fields (r_export r))).
    split.
    - intros Hg. assert (distinct t) as Ht by (apply (export_distinct _ _ _ Hf Hn Hr); rewrite He'; exact Hd).
      assert (forall v, has_type str_ok t v -> exists data l M, reads rt k [] data (Done (JLoc l, M)) /\ rep (m_heap M) (JLoc l) v) as Hout.
      { intros v Hv. destruct (typed_built _ _ t Ht v Hv []) as (h & this & Hrep). destruct (Hg v _ this [] Hv Hrep) as (bytes & M & l & M' & _ & H1 & H2); [|by eexists _, _, _].
        intros l p props Hl. done. }
      destruct (usual_value _ Hs0 t) as [v Hv]; [exact (Needs.export_good _ _ _ Hf Hn Hr)|]. destruct (Hout v Hv) as (data & l & M & Hrd & Hrep). destruct (call_started _ _ _ _ _ Hrd) as (Hl & Hp & _).
      assert (names_fine a k) as Hk.
      { constructor; [done|done| |].
        + intros n fs HN Hdn. assert (needed a e n) as HN' by (rewrite <- He'; exact HN). clear HN. rename HN' into HN. split; [by eapply Hd|]. intros Hin. apply elem_of_list_fmap in Hin as ([g u] & E & Hin). cbn in E. subst g.
        destruct (proto_value _ _ _ _ _ Hf Hn Hr He' HN Hdn Hin) as (w & Hw & Hu). destruct (Hout w Hw) as (data' & l' & M' & Hrd' & Hrep'). eapply Hu; [|exact Hrep'].
        eapply reads_plain; [|exact Hrd']. by intros ? ? ? ?.
        + intros x Hx Hro. apply shape_struct in Hv as (vs & -> & Hv). assert (x ∈ vs.*1) as Hin.
        { rewrite (fields_shape_fst _ _ _ _ Hv). unfold k in Hx. by rewrite params_names in Hx. }
        apply elem_of_list_fmap in Hin as ([g w] & E & Hin). cbn in E. subst g. by eapply readonly_held. }
      split; [by apply (names_fine_iff _ _ _ Hf Hn Hr)|]. intros Hneed. rewrite <- He' in Hneed.
      destruct (plug_lost rt str_ok Hrt Hs0 _ (inside_huge _ (enum_inside _ _ _ Hf Hn Hr 32 Hneed)) (Needs.export_good _ _ _ Hf Hn Hr)) as (w & Hw & Hfail).
      destruct (typed_built _ _ t Ht w Hw []) as (h & this & Hrep'). destruct (Hg w _ this [] Hw Hrep') as (bytes & M1 & l1 & M2 & H1 & H2 & _); [by intros ? ? ? ?|].
      destruct (writes_wire rt _ _ _ Hf Hn Hr (nf_ready _ _ Hk) w _ this (any_typed _ _ _ _ Hw) Hrep') as (M3 & H3 & _). pose proof (writes_det _ _ _ _ _ _ H1 H3) as [= -> _].
      set (data' := wire _ _ _ w) in *. destruct (fine_reads _ _ _ Hf Hn Hr rt str_ok [] data' Hrt Hk) as (M4 & props & H4 & _). cbn zeta in H4.
      specialize (Hfail [] 0). rewrite app_nil_r in Hfail. rewrite Hfail in H4. by pose proof (reads_det _ _ _ _ _ _ H2 H4).
    - intros [Hpl Hneed] v h this h' Hv Hrep _. pose proof (plain_fine _ _ _ Hf Hn Hr Hpl) as Hk. rewrite <- He' in Hneed.
      destruct (run_kept a rt str_ok Hrt _ _ Hf Hn Hr Hneed Hk v h this h' Hv Hrep) as (bytes & M & H1 & l & M' & H2 & H3 & _). by exists bytes, M, l, M'.
  Qed.
  Lemma code_proto_lost n fs u : needed a e n -> declares_struct a n fs -> ("__proto__", u) ∈ fs -> modelled_names a e ->
    for_code a (fun k t => exists v, has_type str_ok t v /\ forall h data x M, plain_heap h -> reads rt k h data (Done (x, M)) -> ~ rep (m_heap M) x v).
  Proof.
    intros HN Hd Hin _. apply (for_needs _ _ He). intros iter r Hf Hn Hr He'. destruct (proto_value _ _ _ _ _ Hf Hn Hr He' HN Hd Hin) as (v & Hv & Hu). exists v. split; [done|].
    intros h data x M Hh Hrd. apply Hu. by eapply reads_plain.
  Qed.
End criterion.

(** ** new *)
Definition unmarked (l : nat) (h : heap) : Prop := exists p props, h !! l = Some (OPlain p props) /\ own "__proto__" props = None.
Lemma assign_unmarked l ps : forall h args h', unmarked l h -> assign_all h (JLoc l) ps args = Done h' -> unmarked l h'.
Proof.
  induction ps as [|p ps IH]; intros h args h' Hu H; cbn [assign_all] in H; [by injection H as <-|].
  destruct (set_prop _ _ _ _) as [h1| |] eqn:E; try done. cbn [obind] in H. eapply IH; [|exact H]. destruct Hu as (q & props & Hl & Hno).
  apply set_prop_inv in E as [->|(l' & p' & props' & [= <-] & Hl' & -> & Hn & _)]; [by exists q, props|]. rewrite Hl in Hl'. injection Hl' as <- <-.
  exists q, (put p (default JUndef (head args)) props). rewrite list_lookup_insert by (by eapply lookup_lt_Some). split; [done|]. rewrite own_put_ne; [done|]. intros E. apply Hn. by subst.
Qed.
Lemma rep_args h x fs : rep h x (VRec fs) -> exists args, Forall2 (rep h) args fs.*2.
Proof.
  intros (p & pr & props & _ & _ & H). induction fs as [|[f v] fs IH]; [exists []; constructor|]. destruct H as [(y & _ & Hy) H]. destruct (IH H) as [args Ha]. exists (y :: args). cbn. by constructor.
Qed.
Lemma code_instances a rt (str_ok : jstr -> Prop) e : str_ok [] -> exports a = [e] -> e ≠ "undefined" -> distinct_fields a e -> for_code a (fun k t =>
  usable_instances rt str_ok k t <-> loads k /\ forall fs, declares_struct a e fs -> "write" ∉ fs.*1 /\ "__proto__" ∉ fs.*1).
Proof.
  intros Hs0 He Hu Hd. apply (for_needs _ _ He). intros iter r Hf Hn Hr He'. set (k := class_of (r_export r)). set (t := TStruct (x_fields (r_export r))).
  destruct (export_declared _ _ _ Hf Hn Hr) as (fs & _ & Hfs & Hp & Hone & _). assert (declares_struct a e fs) as Hfs' by (rewrite <- He'; exact Hfs). clear Hfs. rename Hfs' into Hfs.
  split.
  - intros Hg. assert (distinct t) as Ht by (apply (export_distinct _ _ _ Hf Hn Hr); rewrite He'; exact Hd).
    destruct (usual_value _ Hs0 t) as [v Hv]; [exact (Needs.export_good _ _ _ Hf Hn Hr)|]. destruct (typed_built _ _ t Ht v Hv []) as (h & x0 & Hrep0).
    pose proof Hv as Hv0. apply shape_struct in Hv0 as (vs & -> & Hvs). destruct (rep_args _ _ _ Hrep0) as [args Hargs]. destruct (Hg vs _ args Hv Hargs) as (x & h' & M & H1 & H2 & H3).
    assert (forall g, g ∈ fs.*1 -> exists w, (g, w) ∈ vs) as Hin.
    { intros g Hg'. assert (g ∈ vs.*1) as Hgv by (rewrite (fields_shape_fst _ _ _ _ Hvs), <- params_names; by rewrite Hp). apply elem_of_list_fmap in Hgv as ([g' w] & -> & Hgv). by exists w. }
    assert (forall w h, ~ rep h JFun w) as HJ by (intros w h0 Hw; destruct w; cbn [rep] in Hw; try done; naive_solver).
    unfold construct in H1. case_decide as Hl; [|done]. destruct (assign_all _ _ _ _) as [h1| |] eqn:Ea; try done. cbn [obind] in H1. injection H1 as <- <-. split; [done|].
    intros fs' Hfs'. assert (fs' = fs) as -> by (eapply Hone; [exact He|exact Hfs']). split; intros Hg'.
    + destruct (Hin _ Hg') as [w Hw]. destruct (rep_field _ _ _ _ _ H2 Hw) as (y & Hy & Hwy). unfold calls_write in H3. rewrite Hy in H3. destruct y; try done. by eapply HJ.
    + destruct (Hin _ Hg') as [w Hw]. destruct (rep_field _ _ _ _ _ H2 Hw) as (y & Hy & Hwy).
      assert (unmarked (length h) (h ++ [OPlain PClass []])) as Hun by (exists PClass, []; by rewrite lookup_app_r, Nat.sub_diag by done).
      destruct (assign_unmarked _ _ _ _ _ Hun Ea) as (q & props & Hl' & Hno).
      cbn [get_prop] in Hy. rewrite Hl', Hno in Hy. assert (inherited q "__proto__" = Done JFun) as Ei by by destruct q. rewrite Ei in Hy. injection Hy as <-. by eapply HJ.
  - intros [Hl Hno] vs h args Hv Hargs. destruct (Hno _ Hfs) as [Hw Hpr]. assert (write_ready k) as Hk by (split; [done|]; change (k_name k) with (x_name (r_export r)); by rewrite He').
    assert (vs.*1 ≡ₚ fs.*1) as Hvs. { rewrite <- Hp, params_names. by rewrite (shape_names _ _ _ _ Hv). }
    destruct (class_built rt _ _ _ Hf Hn Hr Hk ltac:(by rewrite Hp) vs h args (any_typed _ _ _ _ Hv) Hargs) as (x & h' & H1 & H2 & H3). destruct H3 as [M H3]; [by rewrite Hvs|]. by exists x, h', M.
Qed.
