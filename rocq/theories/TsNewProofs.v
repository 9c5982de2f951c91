(** Proofs about TsNew.v (C61, C36). *)
From Verif Require Export TsNew WireWitness.

Lemma get_prop_app h h' x f y : (forall l, x = JLoc l -> is_Some (h !! l)) -> get_prop h x f = Done y -> get_prop (h ++ h') x f = Done y.
Proof. destruct x as [| | | |l|]; cbn; try done. intros H. destruct (H l eq_refl) as [o Ho]. rewrite (lookup_app_l_Some _ _ _ _ Ho). by rewrite Ho. Qed.
Lemma rep_app h h' : forall v x, rep h x v -> rep (h ++ h') x v.
Proof.
  fix IH 1. intros v x. destruct v as [n|s|l|fs|]; cbn [rep]; try done.
  - intros (p & items & -> & Hp & Hall). exists p, items. split; [done|]. split; [by apply lookup_app_l_Some|]. clear Hp.
    revert items Hall. induction l as [|v l IHl]; intros [|y items]; try done. intros [H1 H2]. split; [by apply IH|by apply IHl].
  - intros (p & pr & props & -> & Hp & Hall). exists p, pr, props. split; [done|]. split; [by apply lookup_app_l_Some|].
    induction fs as [|[f v] fs IHfs]; [done|]. destruct Hall as [(y & Hy & Hv) Hall]. split; [|by apply IHfs].
    exists y. split; [|by apply IH]. apply get_prop_app; [|done]. intros l [= <-]. by eexists.
Qed.

(** what the assignments leave behind *)
Fixpoint put_all (ps : list string) (args : list val) (props : list (string * val)) : list (string * val) :=
  match ps with [] => props | p :: ps => put_all ps (tail args) (put p (default JUndef (head args)) props) end.
Lemma own_put f g v props : own f (put g v props) = if decide (g = f) then Some v else own f props.
Proof.
  induction props as [|[g' u] props IH]; [done|]. cbn [put]. destruct (decide (g' = g)) as [->|Hg]; cbn [own].
  - by destruct (decide (g = f)).
  - rewrite IH. destruct (decide (g' = f)) as [->|]; [|done]. by rewrite decide_False.
Qed.
Lemma assign_put ps : forall h args props, "__proto__" ∉ ps ->
  assign_all (h ++ [OPlain PClass props]) (JLoc (length h)) ps args = Done (h ++ [OPlain PClass (put_all ps args props)]).
Proof.
  induction ps as [|p ps IH]; intros h args props Hp; [done|]. apply not_elem_of_cons in Hp as [Hp1 Hp2]. cbn [assign_all set_prop].
  rewrite list_lookup_middle by done. rewrite decide_False by (intros [_ E]; congruence). rewrite decide_False by (intros (_ & [=] & _)).
  cbn [obind]. rewrite insert_app_r_alt by done. rewrite Nat.sub_diag. cbn [insert list_insert]. by rewrite IH.
Qed.
Lemma own_put_all_other ps : forall args props f, f ∉ ps -> own f (put_all ps args props) = own f props.
Proof.
  induction ps as [|p ps IH]; intros args props f Hf; [done|]. apply not_elem_of_cons in Hf as [H1 H2]. cbn [put_all].
  rewrite IH by done. rewrite own_put. by rewrite decide_False.
Qed.
Lemma own_put_all ps : forall args props i f, NoDup ps -> ps !! i = Some f -> own f (put_all ps args props) = Some (default JUndef (args !! i)).
Proof.
  induction ps as [|p ps IH]; intros args props i f Hnd Hi; [done|]. apply NoDup_cons in Hnd as [H1 H2]. cbn [put_all].
  destruct i as [|i]; cbn in Hi.
  - injection Hi as ->. rewrite own_put_all_other by done. rewrite own_put, decide_True by done. by destruct args.
  - rewrite (IH _ _ i f) by done. by destruct args as [|a args].
Qed.

Lemma construct_rep k h args fs : loads k -> "__proto__" ∉ (k_params k).*1 -> (k_params k).*1 = fs.*1 -> Forall2 (rep h) args fs.*2 ->
  exists h', construct k h args = Done (JLoc (length h), h') /\ rep h' (JLoc (length h)) (VRec fs) /\
    h' = h ++ [OPlain PClass (put_all (k_params k).*1 args [])].
Proof.
  intros Hl Hp Hn Hargs. eexists. split; [|split; [|reflexivity]].
  { unfold construct. rewrite decide_True by done. rewrite assign_put by done. reflexivity. }
  set (props := put_all _ _ _). cbn [rep]. exists (length h), PClass, props. split; [done|]. split; [by rewrite list_lookup_middle|].
  assert (forall i f v, fs !! i = Some (f, v) -> exists y, get_prop (h ++ [OPlain PClass props]) (JLoc (length h)) f = Done y /\ rep (h ++ [OPlain PClass props]) y v) as H.
  { intros i f v Hi. assert (fs.*2 !! i = Some v) as Hv by by rewrite list_lookup_fmap, Hi.
    destruct (Forall2_lookup_r _ _ _ _ _ Hargs Hv) as (y & Hy & Hrep). exists y. split; [|by apply rep_app].
    cbn [get_prop]. rewrite list_lookup_middle by done. subst props. rewrite (own_put_all _ _ _ i f), Hy; [done|apply Hl|].
    rewrite Hn, list_lookup_fmap, Hi. done. }
  clearbody props. clear -H. revert H. generalize (h ++ [OPlain PClass props]). intros h' H.
  assert (forall f v, (f, v) ∈ fs -> exists y, get_prop h' (JLoc (length h)) f = Done y /\ rep h' y v) as H'.
  { intros f v [i Hi]%elem_of_list_lookup. by eapply H. }
  clear H. induction fs as [|[f v] fs IH]; [done|]. split; [apply H'; by left|]. apply IH. intros. apply H'. by right.
Qed.

(** ** C61 *)
Lemma shape_names P Q rs fs : shape P Q (TStruct rs) (VRec fs) -> fs.*1 = List.map f_name rs.
Proof.
  intros (vs & [= <-] & H). revert fs H. induction rs as [|r rs IH]; intros [|[g v] fs]; try done. intros (-> & _ & H). cbn. f_equal. by apply IH.
Qed.
Definition built (rt : runtime) (k : cls) (t : rtype) : Prop :=
  write_ready k -> "__proto__" ∉ (k_params k).*1 -> forall fs h args, writable t (VRec fs) -> Forall2 (rep h) args fs.*2 ->
  exists x h', construct k h args = Done (x, h') /\ rep h' x (VRec fs) /\
    ("write" ∉ fs.*1 -> exists M, calls_write rt k h' x (Done (wire (rt_enc rt) (rt_encs rt) t (VRec fs), M))).
Lemma class_built rt iter a r : fair_order iter -> no_builtin_decl a -> type_check iter a = Ok r ->
  built rt (class_of (r_export r)) (TStruct (x_fields (r_export r))).
Proof.
  intros Hf Hn Hr Hl Hp fs h args Hv Hargs. pose proof (shape_names _ _ _ _ Hv) as Hnames. rewrite <- params_names in Hnames.
  destruct (construct_rep _ h args fs (proj1 Hl) Hp (eq_sym Hnames) Hargs) as (h' & H1 & H2 & H3). exists (JLoc (length h)), h'.
  split; [done|]. split; [done|]. intros Hw. destruct (writes_wire rt _ _ _ Hf Hn Hr Hl _ h' _ Hv H2) as (M & HM & _). exists M.
  unfold calls_write. assert (get_prop h' (JLoc (length h)) "write" = Done JFun) as ->; [|done].
  rewrite H3. cbn [get_prop]. rewrite list_lookup_middle by done. rewrite own_put_all_other by by rewrite <- Hnames. done.
Qed.
Lemma code_built a rt : for_code a (built rt).
Proof. apply for_code_intro. intros iter r Hf Hn Hr. by eapply class_built. Qed.
Lemma code_built_declared a rt : all_fixed a -> for_code_declared a (built rt).
Proof. intros Hfix. apply for_code_declared_intro; [done|]. intros iter r Hf Hn Hr. by eapply class_built. Qed.

(** a field called write *)
Lemma write_facts : legal_ast (name_schema "write") /\ export_of (name_schema "write") = Ok (name_export "write") /\ plain_names (name_schema "write") /\ all_fixed (name_schema "write").
Proof. split; [solve_legal|]. split; [by vm_compute|]. split; [solve_plain|]. apply single_fixed. decl_cases; cbn; lia. Qed.
Lemma write_hidden rt : accepted (name_schema "write") /\ plain_names (name_schema "write") /\ for_code (name_schema "write") (fun k t => forall h n,
  exists x h', construct k h [JNum n] = Done (x, h') /\ rep h' x (VRec [("write", VNum n)]) /\ calls_write rt k h' x (Throws "TypeError")).
Proof.
  destruct write_facts as (Hl & Hx & Hp & Hfix). split; [by eapply accepted_export|]. split; [done|]. eapply for_code_export; [done..|]. intros h n.
  pose proof (export_fine _ _ Hl Hx Hp) as Hk.
  destruct (construct_rep (class_of (name_export "write")) h [JNum n] [("write", VNum n)] (nf_loads _ _ Hk)) as (h' & H1 & H2 & H3);
    [solve_names|done|by repeat constructor|].
  eexists _, h'. split; [done|]. split; [done|]. unfold calls_write. rewrite H3. cbn [get_prop]. by rewrite list_lookup_middle.
Qed.
(** two runs disagree about the parameters *)
Lemma params_differ : exists a iter1 iter2, accepted a /\ plain_names a /\ fair_order iter1 /\ fair_order iter2 /\
  for_runs iter1 iter2 a (fun k1 k2 t => forall h v w, exists x h1 h2, construct k1 h [v; w] = Done (x, h1) /\ construct k2 h [v; w] = Done (x, h2) /\
    get_prop h1 x "x" = Done w /\ get_prop h2 x "x" = Done v).
Proof.
  destruct two_exports as (i1 & i2 & Hf1 & Hf2 & Hx1 & Hx2).
  exists order_schema, i1, i2. split; [apply accepted_fwd; [solve_legal|apply okb_ok; by vm_compute]|].
  assert (plain_names order_schema) as Hp by solve_plain. split; [done|]. split; [done|]. split; [done|].
  apply for_runs_intro; [done..|]. intros r1 r2 Hn Hr1 Hr2 h v w.
  apply rbind_ok in Hx1 as (r1' & Hr1' & [= E1]). apply rbind_ok in Hx2 as (r2' & Hr2' & [= E2]).
  rewrite Hr1 in Hr1'. injection Hr1' as <-. rewrite Hr2 in Hr2'. injection Hr2' as <-.
  pose proof (nf_loads _ _ (plain_fine _ _ _ Hf1 Hn Hr1 Hp)) as Hl1. pose proof (nf_loads _ _ (plain_fine _ _ _ Hf2 Hn Hr2 Hp)) as Hl2.
  rewrite E1 in *. rewrite E2 in *. clear -Hl1 Hl2. eexists (JLoc (length h)), _, _. unfold construct. rewrite !decide_True by done.
  rewrite !assign_put by solve_names. split; [reflexivity|]. split; [reflexivity|]. cbn [get_prop]. by rewrite !list_lookup_middle.
Qed.

(** ** C36 *)
Lemma result_has_no_write a rt str_ok : rt_ok rt str_ok -> for_code a (fun k t => names_fine a k -> "write" ∉ (k_params k).*1 ->
  forall h data l M, reads rt k h data (Done (JLoc l, M)) -> calls_write rt k (m_heap M) (JLoc l) (Throws "TypeError")).
Proof.
  intros Hrt. eapply for_text_mono; [|exact (code_no_method a rt str_ok Hrt)]. intros ds k (e & t & H1 & H2 & H3 & H4). exists e, t.
  split; [done|]. split; [done|]. split; [done|]. intros Hk Hw h data l M Hrd. unfold calls_write. by rewrite (H4 Hk Hw h data l M Hrd).
Qed.
