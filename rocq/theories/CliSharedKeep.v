(** If others leave what has extension ts alone, what was written last is there at the end. *)
From Verif Require Export CliSharedProofs.

Section keep.
  Context (E : env) (meddle : nat -> fs -> fs) (Hts : spares_ts meddle).
  Definition kept (f : fs) (ev : list event) : Prop := forall l c, Wrote l c ∈ ev -> ts_name l -> exists c', Wrote l c' ∈ ev /\ f !! l = Some (File c').
  Definition keeps {A : Type} (m : shio A) : Prop := forall w w' r, kept (p_fs w) (p_events w) -> m w = (w', r) -> kept (p_fs w') (p_events w').
  Lemma keeps_lift {A : Type} (r : res A) : keeps (hlift r).
  Proof. by intros w w' r' Hw [= <- <-]. Qed.
  Lemma keeps_ret {A : Type} (a : A) : keeps (hret a).
  Proof. apply (keeps_lift (Ok a)). Qed.
  Lemma keeps_bind {A B : Type} (m : shio A) (k : A -> shio B) : keeps m -> (forall a, keeps (k a)) -> keeps (hbind m k).
  Proof.
    intros H1 H2 w w' r Hw. unfold hbind. destruct (m w) as [w1 r1] eqn:M. pose proof (H1 _ _ _ Hw M) as Hw1. destruct r1 as [a| | |]; [by apply H2|by intros [= <- <-]..].
  Qed.
  Lemma keeps_tick {A : Type} (op : nat -> fs -> fs * list event * res A) : (forall n f ev, kept f ev -> let '(f', ev', _) := op n f in kept f' (ev ++ ev')) -> keeps (htick meddle op).
  Proof.
    intros H w w' r Hw. unfold htick. specialize (H (p_op w) (meddle (p_op w) (p_fs w)) (p_events w)). destruct (op _ _) as [[f' ev'] r']. intros [= <- <-]. apply H.
    intros l c Hl Ht. destruct (Hw l c Hl Ht) as (c' & H1 & H2). exists c'. by rewrite Hts.
  Qed.
  Lemma kept_quiet f ev : kept f ev -> kept f (ev ++ []).
  Proof. by rewrite app_nil_r. Qed.
  Lemma kept_other f ev e : kept f ev -> (forall l c, e ≠ Wrote l c) -> kept f (ev ++ [e]).
  Proof.
    intros H He l c [Hl|Hl%elem_of_list_singleton]%elem_of_app Ht; [|by destruct (He l c)]. destruct (H l c Hl Ht) as (c' & H1 & H2). exists c'. split; [|done]. apply elem_of_app. by left.
  Qed.
  Lemma kept_mkdir f ev l : entry_at f l = None -> kept f ev -> kept (<[l := Dir]> f) (ev ++ [Mkdir l]).
  Proof.
    intros Hn H. apply kept_other; [|done]. intros l' c Hl Ht. destruct (H l' c Hl Ht) as (c' & H1 & H2). exists c'. split; [done|]. rewrite lookup_insert_ne; [done|]. intros ->. destruct l'; [done|]. cbn in Hn. by rewrite H2 in Hn.
  Qed.
  Lemma kept_write f ev l c : kept f ev -> kept (<[l := File c]> f) (ev ++ [Wrote l c]).
  Proof.
    intros H l' c' Hin Ht. destruct (decide (l' = l)) as [->|Hne]; [exists c; rewrite lookup_insert; split; [apply elem_of_app; right; by left|done]|].
    apply elem_of_app in Hin as [Hin|Hin%elem_of_list_singleton]; [|by simplify_eq]. destruct (H l' c' Hin Ht) as (x & H1 & H2). exists x. rewrite lookup_insert_ne by done. split; [apply elem_of_app; by left|done].
  Qed.
  Lemma keeps_is_dir s : keeps (his_dir E meddle s).
  Proof. apply keeps_tick. intros n f ev. apply kept_quiet. Qed.
  Lemma keeps_run_one s : keeps (hrun_one E meddle s).
  Proof.
    apply keeps_bind.
    - apply keeps_tick. intros n f ev Hf. destruct (inspect E n f s) as [[l [c|]]| | |]; try (by apply kept_quiet). destruct (from_utf8 c); [by apply kept_other|by apply kept_quiet].
    - intros c. apply keeps_bind; [|intros t; apply keeps_ret]. apply keeps_tick. intros n f ev. apply kept_quiet.
  Qed.
  Lemma keeps_entries visit dir names : (forall d, keeps (visit d)) -> keeps (hvisit_entries E meddle visit dir names).
  Proof.
    intros Hv. induction names as [|n names IH]; [apply keeps_ret|]. cbn [hvisit_entries]. apply keeps_bind; [apply keeps_tick; intros k f ev; apply kept_quiet|]. intros _. cbn zeta. apply keeps_bind; [apply keeps_is_dir|].
    intros d. apply keeps_bind; [|intros found; apply keeps_bind; [apply IH|intros more; apply keeps_ret]]. destruct d; [destruct (to_str_ok _); [apply Hv|apply keeps_lift]|]. destruct (decide _); [|apply keeps_ret].
    destruct (to_str_ok _); [|apply keeps_lift]. apply keeps_bind; [apply keeps_run_one|intros s; apply keeps_ret].
  Qed.
  Lemma keeps_metadata s : keeps (hmetadata E meddle s).
  Proof. apply keeps_tick. intros n f ev. apply kept_quiet. Qed.
  Lemma keeps_visit fuel : forall d, keeps (hvisit_files E meddle fuel d).
  Proof.
    induction fuel as [|fuel IH]; intros d; [apply keeps_lift|]. cbn [hvisit_files]. apply keeps_bind; [apply keeps_metadata|]. intros [c|]; [apply keeps_ret|].
    apply keeps_bind; [apply keeps_tick; intros k f ev; apply kept_quiet|]. intros names. by apply keeps_entries.
  Qed.
  Lemma keeps_mkdir s : keeps (hmkdir E meddle s).
  Proof.
    apply keeps_tick. intros n f ev Hf. destruct (resolve E f s) as [l|]; [|by apply kept_quiet]. destruct (entry_at f l) eqn:He; [by apply kept_quiet|]. destruct (torn E n); [by apply kept_quiet|by apply kept_mkdir].
  Qed.
  Lemma keeps_create fuel : forall s, keeps (hcreate_dir_all E meddle fuel s).
  Proof.
    induction fuel as [|fuel IH]; intros s; [apply keeps_lift|]. cbn [hcreate_dir_all]. cbn zeta.
    assert (keeps (hbind (his_dir E meddle s) (fun d : bool => if d then hret () else hlift (Err "I/O error")))) as Ht by (apply keeps_bind; [apply keeps_is_dir|intros []; [apply keeps_ret|apply keeps_lift]]).
    destruct (decide _); [apply keeps_ret|]. apply keeps_bind; [apply keeps_mkdir|]. intros []; [apply keeps_ret| |done]. apply keeps_bind; [destruct (parent s); [apply IH|apply keeps_lift]|].
    intros _. apply keeps_bind; [apply keeps_mkdir|]. intros []; [apply keeps_ret|done|done].
  Qed.
  Lemma keeps_save s p : keeps (hsave_one E meddle s p).
  Proof.
    apply keeps_bind; [destruct (parent p); [apply keeps_create|apply keeps_ret]|]. intros _. apply keeps_tick. intros n f ev Hf. destruct (resolve E f p) as [l|]; [|by apply kept_quiet].
    destruct (entry_at f l) as [[c|]|]; [|by apply kept_quiet|]; (destruct (torn E n) as [[|k]|]; [by apply kept_quiet|by apply kept_write..]).
  Qed.
  Lemma keeps_save_all base out found : keeps (hsave_all E meddle base out found).
  Proof. induction found as [|s found IH]; [apply keeps_ret|]. cbn [hsave_all]. apply keeps_bind; [apply keeps_lift|]. intros p. apply keeps_bind; [apply keeps_save|]. intros _. exact IH. Qed.
  Lemma run_kept fuel path out f w r : hrun E meddle fuel path out f = (w, r) -> kept (p_fs w) (p_events w).
  Proof.
    unfold hrun, hmain. destruct (hmetadata E meddle path _) as [w1 r1] eqn:M. assert (kept (p_fs w1) (p_events w1)) as H1 by (eapply (keeps_metadata path (Place f 0 [])); [by intros l c ?%elem_of_nil|exact M]).
    destruct r1 as [[c|]| | |]; [| |by intros [= <- <-]..].
    - intros H. revert H1 H. apply (keeps_bind (hrun_one E meddle path)); [apply keeps_run_one|]. intros s. apply keeps_bind; [apply keeps_lift|]. intros p. apply keeps_save.
    - intros H. revert H1 H. apply (keeps_bind (hvisit_files E meddle fuel path)); [apply keeps_visit|]. intros found. apply keeps_save_all.
  Qed.
  (** after success the output of each file that was read holds the code of one whose output that is *)
  Lemma shared_outputs fuel path out f w r : keeps_tree meddle -> tree f -> hrun E meddle fuel path out f = (w, r) -> r = Ok () -> exists rs ws, p_events w = rs ++ ws /\ Forall a_read rs /\
    forall s c, Read s c ∈ rs -> exists p s' c' p' t', out_path path out rs s c p /\ out_path path out rs s' c' p' /\ leads_to E p' = leads_to E p /\ code_for E c' t' /\ p_fs w !! leads_to E p = Some (File (txt t')).
  Proof.
    intros Hm Hf Hrun ->. destruct (run_own E meddle Hm fuel path out f w _ Hf Hrun) as (_ & rs & ws & Ev & Hrs & Hws & _ & Hout & Hall). specialize (Hout eq_refl). specialize (Hall eq_refl).
    exists rs, ws. split_and!; [done|done|]. intros s c Hin. destruct (Hout s c Hin) as (p & t & Hp & Hc & Hw).
    assert (Wrote (leads_to E p) (txt t) ∈ p_events w) as Hw' by (rewrite Ev; apply elem_of_app; by right).
    assert (ts_name (leads_to E p)) as Hts'.
    { apply (proj1 (Forall_forall _ _) Hws) in Hw as [(? & ? & ? & ? & _ & _ & ?)|(s1 & c1 & p1 & t1 & k & _ & _ & H & Heq)]; [done|]. by injection Heq as -> _. }
    destruct (run_kept _ _ _ _ _ _ Hrun _ _ Hw' Hts') as (x & Hx & Hl). rewrite Ev in Hx. apply elem_of_app in Hx as [Hx|Hx].
    { apply (proj1 (Forall_forall _ _) Hrs) in Hx as (? & ? & ? & _). done. }
    apply (proj1 (Forall_forall _ _) Hall) in Hx as [[? ?]|(s' & c' & p' & t' & Hp' & Hc' & Heq)]; [done|]. injection Heq as Hl' ->. by exists p, s', c', p', t'.
  Qed.
End keep.
