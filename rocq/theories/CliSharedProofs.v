(** Proofs for C112. *)
From Verif Require Export CliSharedSpec CliLinkRunProofs.

Section own.
  Context (E : env) (meddle : nat -> fs -> fs) (Hm : keeps_tree meddle).
  (** [m] keeps the tree, its own events satisfy [R], and its result [P] *)
  Definition acts {A} (R : event -> Prop) (m : shio A) (P : list event -> A -> Prop) : Prop := forall w w' r, tree (p_fs w) -> m w = (w', r) ->
    tree (p_fs w') /\ exists ev, p_events w' = p_events w ++ ev /\ Forall R ev /\ forall a, r = Ok a -> P ev a.
  Lemma acts_ret {A} (R : event -> Prop) (a : A) (P : list event -> A -> Prop) : P [] a -> acts R (hret a) P.
  Proof. intros H w w' r Hw [= <- <-]. split; [done|]. exists []. rewrite app_nil_r. split; [done|]. split; [constructor|]. by intros b [= <-]. Qed.
  Lemma acts_lift {A} (R : event -> Prop) (x : res A) (P : list event -> A -> Prop) : (forall a, x = Ok a -> P [] a) -> acts R (hlift x) P.
  Proof. intros H w w' r Hw [= <- <-]. split; [done|]. exists []. rewrite app_nil_r. split; [done|]. split; [constructor|]. apply H. Qed.
  Lemma acts_bind {A B} (R : event -> Prop) (m : shio A) (k : A -> shio B) (P : list event -> A -> Prop) (Q : A -> list event -> B -> Prop) (S : list event -> B -> Prop) : acts R m P -> (forall a, acts R (k a) (Q a)) ->
    (forall ev1 ev2 a b, P ev1 a -> Q a ev2 b -> S (ev1 ++ ev2) b) -> acts R (hbind m k) S.
  Proof.
    intros H1 H2 H3 w w' r Hw. unfold hbind. destruct (m w) as [w1 r1] eqn:M. destruct (H1 _ _ _ Hw M) as (T1 & ev1 & E1 & F1 & P1).
    destruct r1 as [a| | |]; [|intros [= <- <-]; split; [done|]; exists ev1; split; [done|]; split; [done|done]..].
    intros K. destruct (H2 a _ _ _ T1 K) as (T2 & ev2 & E2 & F2 & P2). split; [done|]. exists (ev1 ++ ev2). split; [by rewrite E2, E1, app_assoc|]. split; [by apply Forall_app|].
    intros b Hb. eapply H3; [by apply P1|by apply P2].
  Qed.
  Lemma acts_tick {A} (R : event -> Prop) (op : nat -> fs -> fs * list event * res A) (P : list event -> A -> Prop) : (forall n f, tree f -> let '(f', ev, r) := op n f in tree f' /\ Forall R ev /\ forall a, r = Ok a -> P ev a) -> acts R (htick meddle op) P.
  Proof.
    intros H w w' r Hw. unfold htick. specialize (H (p_op w) _ (Hm (p_op w) _ Hw)). destruct (op _ _) as [[f' ev] r']. intros [= <- <-]. cbn [p_fs p_events]. split; [apply H|]. exists ev. split; [done|apply H].
  Qed.
  Lemma acts_weaken {A} (R : event -> Prop) (m : shio A) (P Q : list event -> A -> Prop) : acts R m P -> (forall ev a, P ev a -> Q ev a) -> acts R m Q.
  Proof. intros H HPQ w w' r Hw M. destruct (H _ _ _ Hw M) as (T1 & ev & E1 & F1 & P1). split; [done|]. exists ev. split_and!; [done|done|]. intros a Ha. by apply HPQ, P1. Qed.
  Notation always := (fun _ _ => True).
  Notation silent_p := (fun ev _ => ev = []).
  (** reading *)
  Lemma acts_metadata s : acts a_read (hmetadata E meddle s) silent_p.
  Proof. apply acts_tick. intros n f Hf. split; [done|]. split; [constructor|done]. Qed.
  Lemma acts_is_dir (R : event -> Prop) s : acts R (his_dir E meddle s) silent_p.
  Proof. apply acts_tick. intros n f Hf. split; [done|]. split; [constructor|done]. Qed.
  Lemma acts_read_dir s : acts a_read (hread_dir E meddle s) silent_p.
  Proof. apply acts_tick. intros n f Hf. split; [done|]. split; [constructor|done]. Qed.
  Lemma acts_next : acts a_read (hnext_entry E meddle) silent_p.
  Proof. apply acts_tick. intros n f Hf. split; [done|]. split; [constructor|done]. Qed.
  Lemma acts_read s : acts a_read (hread_to_string E meddle s) (fun ev c => ev = [Read s c]).
  Proof.
    apply acts_tick. intros n f Hf. destruct (inspect E n f s) as [[l [c|]]| | |]; [|split_and!; [done|constructor|done]..].
    destruct (from_utf8 c) eqn:U; [|split_and!; [done|constructor|done]]. split_and!; [done| |by intros a [= <-]]. apply Forall_singleton. exists s, c. split; [done|]. by apply from_utf8_spec.
  Qed.
  Lemma acts_compile (R : event -> Prop) c : acts R (hcompile E meddle c) (fun ev t => ev = [] /\ code_for E c t).
  Proof.
    apply acts_tick. intros n f Hf. split; [done|]. split; [constructor|]. intros t. unfold compile_io, tick. cbn [w_op w_fs snd].
    destruct (compile _ _ _ _ c) as [[t'| |]| | |] eqn:C; try done. intros [= <-]. split; [done|]. by exists n.
  Qed.
  (** the schemas found are those that were read, in this order *)
  Definition read_one (e : event) (s : schema) : Prop := exists c, e = Read (s_path s) c /\ code_for E c (s_generated s).
  Lemma acts_run_one path : acts a_read (hrun_one E meddle path) (fun ev s => Forall2 read_one ev [s]).
  Proof.
    unfold hrun_one. eapply acts_bind; [apply acts_read| |].
    - intros c. eapply acts_bind; [apply acts_compile| |].
      + intros t. apply (acts_ret _ _ (fun ev s => ev = [] /\ s = Schema path t)). done.
      + intros ev1 ev2 t s [-> Ht] [-> ->]. instantiate (1 := fun c ev s => ev = [] /\ s_path s = path /\ code_for E c (s_generated s)). done.
    - cbn. intros ev1 ev2 c s -> (-> & Hp & Hc). constructor; [|constructor]. exists c. by rewrite Hp.
  Qed.
  Lemma acts_entries visit dir names : (forall d, acts a_read (visit d) (Forall2 read_one)) -> acts a_read (hvisit_entries E meddle visit dir names) (Forall2 read_one).
  Proof.
    intros Hv. induction names as [|n names IH]; [by apply acts_ret|]. cbn [hvisit_entries]. eapply (acts_bind _ _ _ _ (fun _ => Forall2 read_one)); [apply acts_next| |by intros ? ? ? ? ->].
    intros _. eapply (acts_bind _ _ _ _ (fun _ => Forall2 read_one)); [apply acts_is_dir| |by intros ? ? ? ? ->]. intros d.
    eapply (acts_bind _ _ _ (Forall2 read_one) (fun found ev all => exists more, all = found ++ more /\ Forall2 read_one ev more)).
    - destruct d; [destruct (to_str_ok _); [apply Hv|by apply acts_lift]|]. destruct (decide _); [|by apply acts_ret]. destruct (to_str_ok _); [|by apply acts_lift].
      eapply (acts_bind _ _ _ _ (fun s ev l => ev = [] /\ l = [s])); [apply acts_run_one|intros s; by apply acts_ret|]. intros ev1 ev2 s l H [-> ->]. by rewrite app_nil_r.
    - intros found. eapply (acts_bind _ _ _ _ (fun more ev all => ev = [] /\ all = found ++ more)); [apply IH|intros more; by apply acts_ret|].
      intros ev1 ev2 more all H [-> ->]. exists more. by rewrite app_nil_r.
    - intros ev1 ev2 found all H (more & -> & H2). by apply Forall2_app.
  Qed.
  Lemma acts_visit fuel : forall d, acts a_read (hvisit_files E meddle fuel d) (Forall2 read_one).
  Proof.
    induction fuel as [|fuel IH]; intros d; [by apply acts_lift|]. cbn [hvisit_files]. eapply (acts_bind _ _ _ _ (fun _ => Forall2 read_one)); [apply acts_metadata| |by intros ? ? ? ? ->].
    intros [c|]; [by apply acts_ret|]. eapply (acts_bind _ _ _ _ (fun _ => Forall2 read_one)); [apply acts_read_dir| |by intros ? ? ? ? ->]. intros names. by apply acts_entries.
  Qed.
  (** writing *)
  Lemma follow_last f l ps p m : tree f -> follow f l (ps ++ [p]) = Some m -> entry_at f m ≠ Some Dir -> SLASH ∉ txt p -> exists l1, entry_at f l1 = Some Dir /\ m = l1 ++ [p] /\ proper_name p.
  Proof.
    intros Hf. rewrite CliRead.walk_app. destruct (follow f l ps) as [l1|]; [|done]. cbn [mbind option_bind follow]. destruct (entry_at f l1) as [[c|]|] eqn:H1; [done| |done].
    intros [= <-] Hd Hs. unfold descend in *. destruct (junk p) eqn:J; [done|]. destruct (decide (p = "..")) as [|Hp].
    - destruct Hd. destruct (decide (l1 = [])) as [->|Hne]; [done|]. rewrite (app_removelast_last "" Hne), entry_ne in H1. by eapply (tree_parent f Hf).
    - exists l1. split; [done|]. split; [done|]. unfold junk in J. apply bool_decide_eq_false in J. split_and!; [naive_solver..|done].
  Qed.
  Lemma resolve_last f s m : tree f -> resolve E f s = Some m -> entry_at f m ≠ Some Dir -> exists pre p l1, pieces s = pre ++ [p] /\ entry_at f l1 = Some Dir /\ m = l1 ++ [p] /\ proper_name p.
  Proof.
    intros Hf. unfold resolve. destruct (decide _); [done|]. destruct (pieces s) as [|p pre _] eqn:Ep using rev_ind; [by apply pieces_ne in Ep|]. intros H Hd.
    destruct (follow_last _ _ _ _ _ Hf H Hd) as (l1 & H1 & H2 & H3).
    { pose proof (pieces_plain s) as Hp. rewrite Ep in Hp. apply Forall_app in Hp as [_ Hp]. by apply Forall_cons in Hp as [? _]. }
    by exists pre, p, l1.
  Qed.
  Lemma resolve_lex f s l : resolve E f s = Some l -> l = leads_to E s.
  Proof. unfold resolve. destruct (decide _); [done|]. apply walk_lex. Qed.
  Section out.
  Context (path out : string) (rs : list event).
  Notation ours := (own_output E path out rs).
  Notation whole := (whole_output E path out rs).
  Notation entire := (fun ev _ => Forall whole ev).
  Lemma acts_mkdir s c p q : out_path path out rs s c p -> tc (fun a b => parent a = Some b) p q -> acts ours (hmkdir E meddle q) entire.
  Proof.
    intros Hp Hq. apply acts_tick. intros n f Hf. destruct (resolve E f q) as [l|] eqn:R; [|split_and!; [done|constructor|by constructor]]. destruct (entry_at f l) as [e|] eqn:He; [split_and!; [done|constructor|by constructor]|].
    destruct (torn E n); [split_and!; [done|constructor|by constructor]|]. pose proof (resolve_lex _ _ _ R) as Hl. split_and!; [|apply Forall_singleton; left; exists s, c, p, q; by rewrite Hl|]; [|intros _ _; apply Forall_singleton; left; by exists l].
    destruct (resolve_last f q l Hf R) as (pre & x & l1 & _ & H1 & -> & Hx); [by rewrite He|]. apply tree_insert; [done..|by rewrite He].
  Qed.
  Lemma acts_create s c p fuel : out_path path out rs s c p -> forall q, tc (fun a b => parent a = Some b) p q -> acts ours (hcreate_dir_all E meddle fuel q) entire.
  Proof.
    intros Hp. induction fuel as [|fuel IH]; intros q Hq; [by apply acts_lift|]. cbn [hcreate_dir_all]. cbn zeta.
    assert (acts ours (hbind (his_dir E meddle q) (fun d : bool => if d then hret () else hlift (Err "I/O error"))) entire) as Ht.
    { eapply (acts_bind _ _ _ _ (fun _ => entire)); [apply acts_is_dir| |by intros ev1 ev2 a b H1 H2; cbn beta in H1; subst ev1]. intros []; [by apply acts_ret|by apply acts_lift]. }
    destruct (decide _); [by apply acts_ret|]. eapply (acts_bind _ _ _ _ (fun _ => entire)); [by eapply acts_mkdir| |by intros ev1 ev2 a b H1 H2; apply Forall_app]. intros []; [by apply acts_ret| |done].
    eapply (acts_bind _ _ _ entire (fun _ => entire)); [destruct (parent q) eqn:Hpar; [apply IH|by apply acts_lift]| |by intros ev1 ev2 a b H1 H2; apply Forall_app]; [by eapply tc_r|]. intros _.
    eapply (acts_bind _ _ _ _ (fun _ => entire)); [by eapply acts_mkdir| |by intros ev1 ev2 a b H1 H2; apply Forall_app]. intros []; [by apply acts_ret|done|done].
  Qed.
  Lemma acts_write s c p t : out_path path out rs s c p -> code_for E c t -> acts ours (hwrite E meddle p (T t)) (fun ev _ => Wrote (leads_to E p) (T t) ∈ ev /\ Forall whole ev).
  Proof.
    intros Hp Hc. assert (exists X, p = with_extension X "ts") as [X EX] by (destruct Hp as [_ [pr Hp]]; by eapply format_ts). apply acts_tick. intros n f Hf.
    destruct (resolve E f p) as [l|] eqn:R; [|split_and!; [done|constructor|done]].
    assert (entry_at f l ≠ Some Dir -> forall k, tree (<[l := File (take k (T t))]> f) /\ Forall ours [Wrote l (take k (T t))]) as Hput.
    { intros Hd k. pose proof (resolve_lex _ _ _ R) as Hl. destruct (resolve_last f _ l Hf R Hd) as (pre & q & l1 & Ep & H1 & Hq & Hpr). split; [rewrite Hq; apply tree_insert; [done..|by rewrite <- Hq]|].
      apply Forall_singleton. right. exists s, c, p, t, k. rewrite <- Hl. split_and!; [done|done| |done]. rewrite EX in Ep. destruct (with_ts_last X pre q Ep) as (z & Hs & ->); [done|by exists l1, z]. }
    assert (take (length (T t)) (T t) = T t) as Hall by by rewrite firstn_all.
    assert (Wrote (leads_to E p) (T t) ∈ [Wrote l (T t)] /\ Forall whole [Wrote l (T t)]) as Hin by (rewrite (resolve_lex _ _ _ R); split; [by left|]; apply Forall_singleton; right; by exists s, c, p, t).
    destruct (entry_at f l) as [[c'|]|] eqn:He; [|split_and!; [done|constructor|done]|].
    - destruct (torn E n) as [[|k]|]; [split_and!; [done|constructor|done]| |].
      + destruct (Hput ltac:(done) k). split_and!; done.
      + destruct (Hput ltac:(done) (length (T t))) as [P1 P2]. rewrite Hall in P1, P2. split_and!; done.
    - destruct (torn E n) as [[|k]|]; [split_and!; [done|constructor|done]| |].
      + destruct (Hput ltac:(done) k). split_and!; done.
      + destruct (Hput ltac:(done) (length (T t))) as [P1 P2]. rewrite Hall in P1, P2. split_and!; done.
  Qed.
  Definition stored (preserve : bool) (ev : list event) (s : schema) : Prop := exists p, format_path (s_path s) path out preserve = Ok p /\ Wrote (leads_to E p) (txt (s_generated s)) ∈ ev.
  Lemma acts_save s preserve p : (exists e, e ∈ rs /\ read_one e s) -> format_path (s_path s) path out preserve = Ok p -> acts ours (hsave_one E meddle s p) (fun ev _ => stored preserve ev s /\ Forall whole ev).
  Proof.
    intros (e & He & c & -> & Hc) F. assert (out_path path out rs (s_path s) c p) as Hp by (split; [done|by exists preserve]).
    unfold hsave_one. eapply (acts_bind _ _ _ entire (fun _ ev _ => Wrote (leads_to E p) (T (s_generated s)) ∈ ev /\ Forall whole ev)).
    - destruct (parent p) as [q|] eqn:Hq; [|by apply acts_ret]. eapply acts_create; [done|]. by apply tc_once.
    - intros _. by eapply acts_write.
    - intros ev1 ev2 a b H1 [H2 H3]. split; [|by apply Forall_app]. exists p. split; [done|]. apply elem_of_app. by right.
  Qed.
  Lemma acts_save_all found : (forall s, s ∈ found -> exists e, e ∈ rs /\ read_one e s) -> acts ours (hsave_all E meddle path out found) (fun ev _ => (forall s, s ∈ found -> stored true ev s) /\ Forall whole ev).
  Proof.
    induction found as [|s found IH]; intros H; [apply acts_ret; split; [by intros s ?%elem_of_nil|constructor]|]. cbn [hsave_all]. unfold hbind at 1, hlift. intros w w' r Hw.
    destruct (format_path (s_path s) path out true) as [p| | |] eqn:F.
    - revert w w' r Hw. change (acts ours (hbind (hsave_one E meddle s p) (fun _ => hsave_all E meddle path out found)) (fun ev _ => (forall s', s' ∈ s :: found -> stored true ev s') /\ Forall whole ev)).
      eapply (acts_bind _ _ _ _ (fun _ ev _ => (forall s, s ∈ found -> stored true ev s) /\ Forall whole ev)).
      + eapply acts_save; [|exact F]. apply H. by left.
      + intros _. apply IH. intros s' Hs'. apply H. by right.
      + intros ev1 ev2 a b [H1 W1] [H2 W2]. split; [|by apply Forall_app]. intros s' [->|Hs']%elem_of_cons; [destruct H1 as (p' & ? & ?)|destruct (H2 s' Hs') as (p' & ? & ?)]; exists p'; (split; [done|]); apply elem_of_app; [by left|by right].
    - intros [= <- <-]. split; [done|]. exists []. rewrite app_nil_r. split_and!; [done|constructor|done].
    - intros [= <- <-]. split; [done|]. exists []. rewrite app_nil_r. split_and!; [done|constructor|done].
    - intros [= <- <-]. split; [done|]. exists []. rewrite app_nil_r. split_and!; [done|constructor|done].
  Qed.
  End out.
  Lemma run_own fuel path out f w r : tree f -> hrun E meddle fuel path out f = (w, r) -> tree (p_fs w) /\ exists rs ws, p_events w = rs ++ ws /\ Forall a_read rs /\ Forall (own_output E path out rs) ws /\
    (ws ≠ [] -> forall s c, Read s c ∈ rs -> exists t, code_for E c t) /\
    (r = Ok () -> forall s c, Read s c ∈ rs -> exists p t, out_path path out rs s c p /\ code_for E c t /\ Wrote (leads_to E p) (txt t) ∈ ws) /\
    (r = Ok () -> Forall (whole_output E path out rs) ws).
  Proof.
    intros Hf. unfold hrun, hmain. destruct (hmetadata E meddle path _) as [w1 r1] eqn:M. destruct (acts_metadata path (Place f 0 []) _ _ Hf M) as (T1 & ev1 & E1 & F1 & P1). cbn [p_events app] in E1.
    assert (ev1 = []) as -> by (unfold hmetadata, htick in M; by simplify_eq/=).
    assert (forall w2 ev2 ev3 preserve found r2, p_events w2 = ev2 -> Forall a_read ev2 -> Forall2 read_one ev2 found -> tree (p_fs w) -> p_events w = p_events w2 ++ ev3 -> Forall (own_output E path out ev2) ev3 ->
      (r = r2) -> (forall a, r2 = Ok a -> (forall s, s ∈ found -> stored path out preserve ev3 s) /\ Forall (whole_output E path out ev2) ev3) -> tree (p_fs w) /\ exists rs ws, p_events w = rs ++ ws /\ Forall a_read rs /\ Forall (own_output E path out rs) ws /\
      (ws ≠ [] -> forall s c, Read s c ∈ rs -> exists t, code_for E c t) /\
      (r = Ok () -> forall s c, Read s c ∈ rs -> exists p t, out_path path out rs s c p /\ code_for E c t /\ Wrote (leads_to E p) (txt t) ∈ ws) /\ (r = Ok () -> Forall (whole_output E path out rs) ws)) as Hend.
    { intros w2 ev2 ev3 preserve found r2 E2 F2 P2 T3 E3 F3 -> S3. split; [done|]. exists ev2, ev3.
      assert (forall s c, Read s c ∈ ev2 -> exists x, x ∈ found /\ s_path x = s /\ code_for E c (s_generated x)) as Hx.
      { intros s c Hin. destruct (elem_of_list_lookup_1 _ _ Hin) as [i Hi]. destruct (Forall2_lookup_l _ _ _ _ _ P2 Hi) as (x & X1 & c1 & Heq & Hc). injection Heq as -> <-. exists x.
        split; [by eapply elem_of_list_lookup_2|done]. }
      split_and!; [by rewrite E3, E2|done|done| | |by intros ->; apply (S3 () eq_refl)].
      - intros _ s c Hin. destruct (Hx s c Hin) as (x & _ & _ & Hc). by eexists.
      - intros -> s c Hin. destruct (Hx s c Hin) as (x & Hf' & Hs & Hc). destruct (proj1 (S3 () eq_refl) x Hf') as (p & P1' & P2'). exists p, (s_generated x). split_and!; [|done|done].
        split; [done|]. exists preserve. by rewrite <- Hs. }
    assert (forall w2 ev2 r2, r2 ≠ Ok () -> p_events w2 = ev2 -> Forall a_read ev2 -> tree (p_fs w2) -> (w2, r2) = (w, r) -> tree (p_fs w) /\ exists rs ws, p_events w = rs ++ ws /\ Forall a_read rs /\ Forall (own_output E path out rs) ws /\
      (ws ≠ [] -> forall s c, Read s c ∈ rs -> exists t, code_for E c t) /\
      (r = Ok () -> forall s c, Read s c ∈ rs -> exists p t, out_path path out rs s c p /\ code_for E c t /\ Wrote (leads_to E p) (txt t) ∈ ws) /\ (r = Ok () -> Forall (whole_output E path out rs) ws)) as Hfail.
    { intros w2 ev2 r2 Hr E2 F2 T2 [= <- <-]. split; [done|]. exists ev2, []. rewrite app_nil_r. split_and!; [done|done|constructor|done|done|done]. }
    assert (forall r', r' = Ok () -> (w1, r') = (w, r) -> tree (p_fs w) /\ exists rs ws, p_events w = rs ++ ws /\ Forall a_read rs /\ Forall (own_output E path out rs) ws /\
      (ws ≠ [] -> forall s c, Read s c ∈ rs -> exists t, code_for E c t) /\
      (r = Ok () -> forall s c, Read s c ∈ rs -> exists p t, out_path path out rs s c p /\ code_for E c t /\ Wrote (leads_to E p) (txt t) ∈ ws) /\ (r = Ok () -> Forall (whole_output E path out rs) ws)) as Hno.
    { intros r' -> [= <- <-]. split; [done|]. rewrite E1. exists [], []. split_and!; [done|constructor|constructor|done| |by constructor]. by intros _ s c ?%elem_of_nil. }
    destruct r1 as [e| | |]; [|by apply Hno..]. clear Hno. destruct e as [c0|].
    - unfold hbind at 1. destruct (hrun_one E meddle path w1) as [w2 r2] eqn:R. destruct (acts_run_one path _ _ _ T1 R) as (T2 & ev2 & E2 & F2 & P2). rewrite E1 in E2. cbn [app] in E2.
      destruct r2 as [s| | |]; [|by eapply Hfail..].
      specialize (P2 s eq_refl). unfold hbind, hlift. destruct (format_path (s_path s) path out false) as [p| | |] eqn:F; [|by eapply Hfail..].
      intros S. destruct (acts_save path out ev2 s false p) with (w := w2) (w' := w) (r := r) as (T3 & ev3 & E3 & F3 & P3); [|done|done|done|].
      { apply Forall2_cons_inv_r in P2 as (e & ? & ? & ? & ->). exists e. split; [by left|done]. }
      eapply (Hend w2 ev2 ev3 false [s] r); try done. intros a Ha. destruct (P3 a Ha) as [P4 P5]. split; [|done]. by intros s' ->%elem_of_list_singleton.
    - unfold hbind at 1. destruct (hvisit_files E meddle fuel path w1) as [w2 r2] eqn:R. destruct (acts_visit fuel path _ _ _ T1 R) as (T2 & ev2 & E2 & F2 & P2). rewrite E1 in E2. cbn [app] in E2.
      destruct r2 as [found| | |]; [|by eapply Hfail..].
      specialize (P2 found eq_refl). intros S. destruct (acts_save_all path out ev2 found) with (w := w2) (w' := w) (r := r) as (T3 & ev3 & E3 & F3 & P3); [|done|done|].
      { intros s Hs. destruct (elem_of_list_lookup_1 _ _ Hs) as [i Hi]. destruct (Forall2_lookup_r _ _ _ _ _ P2 Hi) as (e & He & H). exists e. split; [by eapply elem_of_list_lookup_2|done]. }
      by eapply (Hend w2 ev2 ev3 true found r).
  Qed.
End own.
