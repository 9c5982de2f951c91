(** Proofs for C51, for every schema. *)
From Verif Require Export OmitSpec Needs RunsCore.

(** ** Output only grows *)
Section grows.
  Context (rt : runtime).
  Lemma eval_out e : forall M v M', eval rt e M = Done (v, M') -> m_out M' = m_out M.
  Proof.
    induction e; intros M v M' H; cbn [eval] in H.
    - destruct (lookup_var _ _); try done. by injection H as <- <-.
    - by injection H as <- <-.
    - by injection H as <- <-.
    - by injection H as <- <-.
    - destruct (eval rt e M) as [[w M1]| |] eqn:E1; try done. cbn in H. destruct (get_prop _ _ _); try done. injection H as <- <-. by eapply IHe.
    - destruct (eval rt e1 M) as [[w M1]| |] eqn:E1; try done. cbn in H. destruct (eval rt e2 M1) as [[w2 M2]| |] eqn:E2; try done. cbn in H. destruct (get_elem _ _ _); try done.
      injection H as <- <-. etrans; [by eapply IHe2|by eapply IHe1].
    - destruct (kind_of m); [|done]. destruct (read_num _ _ _). by injection H as <- <-.
    - destruct (eval rt e M) as [[w M1]| |] eqn:E1; try done. cbn in H. destruct w as [| |[z|]| | |]; try done. destruct (read_str _ _ _). injection H as <- <-. cbn. by eapply IHe.
    - destruct (eval rt e M) as [[w M1]| |] eqn:E1; try done. cbn in H. destruct w as [| |[z|]| | |]; try done. destruct (decide _); [|done]. injection H as <- <-. cbn. by eapply IHe.
    - destruct (eval rt e1 M) as [[w M1]| |] eqn:E1; try done. cbn in H. destruct (eval rt e2 M1) as [[w2 M2]| |] eqn:E2; try done. cbn in H.
      destruct w as [| |[z|]| | |]; try done. destruct w2 as [| |[z2|]| | |]; try done. injection H as <- <-. etrans; [by eapply IHe2|by eapply IHe1].
    - destruct (eval rt e1 M) as [[w M1]| |] eqn:E1; try done. cbn in H. destruct (eval rt e2 M1) as [[w2 M2]| |] eqn:E2; try done. cbn in H.
      destruct w as [| |[z|]| | |]; try done. destruct w2 as [| |[z2|]| | |]; try done. injection H as <- <-. etrans; [by eapply IHe2|by eapply IHe1].
    - destruct (eval rt e1 M) as [[w M1]| |] eqn:E1; try done. cbn in H. destruct w as [| |[z|]| | |]; try done.
      destruct z as [|z|z]; [injection H as <- <-; by eapply IHe1|..]; (etrans; [by eapply IHe2|by eapply IHe1]).
    - by eapply IHe.
  Qed.
  Lemma simple_out s M M' : exec_simple rt s M = Done M' -> m_out M `prefix_of` m_out M'.
  Proof.
    intros H. destruct s as [any x e|l e|m e|]; cbn [exec_simple] in H.
    - destruct (eval rt e M) as [[w M1]| |] eqn:E1; try done. cbn in H. destruct (init_var _ _ _); try done. injection H as <-. cbn. by rewrite (eval_out _ _ _ _ E1).
    - destruct l as [x| | | |b f|b i| | | | | | |]; try done.
      + destruct (eval rt e M) as [[w M1]| |] eqn:E1; try done. cbn in H. destruct (assign_var _ _ _); try done. injection H as <-. cbn. by rewrite (eval_out _ _ _ _ E1).
      + destruct (eval rt b M) as [[w M1]| |] eqn:E1; try done. cbn in H. destruct (eval rt e M1) as [[w2 M2]| |] eqn:E2; try done. cbn in H.
        destruct (set_prop _ _ _ _) as [h'| |] eqn:E3; try done. injection H as <-. cbn. by rewrite (eval_out _ _ _ _ E2), (eval_out _ _ _ _ E1).
      + destruct (eval rt b M) as [[w M1]| |] eqn:E1; try done. cbn in H. destruct (eval rt i M1) as [[w2 M2]| |] eqn:E2; try done. cbn in H.
        destruct (eval rt e M2) as [[w3 M3]| |] eqn:E3; try done. cbn in H. destruct (set_elem _ _ _ _) as [h'| |] eqn:E4; try done. injection H as <-. cbn.
        by rewrite (eval_out _ _ _ _ E3), (eval_out _ _ _ _ E2), (eval_out _ _ _ _ E1).
    - destruct (eval rt e M) as [[w M1]| |] eqn:E1; try done. cbn in H. rewrite <- (eval_out _ _ _ _ E1).
      destruct (decide _); [destruct w; try done; injection H as <-; by eexists|]. destruct (kind_of m); [|done]. destruct w; try done. injection H as <-. by eexists.
    - by injection H as <-.
  Qed.
  Definition grows (s : stmt) : Prop := forall n M M', exec rt n s M = Some (Done M') -> m_out M `prefix_of` m_out M'.
  Lemma seq_grows b n : Forall grows b -> forall M M', exec_seq rt n b M = Some (Done M') -> m_out M `prefix_of` m_out M'.
  Proof.
    induction 1 as [|s b Hs _ IH]; intros M M' H; cbn [exec_seq] in H; [by injection H as <-|].
    destruct (exec rt n s M) as [[M1| |]|] eqn:E; try done. etrans; [by eapply Hs|by eapply IH].
  Qed.
  Lemma block_grows b n : Forall grows b -> forall M M', exec_block rt n b M = Some (Done M') -> m_out M `prefix_of` m_out M'.
  Proof.
    intros Hb M M' H. unfold exec_block, leave in H. destruct (exec_seq _ _ _ _) as [[M1| |]|] eqn:E; try done. injection H as <-. cbn.
    by apply (seq_grows _ _ Hb) in E.
  Qed.
  Lemma turn_grows i e b n (k : mach -> option (out mach)) M M' : Forall grows b -> (forall M M', k M = Some (Done M') -> m_out M `prefix_of` m_out M') ->
    turn rt n i e b k M = Some (Done M') -> m_out M `prefix_of` m_out M'.
  Proof.
    intros Hb Hk H. unfold turn in H. destruct (eval rt (EGt e (EVar i)) M) as [[v M1]| |] eqn:E1; try done. apply eval_out in E1. rewrite <- E1.
    destruct (truthy v) as [[]| |]; try done; [|by injection H as <-]. destruct (exec_block rt n b M1) as [[M2| |]|] eqn:E2; try done. apply (block_grows _ _ Hb) in E2. etrans; [exact E2|].
    destruct (lookup_var _ _) as [[| |[z|]| | |]| |]; try done. destruct (assign_var _ _ _) as [env| |]; try done. by apply Hk in H.
  Qed.
  Lemma loops_grow i e b n : Forall grows b -> forall k M M', loops rt n i e b k M = Some (Done M') -> m_out M `prefix_of` m_out M'.
  Proof. intros Hb. induction k as [|k IH]; intros M M' H; [done|]. cbn [loops] in H. by eapply turn_grows. Qed.
  Lemma stmt_grows s : grows s.
  Proof.
    induction s as [s|c b1 b2 H1 H2|c s1 s2|i e b Hb|e s b Hb] using stmt_ind2; intros n M M' H.
    - cbn [exec] in H. injection H as H. by eapply simple_out.
    - rewrite exec_if in H. destruct (eval rt c M) as [[v M1]| |] eqn:E1; try done. apply eval_out in E1. rewrite <- E1. destruct (truthy v) as [[]| |]; try done; (eapply block_grows; [|exact H]; done).
    - cbn [exec] in H. destruct (eval rt c M) as [[v M1]| |] eqn:E1; try done. apply eval_out in E1. rewrite <- E1. destruct (truthy v) as [[]| |]; try done; injection H as H; by eapply simple_out.
    - rewrite exec_for in H. unfold leave in H. destruct (loops _ _ _ _ _ _ _) as [[M1| |]|] eqn:E; try done. injection H as <-. cbn. by apply (loops_grow _ _ _ _ Hb) in E.
    - rewrite exec_switch in H. destruct (eval rt e M) as [[v M1]| |] eqn:E1; try done. apply eval_out in E1. rewrite <- E1.
      destruct v; try (eapply block_grows; [|exact H]; done); injection H as H; by eapply simple_out.
  Qed.
  Lemma all_grow b : Forall grows b.
  Proof. apply Forall_forall. intros s _. apply stmt_grows. Qed.
End grows.

(** ** Code whose output, if it ends, starts with the given bytes *)
Section strays.
  Context (rt : runtime).
  Definition strays (b : list stmt) (M : mach) (x : list byte) : Prop :=
    exists n0, forall n M', n0 <= n -> exec_seq rt n b M = Some (Done M') -> (m_out M ++ x) `prefix_of` m_out M'.
  Definition strays_block (b : list stmt) (M : mach) (x : list byte) : Prop :=
    exists n0, forall n M', n0 <= n -> exec_block rt n b M = Some (Done M') -> (m_out M ++ x) `prefix_of` m_out M'.
  Lemma exec_seq_app n a b M : exec_seq rt n (a ++ b) M = match exec_seq rt n a M with Some (Done M1) => exec_seq rt n b M1 | r => r end.
  Proof. revert M. induction a as [|s a IH]; intros M; [done|]. cbn [app exec_seq]. destruct (exec rt n s M) as [[M1| |]|]; [apply IH|done..]. Qed.
  Lemma strays_nil b M : strays b M [].
  Proof. exists 0. intros n M' _ H. rewrite app_nil_r. eapply seq_grows; [apply all_grow|exact H]. Qed.
  Lemma strays_app a b M x : strays a M x -> strays (a ++ b) M x.
  Proof.
    intros [n0 H0]. exists n0. intros n M' Hn H. rewrite exec_seq_app in H. destruct (exec_seq rt n a M) as [[M1| |]|] eqn:E; try done.
    etrans; [by eapply H0|]. eapply seq_grows; [apply all_grow|exact H].
  Qed.
  Lemma strays_after a b M M1 o x : runs rt a M M1 -> m_out M1 = m_out M ++ o -> strays b M1 x -> strays (a ++ b) M (o ++ x).
  Proof.
    intros [n1 H1] Eo [n2 H2]. exists (n1 + n2). intros n M' Hn H. rewrite exec_seq_app, H1 in H by lia. rewrite app_assoc, <- Eo. apply (H2 n); [lia|done].
  Qed.
  Lemma strays_simple s b M M1 o x : exec_simple rt s M = Done M1 -> m_out M1 = m_out M ++ o -> strays b M1 x -> strays (SSimple s :: b) M (o ++ x).
  Proof. intros H1. apply (strays_after [_]). by apply runs_simple1. Qed.
  Lemma strays_in_block b M x : strays b (enter b M) x -> strays_block b M x.
  Proof.
    intros [n0 H0]. exists n0. intros n M' Hn H. unfold exec_block, leave in H. fold (enter b M) in H. destruct (exec_seq rt n b (enter b M)) as [[M1| |]|] eqn:E; try done. injection H as <-.
    by apply (H0 n M1 Hn) in E.
  Qed.
  Lemma strays_switch e s bl b M v M1 x : eval rt e M = Done (v, M1) -> v ≠ JUndef -> v ≠ JNull -> m_out M1 = m_out M -> strays_block bl M1 x -> strays (SSwitch e s bl :: b) M x.
  Proof.
    intros He Hv1 Hv2 Eo [n0 H0]. apply (strays_app [_]). exists n0. intros n M' Hn H. cbn [exec_seq] in H. rewrite exec_switch, He in H. rewrite <- Eo.
    apply (H0 n); [done|]. destruct v; try done; by destruct (exec_block _ _ _ _) as [[]|].
  Qed.
  Lemma strays_for i e bl b M M1 x : let M0 := with_env ({[ i := Some (JNum (NInt 0)) ]} :: m_env M) M in eval rt (EGt e (EVar i)) M0 = Done (JNum (NInt 1), M1) -> strays_block bl M1 x ->
    strays (SFor i e bl :: b) M x.
  Proof.
    intros M0 He [n0 H0]. apply (strays_app [_]). exists (S n0). intros n M' Hn H. cbn [exec_seq] in H. rewrite exec_for in H. unfold leave in H. fold M0 in H. destruct n as [|n]; [lia|].
    destruct (loops rt (S n) i e bl (S n) M0) as [[M2| |]|] eqn:E; try done. injection H as <-. cbn [m_out with_env]. cbn [loops] in E. unfold turn in E. rewrite He in E. cbn [truthy] in E.
    change (negb (1 =? 0)%Z) with true in E. cbn iota in E.
    destruct (exec_block rt (S n) bl M1) as [[M3| |]|] eqn:E3; try done. apply H0 in E3; [|lia]. apply eval_out in He. rewrite He in E3. change (m_out M0) with (m_out M) in E3. etrans; [exact E3|].
    destruct (lookup_var _ _) as [[| |[z|]| | |]| |]; try done. destruct (assign_var _ _ _) as [env| |]; try done. apply (loops_grow rt _ _ _ _ (all_grow rt bl)) in E. exact E.
  Qed.

  (** the code [p], run on the path [r.fs], which denotes a value as in [bad] *)
  Definition wrongs (p : emit) (fs : list string) (bad : heap -> val -> Prop) (x : list byte) : Prop :=
    forall r M fr E v0 v, m_env M = fr :: E -> lookup_var r (fr :: E) = Done v0 -> walk (m_heap M) v0 fs = Done v -> bad (m_heap M) v -> strays (p (r :: fs)) M x.
  Lemma w_arr_wrongs t tn fs (bad : heap -> val -> Prop) x : wrongs (w_ty t tn) [] bad x ->
    wrongs (w_arr (w_ty t tn)) fs (fun h v => exists l y, v = JLoc l /\ h !! l = Some (OArr [y]) /\ bad h y) (count (rt_enc rt) 1 ++ x).
  Proof.
    intros Hp r M fr E v0 v HE Hl Hw (l & y & -> & Hp' & Hbad).
    set (st := r :: fs). set (idx := varname st "index"). set (it := varname st "item").
    assert (ext r idx) as Hidx by apply varname_ext'. assert (ext r it) as Hit by apply varname_ext'.
    assert (forall M', m_heap M' = m_heap M -> lookup_var r (m_env M') = Done v0 -> eval rt (path st) M' = Done (JLoc l, M')) as Hpath.
    { intros M' Hh Hl'. apply (eval_path rt r fs M' v0); [done|]. by rewrite Hh. }
    assert (forall M', m_heap M' = m_heap M -> lookup_var r (m_env M') = Done v0 -> eval rt (EProp (path st) "length") M' = Done (JNum (NInt (Z.of_nat 1)), M')) as Hlength.
    { intros M' Hh Hl'. cbn [eval]. rewrite Hpath by done. cbn [obind get_prop]. rewrite Hh, Hp'. by rewrite decide_True by done. }
    assert (lookup_var r (m_env M) = Done v0) as HlM by by rewrite HE. unfold w_arr. fold st idx it.
    eapply strays_simple.
    { cbn [exec_simple]. rewrite Hlength by done. cbn [obind]. rewrite decide_False by done. change (kind_of "uint32") with (Some KU32). reflexivity. }
    { done. }
    set (bl := SSimple (Let false it (EElem (path st) (EVar idx))) :: w_ty t tn [it]).
    match goal with |- strays _ ?M _ => set (Ma := M) end. set (M0 := with_env ({[ idx := Some (JNum (NInt 0)) ]} :: m_env Ma) Ma).
    assert (lookup_var r (m_env M0) = Done v0) as Hr0.
    { cbn [M0 m_env with_env]. rewrite lookup_new; [done|]. apply lookup_singleton_ne. intros E'. apply (ext_self r). by rewrite E' in Hidx. }
    assert (lookup_var idx (m_env M0) = Done (JNum (NInt 0))) as Hi0 by (cbn [M0 m_env with_env lookup_var]; by rewrite lookup_singleton).
    eapply (strays_for idx _ bl [] Ma M0).
    { fold M0. cbn [eval]. pose proof (Hlength M0 eq_refl Hr0) as HL. cbn [eval] in HL. rewrite HL. cbn [obind]. rewrite Hi0. cbn [obind]. by rewrite decide_True by lia. }
    apply strays_in_block. set (M1 := enter bl M0).
    assert (forall x, ~ (x = it \/ ext it x) -> hoist bl !! x = None) as Hho.
    { intros z Hz. apply hoist_none. unfold bl. rewrite lets_cons_simple. intros [H|H]%elem_of_app.
      - apply Hz. left. by apply elem_of_list_singleton in H.
      - apply Hz. right. by eapply lets_w_ty. }
    assert (hoist bl !! r = None) as Hr1.
    { apply Hho. intros [Hx|Hx]; [apply (ext_self r); by rewrite Hx at 2|]. apply (ext_self r). by eapply ext_trans. }
    assert (hoist bl !! idx = None) as Hi1.
    { apply Hho. intros [E'|[s E']]; [apply (index_item st ""); by rewrite sapp_nil_r|]. by eapply index_item. }
    unfold bl at 1. change x with ([] ++ x). eapply (strays_simple _ _ _ (Mach (m_heap M) (<[it := Some y]> (hoist bl) :: m_env M0) (m_rd M0) (m_out M0)) []).
    - cbn [exec_simple eval]. rewrite Hpath; [|done|].
      + cbn [obind]. unfold M1, enter, with_env. cbn [m_env]. rewrite lookup_new, Hi0 by done. cbn [obind get_elem m_heap]. change (m_heap M0) with (m_heap M).
        rewrite Hp'. rewrite decide_True by lia. cbn [obind init_var m_env default]. done.
      + unfold M1, enter, with_env. cbn [m_env]. by rewrite lookup_new.
    - cbn [m_out]. by rewrite app_nil_r.
    - eapply (Hp it _ _ _ y y); [done|cbn [lookup_var]; by rewrite lookup_insert|done|exact Hbad].
  Qed.
  Lemma w_opt_wrongs p fs (bad : heap -> val -> Prop) x : fs ≠ [] -> (forall b x, x ∈ lets (p [b]) -> ext b x) -> (forall h v, bad h v -> v ≠ JUndef /\ v ≠ JNull) -> wrongs p [] bad x ->
    wrongs (w_opt p) fs bad (rt_enc rt KU8 (NInt 1) ++ x).
  Proof.
    intros Hfs Hlets Hpres Hp r M fr E v0 v HE Hl Hw Hbad. set (st := r :: fs). set (bv := bindname st). destruct (Hpres _ _ Hbad) as [Hv1 Hv2].
    set (fr1 := <[bv := Some v]> fr). set (M1 := Mach (m_heap M) (fr1 :: E) (m_rd M) (m_out M)).
    assert (exec_simple rt (Let false bv (path st)) M = Done M1) as H1.
    { assert (eval rt (path st) M = Done (v, M)) as Hpath by (apply (eval_path rt r fs M v0 v); [by rewrite HE|done]).
      cbn [exec_simple]. rewrite Hpath. cbn [obind]. by rewrite HE. }
    assert (eval rt (EVar bv) M1 = Done (v, M1)) as Hbind by (cbn [eval M1 m_env lookup_var]; unfold fr1 at 1; by rewrite lookup_insert).
    unfold w_opt. fold st bv. change (rt_enc rt KU8 (NInt 1) ++ x) with ([] ++ rt_enc rt KU8 (NInt 1) ++ x). eapply strays_simple; [exact H1|by rewrite app_nil_r|].
    eapply strays_switch; [exact Hbind|done|done|done|]. set (bl := SSimple (Write "uint8" (ENum 1)) :: p [bv]). apply strays_in_block. unfold bl at 1. eapply strays_simple.
    { cbn [exec_simple eval obind]. rewrite decide_False by done. reflexivity. }
    { reflexivity. }
    eapply (Hp bv _ (hoist bl) (fr1 :: E) v v); [done| |done|exact Hbad].
    rewrite lookup_new; [cbn [lookup_var]; unfold fr1 at 1; by rewrite lookup_insert|].
    apply hoist_none. intros Hin. apply (ext_self bv). apply Hlets. exact Hin.
  Qed.
  Lemma wrongs_nil p fs bad : wrongs p fs bad [].
  Proof. intros r M fr E v0 v _ _ _ _. apply strays_nil. Qed.
End strays.

(** ** Objects that have properties of their own *)
Definition held (h : heap) (v : value) (x : val) : Prop := rep h x v /\ holds h x v.
Lemma holds_app h h' : forall v x, holds h x v -> holds (h ++ h') x v.
Proof.
  fix IH 1. intros v x. destruct v as [n|s|l|fs|]; cbn [holds]; try done.
  - intros (p & items & -> & Hp & Hall). exists p, items. split; [done|]. split; [by apply lookup_app_l_Some|]. clear Hp.
    revert items Hall. induction l as [|v l IHl]; intros [|y items]; try done. intros [H1 H2]. split; [by apply IH|by apply IHl].
  - intros (p & pr & props & -> & Hp & Hpr & Hall). exists p, pr, props. split; [done|]. split; [by apply lookup_app_l_Some|]. split; [done|]. clear Hp.
    induction fs as [|[f v] fs IHf]; [done|]. destruct Hall as [H1 H2]. split; [|by apply IHf]. destruct H1 as [(y & Hy & Hr)|H1]; [left|by right]. exists y. split; [done|by apply IH].
Qed.
Lemma holds_recs h x fs : holds h x (VRec fs) <-> exists p pr props, x = JLoc p /\ h !! p = Some (OPlain pr props) /\ pr ≠ PCtor /\
  forall f v, (f, v) ∈ fs -> (exists y, own f props = Some y /\ holds h y v) \/ (own f props = None /\ v = VNone).
Proof.
  cbn [holds]. do 3 (apply exist_proper; intros ?). do 3 (apply and_iff_compat_l). induction fs as [|[g w] fs IH].
  - split; [|done]. intros _ f v H. by apply elem_of_nil in H.
  - rewrite IH. split.
    + intros [H1 H2] f v [[= -> ->]|Hg]%elem_of_cons; [done|by apply H2].
    + intros H. split; [apply H; by left|]. intros f v Hf. apply H. by right.
Qed.
Lemma rep_recs' h x fs : rep h x (VRec fs) <-> exists p pr props, x = JLoc p /\ h !! p = Some (OPlain pr props) /\
  forall f v, (f, v) ∈ fs -> exists y, get_prop h x f = Done y /\ rep h y v.
Proof.
  cbn [rep]. do 3 (apply exist_proper; intros ?). do 2 (apply and_iff_compat_l). induction fs as [|[g w] fs IH].
  - split; [|done]. intros _ f v H. by apply elem_of_nil in H.
  - rewrite IH. split.
    + intros [H1 H2] f v [[= -> ->]|Hg]%elem_of_cons; [done|by apply H2].
    + intros H. split; [apply H; by left|]. intros f v Hf. apply H. by right.
Qed.
Section own.
  Context (en : enum -> TsSem.num -> Prop) (sok : jstr -> Prop).
  Definition owned (v : value) : Prop := forall h, exists h' x, held (h ++ h') v x.
  Lemma held_app h h' v x : held h v x -> held (h ++ h') v x.
  Proof. intros [H1 H2]. split; [by apply rep_app|by apply holds_app]. Qed.
  Lemma own_items l : Forall owned l -> forall h, exists h' items, Forall2 (held (h ++ h')) l items.
  Proof.
    induction 1 as [|v l Hv _ IH]; intros h; [exists [], []; constructor|]. destruct (Hv h) as (h1 & y & Hy). destruct (IH (h ++ h1)) as (h2 & items & Hi).
    exists (h1 ++ h2), (y :: items). rewrite app_assoc. constructor; [by apply held_app|done].
  Qed.
  Lemma held_arr h p items l : h !! p = Some (OArr items) -> Forall2 (held h) l items -> held h (VArr l) (JLoc p).
  Proof.
    intros Hp Hl. split; exists p, items; (split; [done|]; split; [done|]); clear Hp; induction Hl as [|v y l items [H1 H2] _ IH]; done.
  Qed.
  Lemma own_arr l : Forall owned l -> owned (VArr l).
  Proof.
    intros H h. destruct (own_items l H h) as (h' & items & Hi). exists (h' ++ [OArr items]), (JLoc (length (h ++ h'))). rewrite app_assoc. apply (held_arr _ _ items); [by apply list_lookup_middle|].
    eapply Forall2_impl; [exact Hi|]. intros v x. apply held_app.
  Qed.
  Lemma own_wrapped (arr op : bool) (P : value -> Prop) v : (forall v, P v -> owned v) -> wrapped arr op P v -> owned v.
  Proof.
    intros HP [[_ ->]|Hv]; [intros h; exists [], JUndef; split; by left|]. destruct arr; [|by apply HP]. destruct Hv as (l & -> & _ & Hl). apply own_arr. eapply Forall_impl; [exact Hl|done].
  Qed.
  Lemma own_props fs : (forall f v, (f, v) ∈ fs -> owned v) -> NoDup fs.*1 -> forall h, exists h' props,
    (forall f v, (f, v) ∈ fs -> exists y, own f props = Some y /\ held (h ++ h') v y) /\ forall f, f ∉ fs.*1 -> own f props = None.
  Proof.
    induction fs as [|[f v] fs IH]; intros Hb Hnd h.
    - exists [], []. split; [|done]. intros f v H. by apply elem_of_nil in H.
    - cbn in Hnd. apply NoDup_cons in Hnd as [Hf Hnd]. destruct (Hb f v) with h as (h1 & y & Hy); [by left|].
      destruct IH with (h ++ h1) as (h2 & props & H1 & H2); [intros g w Hg; eapply Hb; by right|done|]. exists (h1 ++ h2), ((f, y) :: props). rewrite app_assoc. split.
      + intros g w [[= -> ->]|Hg]%elem_of_cons.
        * exists y. split; [cbn; by rewrite decide_True|by apply held_app].
        * destruct (H1 g w Hg) as (z & Hz & Hr). exists z. split; [|done]. cbn. rewrite decide_False; [done|]. intros ->. apply Hf. by apply (elem_of_list_fmap_1 fst) in Hg.
      + intros g Hg. cbn in Hg. apply not_elem_of_cons in Hg as [Hne Hg]. cbn. rewrite decide_False by congruence. by apply H2.
  Qed.
  Lemma held_rec h p pr props fs : h !! p = Some (OPlain pr props) -> pr ≠ PCtor -> (forall f v, (f, v) ∈ fs -> exists y, own f props = Some y /\ held h v y) -> held h (VRec fs) (JLoc p).
  Proof.
    intros Hp Hpr H. split.
    - apply rep_recs'. exists p, pr, props. split; [done|]. split; [done|]. intros f v Hf. destruct (H f v Hf) as (y & Hy & Hh & _). exists y. split; [|done]. cbn [get_prop]. by rewrite Hp, Hy.
    - apply holds_recs. exists p, pr, props. split; [done|]. split; [done|]. split; [done|]. intros f v Hf. destruct (H f v Hf) as (y & Hy & _ & Hh). left. by exists y.
  Qed.
  Lemma fields_owned fs vs : (forall f, f ∈ fs -> forall v, shape en sok (f_ty f) v -> owned v) -> fields_shape en sok fs vs -> forall f v, (f, v) ∈ vs -> owned v.
  Proof.
    revert vs. induction fs as [|f fs IHf]; intros [|[g w] vs] H Hv; try done; [by intros ?? ?%elem_of_nil|]. destruct Hv as (-> & Hw & Hv).
    intros k u [[= -> ->]|Hin]%elem_of_cons; [|eapply IHf with vs k; [intros f' Hf'; apply H; by right|exact Hv|exact Hin]].
    eapply own_wrapped; [|exact Hw]. apply H. by left.
  Qed.
  Lemma typed_owned t : distinct t -> forall v, shape en sok t v -> owned v.
  Proof.
    induction t as [b|e|fs IH] using rtype_ind'; intros Hd v Hv.
    - intros h. exists []. cbn [shape] in Hv. destruct (builtin_kind b); destruct Hv as (? & -> & _); by eexists.
    - intros h. exists []. destruct Hv as (? & -> & _). by eexists.
    - apply distinct_struct in Hd as [Hnd Hd]. apply shape_struct in Hv as (vs & -> & Hv). pose proof (fields_shape_fst _ _ _ _ Hv) as Hfst. rewrite Forall_forall in IH.
      assert (forall f v, (f, v) ∈ vs -> owned v) as Hb by (eapply fields_owned; [|exact Hv]; intros f Hf; apply IH; [done|by apply Hd]).
      intros h. destruct (own_props vs Hb) with h as (h' & props & Hp & _); [by rewrite Hfst|].
      exists (h' ++ [OPlain PClass props]), (JLoc (length (h ++ h'))). rewrite app_assoc. eapply held_rec; [by apply list_lookup_middle|done|].
      intros f w Hf. destruct (Hp f w Hf) as (y & Hy & Hh). exists y. split; [done|by apply held_app].
  Qed.
End own.

(** ** An object without one of its optional fields, anywhere in a value *)
Section plug.
  Context (rt : runtime) (str_ok : jstr -> Prop) (Hrt : rt_ok rt str_ok) (Hs0 : str_ok []).
  Notation W := (wire (rt_enc rt) (rt_encs rt)).
  Notation FW := (fields_wire (rt_enc rt) (rt_encs rt)).
  Definition hides (f : sfield) : Prop := f_opt f = true /\ f_name f ∈ "write" :: object_names.
  Notation FWr f := (wire_wrapped (rt_enc rt) (f_array f) (f_opt f) (W (f_ty f))).
  (** [v] has an object that is written as something else *)
  Definition lost (t : rtype) (v : value) : Prop := exists (bad : heap -> val -> Prop) x, (forall h h' y, bad h y -> bad (h ++ h') y) /\
    (forall h y, bad h y -> y ≠ JUndef /\ y ≠ JNull) /\ (forall h, exists h' y, bad (h ++ h') y /\ holds (h ++ h') y v) /\
    (forall tn fs, wrongs rt (w_ty t tn) fs bad x) /\ forall rest, ~ x `prefix_of` (W t v ++ rest).
  (** the same for a field; [None]: the object does not have it *)
  Definition lost_field (f : sfield) (w : value) : Prop := exists (bad : heap -> option val -> Prop) x, (forall h h' y, bad h y -> bad (h ++ h') y) /\
    (forall h, bad h None -> f_name f ∈ "write" :: object_names) /\
    (forall h, exists h' o, bad (h ++ h') o /\ ((exists y, o = Some y /\ holds (h ++ h') y w) \/ (o = None /\ w = VNone))) /\
    (forall fs, fs ≠ [] -> wrongs rt (w_wrap (f_array f) (f_opt f) (w_ty (f_ty f) (f_tname f))) fs (fun h y => exists o, bad h o /\ y = default JFun o) x) /\
    forall rest, ~ x `prefix_of` (FWr f w ++ rest).
  Lemma lost_here f : hides f -> lost_field f VNone.
  Proof.
    intros [Ho Hn]. exists (fun _ o => o = None), (rt_enc rt KU8 (NInt 1) ++ []). split; [done|]. split; [done|]. split; [|split].
    - intros h. exists [], None. split; [done|by right].
    - intros fs Hfs. unfold w_wrap. rewrite Ho. eapply w_opt_wrongs; [done| | |apply wrongs_nil].
      + intros b x Hx. destruct (f_array f); [by apply elem_of_nil in Hx|]. by eapply lets_w_ty.
      + by intros h v (o & -> & ->).
    - intros rest [r' E]. unfold wire_wrapped in E. rewrite Ho, app_nil_r in E. assert (in_kind KU8 (NInt 1) /\ in_kind KU8 (NInt 0)) as [K1 K0] by (cbn; lia).
      pose proof (rd_enc _ _ Hrt KU8 (NInt 0) rest K0) as E0. rewrite E, (rd_enc _ _ Hrt) in E0 by done. done.
  Qed.
  Lemma prefix_app_cancel (a b c : list byte) : (a ++ b) `prefix_of` (a ++ c) -> b `prefix_of` c.
  Proof. apply prefix_app_inv. Qed.
  Lemma lost_in f v : v ≠ VNone -> lost (f_ty f) v -> lost_field f (Needs.one f v).
  Proof.
    intros Hv (bad & x & H1 & H2 & H3 & H4 & H5).
    set (bad1 := fun h y => if f_array f then exists l z, y = JLoc l /\ h !! l = Some (OArr [z]) /\ bad h z else bad h y).
    exists (fun h o => exists y, o = Some y /\ bad1 h y), (one_bytes rt f x). split; [|split; [|split; [|split]]].
    - intros h h' o (y & -> & Hy). exists y. split; [done|]. unfold bad1 in *. destruct (f_array f); [|by apply H1]. destruct Hy as (l & z & -> & Hl & Hz). exists l, z. split; [done|].
      split; [by apply lookup_app_l_Some|by apply H1].
    - by intros h (y & [=] & _).
    - intros h. destruct (H3 h) as (h' & y & Hb & Hh). unfold bad1, Needs.one. destruct (f_array f).
      + exists (h' ++ [OArr [y]]), (Some (JLoc (length (h ++ h')))). rewrite app_assoc. assert (((h ++ h') ++ [OArr [y]]) !! length (h ++ h') = Some (OArr [y])) as Hl by by apply list_lookup_middle.
        split.
        * eexists. split; [done|]. eexists _, y. split; [done|]. split; [done|by apply H1].
        * left. eexists. split; [done|]. eexists _, [y]. split; [done|]. split; [done|]. split; [by apply holds_app|done].
      + exists h', (Some y). split; [by exists y|]. left. by exists y.
    - intros fs Hfs r M fr E v0 y HE Hl Hw (o & (y' & -> & Hb) & ->). cbn [default from_option id] in Hw.
      assert (forall fs, wrongs rt (if f_array f then w_arr (w_ty (f_ty f) (f_tname f)) else w_ty (f_ty f) (f_tname f)) fs bad1 ((if f_array f then count (rt_enc rt) 1 else []) ++ x)) as Hin.
      { unfold bad1. intros fs'. destruct (f_array f); [by apply w_arr_wrongs|by apply H4]. }
      unfold w_wrap, one_bytes. destruct (f_opt f); [|by eapply Hin].
      eapply (w_opt_wrongs rt _ fs bad1); [done| | |apply Hin|exact HE|exact Hl|exact Hw|exact Hb].
      + intros b z Hz. destruct (f_array f); [by apply elem_of_nil in Hz|]. by eapply lets_w_ty.
      + unfold bad1. intros h z Hz. destruct (f_array f); [|by eapply H2]. by destruct Hz as (? & ? & -> & _).
    - intros rest Hp. rewrite one_wire, one_bytes_app in Hp by done. unfold one_bytes in Hp. apply prefix_app_cancel, prefix_app_cancel in Hp. by eapply H5.
  Qed.
  Lemma w_struct_app pre f post tn st : w_ty (TStruct (pre ++ f :: post)) tn st = w_ty (TStruct pre) tn st ++ w_field f st ++ w_fields post st.
  Proof. cbn [w_ty]. rewrite List.map_app, List.concat_app. done. Qed.
  Lemma lost_struct pre f post vs w ws : distinct (TStruct (pre ++ f :: post)) -> all_fields field_ok (TStruct (pre ++ f :: post)) ->
    fields_shape declared str_ok pre vs -> fields_shape declared str_ok post ws -> lost_field f w -> lost (TStruct (pre ++ f :: post)) (VRec (vs ++ (f_name f, w) :: ws)).
  Proof.
    intros [Hnd Hdi]%distinct_struct Hok Hvs Hws (badf & x & H1 & H2 & H3 & H4 & H5).
    assert ((vs ++ (f_name f, w) :: ws).*1 = List.map f_name (pre ++ f :: post)) as Hfst.
    { rewrite fmap_app, List.map_app. cbn. by rewrite (fields_shape_fst _ _ _ _ Hvs), (fields_shape_fst _ _ _ _ Hws). }
    rewrite <- Hfst in Hnd. rewrite fmap_app in Hnd. cbn [fmap list_fmap] in Hnd.
    assert (NoDup (vs ++ ws).*1 /\ f_name f ∉ (vs ++ ws).*1) as [Hnd' Hnf].
    { rewrite fmap_app. rewrite <- Permutation_middle in Hnd. apply NoDup_cons in Hnd as [? ?]. done. }
    exists (fun h y => exists p props, y = JLoc p /\ h !! p = Some (OPlain PClass props) /\ badf h (own (f_name f) props) /\ forall g u, (g, u) ∈ vs -> exists z, own g props = Some z /\ rep h z u),
      (FW pre vs ++ x). split; [|split; [|split; [|split]]].
    - intros h h' y (p & props & -> & Hp & Hb & Hg). exists p, props. split; [done|]. split; [by apply lookup_app_l_Some|]. split; [by apply H1|].
      intros g u Hu. destruct (Hg g u Hu) as (z & Hz & Hr). exists z. split; [done|by apply rep_app].
    - by intros h y (p & props & -> & _).
    - intros h. destruct (H3 h) as (h1 & o & Hb & Ho).
      assert (forall g u, (g, u) ∈ vs ++ ws -> owned u) as Hown.
      { intros g u [Hu|Hu]%elem_of_app; [eapply (fields_owned _ _ pre vs); [|exact Hvs|exact Hu]|eapply (fields_owned _ _ post ws); [|exact Hws|exact Hu]];
          intros f' Hf' v' Hv'; (eapply typed_owned; [|exact Hv']); apply Hdi, elem_of_app; [by left|right; by right]. }
      destruct (own_props _ Hown Hnd' (h ++ h1)) as (h2 & props & Hp1 & Hp2). set (props' := match o with Some y => (f_name f, y) :: props | None => props end).
      assert (own (f_name f) props' = o) as Eo by (unfold props'; destruct o; [cbn; by rewrite decide_True|by apply Hp2]).
      assert (forall g, g ∈ (vs ++ ws).*1 -> own g props' = own g props) as En.
      { intros g Hg. unfold props'. destruct o; [|done]. cbn. rewrite decide_False; [done|]. by intros <-. }
      exists ((h1 ++ h2) ++ [OPlain PClass props']), (JLoc (length (h ++ h1 ++ h2))). set (H := h ++ (h1 ++ h2) ++ [OPlain PClass props']).
      assert (H = (h ++ h1) ++ h2 ++ [OPlain PClass props']) as EH1 by (unfold H; by rewrite !app_assoc). assert (H = ((h ++ h1) ++ h2) ++ [OPlain PClass props']) as EH2 by (unfold H; by rewrite !app_assoc).
      assert (H !! length (h ++ h1 ++ h2) = Some (OPlain PClass props')) as Hl by (rewrite EH2, app_assoc; by apply list_lookup_middle).
      assert (forall g u, (g, u) ∈ vs ++ ws -> exists z, own g props' = Some z /\ held H u z) as Hall.
      { intros g u Hu. destruct (Hp1 g u Hu) as (z & Hz & Hh). exists z. rewrite En by (by apply (elem_of_list_fmap_1 fst) in Hu). split; [done|]. rewrite EH2. by apply held_app. }
      split.
      + eexists _, props'. split; [done|]. split; [done|]. rewrite Eo. split; [rewrite EH1; by apply H1|]. intros g u Hu. destruct (Hall g u) as (z & Hz & Hh & _); [apply elem_of_app; by left|]. by exists z.
      + apply holds_recs. eexists _, PClass, props'. split; [done|]. split; [done|]. split; [done|]. intros g u [Hu|[[= -> ->]|Hu]%elem_of_cons]%elem_of_app.
        * destruct (Hall g u) as (z & Hz & _ & Hh); [apply elem_of_app; by left|]. left. by exists z.
        * rewrite Eo. destruct Ho as [(y & -> & Hy)|[-> ->]]; [left|by right]. exists y. split; [done|]. rewrite EH1. by apply holds_app.
        * destruct (Hall g u) as (z & Hz & _ & Hh); [apply elem_of_app; by right|]. left. by exists z.
    - intros tn fs r M fr E v0 y HE Hl Hw (p & props & -> & Hp & Hb & Hg). rewrite w_struct_app.
      assert (rep (m_heap M) (JLoc p) (VRec vs)) as Hrep.
      { apply rep_recs'. exists p, PClass, props. split; [done|]. split; [done|]. intros g u Hu. destruct (Hg g u Hu) as (z & Hz & Hr). exists z. split; [|done]. cbn [get_prop]. by rewrite Hp, Hz. }
      destruct (w_ty_emits rt (TStruct pre) tn fs (VRec vs)) with r M fr E v0 (JLoc p) as (fr1 & Hsame & Hrun); try done.
      { rewrite all_fields_struct in Hok |- *. intros g Hgi. apply Hok, elem_of_app. by left. }
      { eapply any_typed. by exists vs. }
      rewrite wire_struct in Hrun. eapply strays_after; [exact Hrun|done|]. apply strays_app. unfold w_field. change ((r :: fs) ++ [f_name f]) with (r :: (fs ++ [f_name f])).
      assert (get_prop (m_heap M) (JLoc p) (f_name f) = Done (default JFun (own (f_name f) props))) as Hget.
      { cbn [get_prop]. rewrite Hp. destruct (own (f_name f) props) eqn:Ex; [done|]. apply H2 in Hb. unfold inherited.
        destruct (decide (f_name f ∈ object_names)) as [|Hno]; [done|]. apply elem_of_cons in Hb as [Hb|]; [|done]. by rewrite decide_True. }
      eapply (H4 (fs ++ [f_name f])); [by destruct fs|reflexivity| | |].
      + rewrite (lookup_same r fr); [exact Hl|done|apply ext_self].
      + cbn [m_heap]. rewrite walk_app, Hw. cbn [obind walk]. rewrite Hget. reflexivity.
      + cbn [m_heap]. by exists (own (f_name f) props).
    - intros rest Hp. rewrite wire_struct, fields_wire_app in Hp by (by eapply fields_shape_length). rewrite <- app_assoc in Hp. apply prefix_app_cancel in Hp. cbn [fields_wire] in Hp.
      fold (fields_wire (rt_enc rt) (rt_encs rt)) in Hp. rewrite <- app_assoc in Hp. by eapply H5.
  Qed.
  Lemma plug_hides t : inside hides t -> distinct t -> all_fields field_ok t -> all_enums good_enum t -> exists v, has_type str_ok t v /\ lost t v.
  Proof.
    assert (forall fs f, f ∈ fs -> distinct (TStruct fs) -> all_fields field_ok (TStruct fs) -> all_enums good_enum (TStruct fs) ->
      (exists w, wrapped (f_array f) (f_opt f) (has_type str_ok (f_ty f)) w /\ lost_field f w) -> exists v, has_type str_ok (TStruct fs) v /\ lost (TStruct fs) v) as Hone.
    { intros fs f (pre & post & ->)%elem_of_list_split Hd Hok Hg (w & Hw & Hl). rewrite all_enums_struct in Hg.
      destruct (usual_values str_ok Hs0 pre) as [vs Hvs]; [intros g Hg'; apply Hg, elem_of_app; by left|].
      destruct (usual_values str_ok Hs0 post) as [ws Hws]; [intros g Hg'; apply Hg, elem_of_app; right; by right|].
      exists (VRec (vs ++ (f_name f, w) :: ws)). split; [|by apply lost_struct]. eexists. split; [done|]. apply fields_shape_app. pose proof (fields_shape_length _ _ _ _ Hvs) as HL.
      rewrite <- HL, take_app, drop_app. done. }
    induction 1 as [fs f Hf Hq|fs f Hf Hin IH]; intros Hd Hok Hg; apply (Hone fs f); try done.
    - exists VNone. split; [left; by destruct Hq|by apply lost_here].
    - apply distinct_struct in Hd as [_ Hd]. rewrite all_fields_struct in Hok. rewrite all_enums_struct in Hg. destruct IH as (v & Hv & Hl); [by apply Hd|by apply Hok|by apply Hg|].
      exists (Needs.one f v). split; [by apply one_shape|]. apply lost_in; [by eapply shape_not_none|done].
  Qed.
End plug.

(** ** the criterion *)
Lemma code_may_omit a rt (str_ok : jstr -> Prop) e : str_ok [] -> exports a = [e] -> rt_ok rt str_ok -> distinct_fields a e ->
  for_code a (fun k t => write_ready k -> (may_omit rt str_ok k t <-> ~ needs_inherited a e)).
Proof.
  intros Hs0 He Hrt Hd. apply (for_needs _ _ He). intros iter r Hf Hn Hr He' Hk. set (k := class_of (r_export r)) in *. set (t := TStruct (x_fields (r_export r))). split.
  - intros Hm (n & fs & f & u & HN & Hds & Hin & Hu & Hname). assert (distinct t) as Ht by (apply (export_distinct _ _ _ Hf Hn Hr); rewrite He'; exact Hd).
    destruct (plug_hides rt str_ok Hrt Hs0 t) as (v & Hv & bad & x & _ & _ & H3 & H4 & H5); [|done|by eapply export_checked|exact (Needs.export_good _ _ _ Hf Hn Hr)|].
    { eapply (entry_inside _ _ _ Hf Hn Hr); [exact HN|exact Hds|exact Hin| |rewrite <- He'; by eapply export_entry]. intros f' (E1 & _ & E2 & E3 & _). cbn in *. split; congruence. }
    destruct (H3 []) as (h & this & Hb & Hh). cbn [app] in Hb, Hh. destruct (Hm v h this Hv Hh) as (M & n0 & Hw).
    set (M0 := Mach h [<["this" := Some this]> (hoist (k_write k))] (RState [] false 0) []).
    destruct (H4 (x_name (r_export r)) [] "this" M0 (<["this" := Some this]> (hoist (k_write k))) [] this this) as [n1 H1]; [done|cbn [lookup_var]; by rewrite lookup_insert|done|done|].
    specialize (Hw (n0 + n1) ltac:(lia)). unfold call_write in Hw. rewrite decide_True in Hw by apply Hk. rewrite decide_False in Hw by apply Hk. fold M0 in Hw.
    change (k_write k) with (w_ty t (x_name (r_export r)) ["this"]) in Hw. destruct (exec_seq rt (n0 + n1) _ M0) as [[M1| |]|] eqn:E; try done. injection Hw as Hw <-.
    apply H1 in E; [|lia]. apply (H5 []). rewrite app_nil_r. unfold t in Hw |- *. cbn [m_out M0 app] in E. change (wire (rt_enc rt) (rt_encs rt) (TStruct (x_fields (r_export r))) v) with (wire (rt_enc rt) (rt_encs rt) t v). by rewrite Hw in E.
  - intros Hno v h this Hv Hh. destruct (writes_wire rt _ _ _ Hf Hn Hr Hk v h this (any_typed _ _ _ _ Hv)) as (M & Hw & _); [|by exists M].
    eapply holds_rep; [|exact (any_typed _ _ _ _ Hv)|exact Hh]. apply (export_fields _ _ _ Hf Hn Hr). intros n gs f u HN Hds Hu _ _ Ho _ Hopt Hname. apply Hno. exists n, gs, (f_name f), u.
    split; [by rewrite <- He'|]. split; [done|]. split; [done|]. split; [congruence|done].
Qed.
