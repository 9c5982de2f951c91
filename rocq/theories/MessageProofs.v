(** Which messages the checker can give: the second pass. *)
From Verif Require Export MessageFront.
Local Arguments get_builtins : simpl never.

(** ** The specification decides the message *)
Lemma first_unique {A} (P : A -> Prop) l1 x l2 l1' x' l2' : l1 ++ x :: l2 = l1' ++ x' :: l2' -> (forall y, y ∈ l1 -> ~ P y) -> P x -> (forall y, y ∈ l1' -> ~ P y) -> P x' ->
  l1 = l1' /\ x = x'.
Proof.
  revert l1'. induction l1 as [|y l1 IH]; intros [|y' l1'] E H1 Hx H1' Hx'; cbn in E; injection E as -> E; [done| | |].
  - exfalso. apply (H1' y' ltac:(left)). done.
  - exfalso. apply (H1 x' ltac:(left)). done.
  - destruct (IH l1' E) as [-> ->]; [intros; apply H1; by right|done|intros; apply H1'; by right|done..].
Qed.
Lemma first_bad_unique a fs pre t pre' t' : first_bad a fs pre t -> first_bad a fs pre' t' -> pre = pre' /\ t = t'.
Proof.
  intros (f & u & post & E & <- & Hb & Hp) (f' & u' & post' & E' & <- & Hb' & Hp').
  destruct (first_unique (fun d : string * unresolved => ~ sound a (u_name d.2)) pre (f, u) post pre' (f', u') post') as [-> [= -> ->]]; [congruence|intros y Hy Hn; by apply Hn, Hp|done|intros y Hy Hn; by apply Hn, Hp'|done|done].
Qed.
Lemma walk_unsound a top S open n m : walk a top S open n m -> ~ sound a n.
Proof.
  assert (forall fs pre t, declares_struct a n fs -> first_bad a fs pre t -> ~ sound a n) as Hfb.
  { intros fs pre t Hd (f & u & post & -> & <- & Hb & _) Hs. apply Hb. intros k Hk. apply Hs. eapply rtc_l; [|exact Hk].
    eexists _, f, u. split; [exact Hd|]. split; [|done]. apply elem_of_app. right. by left. }
  assert (forall pre f u post, declares_struct a n (pre ++ (f, u) :: post) -> clash u -> ~ sound a n) as Hcl.
  { intros pre f u post Hd Hc Hs. destruct (Hs n (rtc_refl _ _)) as (_ & _ & H). eapply (H _ f u Hd); [|done]. apply elem_of_app. right. by left. }
  intros H. inversion H; subst; eauto.
Qed.
Lemma walk_inv a top S open n m fs : NoDup (decl_names a) -> declares_struct a n fs -> walk a top S open n m ->
  (exists pre f u post, fs = pre ++ (f, u) :: post /\ quiet S pre /\ clash u /\ S (u_name u) /\ m = "Field '" +:+ f +:+ "' in struct '" +:+ n +:+ "' cannot be optional and array at once") \/
  (quiet S fs /\ (((forall d, d ∈ fs -> sound a (u_name d.2)) /\ exists pre f u post, fs = pre ++ (f, u) :: post /\ (forall d, d ∈ pre -> ~ clash d.2) /\ clash u /\
       m = "Field '" +:+ f +:+ "' in struct '" +:+ n +:+ "' cannot be optional and array at once") \/
     exists pre t, first_bad a fs pre t /\ ((t ∉ decl_names a /\ m = "Declaration for type '" +:+ t +:+ "' does not exist") \/
       (t ∈ n :: open /\ t ≠ top /\ m = "Declaration for type '" +:+ t +:+ "' does not exist") \/
       (t = top /\ m = "Found a cycle between two or more top level definitions in type '" +:+ top +:+ "'") \/
       (t ∈ decl_names a /\ t ∉ n :: open /\ walk a top (fun k => S k \/ exists d, d ∈ pre /\ rtc (refers a) (u_name d.2) k) (n :: open) t m)))).
Proof.
  intros Hnd Hfs H.
  assert (forall fs', declares_struct a n fs' -> fs' = fs) as Hun.
  { intros fs' H1. pose proof (decl_unique _ _ _ _ Hnd H1 Hfs) as [= ->]. done. }
  destruct H as [S open n pre f u post Hd Hp Hc Hs|S open n pre f u post fs' Hd Hp Hs Hc Hu|S open n fs' pre t Hd Hp Hb Ht|S open n fs' pre t Hd Hp Hb Ht Hne|S open n fs' pre Hd Hp Hb|S open n fs' pre t m Hd Hp Hb Ht Hno Hw];
    apply Hun in Hd as Hd'; [|unfold fs' in *|..]; subst fs.
  - left. by exists pre, f, u, post.
  - right. split; [done|]. left. split; [done|]. by exists pre, f, u, post.
  - right. split; [done|]. right. exists pre, t. split; [done|]. by left.
  - right. split; [done|]. right. exists pre, t. split; [done|]. right; by left.
  - right. split; [done|]. right. exists pre, top. split; [done|]. right; right; by left.
  - right. split; [done|]. right. exists pre, t. split; [done|]. right; right; by right.
Qed.
Lemma walk_declared a top S open n m : walk a top S open n m -> exists fs, declares_struct a n fs.
Proof. destruct 1; eauto. Qed.
Lemma walk_unique a top S open n m m' : NoDup (decl_names a) -> top ∈ n :: open -> (forall k, k ∈ open -> k ∈ decl_names a) ->
  walk a top S open n m -> walk a top S open n m' -> m = m'.
Proof.
  intros Hnd Htop Hopen H. revert m' Htop Hopen.
  assert (forall (S : string -> Prop) pre f u post, quiet S (pre ++ (f, u) :: post) -> clash u -> S (u_name u) -> False) as Hq.
  { intros S0 pre f u post Hq Hc Hs. apply (Hq f u); [|done..]. apply elem_of_app. right. by left. }
  assert (forall fs pre t, (forall d, d ∈ fs -> sound a (u_name d.2)) -> first_bad a fs pre t -> False) as Hsb.
  { intros fs pre t Hs (f & u & post & -> & <- & Hb & _). apply Hb. apply (Hs (f, u)). apply elem_of_app. right. by left. }
  assert (forall n fs, declares_struct a n fs -> n ∈ decl_names a) as Hdn by (intros; by eapply decl_names_elem).
  assert (forall n fs open t, declares_struct a n fs -> (forall k, k ∈ open -> k ∈ decl_names a) -> t ∈ n :: open -> t ∈ decl_names a) as Hop.
  { intros k fs o t Hd Ho [->|Ht]%elem_of_cons; [by eapply Hdn|by apply Ho]. }
  induction H as [S open n pre f u post Hd Hp Hc Hs|S open n pre f u post fs Hd Hp Hs Hc Hu|S open n fs pre t Hd Hp Hb Ht|S open n fs pre t Hd Hp Hb Ht Hne|S open n fs pre Hd Hp Hb|S open n fs pre t m Hd Hp Hb Ht Hno Hw IH];
    intros m' Htop Hopen H'; apply (walk_inv _ _ _ _ _ _ _ Hnd Hd) in H' as [(pre' & f' & u' & post' & E & Hp' & Hc' & Hs' & ->)|[Hp' H']].
  - destruct (first_unique (fun d : string * unresolved => clash d.2 /\ S (u_name d.2)) pre (f, u) post pre' (f', u') post') as [_ [= -> ->]]; try done.
    + intros [g v] Hy [H1 H2]. by apply (Hp g v).
    + intros [g v] Hy [H1 H2]. by apply (Hp' g v).
  - exfalso. by eapply Hq.
  - exfalso. unfold fs in *. rewrite E in Hp. by eapply Hq.
  - destruct H' as [(_ & pre' & f' & u' & post' & E & H1 & H2 & ->)|(pre' & t & Hb & _)]; [|exfalso; by eapply Hsb].
    destruct (first_unique (fun d : string * unresolved => clash d.2) pre (f, u) post pre' (f', u') post') as [_ [= -> ->]]; done.
  - exfalso. rewrite E in Hp. by eapply Hq.
  - destruct H' as [[Hs _]|(pre' & t' & Hb' & H')]; [exfalso; by eapply Hsb|]. destruct (first_bad_unique _ _ _ _ _ _ Hb Hb') as [<- <-].
    destruct H' as [[_ ->]|[(_ & _ & ->)|[[-> ->]|(? & _)]]]; [done..| |done]. exfalso. by eapply Ht, Hop.
  - exfalso. rewrite E in Hp. by eapply Hq.
  - destruct H' as [[Hs _]|(pre' & t' & Hb' & H')]; [exfalso; by eapply Hsb|]. destruct (first_bad_unique _ _ _ _ _ _ Hb Hb') as [<- <-].
    destruct H' as [[_ ->]|[(_ & _ & ->)|[[-> ->]|(_ & ? & _)]]]; done.
  - exfalso. rewrite E in Hp. by eapply Hq.
  - destruct H' as [[Hs _]|(pre' & t' & Hb' & H')]; [exfalso; by eapply Hsb|]. destruct (first_bad_unique _ _ _ _ _ _ Hb Hb') as [<- <-].
    destruct H' as [[Hx _]|[(_ & ? & ->)|[[_ ->]|(_ & ? & _)]]]; [|done..]. exfalso. by eapply Hx, Hop.
  - exfalso. rewrite E in Hp. by eapply Hq.
  - destruct H' as [[Hs _]|(pre' & t' & Hb' & H')]; [exfalso; by eapply Hsb|]. destruct (first_bad_unique _ _ _ _ _ _ Hb Hb') as [<- <-].
    destruct H' as [[? _]|[(? & _)|[[-> _]|(_ & _ & Hw')]]]; [done..|]. apply IH; [by right| |done].
    intros k [->|Hk]%elem_of_cons; [by eapply Hdn|by apply Hopen].
Qed.

(** ** One call of the second pass *)
Lemma split_fields_first name c fs F N m : split_fields name c fs F N = Err m ->
  exists pre f u post, fs = pre ++ (f, u) :: post /\ quiet (fun k => is_Some (c !! k)) pre /\ clash u /\ is_Some (c !! u_name u) /\
    m = "Field '" +:+ f +:+ "' in struct '" +:+ name +:+ "' cannot be optional and array at once".
Proof.
  revert F N. induction fs as [|[f u] fs IH]; intros F N; cbn; [done|].
  destruct (resolve_struct_field f u c name) as [[fld|]|m'|m'|] eqn:E; cbn; [| | |done|done].
  - intros (pre & g & v & post & -> & Hq & H)%IH. exists ((f, u) :: pre), g, v, post. split; [done|]. split; [|done].
    apply rsf_some in E as (Hno & _). intros g' v' [[= -> ->]|Hin]%elem_of_cons Hc; [by destruct Hno|]. by apply (Hq g').
  - intros (pre & g & v & post & -> & Hq & H)%IH. exists ((f, u) :: pre), g, v, post. split; [done|]. split; [|done].
    apply rsf_none in E. intros g' v' [[= -> ->]|Hin]%elem_of_cons Hc; [rewrite E; by intros [? ?]|]. by apply (Hq g').
  - intros [= <-]. exists [], f, u, fs. split; [done|]. split; [by intros ?? ?%elem_of_nil|].
    assert (is_Some (c !! u_name u)) as Hk. { unfold resolve_struct_field in E. by destruct (c !! u_name u). }
    apply rsf_message in E as (H1 & H2 & ->). done.
Qed.
Lemma finish_fields_first name c fs acc m : finish_fields name c fs acc = Err m ->
  exists pre f u post, fs = pre ++ (f, u) :: post /\ (forall d, d ∈ pre -> ~ clash d.2) /\ clash u /\ m = "Field '" +:+ f +:+ "' in struct '" +:+ name +:+ "' cannot be optional and array at once".
Proof.
  revert acc. induction fs as [|[f u] fs IH]; intros acc; cbn; [done|].
  destruct (resolve_struct_field f u c name) as [[fld|]|m'|m'|] eqn:E; cbn; [|done| |done|done].
  - intros (pre & g & v & post & -> & Hq & H)%IH. exists ((f, u) :: pre), g, v, post. split; [done|]. split; [|done].
    apply rsf_some in E as (Hno & _). intros d [->|Hin]%elem_of_cons; [done|by apply Hq].
  - intros [= <-]. exists [], f, u, fs. split; [done|]. split; [by intros ? ?%elem_of_nil|]. apply rsf_message in E as (H1 & H2 & ->). done.
Qed.
Lemma filter_app_inv {A} (P : A -> Prop) `{!forall x, Decision (P x)} (l p : list A) x q : filter P l = p ++ x :: q ->
  exists pre post, l = pre ++ x :: post /\ filter P pre = p.
Proof.
  revert p. induction l as [|y l IH]; intros p; [by destruct p|]. rewrite filter_cons. case_decide as Hy.
  - destruct p as [|z p]; cbn; intros [= -> E].
    + exists [], l. done.
    + apply IH in E as (pre & post & -> & E). exists (z :: pre), post. split; [done|]. rewrite filter_cons, decide_True by done. by f_equal.
  - intros E. apply IH in E as (pre & post & -> & E). exists (y :: pre), post. split; [done|]. by rewrite filter_cons, decide_False by done.
Qed.
Local Arguments finish_fields : simpl never.
Local Arguments split_fields : simpl never.
(** a call that succeeds keeps what is unresolved unless it resolves it *)
Definition keeps (s s' : sp) : Prop :=
  (forall k, is_Some (cache s !! k) -> is_Some (cache s' !! k)) /\ (forall k t, unres s !! k = Some t -> unres s' !! k = Some t \/ is_Some (cache s' !! k)).
Lemma keeps_refl s : keeps s s.
Proof. split; auto. Qed.
Lemma keeps_trans s1 s2 s3 : keeps s1 s2 -> keeps s2 s3 -> keeps s1 s3.
Proof. intros [H1 H2] [H3 H4]. split; [auto|]. intros k t Hk. destruct (H2 k t Hk) as [Hk'|Hk']; [by apply H4|auto]. Qed.
Lemma rec_keeps fuel name ty s s' : resolve_one_second_pass fuel name ty s = Ok s' -> keeps s s' /\ is_Some (cache s' !! name).
Proof.
  revert name ty s s'. induction fuel as [|fuel IH]; intros name ty s s'; cbn; [done|].
  destruct (cache s !! name) as [x|] eqn:Hc; [intros [= <-]; split; [apply keeps_refl|rewrite Hc; eauto]|].
  destruct ty as [vs|fs]; [done|]. case_decide; [done|]. destruct (split_fields name (cache s) fs [] []) as [[fields nr]|m|m|]; cbn; [|done..].
  assert (forall nr s s', resolve_field_types (resolve_one_second_pass fuel) nr s = Ok s' -> keeps s s') as Hft.
  { clear -IH. induction nr as [|[f u] nr IHnr]; intros s s'; cbn; [intros [= <-]; apply keeps_refl|].
    destruct (unres s !! u_name u) as [ut|] eqn:Hu.
    - destruct (resolve_one_second_pass fuel (u_name u) ut (Sp (cache s) (visited s) (delete (u_name u) (unres s)))) as [s1|m|m|] eqn:E; cbn; [|done..].
      intros H%IHnr. apply IH in E as [[H1 H2] H3]. eapply keeps_trans; [|exact H]. split; [done|]. intros k t Hk. destruct (decide (k = u_name u)) as [->|Hne]; [auto|].
      apply H2. cbn. by rewrite lookup_delete_ne by done.
    - destruct (cache s !! u_name u); [|done]. apply IHnr. }
  assert (forall s1 x, keeps s s1 -> keeps s (Sp (<[name := x]> (cache s1)) (visited s1) (unres s1))) as Hins.
  { intros s1 x [H1 H2]. split; cbn.
    - intros k Hk%H1. destruct (decide (k = name)) as [->|Hne]; [rewrite lookup_insert; eauto|by rewrite lookup_insert_ne].
    - intros k t [?|Hk]%H2; [auto|]. right. destruct (decide (k = name)) as [->|Hne]; [rewrite lookup_insert; eauto|by rewrite lookup_insert_ne]. }
  destruct nr as [|d nr].
  - intros [= <-]. split; [|cbn; rewrite lookup_insert; eauto]. apply (Hins (Sp (cache s) ({[name]} ∪ visited s) (unres s))). split; auto.
  - destruct (resolve_field_types _ (d :: nr) _) as [s2|m|m|] eqn:E; cbn [rbind]; [|done..]. apply Hft in E.
    destruct (finish_fields name (cache s2) (d :: nr) []) as [l|m|m|]; cbn [rbind]; [|done..]. intros [= <-]. split; [|cbn; rewrite lookup_insert; eauto]. apply Hins. exact E.
Qed.

Section second.
  Context (a : ast) (Hnb : no_builtin_decl a) (e : string) (C0 : tymap) (D : gmap string atype) (F : front_facts a e C0 D).
  Notation inv := (inv D C0). Notation active := (active D C0).
  Lemma builtin_sound t : t ∈ builtin_names -> sound a t.
  Proof.
    assert (forall k fs, k ∈ builtin_names -> ~ declares_struct a k fs) as Hno by (intros k fs Hb Hd; by apply (decl_not_builtin a Hnb k _ Hd)).
    intros Ht k Hr. assert (k = t) as ->. { destruct Hr as [|? ? ? (fs & f & u & Hd & _)]; [done|]. by apply Hno in Hd. }
    split; [by left|]. split; [|intros fs f u Hd; by apply Hno in Hd].
    intros Htc. inversion Htc as [? ? (fs & f & u & Hd & _)|? ? ? (fs & f & u & Hd & _)]; subst; by apply Hno in Hd.
  Qed.
  Lemma builtins_C0 : get_builtins ⊆ C0.
  Proof.
    apply map_subseteq_spec. intros n [m t]. rewrite builtins_lookup. intros H. apply fmap_Some in H as (b & Hb & [= -> ->]).
    apply (C0_lookup a Hnb e C0 D F). split; [done|]. right. eauto.
  Qed.
  (** the entry of a declared struct *)
  Lemma cached_struct p stk s n m t fs : inv p stk s -> cache s !! n = Some (m, t) -> declares_struct a n fs ->
    exists ds rs, t = TStruct rs /\ ds ≡ₚ fs /\ Forall2 (field_matches (cache s)) ds rs /\ Forall fld_ok fs.
  Proof.
    intros Hinv Hc Hd. destruct (i_new _ _ _ _ _ Hinv _ _ _ Hc) as [H0|[-> (fs' & c0 & rs & Hact & H1 & H2 & _ & Hok & Hrs & ->)]].
    - apply (C0_lookup a Hnb e C0 D F) in H0 as [_ [(u & Hu & Ho)|(b & Hb & _)]].
      + pose proof (decl_unique _ _ _ _ (ff_nodup _ _ _ _ F) Hd Hu) as <-.
        apply fp_one_struct in Ho as (_ & Hok & [(Hall & rs & Hrs & [= ->])|[_ [=]]]). rewrite builtin_prefix_id in Hok by done.
        exists fs, rs. split; [done|]. split; [done|]. split; [|done]. eapply Forall2_fm_mono; [|exact Hrs]. etrans; [apply builtins_C0|apply (i_sub _ _ _ _ _ Hinv)].
      + exfalso. apply (decl_not_builtin a Hnb n _ Hd). apply builtin_names_spec. eauto.
    - apply (active_iff a Hnb e C0 D F) in Hact as [Hd' _]. pose proof (decl_unique _ _ _ _ (ff_nodup _ _ _ _ F) Hd Hd') as [= <-].
      exists (arranged c0 fs), rs. split; [done|]. split; [apply arranged_perm|]. done.
  Qed.
  Definition height (s : sp) (n : string) : nat := match cache s !! n with Some (_, t) => rheight t | None => 0 end.
  Lemma cached_refers p stk s n k : inv p stk s -> is_Some (cache s !! n) -> refers a n k -> is_Some (cache s !! k) /\ height s k < height s n.
  Proof.
    intros Hinv [[m t] Hc] (fs & f & u & Hd & Hin & <-).
    destruct (cached_struct _ _ _ _ _ _ _ Hinv Hc Hd) as (ds & rs & -> & Hp & Hrs & _).
    rewrite <- Hp in Hin. destruct (Forall2_elem_l _ _ _ _ Hrs Hin) as (r & Hr & (_ & _ & _ & _ & E)). cbn in E.
    split; [eauto|]. unfold height. rewrite Hc, E. by apply rheight_field.
  Qed.
  Lemma cached_rtc p stk s n k : inv p stk s -> is_Some (cache s !! n) -> rtc (refers a) n k -> is_Some (cache s !! k).
  Proof. intros Hinv Hn Hr. revert Hn. induction Hr as [|x y z Hxy _ IH]; [done|]. intros Hx. apply IH. by eapply cached_refers. Qed.
  Lemma cached_sound p stk s n : inv p stk s -> is_Some (cache s !! n) -> sound a n.
  Proof.
    intros Hinv Hn k Hr. pose proof (cached_rtc _ _ _ _ _ Hinv Hn Hr) as Hk. split_and!.
    - destruct Hk as [[m t] Hk]. destruct (i_new _ _ _ _ _ Hinv _ _ _ Hk) as [H0|[-> (fs' & c0 & rs & Hact & _)]].
      + apply (C0_lookup a Hnb e C0 D F) in H0 as [_ [(u & Hu & _)|(b & Hb & _)]]; [right; by eapply decl_names_elem|left; apply builtin_names_spec; eauto].
      + right. apply (active_iff a Hnb e C0 D F) in Hact as [Hd' _]. by eapply decl_names_elem.
    - assert (forall x y, tc (refers a) x y -> is_Some (cache s !! x) -> height s y < height s x) as Hh.
      { induction 1 as [x y Hxy|x y z Hxy _ IH]; intros Hx; destruct (cached_refers _ _ _ _ _ Hinv Hx Hxy) as [Hy Hlt]; [done|]. specialize (IH Hy). lia. }
      intros Htc. specialize (Hh _ _ Htc Hk). lia.
    - intros fs f u Hd Hin. destruct Hk as [[m t] Hk]. destruct (cached_struct _ _ _ _ _ _ _ Hinv Hk Hd) as (ds & rs & _ & _ & _ & Hok).
      rewrite Forall_forall in Hok. apply (Hok (f, u) Hin).
  Qed.

  Definition tops (top : string) (stk : gset string) (s : sp) : Prop :=
    (forall k, k ∈ stk -> k ≠ top -> unres s !! k = None) /\ is_Some (unres s !! top).
  Lemma tops_keeps top stk s s' : tops top stk s -> keeps s s' -> unres s' ⊆ unres s -> cache s' !! top = None -> tops top stk s'.
  Proof.
    intros [H1 [t H2]] [_ H3] Hsub Hc. split.
    - intros k Hk Hne. destruct (unres s' !! k) as [x|] eqn:E; [|done]. apply (lookup_weaken _ _ _ _ E) in Hsub. rewrite (H1 k Hk Hne) in Hsub. done.
    - destruct (H3 _ _ H2) as [?|[? ?]]; [eauto|congruence].
  Qed.
  Lemma delete_inv stk s t ut : inv stk stk s -> unres s !! t = Some ut ->
    D !! t = Some ut /\ inv ({[t]} ∪ stk) stk (Sp (cache s) (visited s) (delete t (unres s))) /\ size (delete t (unres s)) < size (unres s).
  Proof.
    intros Hinv Hu. split_and!.
    - eapply lookup_weaken; [done|apply (i_unres _ _ _ _ _ Hinv)].
    - destruct Hinv as [? ? Hun Hall ? ? ?]. constructor; cbn; try done.
      + etrans; [apply delete_subseteq|done].
      + intros n Hn. destruct (Hall n Hn) as [?|[?|?]]; [auto| |set_solver]. destruct (decide (n = t)) as [->|Hne]; [set_solver|]. rewrite lookup_delete_ne by done. auto.
    - pose proof (map_size_delete_Some _ (unres s) (mk_is_Some _ _ Hu)) as E.
      assert (size (unres s) ≠ 0) by (intros E0%map_size_empty_inv; rewrite E0 in Hu; done). lia.
  Qed.
  Lemma refD_sub n k : rtc (refD D C0) n k -> rtc (refers a) n k.
  Proof. apply (rtc_congruence id). intros x y. by apply (refD_refers _ _ _ _ _ _ F). Qed.

  Lemma field_types_walk top fuel nr stk s m : top ∈ stk -> inv stk stk s -> size (unres s) <= fuel -> tops top stk s ->
    resolve_field_types (resolve_one_second_pass fuel) nr s = Err m ->
    exists p f u q s1, nr = p ++ (f, u) :: q /\ inv stk stk s1 /\ tops top stk s1 /\ size (unres s1) <= fuel /\ (forall d, d ∈ p -> is_Some (cache s1 !! u_name d.2)) /\
      (forall k, is_Some (cache s1 !! k) <-> is_Some (cache s !! k) \/ exists d, d ∈ p /\ rtc (refers a) (u_name d.2) k) /\
      ((cache s1 !! u_name u = None /\ unres s1 !! u_name u = None /\ m = "Declaration for type '" +:+ u_name u +:+ "' does not exist") \/
       exists ut, unres s1 !! u_name u = Some ut /\ resolve_one_second_pass fuel (u_name u) ut (Sp (cache s1) (visited s1) (delete (u_name u) (unres s1))) = Err m).
  Proof.
    intros Htop. revert s. induction nr as [|[f u] nr IH]; intros s Hinv Hsz Ht; cbn; [done|].
    assert (forall s1 : sp, inv stk stk s1 -> tops top stk s1 -> size (unres s1) <= fuel -> is_Some (cache s1 !! u_name u) ->
      (forall k, is_Some (cache s1 !! k) <-> is_Some (cache s !! k) \/ rtc (refers a) (u_name u) k) ->
      resolve_field_types (resolve_one_second_pass fuel) nr s1 = Err m -> 
      exists p f' u' q s1, (f, u) :: nr = p ++ (f', u') :: q /\ inv stk stk s1 /\ tops top stk s1 /\ size (unres s1) <= fuel /\ (forall d, d ∈ p -> is_Some (cache s1 !! u_name d.2)) /\
      (forall k, is_Some (cache s1 !! k) <-> is_Some (cache s !! k) \/ exists d, d ∈ p /\ rtc (refers a) (u_name d.2) k) /\
      ((cache s1 !! u_name u' = None /\ unres s1 !! u_name u' = None /\ m = "Declaration for type '" +:+ u_name u' +:+ "' does not exist") \/
       exists ut, unres s1 !! u_name u' = Some ut /\ resolve_one_second_pass fuel (u_name u') ut (Sp (cache s1) (visited s1) (delete (u_name u') (unres s1))) = Err m)) as Hnext.
    { intros s1 Hi Ht1 Hz Hc Hkeys H. apply IH in H as (p & f' & u' & q & s2 & -> & Hi2 & Ht2 & Hz2 & Hp & Hk2 & Ho); [|done..].
      exists ((f, u) :: p), f', u', q, s2. split; [done|]. split; [done|]. split; [done|]. split; [done|]. split; [|split; [|done]].
      - intros d [->|Hd]%elem_of_cons; [cbn; apply Hk2; by left|by apply Hp].
      - intros k. rewrite Hk2, Hkeys. split.
        + intros [[?|?]|(d & Hd & ?)]; [by left|right; exists (f, u); split; [by left|done]|right; exists d; split; [by right|done]].
        + intros [?|(d & [->|Hd]%elem_of_cons & ?)]; [auto..|]. right. by exists d. }
    destruct (unres s !! u_name u) as [ut|] eqn:Hu.
    - destruct (delete_inv _ _ _ _ Hinv Hu) as (HDu & Hinv0 & Hlt).
      set (s0 := Sp (cache s) (visited s) (delete (u_name u) (unres s))) in *.
      assert (size (unres s0) < fuel) as Hsz0 by (cbn; lia).
      destruct (second_pass_one D C0 (ff_struct _ _ _ _ F) (ff_named _ _ _ _ F) fuel _ _ _ _ HDu Hinv0 Hsz0) as [(s1 & E1 & (Hi & Hc & Hun) & Hk & Hup & _)|(m1 & E1 & _)]; rewrite E1; cbn [rbind].
      + assert (cache s1 !! top = None) as Htc by (by apply (i_stk _ _ _ _ _ Hi)).
        assert (unres s1 ⊆ unres s) as Hsub by (etrans; [exact Hun|apply delete_subseteq]).
        apply Hnext; [done| | |done|].
        * eapply (tops_keeps top stk s); [done| |done|done]. apply rec_keeps in E1 as [[Ha Hb] _]. split; [done|]. intros k t0 Hk0. destruct (decide (k = u_name u)) as [->|Hne]; [by right|].
          apply Hb. cbn. by rewrite lookup_delete_ne by done.
        * apply map_subseteq_size in Hsub. lia.
        * intros k. split.
          -- intros [?|?]%Hup; [by left|]. right. by apply refD_sub.
          -- intros [[x Hx]|Hr]; [exists x; by eapply lookup_weaken|]. by eapply cached_rtc.
      + intros [= <-]. exists [], f, u, nr, s. split; [done|]. split; [done|]. split; [done|]. split; [done|]. split; [by intros ? ?%elem_of_nil|]. split; [|right; by exists ut].
        intros k. split; [by left|]. intros [?|(? & ?%elem_of_nil & _)]; done.
    - destruct (cache s !! u_name u) as [x|] eqn:Hc.
      + apply Hnext; [done..|by rewrite Hc|]. intros k. split; [by left|]. intros [?|Hr]; [done|]. eapply cached_rtc; [done| |done]. by rewrite Hc.
      + intros [= <-]. exists [], f, u, nr, s. split; [done|]. split; [done|]. split; [done|]. split; [done|]. split; [by intros ? ?%elem_of_nil|]. split; [|by left].
        intros k. split; [by left|]. intros [?|(? & ?%elem_of_nil & _)]; done.
  Qed.
  Local Arguments resolve_field_types : simpl never.
  Lemma rec_walk fuel : forall top name ty open stk s m S, D !! name = Some ty -> (forall k, k ∈ stk <-> k ∈ open) -> inv ({[name]} ∪ stk) stk s -> size (unres s) < fuel ->
    (forall k, k ∈ stk -> tc (refers a) k name) -> name ∉ stk -> (name = top \/ (top ∈ stk /\ unres s !! name = None)) -> tops top stk s -> (forall k, S k <-> is_Some (cache s !! k)) ->
    resolve_one_second_pass fuel name ty s = Err m -> walk a top S open name m.
  Proof.
    induction fuel as [|fuel IH]; intros top name ty open stk s m S HDn Hopen Hinv Hsz Hstk Hname Htop Htops HS; [lia|]. simpl. destruct (cache s !! name) as [x|] eqn:Hc; [done|].
    destruct (ff_struct _ _ _ _ F _ _ HDn) as [fs ->].
    assert (active name fs) as Hact.
    { split; [done|]. destruct (C0 !! name) eqn:E; [|done]. rewrite (lookup_weaken _ _ _ _ E (i_sub _ _ _ _ _ Hinv)) in Hc. done. }
    pose proof (proj1 (proj1 (active_iff a Hnb e C0 D F _ _) Hact)) as Hd.
    case_decide as Hvis.
    { destruct (i_vis _ _ _ _ _ Hinv _ Hvis) as [[? ?]|Hin]; [congruence|done]. }
    pose proof (inv_named _ _ (ff_named _ _ _ _ F) _ _ _ Hinv) as Hnm.
    destruct (split_fields_spec name (cache s) fs [] [] Hnm) as [(rs & E & Hrs & Hok)|(m' & E & _)]; rewrite E; simpl.
    2:{ intros [= <-]. apply split_fields_first in E as (pre & f & u & post & -> & Hq & Hcl & Hk & ->). eapply walk_clash; [exact Hd| |done|by apply HS].
        intros g v Hg Hcv Hs. by apply (Hq g v), HS. }
    assert (quiet S fs) as Hq.
    { intros g v Hg Hcv Hs%HS. rewrite Forall_forall in Hok. apply (Hok (g, v)); [|done]. apply elem_of_list_filter. done. }
    destruct (filter (fun d => ~ known (cache s) d) fs) as [|nr1 nr] eqn:Enr; [done|].
    set (s1 := Sp (cache s) ({[name]} ∪ visited s) (unres s)).
    set (stk1 := {[name]} ∪ stk) in *.
    assert (inv stk1 stk1 s1) as Hinv1.
    { destruct Hinv as [? ? ? ? Hv Hst Hsv]. unfold stk1. constructor; simpl; try done.
      - intros n [->%elem_of_singleton|Hn]%elem_of_union; [set_solver|]. destruct (Hv n Hn); [auto|set_solver].
      - intros n [->%elem_of_singleton|Hn]%elem_of_union; auto.
      - set_solver. }
    assert (top ∈ stk1) as Htop1 by (unfold stk1; apply elem_of_union; destruct Htop as [->|[? _]]; [left; by apply elem_of_singleton|by right]).
    assert (tops top stk1 s1) as Htops1.
    { destruct Htops as [H1 H2]. split; [|done]. intros k [->%elem_of_singleton|Hk]%elem_of_union Hne; cbn; [|by apply H1]. destruct Htop as [?|[_ ?]]; done. }
    assert (forall k, k ∈ stk1 <-> k ∈ name :: open) as Hopen1 by (intros k; unfold stk1; rewrite elem_of_union, elem_of_singleton, elem_of_cons, Hopen; done).
    destruct (resolve_field_types (resolve_one_second_pass fuel) (nr1 :: nr) s1) as [s2|m'|m'|] eqn:E2; simpl; [| |done|done].
    - destruct (finish_fields name (cache s2) (nr1 :: nr) []) as [l|m'|m'|] eqn:E3; simpl; [done| |done|done].
      intros [= <-]. apply finish_fields_first in E3 as (p & f & u & q & Ep & Hp & Hu & ->). rewrite Ep in Enr.
      destruct (field_types_spec D C0 (ff_struct _ _ _ _ F) (ff_named _ _ _ _ F) fuel (resolve_one_second_pass fuel) name stk1 (nr1 :: nr) s1) as [(s2' & E2' & (Hi2 & Hc2 & _) & Hk2 & _)|(m' & E2' & _)].
      + apply second_pass_one; [apply (ff_struct _ _ _ _ F)|apply (ff_named _ _ _ _ F)].
      + done.
      + apply Hopen1. by left.
      + intros g v Hin. exists fs, g, v. split; [done|]. split; [|done]. rewrite Ep, <- Enr in Hin. by apply elem_of_list_filter in Hin as [_ ?].
      + cbn. lia.
      + rewrite E2 in E2'. injection E2' as <-.
        assert (forall d, d ∈ fs -> sound a (u_name d.2)) as Hsound.
        { intros d Hdf. destruct (decide (known (cache s) d)) as [Hk|Hk].
          - by eapply (cached_sound _ _ s).
          - eapply (cached_sound _ _ s2); [exact Hi2|]. rewrite Forall_forall in Hk2. apply (Hk2 d). rewrite Ep, <- Enr. by apply elem_of_list_filter. }
        apply filter_app_inv in Enr as (pre & post & -> & Epre). eapply walk_clash_last; [exact Hd|done|done| |done].
        intros d Hdp. destruct (decide (known (cache s) d)) as [Hk|Hk].
        * rewrite Forall_forall in Hok. apply (Hok d). apply elem_of_list_filter. split; [done|]. apply elem_of_app. by left.
        * apply Hp. rewrite <- Epre. by apply elem_of_list_filter.
      + congruence.
    - intros [= <-]. apply (field_types_walk top fuel _ stk1) in E2 as (p & f & u & q & s3 & Ep & Hi3 & Ht3 & Hz3 & Hp & Hk3 & Ho); [|done|done|cbn; lia|done].
      rewrite Ep in Enr. apply filter_app_inv in Enr as (pre & post & -> & Epre). set (t := u_name u) in *.
      assert (forall k, k ∈ stk1 -> tc (refers a) k t) as Hstk1.
      { assert (refers a name t) as Href. { eexists _, f, u. split; [exact Hd|]. split; [|done]. apply elem_of_app. right. by left. }
        intros k [->%elem_of_singleton|Hk]%elem_of_union; [by apply tc_once|]. eapply tc_r; [by apply Hstk|done]. }
      assert (forall d, d ∈ pre -> sound a (u_name d.2)) as Hsound.
      { intros d Hdp. destruct (decide (known (cache s) d)) as [Hk|Hk].
        - by eapply (cached_sound _ _ s).
        - eapply (cached_sound _ _ s3); [exact Hi3|]. apply Hp. rewrite <- Epre. by apply elem_of_list_filter. }
      assert (~ sound a t -> first_bad a (pre ++ (f, u) :: post) pre t) as Hfb by (intros Hb; by exists f, u, post).
      assert (t ∈ stk1 -> ~ sound a t) as Hcyc.
      { intros Hin Hs. destruct (Hs t (rtc_refl _ _)) as (_ & H & _). by apply H, Hstk1. }
      destruct Ho as [(Hcn & Hun & ->)|(ut & Hut & Hrec)].
      + destruct (D !! t) as [ut|] eqn:HDt.
        * assert (t ∈ stk1) as Hin. { destruct (i_all _ _ _ _ _ Hi3 t) as [[? ?]|[[? ?]|?]]; [by rewrite HDt|congruence..|done]. }
          eapply walk_open; [exact Hd|done|by apply Hfb, Hcyc|by apply Hopen1|]. intros Et. destruct Ht3 as [_ [? ?]]. congruence.
        * destruct (front_unknown a e C0 D t F) as [Hb1 Hb2]; [|done|].
          { destruct (C0 !! t) as [y|] eqn:E0; [|done]. rewrite (lookup_weaken _ _ _ _ E0 (i_sub _ _ _ _ _ Hi3)) in Hcn. done. }
          eapply walk_missing; [exact Hd|done| |done]. apply Hfb. intros Hs. by destruct (Hs t (rtc_refl _ _)) as [[?|?] _].
      + destruct (delete_inv _ _ _ _ Hi3 Hut) as (HDt & Hinv3 & Hlt).
        assert (t ∈ decl_names a) as Hdecl by (apply (ff_D _ _ _ _ F) in HDt as [? _]; by eapply decl_names_elem).
        destruct (decide (t ∈ stk1)) as [Hin|Hnin].
        * assert (t = top) as Et. { destruct (decide (t = top)) as [|Hne]; [done|]. destruct Ht3 as [H1 _]. rewrite (H1 t Hin Hne) in Hut. done. }
          assert (m' = "Found a cycle between two or more top level definitions in type '" +:+ top +:+ "'") as ->.
          { destruct fuel as [|fuel']; [done|]. simpl in Hrec. rewrite (i_stk _ _ _ _ _ Hi3 t Hin) in Hrec. destruct (ff_struct _ _ _ _ F _ _ HDt) as [fs' ->].
            rewrite decide_True in Hrec by by apply (i_stkv _ _ _ _ _ Hi3). injection Hrec as <-. by rewrite Et. }
          rewrite <- Et. rewrite <- Et in *. eapply walk_top; [exact Hd|done|]. by apply Hfb, Hcyc.
        * assert (walk a top (fun k => S k \/ exists d, d ∈ pre /\ rtc (refers a) (u_name d.2) k) (name :: open) t m') as Hw.
          { eapply (IH top t ut (name :: open) stk1 _ m' _ HDt Hopen1 Hinv3); [cbn; lia|done|done| | | |exact Hrec].
            - right. split; [done|]. cbn. apply lookup_delete.
            - destruct Ht3 as [H1 H2]. split; cbn.
              + intros k Hk Hne. apply lookup_delete_None. right. by apply H1.
              + rewrite lookup_delete_ne by (intros ->; done). done.
            - intros k. cbn. rewrite Hk3, HS. cbn. split.
              + intros [?|(d & Hdp & Hr)]; [by left|]. destruct (decide (known (cache s) d)) as [Hk|Hk].
                * left. by eapply (cached_rtc _ _ s).
                * right. exists d. split; [|done]. rewrite <- Epre. by apply elem_of_list_filter.
              + intros [?|(d & Hdp & Hr)]; [by left|]. right. exists d. split; [|done]. rewrite <- Epre in Hdp. by apply elem_of_list_filter in Hdp as [_ ?]. }
          eapply walk_on; [exact Hd|done| |done|by rewrite <- Hopen1|exact Hw]. apply Hfb. by eapply walk_unsound.
  Qed.
End second.
