(** The command of CliShared.v, on a file system that others change, is one with a system that answers from this file system (C113_covers). *)
From Verif Require Export CliSharedProofs CliCallsProofs.

Section cover.
  Context (E : env) (meddle : nat -> fs -> fs) (f : fs).
  (** the state after a call; the library is called after each text that was read *)
  Definition redo (w : CliShared.place) (c : call) : CliShared.place :=
    match c with
    | Meta s _ => (hmetadata E meddle s w).1
    | IsDir s _ => (his_dir E meddle s w).1
    | Lists s _ => (hread_dir E meddle s w).1
    | Next _ _ => (hnext_entry E meddle w).1
    | Reads s None => (hread_to_string E meddle s w).1
    | Reads s (Some t) => (hcompile E meddle t (hread_to_string E meddle s w).1).1
    | Prints _ _ => w
    | Makes s _ => (hmkdir E meddle s w).1
    | Writes s t _ => (hwrite E meddle s t w).1
    end.
  Definition after (tr : list call) : CliShared.place := foldl redo (Place f 0 []) tr.
  Definition okay {A : Type} (r : res A) : option A := match r with Ok a => Some a | _ => None end.
  Definition fs_os : os := {|
    o_meta tr s := (fun e => match e with Dir => true | File _ => false end) <$> okay (hmetadata E meddle s (after tr)).2;
    o_is_dir tr s := default false (okay (his_dir E meddle s (after tr)).2);
    o_list tr s := okay (hread_dir E meddle s (after tr)).2;
    o_next tr s := bool_decide (is_Some (okay (hnext_entry E meddle (after tr)).2));
    o_read tr s := okay (hread_to_string E meddle s (after tr)).2;
    o_print _ _ := true;
    o_mkdir tr s := default Refused (okay (hmkdir E meddle s (after tr)).2);
    o_write tr s c := bool_decide (is_Some (okay (hwrite E meddle s c (after tr)).2));
    o_time tr := pred (p_op (after tr)) |}.
  Notation O := fs_os.
  Definition agrees (tr : list call) : Prop := texts_read tr = event_texts (p_events (after tr)) /\ Forall (comes_from E tr) (p_events (after tr)) /\ Forall (shows_in E (p_events (after tr))) tr.
  Lemma comes_mono (a b : list call) e : a ⊆ b -> comes_from E a e -> comes_from E b e.
  Proof. intros H. destruct e as [s c|l|l c]; cbn; [by apply H|intros (s & H1 & H2); exists s; by split; [apply H|]|intros (s & c' & x & H1 & H2); exists s, c', x; by split; [apply H|]]. Qed.
  Lemma shows_mono (a b : list event) c : a ⊆ b -> shows_in E a c -> shows_in E b c.
  Proof. intros H. destruct c as [| | | |s [t|]| |s []|s t []]; cbn; try done; by apply H. Qed.
  Definition follows {A B : Type} (R : A -> B -> Prop) (m : shio A) (m' : oio B) : Prop := forall tr, agrees tr ->
    agrees (m' tr).1 /\ after (m' tr).1 = (m (after tr)).1 /\ same_end R (m (after tr)).2 (m' tr).2.
  Lemma after_snoc tr c : after (tr ++ [c]) = redo (after tr) c.
  Proof. unfold after. by rewrite foldl_app. Qed.
  Lemma follows_bind {A B A' B' : Type} (R : A -> A' -> Prop) (S : B -> B' -> Prop) m m' k k' : follows R m m' -> (forall a a', R a a' -> follows S (k a) (k' a')) -> follows S (hbind m k) (obind m' k').
  Proof.
    intros H1 H2 tr Ht. destruct (H1 tr Ht) as (G & H & Hr). unfold hbind, obind. destruct (m (after tr)) as [w r], (m' tr) as [tr' r']. cbn in *. subst w. destruct r, r'; try done. by apply H2.
  Qed.
  Lemma follows_lift {A B : Type} (R : A -> B -> Prop) r r' : same_end R r r' -> follows R (hlift r) (olift r').
  Proof. by intros H tr Ht. Qed.
  Lemma follows_ret {A B : Type} (R : A -> B -> Prop) a b : R a b -> follows R (hret a) (oret b).
  Proof. by intros H tr Ht. Qed.
  Lemma follows_print {A B : Type} (R : A -> B -> Prop) m s (k : oio B) : follows (A:=A) R m k -> follows R m (obind (oprint O s) (fun _ => k)).
  Proof.
    intros H tr Ht. assert (after (tr ++ [Prints s true]) = after tr) as Ha by by rewrite after_snoc.
    assert (agrees (tr ++ [Prints s true])) as Hg.
    { destruct Ht as (H1 & H2 & H3). unfold agrees. rewrite Ha. split; [rewrite texts_read_app; cbn; by rewrite app_nil_r|]. split; [eapply Forall_impl; [exact H2|]; intros e; apply comes_mono; set_solver|]. apply Forall_app. split; [done|by apply Forall_singleton]. }
    specialize (H _ Hg). rewrite Ha in H. exact H.
  Qed.
  Lemma agrees_snoc tr c ev : agrees tr -> p_events (redo (after tr) c) = p_events (after tr) ++ ev -> event_texts ev = texts_read [c] -> Forall (comes_from E [c]) ev -> shows_in E ev c -> agrees (tr ++ [c]).
  Proof.
    intros (H1 & H2 & H3) Hp He Hc Hs. unfold agrees. rewrite after_snoc, Hp. split_and!.
    - unfold event_texts in *. by rewrite texts_read_app, omap_app, He, H1.
    - apply Forall_app. split; (eapply Forall_impl; [done|]); intros e; apply comes_mono; set_solver.
    - apply Forall_app. split; [eapply Forall_impl; [done|]; intros c'; apply shows_mono; set_solver|]. apply Forall_singleton. eapply shows_mono; [|done]. set_solver.
  Qed.
  Lemma agrees_quiet tr c : agrees tr -> p_events (redo (after tr) c) = p_events (after tr) ++ [] -> texts_read [c] = [] -> shows_in E [] c -> agrees (tr ++ [c]).
  Proof. intros Ht Hp Hc Hs. by eapply agrees_snoc. Qed.
  Lemma follows_metadata s : follows (fun e b => b = match e with Dir => true | File _ => false end) (hmetadata E meddle s) (ometadata O s).
  Proof.
    intros tr Ht. unfold ometadata. cbn [fst snd]. split; [by apply agrees_quiet|]. split; [by rewrite after_snoc|].
    cbn [o_meta fs_os]. unfold hmetadata, htick, inspect. cbn [snd]. repeat case_match; cbn; done.
  Qed.
  Lemma follows_is_dir s : follows eq (his_dir E meddle s) (ois_dir O s).
  Proof.
    intros tr Ht. unfold ois_dir. cbn [fst snd]. split; [by apply agrees_quiet|]. split; [by rewrite after_snoc|]. done.
  Qed.
  Lemma follows_read_dir s : follows eq (hread_dir E meddle s) (oread_dir O s).
  Proof.
    intros tr Ht. unfold oread_dir. cbn [fst snd]. split; [by apply agrees_quiet|]. split; [by rewrite after_snoc|].
    cbn [o_list fs_os]. unfold hread_dir, htick, inspect. cbn [snd]. destruct (resolve _ _ _) as [l|]; [|done]. destruct (entry_at _ l) as [e|]; [|done]. destruct (fault _ _ _); [done|]. by destruct e.
  Qed.
  Lemma follows_next s : follows eq (hnext_entry E meddle) (onext O s).
  Proof.
    intros tr Ht. unfold onext. cbn [fst snd]. split; [by apply agrees_quiet|]. split; [by rewrite after_snoc|].
    cbn [o_next fs_os]. unfold hnext_entry, htick. cbn [snd]. by destruct (fault _ _ _).
  Qed.
  Lemma follows_mkdir s : follows eq (hmkdir E meddle s) (omkdir O s).
  Proof.
    intros tr Ht. unfold omkdir. cbn [fst snd].
    assert (exists ev x, (hmkdir E meddle s (after tr)).2 = Ok x /\ p_events (redo (after tr) (Makes s x)) = p_events (after tr) ++ ev /\ event_texts ev = [] /\ Forall (comes_from E [Makes s x]) ev /\ shows_in E ev (Makes s x)) as (ev & x & Hx & H1 & H2 & H3 & H4).
    { cbn [redo]. unfold hmkdir, htick. destruct (resolve _ _ _) as [l|] eqn:R; [apply resolve_lex in R; destruct (entry_at _ l); [|destruct (torn _ _)]|destruct (missing _ _ _)]; cbn; eexists _, _; (split; [done|]); (split; [done|]); (split; [done|]); try (split; [constructor|done]).
      split; [apply Forall_singleton; exists s; split; [by left|done]|]. rewrite R. by left. }
    cbn [o_mkdir fs_os]. rewrite Hx. cbn [okay default]. split; [by eapply agrees_snoc|]. split; [by rewrite after_snoc|]. done.
  Qed.
  Lemma follows_write s c : follows eq (hwrite E meddle s c) (owrite O s c).
  Proof.
    intros tr Ht. unfold owrite. cbn [fst snd].
    assert (exists ev b, ((hwrite E meddle s c (after tr)).2 = Ok () /\ b = true \/ (exists e, (hwrite E meddle s c (after tr)).2 = Err e) /\ b = false) /\ p_events (redo (after tr) (Writes s c b)) = p_events (after tr) ++ ev /\ event_texts ev = [] /\
      Forall (comes_from E [Writes s c b]) ev /\ shows_in E ev (Writes s c b)) as (ev & b & Hb & H1 & H2 & H3 & H4).
    { cbn [redo]. unfold hwrite, htick.
      assert (forall l k, leads_to E s = l -> Forall (comes_from E [Writes s c false]) [Wrote l (take k c)]) as Hw.
      { intros l k Hl. apply Forall_singleton. exists s, c, false. split; [by left|]. split; [done|]. split; [|done]. exists (drop k c). by rewrite take_drop. }
      destruct (resolve _ _ _) as [l|] eqn:R; [apply resolve_lex in R; destruct (entry_at _ l) as [[]|]; try destruct (torn _ _) as [[]|]|]; cbn; eexists _, _;
        (split; [first [by left|right; split; [by eexists|done]]|]); (split; [done|]); (split; [done|]); (split; [|first [done|rewrite R; by left]]); try (by apply Hw); try constructor; try constructor; exists s, c, true; (split; [by left|done]). }
    cbn [o_write fs_os]. destruct Hb as [[Hx ->]|[[e Hx] ->]]; rewrite Hx; cbn; (split; [by eapply agrees_snoc|]); (split; [by rewrite after_snoc|]); done.
  Qed.
  Lemma follows_run_one s : follows eq (hrun_one E meddle s) (orun_one O E s).
  Proof.
    intros tr Ht. unfold hrun_one, orun_one, hbind, obind, oread. cbn [o_read fs_os].
    assert ((exists c, from_utf8 c = true /\ p_events (hread_to_string E meddle s (after tr)).1 = p_events (after tr) ++ [Read s c] /\ (hread_to_string E meddle s (after tr)).2 = Ok c) \/
      (p_events (hread_to_string E meddle s (after tr)).1 = p_events (after tr) /\ exists e, (hread_to_string E meddle s (after tr)).2 = Err e)) as Hr.
    { unfold hread_to_string, htick, inspect. destruct (resolve _ _ _) as [l|]; [destruct (entry_at _ l) as [e|]; [destruct (fault _ _ _); [|destruct e as [c|]; [destruct (from_utf8 c) eqn:U|]]|]|]; cbn; rewrite ?app_nil_r; try (right; split; [done|by eexists]). all: left; by exists c. }
    destruct (hread_to_string E meddle s (after tr)) as [w r] eqn:Hh. cbn [fst snd] in *. destruct Hr as [(c & Hu & He & ->)|[He [e ->]]]; cbn [okay].
    2:{ cbn. split; [|by rewrite after_snoc; cbn [redo]; rewrite Hh]. apply agrees_quiet; [done| |done|done]. cbn [redo]. rewrite Hh. cbn. by rewrite He, app_nil_r. }
    rewrite Hu. cbn [or_fail]. assert (after (tr ++ [Reads s (Some c)]) = (hcompile E meddle c w).1) as Ha by (rewrite after_snoc; cbn [redo]; by rewrite Hh).
    assert (agrees (tr ++ [Reads s (Some c)])) as Hg.
    { eapply (agrees_snoc _ _ [Read s c]); [done| |done|by apply Forall_singleton; left|by left]. cbn [redo]. rewrite Hh. unfold hcompile, htick. cbn. by rewrite app_nil_r, He. }
    unfold ocompile. cbn [o_time fs_os]. rewrite Ha. unfold hcompile, htick, compile_io, tick. cbn [p_op fst snd pred w_op w_fs].
    destruct (compile _ _ _ _ c) as [[]| | |]; cbn; (split; [done|]); split; try done; exact Ha.
  Qed.
  Lemma follows_create fuel : forall s, follows eq (hcreate_dir_all E meddle fuel s) (ocreate_dir_all O fuel s).
  Proof.
    assert (forall s, follows eq (hbind (his_dir E meddle s) (fun d : bool => if d then hret () else hlift (Err "I/O error"))) (obind (ois_dir O s) (fun d : bool => if d then oret () else olift (Err "I/O error")))) as Hd.
    { intros s. eapply follows_bind; [apply follows_is_dir|]. intros [] ? <-; [by apply follows_ret|by apply follows_lift]. }
    induction fuel as [|fuel IH]; intros s; [by apply follows_lift|]. cbn [hcreate_dir_all ocreate_dir_all]. cbn zeta. destruct (decide _); [by apply follows_ret|].
    eapply follows_bind; [apply follows_mkdir|]. intros [] ? <-; [by apply follows_ret| |apply Hd]. eapply follows_bind; [destruct (parent s); [apply IH|by apply follows_lift]|]. intros [] ? <-.
    eapply follows_bind; [apply follows_mkdir|]. intros [] ? <-; [by apply follows_ret|apply Hd..].
  Qed.
  Lemma follows_entries visit visit' d names : (forall s, follows eq (visit s) (visit' s)) -> follows eq (hvisit_entries E meddle visit d names) (ovisit_entries O E visit' d names).
  Proof.
    intros Hv. induction names as [|n names IH]; [by apply follows_ret|]. cbn [hvisit_entries ovisit_entries]. eapply follows_bind; [apply follows_next|]. intros [] ? <-. cbn zeta.
    eapply follows_bind; [apply follows_is_dir|]. intros b ? <-. eapply (follows_bind eq).
    - destruct b; [destruct (to_str_ok _); [apply Hv|by apply follows_lift]|]. destruct (decide _); [|by apply follows_ret]. destruct (to_str_ok _); [|by apply follows_lift].
      eapply follows_bind; [apply follows_run_one|]. intros x ? <-. by apply follows_ret.
    - intros found ? <-. eapply follows_bind; [apply IH|]. intros more ? <-. by apply follows_ret.
  Qed.
  Lemma follows_visit fuel : forall d, follows eq (hvisit_files E meddle fuel d) (ovisit_files O E fuel d).
  Proof.
    induction fuel as [|fuel IH]; intros d; [by apply follows_lift|]. cbn [hvisit_files ovisit_files]. eapply follows_bind; [apply follows_metadata|]. intros [|] ? ->; [by apply follows_ret|].
    eapply follows_bind; [apply follows_read_dir|]. intros names ? <-. by apply follows_entries.
  Qed.
  Lemma follows_save s p : follows eq (hsave_one E meddle s p) (osave_one O s p).
  Proof.
    unfold osave_one. apply follows_print. unfold hsave_one. eapply (follows_bind eq); [destruct (parent p); [apply follows_create|by apply follows_ret]|]. intros [] ? <-. apply follows_write.
  Qed.
  Lemma same_refl {A : Type} (r : res A) : same_end eq r r.
  Proof. by destruct r. Qed.
  Lemma follows_save_all base out found : follows eq (hsave_all E meddle base out found) (osave_all O base out found).
  Proof.
    induction found as [|s found IH]; [by apply follows_ret|]. cbn [hsave_all osave_all]. eapply follows_bind; [apply follows_lift, same_refl|]. intros p ? <-. eapply follows_bind; [apply follows_save|]. by intros [] ? <-.
  Qed.
  Lemma run_follows fuel path out w r : hrun E meddle fuel path out f = (w, r) -> exists tr r', orun O E fuel path out = (tr, r') /\ same_end eq r r' /\ texts_read tr = event_texts (p_events w) /\ Forall (comes_from E tr) (p_events w) /\ Forall (shows_in E (p_events w)) tr.
  Proof.
    intros H. assert (follows eq (hmain E meddle fuel path out) (omain O E fuel path out)) as F.
    { intros tr Ht. destruct (follows_metadata path tr Ht) as (G & Ha & Hr). unfold hmain, omain. destruct (hmetadata E meddle path (after tr)) as [w1 r1], (ometadata O path tr) as [tr1 r2]. cbn in G, Ha, Hr. subst w1.
      destruct r1 as [e| | |], r2 as [b| | |]; try done. cbn in Hr. rewrite Hr. clear Hr b. destruct e; [|].
      - eapply (follows_bind eq); [apply follows_run_one| |done]. intros s ? <-. apply follows_print. eapply follows_bind; [apply follows_lift, same_refl|]. intros p ? <-. apply follows_save.
      - eapply (follows_bind eq); [apply follows_visit| |done]. intros found ? <-. apply follows_save_all. }
    destruct (F []) as (G & Ha & Hr); [split; [done|]; split; constructor|]. unfold hrun in H. unfold orun. change (after []) with (Place f 0 []) in Ha, Hr. rewrite H in Ha, Hr. destruct (omain O E fuel path out []) as [tr r']. cbn in *. exists tr, r'. split; [done|]. split; [done|]. rewrite <- Ha. exact G.
  Qed.
End cover.
