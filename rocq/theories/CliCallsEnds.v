(** Proofs for C114: the command ends if there is a limit on the length of paths. *)
From Verif Require Export CliSharedEnds CliCallsSpec.

Section ends.
  Context (O : os) (E : env) (Hn : names_proper O) (L : nat) (HL : path_limit L O) (Hh : forall n, fair_order (hash1 E n)).
  Definition stops {A : Type} (m : oio A) (P : A -> Prop) : Prop := forall tr, (m tr).2 ≠ Diverge /\ forall a, (m tr).2 = Ok a -> P a.
  Notation any := (fun _ => True).
  Lemma stops_ret {A : Type} (a : A) (P : A -> Prop) : P a -> stops (oret a) P.
  Proof. intros H tr. split; [done|]. by intros b [= <-]. Qed.
  Lemma stops_lift {A : Type} (r : res A) : r ≠ Diverge -> stops (olift r) any.
  Proof. by intros H tr. Qed.
  Lemma stops_bind {A B : Type} (m : oio A) (k : A -> oio B) (P : A -> Prop) (Q : B -> Prop) : stops m P -> (forall a, P a -> stops (k a) Q) -> stops (obind m k) Q.
  Proof.
    intros H1 H2 tr. destruct (H1 tr) as [D1 P1]. unfold obind. destruct (m tr) as [tr1 [a| | |]]; cbn in *; [|done..]. by apply (H2 a (P1 a eq_refl)).
  Qed.
  Lemma stops_is_dir s : stops (ois_dir O s) (fun b => b = true -> String.length s <= L).
  Proof. intros tr. split; [done|]. intros b [= <-] H. destruct (decide (L < String.length s)) as [Hl|]; [|lia]. by rewrite (HL tr s Hl) in H. Qed.
  Lemma stops_run_one s : stops (orun_one O E s) any.
  Proof.
    eapply (stops_bind _ _ utf8).
    - intros tr. unfold oread. cbn [snd]. destruct (o_read O tr s) as [c|]; [destruct (from_utf8 c) eqn:U|]; cbn; (split; [done|]); [intros a [= <-]; by apply from_utf8_spec|done..].
    - intros c Hc. eapply (stops_bind _ _ any); [|intros t _; by apply stops_ret]. intros tr. split; [|done]. unfold ocompile, compile_io, tick. cbn [w_op w_fs snd].
      destruct (compile_total (hash1 E (o_time O tr)) (version E) (clock E (o_time O tr)) (hash2 E (o_time O tr)) (Hh _) c Hc) as [x ->]. by destruct x.
  Qed.
  Lemma push_longer d n : proper_name n -> String.length d < String.length (push d n).
  Proof.
    intros (Hn1 & _ & _ & Hn2). unfold push. assert (has_root n = false) as -> by by apply plain_no_root. assert (0 < String.length n) by (destruct n; [done|cbn; lia]).
    destruct (decide _); rewrite !slen_app; cbn [String.length]; lia.
  Qed.
  Lemma stops_entries visit d names : Forall proper_name names -> (forall n, proper_name n -> String.length (push d n) <= L -> stops (visit (push d n)) any) -> stops (ovisit_entries O E visit d names) any.
  Proof.
    intros Hp Hv. induction Hp as [|n names Hx _ IH]; [by apply stops_ret|]. cbn [ovisit_entries]. eapply (stops_bind _ _ any); [intros tr; split; [|done]; unfold onext; cbn; by case_match|]. intros _ _. cbn zeta.
    eapply stops_bind; [apply stops_is_dir|]. intros b Hb. eapply (stops_bind _ _ any); [|intros found _; eapply stops_bind; [apply IH|intros more _; by apply stops_ret]].
    destruct b; [destruct (to_str_ok _); [by apply Hv, Hb|by apply stops_lift]|]. destruct (decide _); [|by apply stops_ret]. destruct (to_str_ok _); [|by apply stops_lift].
    eapply stops_bind; [apply stops_run_one|]. intros x _. by apply stops_ret.
  Qed.
  Lemma stops_visit fuel : forall d, 0 < fuel -> S L < fuel + String.length d -> stops (ovisit_files O E fuel d) any.
  Proof.
    induction fuel as [|fuel IH]; intros d H0 Hf; [lia|]. cbn [ovisit_files]. eapply (stops_bind _ _ any); [intros tr; split; [|done]; unfold ometadata; cbn; by destruct (o_meta O tr d)|].
    intros [] _; [|by apply stops_ret]. eapply (stops_bind _ _ (Forall proper_name)).
    - intros tr. unfold oread_dir. cbn. destruct (o_list O tr d) as [names|] eqn:El; [|done]. split; [done|]. intros a [= <-]. by eapply Hn.
    - intros names Hp. apply stops_entries; [done|]. intros n Hx Hl. pose proof (push_longer d n Hx). apply IH; lia.
  Qed.
  Lemma stops_there s : stops (obind (ois_dir O s) (fun d : bool => if d then oret () else olift (Err "I/O error"))) any.
  Proof. eapply stops_bind; [apply stops_is_dir|]. intros [] _; [by apply stops_ret|by apply stops_lift]. Qed.
  Lemma stops_create fuel : forall s, String.length s < fuel -> stops (ocreate_dir_all O fuel s) any.
  Proof.
    induction fuel as [|fuel IH]; intros s Hl; [lia|]. cbn [ocreate_dir_all]. cbn zeta. destruct (decide _); [by apply stops_ret|]. eapply (stops_bind _ _ any); [done|]. intros [] _; [by apply stops_ret| |apply stops_there].
    eapply (stops_bind _ _ any).
    - destruct (parent s) as [q|] eqn:Hq; [|by apply stops_lift]. apply IH. apply parent_shorter in Hq; [lia|done].
    - intros _ _. eapply (stops_bind _ _ any); [done|]. intros [] _; [by apply stops_ret|apply stops_there..].
  Qed.
  Lemma stops_print s : stops (oprint O s) any.
  Proof. intros tr. split; [|done]. unfold oprint. cbn. by case_match. Qed.
  Lemma stops_save s p : stops (osave_one O s p) any.
  Proof.
    eapply stops_bind; [apply stops_print|]. intros _ _. eapply (stops_bind _ _ any); [destruct (parent p); [apply stops_create; lia|by apply stops_ret]|].
    intros _ _ tr. split; [|done]. unfold owrite. cbn. by case_match.
  Qed.
  Lemma stops_save_all base out found : stops (osave_all O base out found) any.
  Proof.
    induction found as [|s found IH]; [by apply stops_ret|]. cbn [osave_all]. eapply stops_bind; [apply stops_lift, format_ends|]. intros p _. eapply stops_bind; [apply stops_save|done].
  Qed.
  Lemma run_stops fuel path out : S L < fuel -> (orun O E fuel path out).2 ≠ Diverge.
  Proof.
    intros Hf. unfold orun, omain. destruct (ometadata O path []) as [tr [[]| | |]]; try done.
    - apply (stops_bind (ovisit_files O E fuel path) _ any any); [apply stops_visit; lia|]. intros found _. apply stops_save_all.
    - apply (stops_bind (orun_one O E path) _ any any); [apply stops_run_one|]. intros s _. eapply stops_bind; [apply stops_print|]. intros _ _. eapply stops_bind; [apply stops_lift, format_ends|]. intros p _. apply stops_save.
  Qed.
End ends.
