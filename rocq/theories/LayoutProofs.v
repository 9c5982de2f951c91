(** Texts that are [alike] denote the same schema (C72, C73). *)
From Verif Require Import ParserProofs2 ParserWitness.
From Verif Require Export LayoutSpec.

Definition uniform (P Q : ascii -> Prop) : Prop := (forall c, Q c -> P c) \/ (forall c, Q c -> ~ P c).
Definition tidy (P : ascii -> Prop) : Prop := uniform P newline_char /\ uniform P blank_char /\ ~ P "#"%char.
Lemma tidy_blank : tidy blank_char.
Proof. split_and!; [right; exact nl_not_blank|by left|]. apply (bool_decide_unpack _). vm_compute. exact I. Qed.
Lemma blank_not_nl c : blank_char c -> ~ newline_char c.
Proof. intros H H'. by apply (nl_not_blank c). Qed.
Lemma tidy_newline : tidy newline_char.
Proof. split_and!; [by left|right; exact blank_not_nl|]. apply (bool_decide_unpack _). vm_compute. exact I. Qed.
Lemma tidy_space : tidy space_char.
Proof. split_and!; [left; by right|left; by left|]. apply (bool_decide_unpack _). vm_compute. exact I. Qed.
Lemma tidy_name : tidy name_char.
Proof.
  split_and!.
  - right. intros c H. apply space_not_name. by right.
  - right. intros c H. apply space_not_name. by left.
  - apply (bool_decide_unpack _). vm_compute. exact I.
Qed.

Lemma alike_sym s s' : alike s s' -> alike s' s.
Proof. induction 1; by econstructor. Qed.
Lemma alike_refl s : alike s s.
Proof. induction s; by constructor. Qed.

Lemma line_end_cons n : line_end n -> exists c n', n = c :: n' /\ newline_char c.
Proof. intros [HF Hin]. destruct n as [|c n]; [by apply elem_of_nil in Hin|]. apply Forall_cons in HF as [? _]. eauto. Qed.
Lemma blanks_cons n : blanks n -> exists c n', n = c :: n' /\ blank_char c.
Proof. intros [HF Hne]. destruct n as [|c n]; [done|]. apply Forall_cons in HF as [? _]. eauto. Qed.

Lemma skip_run (P : ascii -> Prop) n s r : Forall P n -> skip P s r -> skip P (n ++ s) r.
Proof. intros HF (w & -> & HF' & Hs). exists (n ++ w). split; [by rewrite app_assoc|]. split; [by apply Forall_app|done]. Qed.
Lemma skip_stop (P : ascii -> Prop) s : stops P s -> skip P s s.
Proof. intros H. exists []. done. Qed.

Lemma alike_skip_both (P : ascii -> Prop) s s' `{D : !forall c, Decision (P c)} : tidy P -> alike s s' ->
  exists r r', skip P s r /\ skip P s' r' /\ alike r r'.
Proof.
  intros (Un & Ub & Uh). induction 1 as [|c s s' H IH|n n' s s' Hn Hn' H IH|n n' s s' Hn Hn' H IH|b b' n n' s s' Hb Hb' Hn Hn' H IH|b b' Hb Hb'].
  - exists [], []. split_and!; try (by apply skip_stop). constructor.
  - destruct (decide (P c)).
    + destruct IH as (r & r' & H1 & H2 & H3). exists r, r'.
      split; [by apply (skip_run P [c]); [constructor|]|]. split; [by apply (skip_run P [c]); [constructor|]|done].
    + exists (c :: s), (c :: s'). split_and!; [by apply skip_stop..|by constructor].
  - destruct Un as [Un|Un].
    + destruct IH as (r & r' & H1 & H2 & H3). exists r, r'.
      split; [apply skip_run; [by eapply Forall_impl; [apply Hn|]|done]|].
      split; [apply skip_run; [by eapply Forall_impl; [apply Hn'|]|done]|done].
    + exists (n ++ s), (n' ++ s'). split_and!; [| |by constructor]; apply skip_stop.
      * destruct (line_end_cons _ Hn) as (c & n0 & -> & Hc). by apply Un.
      * destruct (line_end_cons _ Hn') as (c & n0 & -> & Hc). by apply Un.
  - destruct Ub as [Ub|Ub].
    + destruct IH as (r & r' & H1 & H2 & H3). exists r, r'.
      split; [apply skip_run; [by eapply Forall_impl; [apply Hn|]|done]|].
      split; [apply skip_run; [by eapply Forall_impl; [apply Hn'|]|done]|done].
    + exists (n ++ s), (n' ++ s'). split_and!; [| |by constructor]; apply skip_stop.
      * destruct (blanks_cons _ Hn) as (c & n0 & -> & Hc). by apply Ub.
      * destruct (blanks_cons _ Hn') as (c & n0 & -> & Hc). by apply Ub.
  - eexists _, _. split; [by apply skip_stop|]. split; [by apply skip_stop|]. by apply alike_remark.
  - eexists _, _. split; [by apply skip_stop|]. split; [by apply skip_stop|]. by apply alike_last.
Qed.
Lemma alike_skip (P : ascii -> Prop) s s' r `{D : !forall c, Decision (P c)} : tidy P -> alike s s' -> skip P s r ->
  exists r', skip P s' r' /\ alike r r'.
Proof.
  intros HP H Hr. destruct (alike_skip_both P s s' HP H) as (r1 & r' & H1 & H2 & H3).
  rewrite (skip_fun _ _ _ _ Hr H1). eauto.
Qed.
Lemma alike_stops (P : ascii -> Prop) s s' : tidy P -> alike s s' -> stops P s -> stops P s'.
Proof.
  intros (Un & Ub & Uh) H. destruct H as [|c s s' H|n n' s s' Hn Hn' H|n n' s s' Hn Hn' H|b b' n n' s s' Hb Hb' Hn Hn' H|b b' Hb Hb']; try done.
  - destruct (line_end_cons _ Hn) as (c & n0 & -> & Hc), (line_end_cons _ Hn') as (c' & n0' & -> & Hc').
    simpl. destruct Un as [Un|Un]; [|by intros _; apply Un]. intros Hs. by destruct Hs; apply Un.
  - destruct (blanks_cons _ Hn) as (c & n0 & -> & Hc), (blanks_cons _ Hn') as (c' & n0' & -> & Hc').
    simpl. destruct Ub as [Ub|Ub]; [|by intros _; apply Ub]. intros Hs. by destruct Hs; apply Ub.
Qed.

Definition solid (c : ascii) : Prop := ~ space_char c /\ c ≠ "#"%char.
Lemma alike_cons c s t : solid c -> alike (c :: s) t -> exists s', t = c :: s' /\ alike s s'.
Proof.
  intros [Hc Hh] H. inversion H as [|? ? s' ?|n n' s1 s1' Hn Hn' H1 E|n n' s1 s1' Hn Hn' H1 E|b b' n n' s1 s1' Hb Hb' Hn Hn' H1 E|b b' Hb Hb' E]; subst.
  - eauto.
  - destruct (line_end_cons _ Hn) as (x & n0 & -> & Hx). simplify_eq/=. destruct Hc. by right.
  - destruct (blanks_cons _ Hn) as (x & n0 & -> & Hx). simplify_eq/=. destruct Hc. by left.
  - done.
  - done.
Qed.
Lemma alike_prefix w s t : Forall solid w -> alike (w ++ s) t -> exists s', t = w ++ s' /\ alike s s'.
Proof.
  revert t. induction w as [|c w IH]; intros t HF H; [eauto|]. apply Forall_cons in HF as [Hc HF].
  destruct (alike_cons c (w ++ s) t Hc H) as (t' & -> & H'). destruct (IH t' HF H') as (s' & -> & ?). eauto.
Qed.
Lemma name_solid c : name_char c -> solid c.
Proof.
  intros H. split; [intros H'; by apply (space_not_name c)|]. intros ->. revert H.
  apply (bool_decide_unpack _). vm_compute. exact I.
Qed.
Lemma names_solid w : Forall name_char w -> Forall solid w.
Proof. intros H. eapply Forall_impl; [exact H|apply name_solid]. Qed.
Lemma alike_name n s s' r : alike s s' -> name n s r -> exists r', name n s' r' /\ alike r r'.
Proof.
  intros H (-> & Hn & Hs). destruct (alike_prefix n r s') as (r' & -> & Hr); [by apply names_solid, Hn|done|].
  exists r'. split; [|done]. split; [done|]. split; [done|]. exact (alike_stops name_char _ _ tidy_name Hr Hs).
Qed.
Lemma alike_word n s s' r : alike s s' -> word n s r -> exists r', word n s' r' /\ alike r r'.
Proof.
  intros H (-> & Hn & Hs). destruct (alike_prefix n r s') as (r' & -> & Hr); [by apply names_solid|done|].
  exists r'. split; [|done]. split; [done|]. split; [done|]. exact (alike_stops name_char _ _ tidy_name Hr Hs).
Qed.
Lemma alike_lit l s s' r : Forall solid (txt l) -> alike s s' -> lit l s r -> exists r', lit l s' r' /\ alike r r'.
Proof. intros Hl H ->. by apply alike_prefix. Qed.
Lemma alike_perhaps l b s s' r : Forall solid (txt l) -> alike s s' -> perhaps l b s r ->
  exists r', perhaps l b s' r' /\ alike r r'.
Proof.
  intros Hl H. destruct b; simpl; [by apply alike_lit|]. intros [-> Hn]. exists s'. split; [|done].
  split; [done|]. intros r' Hr. destruct (alike_lit l s' s r' Hl) as (r & Hr' & _); [by apply alike_sym|done|].
  by apply (Hn r).
Qed.
Lemma solids : Forall (fun l => Forall solid (txt l)) [","; "?"; ":"; "[]"; "enum"; "struct"; "{"; "}"; "export"].
Proof. apply (bool_decide_unpack _). vm_compute. exact I. Qed.
Lemma solid_in l : l ∈ [","; "?"; ":"; "[]"; "enum"; "struct"; "{"; "}"; "export"] -> Forall solid (txt l).
Proof. exact (proj1 (Forall_forall _ _) solids l). Qed.

(** A comment and the white space that follows. *)
Definition rest (t r1 : text) : Prop := exists b, t = b ++ r1 /\ one_line b /\ (r1 = [] \/ exists r', r1 = lf :: r').
Lemma rest_fun t r1 r2 : rest t r1 -> rest t r2 -> r1 = r2.
Proof.
  assert (forall t r, rest t r -> skip (fun c => c ≠ lf) t r) as K.
  { intros t' r (b & -> & Hb & He). exists b. split; [done|]. split; [done|]. destruct He as [->|[r' ->]]; [done|].
    simpl. intros Hc. by apply Hc. }
  intros H1 H2. exact (skip_fun (fun c => c ≠ lf) t r1 r2 (K _ _ H1) (K _ _ H2)).
Qed.
Lemma rest_char c t r : c ≠ lf -> rest t r -> rest (c :: t) r.
Proof. intros Hc (b & -> & Hb & He). exists (c :: b). split; [done|]. split; [by constructor|done]. Qed.
Lemma rest_line b t r : one_line b -> rest t r -> rest (b ++ t) r.
Proof. intros Hb H. induction Hb as [|c b Hc Hb IH]; [done|]. by apply rest_char. Qed.
Lemma rest_lf t : rest (lf :: t) (lf :: t).
Proof. exists []. split; [done|]. split; [by constructor|eauto]. Qed.
Lemma line_end_rest n s : line_end n -> exists n2, Forall newline_char n2 /\ rest (n ++ s) (lf :: n2 ++ s).
Proof.
  intros [HF Hin]. induction HF as [|c n Hc HF IH]; [by apply elem_of_nil in Hin|].
  destruct (decide (c = lf)) as [->|Hne]; [exists n; split; [done|apply rest_lf]|].
  apply elem_of_cons in Hin as [?|Hin]; [done|]. destruct (IH Hin) as (n2 & ? & ?). exists n2. split; [done|].
  by apply rest_char.
Qed.
Lemma alike_rest_both (P : ascii -> Prop) `{D : !forall c, Decision (P c)} t t' : tidy P -> (forall c, newline_char c -> P c) ->
  alike t t' -> exists r1 r r1' r', rest t r1 /\ skip P r1 r /\ rest t' r1' /\ skip P r1' r' /\ alike r r'.
Proof.
  intros HP Hnl. assert (P lf) as Plf by (apply Hnl; by left).
  assert (forall s s' n n', alike s s' -> Forall newline_char n -> Forall newline_char n' ->
    exists r r', skip P (lf :: n ++ s) r /\ skip P (lf :: n' ++ s') r' /\ alike r r') as K.
  { intros s s' n n' H HF HF'. destruct (alike_skip_both P s s' HP H) as (r & r' & H1 & H2 & H3). exists r, r'.
    split; [apply (skip_run P (lf :: n)); [|done]|split; [apply (skip_run P (lf :: n')); [|done]|done]];
      constructor; try done; (eapply Forall_impl; [eassumption|done]). }
  induction 1 as [|c s s' H IH|n n' s s' Hn Hn' H IH|n n' s s' Hn Hn' H IH|b b' n n' s s' Hb Hb' Hn Hn' H IH|b b' Hb Hb'].
  - exists [], [], [], []. assert (rest [] []) by (exists []; split; [done|split; [by constructor|by left]]).
    split_and!; try done; try (by apply skip_stop). constructor.
  - destruct (decide (c = lf)) as [->|Hne].
    + destruct (K s s' [] [] H) as (r & r' & H1 & H2 & H3); [constructor..|].
      exists (lf :: s), r, (lf :: s'), r'. split; [apply rest_lf|]. split; [done|]. split; [apply rest_lf|]. done.
    + destruct IH as (r1 & r & r1' & r' & H1 & H2 & H3 & H4 & H5). exists r1, r, r1', r'.
      split; [by apply rest_char|]. split; [done|]. split; [by apply rest_char|]. done.
  - destruct (line_end_rest n s Hn) as (m & Hm & R), (line_end_rest n' s' Hn') as (m' & Hm' & R').
    destruct (K s s' m m' H Hm Hm') as (r & r' & H1 & H2 & H3). eauto 10.
  - destruct IH as (r1 & r & r1' & r' & H1 & H2 & H3 & H4 & H5). exists r1, r, r1', r'.
    assert (forall n, blanks n -> one_line n) as B.
    { intros m [HF _]. eapply Forall_impl; [exact HF|]. intros c Hc ->. by apply (blank_not_nl lf); [|left]. }
    split; [apply rest_line; auto|]. split; [done|]. split; [apply rest_line; auto|]. done.
  - destruct (line_end_rest n s Hn) as (m & Hm & R), (line_end_rest n' s' Hn') as (m' & Hm' & R').
    destruct (K s s' m m' H Hm Hm') as (r & r' & H1 & H2 & H3).
    assert (forall x y z, one_line x -> rest y z -> rest (txt "#" ++ x ++ y) z) as B.
    { intros x y z Hx Hy. apply (rest_line (txt "#")); [|by apply rest_line].
      apply (bool_decide_unpack _). vm_compute. exact I. }
    exists (lf :: m ++ s), r, (lf :: m' ++ s'), r'. split; [by apply B|]. split; [done|]. split; [by apply B|]. done.
  - assert (forall x, one_line x -> rest (txt "#" ++ x) []) as B.
    { intros x Hx. exists (txt "#" ++ x). split; [by rewrite app_nil_r|]. split; [|by left].
      apply Forall_app. split; [|done]. apply (bool_decide_unpack _). vm_compute. exact I. }
    exists [], [], [], []. split; [by apply B|]. split; [by apply skip_stop|]. split; [by apply B|].
    split; [by apply skip_stop|constructor].
Qed.
Lemma remark_rest s r : remark s r <-> exists t, s = "#"%char :: t /\ rest t r.
Proof.
  split.
  - intros (b & -> & Hb & He). exists (b ++ r). split; [done|]. by exists b.
  - intros (t & -> & b & -> & Hb & He). by exists b.
Qed.
Lemma alike_comment (P : ascii -> Prop) `{D : !forall c, Decision (P c)} s s' r1 r : tidy P -> (forall c, newline_char c -> P c) ->
  alike s s' -> remark s r1 -> skip P r1 r -> exists r1' r', remark s' r1' /\ skip P r1' r' /\ alike r r'.
Proof.
  intros HP Hnl H Hr Hs. apply remark_rest in Hr as (t & -> & Hr).
  assert (forall t t', alike t t' -> rest t r1 -> exists r1' r', remark ("#"%char :: t') r1' /\ skip P r1' r' /\ alike r r') as K.
  { intros u u' Hu Hur. destruct (alike_rest_both P u u' HP Hnl Hu) as (q1 & q & q1' & q' & H1 & H2 & H3 & H4 & H5).
    rewrite (rest_fun _ _ _ Hur H1) in Hs. rewrite (skip_fun _ _ _ _ Hs H2). exists q1', q'.
    split; [apply remark_rest; eauto|done]. }
  inversion H as [|? ? t' Ht|n n' s1 s1' Hn Hn' H1 E|n n' s1 s1' Hn Hn' H1 E|b b' n n' s1 s1' Hb Hb' Hn Hn' H1 E|b b' Hb Hb' E]; subst.
  - by apply (K t t').
  - exfalso. destruct (line_end_cons _ Hn) as (x & n0 & -> & Hx). simplify_eq/=. by apply tidy_newline.
  - exfalso. destruct (blanks_cons _ Hn) as (x & n0 & -> & Hx). simplify_eq/=. by apply tidy_blank.
  - destruct (line_end_rest n s1 Hn) as (m & Hm & R), (line_end_rest n' s1' Hn') as (m' & Hm' & R').
    pose proof (rest_fun _ _ _ Hr (rest_line b _ _ Hb R)) as ->.
    destruct (alike_skip_both P s1 s1' HP H1) as (q & q' & Q1 & Q2 & Q3).
    assert (forall k s q, Forall newline_char k -> skip P s q -> skip P (lf :: k ++ s) q) as B.
    { intros k s0 q0 Hk H0. apply (skip_run P (lf :: k)); [|done]. constructor; [apply Hnl; by left|].
      eapply Forall_impl; [exact Hk|done]. }
    rewrite (skip_fun P _ r q Hs (B _ _ _ Hm Q1)).
    exists (lf :: m' ++ s1'), q'. split; [|split; [by apply B|done]]. apply remark_rest. eexists. split; [reflexivity|].
    by apply rest_line.
  - assert (forall x, one_line x -> rest x []) as B.
    { intros x Hx. exists x. split; [by rewrite app_nil_r|]. split; [done|by left]. }
    pose proof (rest_fun _ _ _ Hr (B t Hb)) as ->. apply (skip_id_iff P [] _ I) in Hs as ->.
    exists [], []. split; [|split; [by apply skip_stop|constructor]]. apply remark_rest. eauto.
Qed.

Lemma alike_variants vs s s' r : alike s s' -> variants vs s r -> exists r', variants vs s' r' /\ alike r r'.
Proof.
  intros H Hv. revert s' H. induction Hv as [r|v c vs s r1 r2 r3 r4 r H1 H2 H3 H4 Hv IH]; intros s' H.
  - exists s'. split; [constructor|done].
  - destruct (alike_name _ _ _ _ H H1) as (q1 & ? & K1).
    destruct (alike_skip space_char _ _ _ tidy_space K1 H2) as (q2 & ? & K2).
    destruct (alike_perhaps "," _ _ _ _ (solid_in "," ltac:(set_solver)) K2 H3) as (q3 & ? & K3).
    destruct (alike_skip space_char _ _ _ tidy_space K3 H4) as (q4 & ? & K4).
    destruct (IH _ K4) as (q & ? & K). exists q. split; [by econstructor|done].
Qed.
Lemma alike_fields fs s s' r : alike s s' -> fields fs s r -> exists r', fields fs s' r' /\ alike r r'.
Proof.
  intros H Hv. revert s' H. induction Hv as [r|fs s r1 r2 r H1 H2 Hv IH
    |n o t a c fs s r1 r2 r3 r4 r5 r6 r7 r8 r9 r10 r H1 H2 H3 H4 H5 H6 H7 H8 H9 H10 Hv IH]; intros s' H.
  - exists s'. split; [constructor|done].
  - destruct (alike_comment space_char _ _ _ _ tidy_space newline_space H H1 H2) as (q1 & q2 & ? & ? & K2).
    destruct (IH _ K2) as (q & ? & K). exists q. split; [by econstructor|done].
  - destruct (alike_name _ _ _ _ H H1) as (q1 & ? & K1).
    destruct (alike_skip blank_char _ _ _ tidy_blank K1 H2) as (q2 & ? & K2).
    destruct (alike_perhaps "?" _ _ _ _ (solid_in "?" ltac:(set_solver)) K2 H3) as (q3 & ? & K3).
    destruct (alike_lit ":" _ _ _ (solid_in ":" ltac:(set_solver)) K3 H4) as (q4 & ? & K4).
    destruct (alike_skip blank_char _ _ _ tidy_blank K4 H5) as (q5 & ? & K5).
    destruct (alike_word _ _ _ _ K5 H6) as (q6 & ? & K6).
    destruct (alike_perhaps "[]" _ _ _ _ (solid_in "[]" ltac:(set_solver)) K6 H7) as (q7 & ? & K7).
    destruct (alike_skip space_char _ _ _ tidy_space K7 H8) as (q8 & ? & K8).
    destruct (alike_perhaps "," _ _ _ _ (solid_in "," ltac:(set_solver)) K8 H9) as (q9 & ? & K9).
    destruct (alike_skip space_char _ _ _ tidy_space K9 H10) as (q10 & ? & K10).
    destruct (IH _ K10) as (q & ? & K). exists q. split; [by econstructor|done].
Qed.
Lemma alike_body t s s' r : alike s s' -> body t s r -> exists r', body t s' r' /\ alike r r'.
Proof.
  intros H Hb. destruct Hb as [vs s r1 r2 r3 r4 r5 r H1 H2 H3 H4 H5 H6|fs s r1 r2 r3 r4 r5 r H1 H2 H3 H4 H5 H6].
  - destruct (alike_lit "enum" _ _ _ (solid_in "enum" ltac:(set_solver)) H H1) as (q1 & ? & K1).
    destruct (alike_skip blank_char _ _ _ tidy_blank K1 H2) as (q2 & ? & K2).
    destruct (alike_lit "{" _ _ _ (solid_in "{" ltac:(set_solver)) K2 H3) as (q3 & ? & K3).
    destruct (alike_skip space_char _ _ _ tidy_space K3 H4) as (q4 & ? & K4).
    destruct (alike_variants _ _ _ _ K4 H5) as (q5 & ? & K5).
    destruct (alike_lit "}" _ _ _ (solid_in "}" ltac:(set_solver)) K5 H6) as (q & ? & K).
    exists q. split; [by econstructor|done].
  - destruct (alike_lit "struct" _ _ _ (solid_in "struct" ltac:(set_solver)) H H1) as (q1 & ? & K1).
    destruct (alike_skip blank_char _ _ _ tidy_blank K1 H2) as (q2 & ? & K2).
    destruct (alike_lit "{" _ _ _ (solid_in "{" ltac:(set_solver)) K2 H3) as (q3 & ? & K3).
    destruct (alike_skip space_char _ _ _ tidy_space K3 H4) as (q4 & ? & K4).
    destruct (alike_fields _ _ _ _ K4 H5) as (q5 & ? & K5).
    destruct (alike_lit "}" _ _ _ (solid_in "}" ltac:(set_solver)) K5 H6) as (q & ? & K).
    exists q. split; [by econstructor|done].
Qed.
Lemma alike_lines a s s' : alike s s' -> lines a s -> lines a s'.
Proof.
  intros H Hl. revert s' H. induction Hl as [|a s r1 r2 r H1 H2 H3 Hl IH|e a s r1 r2 r3 r4 r H1 H2 H3 H4 H5 Hl IH
      |n t a s r1 r2 r3 r4 r5 r6 r H1 H2 Hx H3 H4 H5 H6 H7 Hl IH]; intros s' H.
  - inversion H as [| |n n' s1 s1' Hn Hn' H1 E|n n' s1 s1' Hn Hn' H1 E| |]; subst; [constructor|exfalso..].
    + by destruct (line_end_cons _ Hn) as (x & n0 & -> & Hx).
    + by destruct (blanks_cons _ Hn) as (x & n0 & -> & Hx).
  - destruct (alike_skip blank_char _ _ _ tidy_blank H H1) as (q1 & ? & K1).
    destruct (alike_comment newline_char _ _ _ _ tidy_newline (fun _ x => x) K1 H2 H3) as (q2 & q & ? & ? & K).
    eapply lines_comment; eauto.
  - destruct (alike_skip blank_char _ _ _ tidy_blank H H1) as (q1 & ? & K1).
    destruct (alike_lit "export" _ _ _ (solid_in "export" ltac:(set_solver)) K1 H2) as (q2 & ? & K2).
    destruct (alike_skip blank_char _ _ _ tidy_blank K2 H3) as (q3 & ? & K3).
    destruct (alike_word _ _ _ _ K3 H4) as (q4 & ? & K4).
    destruct (alike_skip newline_char _ _ _ tidy_newline K4 H5) as (q & ? & K).
    eapply lines_export; eauto.
  - destruct (alike_skip blank_char _ _ _ tidy_blank H H1) as (q1 & ? & K1).
    destruct (alike_name _ _ _ _ K1 H2) as (q2 & ? & K2).
    destruct (alike_skip blank_char _ _ _ tidy_blank K2 H3) as (q3 & ? & K3).
    destruct (alike_lit ":" _ _ _ (solid_in ":" ltac:(set_solver)) K3 H4) as (q4 & ? & K4).
    destruct (alike_skip blank_char _ _ _ tidy_blank K4 H5) as (q5 & ? & K5).
    destruct (alike_body _ _ _ _ K5 H6) as (q6 & ? & K6).
    destruct (alike_skip space_char _ _ _ tidy_space K6 H7) as (q & ? & K).
    eapply lines_decl; eauto.
Qed.
Lemma alike_layout a s s' : alike s s' -> layout a s -> layout a s'.
Proof.
  intros H (r & H1 & H2). destruct (alike_skip newline_char _ _ _ tidy_newline H H1) as (r' & ? & K).
  exists r'. split; [done|]. by eapply alike_lines.
Qed.
Lemma parse_alike s s' a : alike s s' -> parse_schema s = POk a <-> parse_schema s' = POk a.
Proof.
  intros H. rewrite !parse_schema_ok. split; apply alike_layout; [done|by apply alike_sym].
Qed.

(** ** Windows line ends *)
Lemma crlf_alike s : alike s (crlf s).
Proof.
  induction s as [|c s IH]; [constructor|]. unfold crlf. simpl. fold (crlf s). destruct (decide (c = lf)) as [->|Hc].
  - apply (alike_line [lf] [cr; lf]); [..|done]; (split; [|set_solver]); repeat constructor; by right.
  - by constructor.
Qed.
Lemma parse_crlf s a : parse_schema (crlf s) = POk a <-> parse_schema s = POk a.
Proof. symmetry. apply parse_alike, crlf_alike. Qed.

(** ** Schemas one after the other *)
Lemma lines_nil_text a : lines a [] -> a = [].
Proof.
  intros H. assert (layout [] []) as K by (exists []; split; [by apply skip_stop|constructor]).
  eapply layout_unique; [exists []; split; [by apply skip_stop|done]|done].
Qed.
Lemma lines_blank a s : lines a s -> exists r, skip blank_char s r /\ stops newline_char r /\ lines a r.
Proof.
  assert (forall s r, skip blank_char s r -> skip blank_char r r) as K by (intros s' r' (_ & _ & _ & H); by apply skip_stop).
  destruct 1 as [|a s r1 r2 r H1 H2 H3 Hl|e a s r1 r2 r3 r4 r H1 H2 H3 H4 H5 Hl
      |n t a s r1 r2 r3 r4 r5 r6 r H1 H2 Hx H3 H4 H5 H6 H7 Hl].
  - exists []. split; [by apply skip_stop|]. split; [done|constructor].
  - exists r1. split; [done|]. split; [|by eapply lines_comment; [eapply K|..]].
    destruct H2 as (b & -> & _). apply (bool_decide_unpack _). vm_compute. exact I.
  - exists r1. split; [done|]. split; [|by eapply lines_export; [eapply K|..]].
    unfold lit in H2. subst r1. apply (bool_decide_unpack _). vm_compute. exact I.
  - exists r1. split; [done|]. split; [|by eapply lines_decl; [eapply K|..]].
    destruct H2 as (-> & (HN & (c & n' & -> & _) & _) & _). apply Forall_cons in HN as [HN _].
    simpl. intros Hc. apply (space_not_name c); [by right|done].
Qed.
Lemma lf_space : space_char lf.
Proof. right. by left. Qed.
Lemma lines_cat a1 a2 s q : lines a1 s -> s ≠ [] -> layout a2 q -> lines (a1 ++ a2) (s ++ lf :: q).
Proof.
  intros Hs Hne (q1 & Q1 & Q2). set (w := lf :: q).
  assert (stops (fun c => ~ space_char c) w) as Hw by (intros H; apply H, lf_space).
  assert (stops blank_char w) as Hwb by (apply nl_not_blank; by left).
  assert (forall s, skip newline_char s [] -> skip newline_char (s ++ w) q1) as Kn.
  { intros s' (v & -> & HF & _). rewrite app_nil_r. change (v ++ w) with (v ++ [lf] ++ q). rewrite app_assoc.
    apply skip_run; [|done]. apply Forall_app. split; [done|]. constructor; [by left|constructor]. }
  assert (exists q2, lines a2 q2 /\ forall s, skip space_char s [] -> skip space_char (s ++ w) q2) as (q2 & Q3 & Ks).
  { destruct (lines_blank _ _ Q2) as (q2 & H1 & H2 & H3). exists q2. split; [done|].
    destruct H1 as (u & -> & HFu & Hu), Q1 as (v & -> & HFv & Hv). intros s' (x & -> & HF & _). rewrite app_nil_r. unfold w.
    exists (x ++ [lf] ++ v ++ u). split; [by rewrite <-!app_assoc|]. split; [|].
    - repeat (apply Forall_app; split); [done|constructor; [apply lf_space|constructor]|..].
      + eapply Forall_impl; [exact HFv|by right].
      + eapply Forall_impl; [exact HFu|by left].
    - destruct q2; [done|]. simpl in *. by intros [?|?]. }
  induction Hs as [|a s r1 r2 r H1 H2 H3 Hl IH|e a s r1 r2 r3 r4 r H1 H2 H3 H4 H5 Hl IH
      |n t a s r1 r2 r3 r4 r5 r6 r H1 H2 Hx H3 H4 H5 H6 H7 Hl IH]; [done|..];
    pose proof (skip_app_other w blank_char _ _ Hwb H1) as H1'.
  - destruct (decide (r2 = [])) as [->|Hr2].
    + apply (skip_id_iff newline_char [] _ I) in H3 as ->. apply lines_nil_text in Hl as ->.
      destruct H2 as (b & -> & HF & _).
      eapply lines_comment with (r2 := w) (r := q1); [exact H1'| | |done].
      * exists b. split; [by rewrite app_nil_r, <-app_assoc|]. split; [done|]. right. by exists q.
      * by apply (Kn []), skip_stop.
    + destruct (decide (r = [])) as [->|Hr].
      * apply lines_nil_text in Hl as ->. eapply lines_comment; [exact H1'|by apply remark_app|by apply Kn|done].
      * eapply lines_comment; [exact H1'|by apply remark_app|by apply skip_app_ne|by apply IH].
  - destruct (decide (r = [])) as [->|Hr].
    + apply lines_nil_text in Hl as ->.
      eapply lines_export; [exact H1'|by apply lit_app|by apply skip_app_other|by apply word_ext|by apply Kn|done].
    + eapply lines_export; [exact H1'|by apply lit_app|by apply skip_app_other|by apply word_ext|by apply skip_app_ne|by apply IH].
  - destruct (decide (r = [])) as [->|Hr].
    + apply lines_nil_text in Hl as ->.
      eapply lines_decl; [exact H1'|by apply name_ext|done|by apply skip_app_other|by apply lit_app|
        by apply skip_app_other|by apply body_ext|by apply Ks|done].
    + eapply lines_decl; [exact H1'|by apply name_ext|done|by apply skip_app_other|by apply lit_app|
        by apply skip_app_other|by apply body_ext|by apply skip_app_ne|by apply IH].
Qed.
Lemma parse_cat a1 a2 s q : parse_schema s = POk a1 -> parse_schema q = POk a2 ->
  parse_schema (s ++ [lf] ++ q) = POk (a1 ++ a2).
Proof.
  rewrite !parse_schema_ok. intros (r & H1 & H2) Hq. destruct (decide (r = [])) as [->|Hr].
  - apply lines_nil_text in H2 as ->. destruct Hq as (q1 & Q1 & Q2). exists q1. split; [|done].
    destruct H1 as (v & -> & HF & _). rewrite app_nil_r. rewrite app_assoc. apply skip_run; [|done].
    apply Forall_app. split; [done|]. constructor; [by left|constructor].
  - exists (r ++ lf :: q). split; [by apply skip_app_ne|by apply lines_cat].
Qed.
