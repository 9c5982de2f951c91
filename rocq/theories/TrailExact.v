(** Exactly which white space can be put at the end of a text (C48). *)
From Verif Require Import ParserProofs2 LayoutSpec ParserTrail.

Definition hash : ascii := "#"%char.
(** [s] is [r] after some text whose comments are finished *)
Definition clean (s r : text) : Prop := exists c, s = c ++ r /\ Forall (fun x => x ≠ hash) c.
Definition closed (s r : text) : Prop := exists c, s = c ++ r /\ finished c.
Lemma clean_refl s : clean s s.
Proof. by exists []. Qed.
Lemma clean_trans s r q : clean s r -> clean r q -> clean s q.
Proof. intros (c & -> & Hc) (d & -> & Hd). exists (c ++ d). split; [by rewrite app_assoc|by apply Forall_app]. Qed.
Lemma finished_app c d : finished c -> finished d -> finished (c ++ d).
Proof.
  intros Hc Hd p q E. apply app_eq_inv in E as [(k & -> & E)|(k & -> & E)].
  - destruct k as [|x k]; [by apply (Hd [] q)|]. cbn in E. injection E as <- ->. apply elem_of_app. left. exact (Hc p k eq_refl).
  - by eapply Hd.
Qed.
Lemma clean_closed s r : clean s r -> closed s r.
Proof. intros (c & -> & Hc). exists c. split; [done|]. intros p q ->. apply Forall_app in Hc as [_ Hc]. by apply Forall_cons in Hc as [[] _]. Qed.
Lemma closed_trans s r q : closed s r -> closed r q -> closed s q.
Proof. intros (c & -> & Hc) (d & -> & Hd). exists (c ++ d). split; [by rewrite app_assoc|by apply finished_app]. Qed.
Lemma skip_clean (P : ascii -> Prop) s r : ~ P hash -> skip P s r -> clean s r.
Proof. intros HP (v & -> & HF & _). exists v. split; [done|]. eapply Forall_impl; [exact HF|]. by intros x Hx ->. Qed.
Lemma lit_clean l s r : hash ∉ txt l -> lit l s r -> clean s r.
Proof. intros HP ->. exists (txt l). split; [done|]. apply Forall_forall. by intros x Hx ->. Qed.
Lemma perhaps_clean l b s r : hash ∉ txt l -> perhaps l b s r -> clean s r.
Proof. destruct b; cbn; [apply lit_clean|]. intros _ [-> _]. apply clean_refl. Qed.
Lemma hash_not_name : ~ name_char hash.
Proof. apply (bool_decide_unpack _). vm_compute. exact I. Qed.
Lemma word_clean n s r : word n s r -> clean s r.
Proof. intros (-> & HF & _). exists n. split; [done|]. eapply Forall_impl; [exact HF|]. intros x Hx ->. by apply hash_not_name. Qed.
Lemma name_clean n s r : name n s r -> clean s r.
Proof. intros (-> & (HF & _) & _). exists n. split; [done|]. eapply Forall_impl; [exact HF|]. intros x Hx ->. by apply hash_not_name. Qed.
Lemma hash_not_blank : ~ blank_char hash.
Proof. apply (bool_decide_unpack _). vm_compute. exact I. Qed.
Lemma hash_not_newline : ~ newline_char hash.
Proof. apply (bool_decide_unpack _). vm_compute. exact I. Qed.
Lemma hash_not_space : ~ space_char hash.
Proof. apply (bool_decide_unpack _). vm_compute. exact I. Qed.
Lemma lf_newline : newline_char lf.
Proof. by left. Qed.
Local Ltac no_hash := apply (bool_decide_unpack _); vm_compute; exact I.
Local Ltac cleans := repeat match goal with
  | H : skip blank_char _ _ |- _ => apply (skip_clean _ _ _ hash_not_blank) in H
  | H : skip space_char _ _ |- _ => apply (skip_clean _ _ _ hash_not_space) in H
  | H : skip newline_char _ _ |- _ => apply (skip_clean _ _ _ hash_not_newline) in H
  | H : lit _ _ _ |- _ => apply lit_clean in H; [|no_hash]
  | H : perhaps _ _ _ _ |- _ => apply perhaps_clean in H; [|no_hash]
  | H : word _ _ _ |- _ => apply word_clean in H
  | H : name _ _ _ |- _ => apply name_clean in H
  end.
Local Ltac chain := first [done|eapply clean_trans; [eassumption|chain]].

(** a comment that is followed by something is finished *)
Lemma remark_closed (P : ascii -> Prop) s r r' : ~ P hash -> P lf -> remark s r -> skip P r r' -> r ≠ [] -> closed s r'.
Proof.
  intros HP Hlf (b & -> & Hb & [->|[q ->]]) (u & E & Hu & Hs) Hr; [done|]. destruct u as [|x u]; cbn in E; [subst r'; by destruct Hs|]. injection E as <- ->.
  exists (txt "#" ++ b ++ lf :: u). split; [by rewrite <- !app_assoc|]. intros p k E.
  destruct p as [|y p]; cbn in E; [injection E as <-; apply elem_of_app; right; left|]. injection E as _ E.
  apply app_eq_inv in E as [(j & -> & E)|(j & -> & E)].
  - destruct j as [|z j]; cbn in E; [done|]. injection E as <- ->. apply elem_of_app. right. left.
  - destruct j as [|z j]; cbn in E; [done|]. injection E as <- ->. apply Forall_cons in Hu as [_ Hu]. apply Forall_app in Hu as [_ Hu]. apply Forall_cons in Hu as [Hu _]. done.
Qed.
Lemma variants_clean vs s r : variants vs s r -> clean s r.
Proof. induction 1; [apply clean_refl|]. cleans. chain. Qed.
Lemma fields_closed fs s r : fields fs s r -> r ≠ [] -> closed s r.
Proof.
  assert (forall fs s r, fields fs s r -> r ≠ [] -> s ≠ []) as Hne.
  { clear. induction 1 as [|? ? ? ? ? H1|n o t' a c fs s' r1 r2 r3 r4 r5 r6 r7 r8 r9 r10 r' H1]; [done| |].
    - intros _. by destruct H1 as (b & -> & _).
    - intros _. by destruct H1 as (-> & (_ & (? & ? & -> & _) & _) & _). }
  induction 1 as [|fs s' r1 r2 r' H1 H2 Hf IH|n o t' a c fs s' r1 r2 r3 r4 r5 r6 r7 r8 r9 r10 r' H1 H2 H3 H4 H5 H6 H7 H8 H9 H10 Hf IH]; intros Hr.
  - apply clean_closed, clean_refl.
  - eapply closed_trans; [|by apply IH]. eapply (remark_closed space_char); [exact hash_not_space|by right; left|exact H1|exact H2|].
    intros ->. apply (Hne _ _ _ Hf Hr). destruct H2 as (v & E & _). symmetry in E. by apply app_eq_nil in E as [_ ->].
  - eapply closed_trans; [|by apply IH]. apply clean_closed. cleans. chain.
Qed.
Lemma body_closed t s r : body t s r -> closed s (txt "}" ++ r).
Proof.
  destruct 1 as [vs s r1 r2 r3 r4 r5 r H1 H2 H3 H4 H5 H6|fs s r1 r2 r3 r4 r5 r H1 H2 H3 H4 H5 H6]; unfold lit in H6; subst r5.
  - apply clean_closed. apply variants_clean in H5. cleans. chain.
  - eapply closed_trans; [|by eapply fields_closed]. apply clean_closed. cleans. chain.
Qed.

(** ** what is left of the white space *)
Definition left_over (s w w3 : text) : Prop :=
  (at_brace s /\ w3 = []) \/ (in_comment s /\ exists w2, skip (fun c => c ≠ lf) w w2 /\ skip newline_char w2 w3) \/
  (~ at_brace s /\ ~ in_comment s /\ skip newline_char w w3).
Lemma in_comment_app c r : in_comment r -> in_comment (c ++ r).
Proof. intros (p1 & p2 & -> & H). exists (c ++ p1), p2. by rewrite <- app_assoc. Qed.
Lemma in_comment_closed c r : finished c -> in_comment (c ++ r) -> in_comment r.
Proof.
  intros Hc (p1 & p2 & E & H). apply app_eq_inv in E as [(k & -> & E)|(k & -> & E)].
  - destruct k as [|x k]; cbn in E; [by exists [], p2|]. injection E as <- ->. exfalso.
    pose proof (Hc p1 k eq_refl) as Hk. apply Forall_app in H as [H _]. unfold one_line in H. rewrite Forall_forall in H. by apply (H lf).
  - exists k, p2. done.
Qed.
Lemma at_brace_closed c r : finished c -> ~ Forall space_char r -> at_brace (c ++ r) <-> at_brace r.
Proof.
  intros Hc Hr. split.
  - intros (s1 & w & E & Hw & Hn). symmetry in E. destruct (brace_split c r s1 w Hw E) as [(s2 & -> & ->)|(_ & _ & ?)]; [|done].
    exists s2, w. split; [done|]. split; [done|]. intros H. apply Hn. by apply in_comment_app.
  - intros (s1 & w & -> & Hw & Hn). exists (c ++ s1), w. split; [by rewrite <- app_assoc|]. split; [done|]. intros H. apply Hn. by eapply in_comment_closed.
Qed.
Lemma left_over_closed s r w w3 : closed s r -> ~ Forall space_char r -> left_over r w w3 -> left_over s w w3.
Proof.
  intros (c & -> & Hc) Hr. unfold left_over. rewrite (at_brace_closed c r Hc Hr). intros [H|[[H1 H2]|(H1 & H2 & H3)]].
  - by left.
  - right. left. split; [by apply in_comment_app|done].
  - right. right. split; [done|]. split; [|done]. intros H. apply H2. by eapply in_comment_closed.
Qed.
Lemma brace_or_comment s : at_brace s -> in_comment s -> False.
Proof.
  intros (s1 & w & -> & Hw & Hn) (p1 & p2 & E & H). apply app_eq_inv in E as [(k & -> & E)|(k & -> & E)].
  - destruct k as [|x k]; cbn in E; [done|]. injection E as <- E. apply Hn. exists p1, k. split; [done|]. rewrite E in H. apply Forall_app in H as [H _]. exact H.
  - destruct k as [|x k]; cbn in E; [done|]. injection E as <- ->. apply Forall_app in Hw as [_ Hw]. apply Forall_cons in Hw as [Hw _]. by apply hash_not_space.
Qed.
Lemma skip_nil_iff (P : ascii -> Prop) w w3 : skip P w w3 -> w3 = [] <-> Forall P w.
Proof.
  intros (v & -> & HF & Hs). split; [intros ->; by rewrite app_nil_r|]. intros H. apply Forall_app in H as [_ H]. destruct w3; [done|]. by apply Forall_cons in H as [? _].
Qed.
Lemma left_over_iff s w w3 : left_over s w w3 -> w3 = [] <-> may_end s w.
Proof.
  unfold may_end. intros [[H ->]|[[H (w2 & H2 & H3)]|(H1 & H2 & H3)]].
  - split; [by right; left|done].
  - rewrite (skip_nil_iff _ _ _ H3). destruct H2 as (v & -> & HF & Hs). split.
    + intros H2. right. right. split; [done|]. by exists v, w2.
    + intros [Hn|[Hb|(_ & b & n & E & Hb & Hn)]]; [by apply Forall_app in Hn as [_ ?]|by destruct (brace_or_comment s)|].
      apply app_eq_inv in E as [(k & -> & ->)|(k & -> & ->)]; [by apply Forall_app in Hn as [_ ?]|].
      destruct k as [|x k]; [done|]. apply Forall_app in Hb as [_ Hb]. apply Forall_cons in Hb as [Hb _]. by destruct Hs.
  - rewrite (skip_nil_iff _ _ _ H3). split; [by left|]. by intros [?|[?|(? & _)]].
Qed.
Lemma skip_newlines u w w3 : Forall newline_char u -> skip newline_char w w3 -> skip newline_char (u ++ w) w3.
Proof. intros Hu (v & -> & HF & Hs). exists (u ++ v). split; [by rewrite app_assoc|]. split; [by apply Forall_app|done]. Qed.

Lemma lines_left w a s : Forall space_char w -> lines a s -> s ≠ [] -> NExport "" ∉ a ->
  exists os w3, Star line_rel os (s ++ w) w3 /\ a = somes os /\ left_over s w w3.
Proof.
  intros Hw.
  assert (forall o s r w3 a', line_rel o (s ++ w) w3 -> (r ≠ [] -> closed s r /\ w3 = r ++ w) -> (r = [] -> w3 `suffix_of` w /\ left_over s w w3) ->
    (r ≠ [] -> exists os w3, Star line_rel os (r ++ w) w3 /\ a' = somes os /\ left_over r w w3) -> lines a' r ->
    exists os w3, Star line_rel os (s ++ w) w3 /\ match o with Some n => [n] | None => [] end ++ a' = somes os /\ left_over s w w3) as K.
  { intros o s' r w3 a' Ho Hne Hnil IH Hl. destruct (decide (r = [])) as [->|Hr].
    - assert (a' = []) as ->.
      { apply lines_star in Hl as (os & Hst & ->). inversion Hst as [|? ? ? ? ? Hl']; [done|]. by apply line_nil in Hl'. }
      destruct (Hnil eq_refl) as [Hsuf Hlo]. exists [o], w3. split; [|split; [by destruct o|done]]. econstructor; [exact Ho|].
      apply star_space. by eapply suffix_space.
    - destruct (IH Hr) as (os & w4 & Hst & -> & Hlo). destruct (Hne Hr) as [Hc ->]. exists (o :: os), w4. split; [by econstructor|]. split; [by destruct o|].
      eapply left_over_closed; [exact Hc| |exact Hlo]. intros HF. apply Hr. by eapply lines_space. }
  induction 1 as [|a s r1 r2 r H1 H2 H3 Hl IH
      |e a s r1 r2 r3 r4 r H1 H2 H3 H4 H5 Hl IH
      |n t a s r1 r2 r3 r4 r5 r6 r H1 H2 Hx H3 H4 H5 H6 H7 Hl IH]; intros Hs Ha; [done|..].
  - assert (r1 ≠ []) as N1 by by destruct H2 as (b & -> & _). pose proof (fun Hr => IH Hr Ha) as IH'. clear IH.
    destruct (decide (r2 = [])) as [->|Hr2].
    + apply (skip_id_iff newline_char [] _ I) in H3 as ->. pose proof H2 as (b & -> & HF & _).
      destruct (skip_exists (fun c => c ≠ lf) w) as (w2 & Hw2). pose proof Hw2 as (w1 & E & HF1 & Hst).
      destruct (skip_exists newline_char w2) as (w3 & Hw3).
      apply (K None s [] w3 a); [|done| |done|done].
      * exists ((txt "#" ++ b ++ []) ++ w). split; [by apply skip_app_ne|]. exists w2. split; [|done].
        exists (b ++ w1). split; [rewrite E, app_nil_r; by rewrite <-!app_assoc|].
        split; [by apply Forall_app|]. destruct w2 as [|c w2]; [by left|]. right. exists w2. f_equal.
        destruct (decide (c = lf)); [done|]. by destruct Hst.
      * intros _. split; [rewrite E; destruct Hw3 as (u & -> & _); exists (w1 ++ u); by rewrite app_assoc|].
        right. left. split; [|by exists w2]. destruct H1 as (v & -> & _). exists v, b. by rewrite app_nil_r.
    + destruct (skip_ends _ _ _ w H3) as (r' & Q1 & Q2 & Q3).
      assert (closed s r) as Hcl.
      { eapply closed_trans; [apply clean_closed; by eapply skip_clean; [exact hash_not_blank|exact H1]|]. by eapply (remark_closed newline_char); [exact hash_not_newline|left|exact H2|exact H3|]. }
      apply (K None s r r' a); [|by intros Hr; split; [|apply Q2]| |done|done].
      * exists (r1 ++ w). split; [by apply skip_app_ne|]. exists (r2 ++ w). split; [by apply remark_app|done].
      * intros ->. split; [by apply Q3|]. right. right. destruct Hcl as (c & Ec & Hc). rewrite app_nil_r in Ec. subst c. split; [|split].
        -- intros (s1 & w0 & E & Hw0 & Hn). apply Hn. destruct H1 as (v & -> & HFv & _), H2 as (b & -> & HFb & _), H3 as (u & -> & HFu & _). rewrite app_nil_r in E.
           symmetry in E. apply app_eq_inv in E as [(k & -> & E)|(k & -> & E)].
           ++ cbn in E. destruct k as [|x k]; cbn in E; [done|]. injection E as <- E. exists v, k. split; [done|].
              apply app_eq_inv in E as [(k2 & -> & E)|(k2 & -> & E)]; [by apply Forall_app in HFb as [? _]|].
              rewrite E in HFu. apply Forall_app in HFu as [_ HFu]. apply Forall_cons in HFu as [HFu _]. exfalso. revert HFu. no_hash.
           ++ destruct k as [|x k]; cbn in E; [done|]. injection E as <- E. apply Forall_app in HFv as [_ HFv]. apply Forall_cons in HFv as [HFv _]. exfalso. revert HFv. no_hash.
        -- intros Hi. rewrite <- (app_nil_r s) in Hi. apply (in_comment_closed _ _ Hc) in Hi as (? & ? & E & _). by destruct x.
        -- destruct H3 as (u & E & HFu & _). rewrite app_nil_r in E. subst r2. destruct Q1 as (v & E & HFv & Hst).
           apply app_eq_inv in E as [(k & -> & E)|(k & -> & E)]; [|by exists k; split; [done|]; split; [by apply Forall_app in HFv as [_ ?]|done]].
           exists []. apply Forall_app in HFu as [_ HFu]. destruct k as [|x k]; [by subst|]. subst r'. apply Forall_cons in HFu as [? _]. by destruct Hst.
  - assert (r1 ≠ []) as N1 by (unfold lit in H2; by subst).
    assert (e ≠ []) as Ne by (intros ->; apply Ha; left).
    assert (NExport "" ∉ a) as Ha' by (intros ?; apply Ha; by right). specialize (fun Hr => IH Hr Ha') as IH'. clear IH.
    assert (r3 ≠ []) as Hr3 by (destruct H4 as (-> & _); by destruct e).
    assert (clean s r) as Hcl by (cleans; chain).
    destruct (skip_ends _ _ _ w H5) as (r' & Q1 & Q2 & Q3).
    apply (K (Some (NExport (str e))) s r r' a); [|by intros Hr; split; [apply clean_closed|apply Q2]| |done|done].
    + exists (r1 ++ w). split; [by apply skip_app_ne|]. exists e, (r2 ++ w), (r3 ++ w), (r4 ++ w).
      split; [by apply lit_app|]. split; [by apply skip_app_ne|]. split; [by apply word_app|done].
    + intros ->. split; [by apply Q3|]. right. right. destruct Hcl as (c & Ec & Hc). rewrite app_nil_r in Ec. subst c. split; [|split].
      * intros (s1 & w0 & E & _). set (P c := blank_char c \/ name_char c \/ newline_char c).
        assert (P "}"%char) as Z; [|revert Z; no_hash].
        assert (Forall P s) as HP.
        { destruct H1 as (v & -> & HFv & _). unfold lit in H2. subst r1. destruct H3 as (v2 & -> & HFv2 & _), H4 as (-> & HFe & _), H5 as (u & -> & HFu & _). rewrite app_nil_r. repeat (apply Forall_app; split).
          - eapply Forall_impl; [exact HFv|]. by left.
          - no_hash.
          - eapply Forall_impl; [exact HFv2|]. by left.
          - eapply Forall_impl; [exact HFe|]. intros; by right; left.
          - eapply Forall_impl; [exact HFu|]. intros; by right; right. }
        rewrite E in HP. apply Forall_app in HP as [_ HP]. by apply Forall_cons in HP as [? _].
      * intros (p1 & p2 & -> & _). apply Forall_app in Hc as [_ Hc]. by apply Forall_cons in Hc as [[] _].
      * destruct H5 as (u & E & HFu & _). rewrite app_nil_r in E. subst r4. destruct Q1 as (v & E & HFv & Hst).
        apply app_eq_inv in E as [(k & -> & E)|(k & -> & E)]; [|by exists k; split; [done|]; split; [by apply Forall_app in HFv as [_ ?]|done]].
        exists []. apply Forall_app in HFu as [_ HFu]. destruct k as [|x k]; [by subst|]. subst r'. apply Forall_cons in HFu as [? _]. by destruct Hst.
  - assert (NExport "" ∉ a) as Ha' by (intros ?; apply Ha; by right). specialize (fun Hr => IH Hr Ha') as IH'. clear IH.
    assert (r5 ≠ []) as N5 by (destruct H6 as [? ? ? ? ? ? ? ? Z|? ? ? ? ? ? ? ? Z]; unfold lit in Z; subst; discriminate).
    assert (r3 ≠ []) as N3 by (unfold lit in H4; subst; discriminate).
    assert (r1 ≠ []) as N1 by (destruct H2 as (-> & (_ & (? & ? & -> & _) & _) & _); discriminate).
    assert (closed s (txt "}" ++ r6)) as Hcl.
    { eapply closed_trans; [|by eapply body_closed]. apply clean_closed. clear H6 H7 Hl. cleans. chain. }
    assert (clean (txt "}" ++ r6) r) as Hcl2.
    { eapply clean_trans; [eapply (lit_clean "}"); [no_hash|reflexivity]|]. by eapply skip_clean; [exact hash_not_space|]. }
    assert (closed s r) as Hcl3 by (eapply closed_trans; [exact Hcl|by apply clean_closed]).
    assert (exists r', skip space_char (r6 ++ w) r' /\ (r ≠ [] -> r' = r ++ w) /\ (r = [] -> r' = [])) as (r' & Q1 & Q2 & Q3).
    { destruct (decide (r = [])) as [->|Hr]; [|exists (r ++ w); split; [by apply skip_app_ne|done]].
      exists []. split; [|done]. destruct H7 as (v & -> & HF & _). exists (v ++ w). rewrite !app_nil_r. split; [done|]. split; [by apply Forall_app|done]. }
    apply (K (Some (NDecl (str n) t)) s r r' a); [|by intros Hr; split; [|apply Q2]| |done|done].
    + exists (r1 ++ w). split; [by apply skip_app_ne|]. exists n, (r2 ++ w), (r3 ++ w), (r4 ++ w), (r5 ++ w), (r6 ++ w).
      split_and!; [by apply name_app|done|by apply skip_app_ne|by apply lit_app|by apply skip_app_ne|by apply body_app|done|done].
    + intros Er. rewrite (Q3 Er). split; [by apply suffix_nil|]. left. split; [|done]. destruct Hcl as (c & -> & Hc). exists c, r6. split; [done|].
      destruct H7 as (v & -> & HF & _). subst r. rewrite app_nil_r. split; [done|]. intros Hi. rewrite <- (app_nil_r c) in Hi. apply (in_comment_closed _ _ Hc) in Hi as (? & ? & E & _). by destruct x.
Qed.

Lemma trail_exact a s w : NExport "" ∉ a -> Forall space_char w -> parse_schema s = POk a -> (parse_schema (s ++ w) = POk a <-> may_end s w).
Proof.
  intros Ha Hw H. apply parse_schema_ok in H as (r & H1 & H2).
  assert (exists r1 os w3, skip newline_char (s ++ w) r1 /\ Star line_rel os r1 w3 /\ a = somes os /\ left_over s w w3)
    as (r1 & os & w3 & Q1 & Q2 & Q3 & Q4).
  { destruct (decide (r = [])) as [->|Hr].
    - destruct H1 as (u & -> & HFu & _). rewrite app_nil_r. destruct (skip_exists newline_char w) as (w3 & Hw3). exists w3, [], w3. split; [by apply skip_newlines|].
      split; [apply star_space; eapply suffix_space; [by eapply skip_suf|done]|]. split.
      { apply lines_star in H2 as (os & Hst & ->). inversion Hst as [|? ? ? ? ? Hl']; [done|]. by apply line_nil in Hl'. }
      right. right. split; [|split; [|done]].
      + intros (s1 & w0 & -> & _). apply Forall_app in HFu as [_ HFu]. apply Forall_cons in HFu as [HFu _]. revert HFu. no_hash.
      + intros (s1 & w0 & -> & _). apply Forall_app in HFu as [_ HFu]. apply Forall_cons in HFu as [HFu _]. revert HFu. no_hash.
    - destruct (lines_left w a r Hw H2 Hr Ha) as (os & w3 & ? & ? & Hlo). exists (r ++ w), os, w3.
      split; [by apply skip_app_ne|]. split; [done|]. split; [done|]. eapply left_over_closed; [|by intros HF; apply Hr; eapply lines_space|exact Hlo].
      apply clean_closed. by eapply skip_clean; [exact hash_not_newline|]. }
  rewrite <- (left_over_iff s w w3 Q4). unfold parse_schema, prun. destruct (ex_schema (s ++ w) (length (s ++ w))) as [_ He].
  destruct (proj1 (He a w3)) as [m Hm]; [by exists r1, os|]. rewrite Hm. by destruct w3.
Qed.

Lemma exact_example : (exists a, NExport "" ∉ a /\ parse_schema (txt "export A # end") = POk a /\ in_comment (txt "export A # end") /\
    parse_schema (txt "export A # end" ++ txt " " ++ [lf]) = POk a /\ parse_schema (txt "export A # end" ++ [lf] ++ txt " ") = PErr 16) /\
  (exists a, NExport "" ∉ a /\ parse_schema (txt "A: enum { X }") = POk a /\ at_brace (txt "A: enum { X }") /\ parse_schema (txt "A: enum { X }" ++ txt " " ++ [lf] ++ txt " ") = POk a).
Proof.
  split.
  - exists [NExport "A"]. split; [no_hash|]. split; [by vm_compute|]. split; [|split; by vm_compute]. exists (txt "export A "), (txt " end"). split; [done|]. no_hash.
  - exists [NDecl "A" (AEnum ["X"])]. split; [no_hash|]. split; [by vm_compute|]. split; [|by vm_compute]. exists (txt "A: enum { X "), []. split; [done|]. split; [by apply Forall_nil_2|].
    intros (p1 & p2 & E & _). assert (hash ∈ txt "A: enum { X ") as H by (rewrite E; apply elem_of_app; right; left). revert H. no_hash.
Qed.
