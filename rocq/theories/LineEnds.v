(** Exactly where blanks and comments can be put at the end of a line (C75). *)
From Verif Require Import ParserProofs2 LayoutSpec LayoutProofs ParserTrail TrailExact.

Local Ltac dec := apply (bool_decide_unpack _); vm_compute; exact I.

(** ** Positions in a text *)
Lemma cut (p : text) x q c r : p ++ x :: q = c ++ r ->
  (exists k, c = p ++ x :: k /\ q = k ++ r) \/ (exists p', p = c ++ p' /\ r = p' ++ x :: q).
Proof.
  intros E. apply app_eq_inv in E as [(k & -> & ->)|(k & -> & E)]; [right; by exists k|].
  destruct k as [|y k]; cbn in E; [right; exists []; by rewrite !app_nil_r|]. injection E as <- ->. left. by exists k.
Qed.
Lemma cut_sym (p : text) x q c r : c ++ r = p ++ x :: q ->
  (exists k, c = p ++ x :: k /\ q = k ++ r) \/ (exists p', p = c ++ p' /\ r = p' ++ x :: q).
Proof. intros E. symmetry in E. by apply cut. Qed.
Lemma at_seg (P : ascii -> Prop) c p x k : Forall P c -> c = p ++ x :: k -> P x.
Proof. intros H ->. apply Forall_app in H as [_ H]. by apply Forall_cons in H as [? _]. Qed.
Lemma self_app (r p : text) x k : r ≠ p ++ x :: k ++ r.
Proof. intros E. apply (f_equal length) in E. rewrite app_length in E. cbn in E. rewrite app_length in E. lia. Qed.
Lemma lf_not_name : ~ name_char lf.
Proof. dec. Qed.
Lemma lf_not_blank : ~ blank_char lf.
Proof. dec. Qed.
Lemma lf_space : space_char lf.
Proof. dec. Qed.
Lemma blank_one_line n : Forall blank_char n -> one_line n.
Proof. intros H. eapply Forall_impl; [exact H|]. intros c Hc ->. by apply lf_not_blank. Qed.
Lemma blank_space n : Forall blank_char n -> Forall space_char n.
Proof. intros H. eapply Forall_impl; [exact H|]. by left. Qed.
Lemma blank_no_hash n : Forall blank_char n -> Forall (fun x => x ≠ hash) n.
Proof. intros H. eapply Forall_impl; [exact H|]. intros c Hc ->. by apply hash_not_blank. Qed.

(** ** What follows matters by its first character only *)
Definition hl (R : text -> text -> Prop) (s r : text) : Prop :=
  exists c, s = c ++ r /\ forall r', head r' = head r -> R (c ++ r') r'.
Lemma heads (c r r' : text) : head r' = head r -> head (c ++ r') = head (c ++ r).
Proof. by destruct c. Qed.
Lemma stops_head (P : ascii -> Prop) r r' : head r' = head r -> stops P r -> stops P r'.
Proof. destruct r, r'; cbn; intros E; simplify_eq; done. Qed.
Lemma hl_skip P s r : skip P s r -> hl (skip P) s r.
Proof. intros (w & -> & HF & Hs). exists w. split; [done|]. intros r' E. exists w. split; [done|]. split; [done|]. by eapply stops_head. Qed.
Lemma hl_lit l s r : lit l s r -> hl (lit l) s r.
Proof. intros ->. exists (txt l). done. Qed.
Lemma hl_perhaps x b s r : perhaps (String x "") b s r -> hl (perhaps (String x "") b) s r.
Proof.
  destruct b; [apply hl_lit|]. intros [-> H]. exists []. split; [done|]. intros r' E. split; [done|]. intros r2 H2. unfold lit in H2. cbn in H2. subst r'.
  cbn in E. destruct s as [|y s]; cbn in E; [done|]. injection E as <-. by apply (H s).
Qed.
Lemma hl_word w s r : word w s r -> hl (word w) s r.
Proof. intros (-> & HF & Hs). exists w. split; [done|]. intros r' E. split; [done|]. split; [done|]. by eapply stops_head. Qed.
Lemma hl_name w s r : name w s r -> hl (name w) s r.
Proof. intros (-> & HF & Hs). exists w. split; [done|]. intros r' E. split; [done|]. split; [done|]. by eapply stops_head. Qed.
Lemma hl_remark s r : remark s r -> hl remark s r.
Proof.
  intros (b & -> & Hb & Hr). exists (txt "#" ++ b). split; [by rewrite <- app_assoc|]. intros r' E. exists b. split; [by rewrite <- app_assoc|]. split; [done|].
  destruct Hr as [->|[q ->]]; destruct r'; cbn in E; simplify_eq; [by left|]. right. by eexists.
Qed.
Local Ltac hd := repeat (first [assumption|apply heads]).

Lemma hl_variant v s r : variant_rel v s r -> hl (variant_rel v) s r.
Proof.
  intros (r1 & r2 & c & r3 & H1 & H2 & H3 & H4).
  apply hl_name in H1 as (c1 & -> & K1). apply hl_skip in H2 as (c2 & -> & K2). apply hl_perhaps in H3 as (c3 & -> & K3). apply hl_skip in H4 as (c4 & -> & K4).
  exists (c1 ++ c2 ++ c3 ++ c4). split; [by rewrite <- !app_assoc|]. intros r' E. rewrite <- !app_assoc.
  exists (c2 ++ c3 ++ c4 ++ r'), (c3 ++ c4 ++ r'), c, (c4 ++ r'). split; [apply K1; hd|]. split; [apply K2; hd|]. split; [apply K3; hd|]. by apply K4.
Qed.
Lemma hl_field f s r : head r ≠ Some "["%char -> field_rel (Some f) s r -> hl (field_rel (Some f)) s r.
Proof.
  intros Hr (n & o & t & a & c & r1 & r2 & r3 & r4 & r5 & r6 & r7 & r8 & r9 & H1 & H2 & H3 & H4 & H5 & H6 & H7 & H8 & H9 & H10 & ->).
  assert (hl (perhaps "[]" a) r6 r7) as K7.
  { destruct a; [by apply hl_lit|]. destruct H7 as [-> H7]. exists []. split; [done|]. intros r' E. split; [done|]. intros q Hq. unfold lit in Hq. cbn in Hq. subst r'. cbn in E.
    destruct r6 as [|y r6]; cbn in E; [done|]. injection E as <-. exfalso. apply Hr.
    apply (skip_id_iff space_char ("["%char :: r6)) in H8; [|dec]. subst r8. destruct c; cbn in H9; [by unfold lit in H9|]. destruct H9 as [-> _].
    apply (skip_id_iff space_char ("["%char :: r6)) in H10; [|dec]. by subst r. }
  apply hl_name in H1 as (c1 & -> & K1). apply hl_skip in H2 as (c2 & -> & K2). apply hl_perhaps in H3 as (c3 & -> & K3). apply hl_lit in H4 as (c4 & -> & K4).
  apply hl_skip in H5 as (c5 & -> & K5). apply hl_word in H6 as (c6 & -> & K6). destruct K7 as (c7 & -> & K7). apply hl_skip in H8 as (c8 & -> & K8).
  apply hl_perhaps in H9 as (c9 & -> & K9). apply hl_skip in H10 as (c10 & -> & K10).
  exists (c1 ++ c2 ++ c3 ++ c4 ++ c5 ++ c6 ++ c7 ++ c8 ++ c9 ++ c10). split; [by rewrite <- !app_assoc|]. intros r' E. rewrite <- !app_assoc.
  exists n, o, t, a, c. do 9 eexists. split_and!; [apply K1; hd|apply K2; hd|apply K3; hd|apply K4; hd|apply K5; hd|apply K6; hd|apply K7; hd|apply K8; hd|apply K9; hd|by apply K10|done].
Qed.
Lemma fields_cons f fs s r1 r : field_rel (Some f) s r1 -> fields fs r1 r -> fields (f :: fs) s r.
Proof. intros (n & o & t & a & c & ? & ? & ? & ? & ? & ? & ? & ? & ? & ? & ? & ? & ? & ? & ? & ? & ? & ? & ? & ->) Hf. econstructor; eassumption. Qed.
Lemma variants_cons v vs s r1 r : variant_rel v s r1 -> variants vs r1 r -> variants (str v :: vs) s r.
Proof. intros (? & ? & ? & ? & ? & ? & ? & ?) Hf. econstructor; eassumption. Qed.
Lemma hl_variants vs s r : variants vs s r -> hl (variants vs) s r.
Proof.
  induction 1 as [r|v c vs s r1 r2 r3 r4 r H1 H2 H3 H4 Hv (c2 & -> & K2)].
  - exists []. split; [done|]. intros. constructor.
  - destruct (hl_variant v s (c2 ++ r)) as (c1 & -> & K1); [by exists r1, r2, c, r3|]. exists (c1 ++ c2). split; [by rewrite app_assoc|]. intros r' E. rewrite <- app_assoc.
    eapply variants_cons; [apply K1; hd|by apply K2].
Qed.
Lemma fields_head fs s r : fields fs s r -> head r = Some "}"%char -> head s ≠ Some "["%char.
Proof.
  destruct 1 as [r|fs s r1 r2 r H1|n o t a c fs s r1 r2 r3 r4 r5 r6 r7 r8 r9 r10 r H1]; intros Hr.
  - by rewrite Hr.
  - by destruct H1 as (b & -> & _).
  - destruct H1 as (-> & (HF & (y & w & -> & Hy) & _) & _). cbn. intros [= ->]. revert Hy. dec.
Qed.
Lemma hl_fields fs s r : fields fs s r -> head r = Some "}"%char -> hl (fields fs) s r.
Proof.
  induction 1 as [r|fs s r1 r2 r H1 H2 Hf IH|n o t a c fs s r1 r2 r3 r4 r5 r6 r7 r8 r9 r10 r H1 H2 H3 H4 H5 H6 H7 H8 H9 H10 Hf IH]; intros Hr.
  - exists []. split; [done|]. intros. constructor.
  - destruct (IH Hr) as (c3 & -> & K3). apply hl_skip in H2 as (c2 & -> & K2). apply hl_remark in H1 as (c1 & -> & K1).
    exists (c1 ++ c2 ++ c3). split; [by rewrite <- !app_assoc|]. intros r' E. rewrite <- !app_assoc. econstructor; [apply K1; hd|apply K2; hd|by apply K3].
  - pose proof (fields_head _ _ _ Hf Hr) as Hh. destruct (IH Hr) as (c2 & -> & K2).
    destruct (hl_field (str n, Unresolved (str t) a o) s (c2 ++ r) Hh) as (c1 & -> & K1); [by exists n, o, t, a, c, r1, r2, r3, r4, r5, r6, r7, r8, r9|].
    exists (c1 ++ c2). split; [by rewrite app_assoc|]. intros r' E. rewrite <- app_assoc.
    eapply fields_cons; [apply K1; hd|by apply K2].
Qed.
Lemma any_body t s r : body t s r -> exists c, s = c ++ r /\ forall r', body t (c ++ r') r'.
Proof.
  destruct 1 as [vs s r1 r2 r3 r4 r5 r H1 H2 H3 H4 H5 H6|fs s r1 r2 r3 r4 r5 r H1 H2 H3 H4 H5 H6]; unfold lit in H6; subst r5.
  - apply hl_lit in H1 as (c1 & -> & K1). apply hl_skip in H2 as (c2 & -> & K2). apply hl_lit in H3 as (c3 & -> & K3). apply hl_skip in H4 as (c4 & -> & K4).
    apply hl_variants in H5 as (c5 & -> & K5). exists (c1 ++ c2 ++ c3 ++ c4 ++ c5 ++ txt "}"). split; [by rewrite <- !app_assoc|]. intros r'. rewrite <- !app_assoc.
    assert (head (txt "}" ++ r') = head (txt "}" ++ r)) as E by done. econstructor; [apply K1; hd|apply K2; hd|apply K3; hd|apply K4; hd|apply K5; hd|done].
  - apply hl_lit in H1 as (c1 & -> & K1). apply hl_skip in H2 as (c2 & -> & K2). apply hl_lit in H3 as (c3 & -> & K3). apply hl_skip in H4 as (c4 & -> & K4).
    apply hl_fields in H5 as (c5 & -> & K5); [|done]. exists (c1 ++ c2 ++ c3 ++ c4 ++ c5 ++ txt "}"). split; [by rewrite <- !app_assoc|]. intros r'. rewrite <- !app_assoc.
    assert (head (txt "}" ++ r') = head (txt "}" ++ r)) as E by done. econstructor; [apply K1; hd|apply K2; hd|apply K3; hd|apply K4; hd|apply K5; hd|done].
Qed.

(** ** Braces and comments *)
Definition plain_char (c : ascii) : Prop := c ≠ hash /\ ~ brace c.
#[local] Instance brace_dec c : Decision (brace c). Proof. unfold brace. apply _. Defined.
#[local] Instance plain_dec c : Decision (plain_char c). Proof. unfold plain_char. apply _. Defined.
Definition bare (s r : text) : Prop := exists c, s = c ++ r /\ Forall plain_char c.
Lemma bare_refl s : bare s s.
Proof. by exists []. Qed.
Lemma bare_trans s r q : bare s r -> bare r q -> bare s q.
Proof. intros (c & -> & Hc) (d & -> & Hd). exists (c ++ d). split; [by rewrite app_assoc|by apply Forall_app]. Qed.
Lemma space_plain c : space_char c -> plain_char c.
Proof. apply (ascii_all (fun c => space_char c -> plain_char c)). dec. Qed.
Lemma name_plain c : name_char c -> plain_char c.
Proof. apply (ascii_all (fun c => name_char c -> plain_char c)). dec. Qed.
Lemma blank_plain c : blank_char c -> plain_char c.
Proof. intros H. apply space_plain. by left. Qed.
Lemma newline_plain c : newline_char c -> plain_char c.
Proof. intros H. apply space_plain. by right. Qed.
Lemma skip_bare (P : ascii -> Prop) s r : (forall c, P c -> plain_char c) -> skip P s r -> bare s r.
Proof. intros HP (v & -> & HF & _). exists v. split; [done|]. by eapply Forall_impl. Qed.
Lemma lit_bare l s r : Forall plain_char (txt l) -> lit l s r -> bare s r.
Proof. intros HP ->. by exists (txt l). Qed.
Lemma perhaps_bare l b s r : Forall plain_char (txt l) -> perhaps l b s r -> bare s r.
Proof. destruct b; cbn; [apply lit_bare|]. intros _ [-> _]. apply bare_refl. Qed.
Lemma word_bare n s r : word n s r -> bare s r.
Proof. intros (-> & HF & _). exists n. split; [done|]. eapply Forall_impl; [exact HF|exact name_plain]. Qed.
Lemma name_bare n s r : name n s r -> bare s r.
Proof. intros (-> & (HF & _) & _). exists n. split; [done|]. eapply Forall_impl; [exact HF|exact name_plain]. Qed.
Local Ltac bares := repeat match goal with
  | H : skip blank_char _ _ |- _ => apply (skip_bare _ _ _ blank_plain) in H
  | H : skip space_char _ _ |- _ => apply (skip_bare _ _ _ space_plain) in H
  | H : skip newline_char _ _ |- _ => apply (skip_bare _ _ _ newline_plain) in H
  | H : lit _ _ _ |- _ => apply lit_bare in H; [|dec]
  | H : perhaps _ _ _ _ |- _ => apply perhaps_bare in H; [|dec]
  | H : word _ _ _ |- _ => apply word_bare in H
  | H : name _ _ _ |- _ => apply name_bare in H
  end.
Local Ltac bchain := first [done|eapply bare_trans; [eassumption|bchain]].
Lemma variants_bare vs s r : variants vs s r -> bare s r.
Proof. induction 1; [apply bare_refl|]. bares. bchain. Qed.
Lemma no_brace_app c d : no_brace c -> no_brace d -> no_brace (c ++ d).
Proof.
  intros Hc Hd x y z E Hy. symmetry in E. apply cut in E as [(k & -> & ->)|(p & -> & ->)]; [by eapply Hc|]. apply in_comment_app. by eapply Hd.
Qed.
Lemma no_brace_plain c : Forall plain_char c -> no_brace c.
Proof. intros H x y z E Hy. destruct (at_seg _ _ _ _ _ H E) as [_ []]. done. Qed.
Lemma plain_finished c : Forall plain_char c -> finished c.
Proof. intros H p q E. destruct (at_seg _ _ _ _ _ H E) as [[] _]. done. Qed.
Lemma no_brace_remark b : one_line b -> no_brace (txt "#" ++ b).
Proof.
  intros H x y z E Hy. destruct x as [|h x]; cbn in E; [injection E as <- _; by destruct Hy|]. injection E as <- ->. exists [], x. split; [done|].
  by apply Forall_app in H as [? _].
Qed.
Definition sealed_off (s r : text) : Prop := exists m, s = m ++ r /\ no_brace m /\ finished m.
Lemma bare_sealed s r : bare s r -> sealed_off s r.
Proof. intros (c & -> & H). exists c. split; [done|]. split; [by apply no_brace_plain|by apply plain_finished]. Qed.
Lemma sealed_trans s r q : sealed_off s r -> sealed_off r q -> sealed_off s q.
Proof.
  intros (c & -> & H1 & H2) (d & -> & H3 & H4). exists (c ++ d). split; [by rewrite app_assoc|]. split; [by apply no_brace_app|by apply finished_app].
Qed.
Lemma remark_sealed (P : ascii -> Prop) s r r' : (forall c, P c -> plain_char c) -> P lf -> remark s r -> skip P r r' -> r ≠ [] -> sealed_off s r'.
Proof.
  intros HP Hlf H1 H2 Hr. destruct (remark_closed P s r r') as (c & E & Hc); [by intros ?%HP; destruct H|done..|].
  exists c. split; [done|]. split; [|done]. destruct H1 as (b & -> & Hb & _), H2 as (u & -> & Hu & _).
  assert (c = (txt "#" ++ b) ++ u) as ->. { apply (app_inv_tail r'). rewrite <- E. by rewrite <- !app_assoc. }
  apply no_brace_app; [by apply no_brace_remark|]. apply no_brace_plain. by eapply Forall_impl.
Qed.
Lemma fields_sealed fs s r : fields fs s r -> r ≠ [] -> sealed_off s r.
Proof.
  assert (forall fs s r, fields fs s r -> r ≠ [] -> s ≠ []) as Hne.
  { clear. induction 1 as [|? ? ? ? ? H1|n o t' a c fs s' r1 r2 r3 r4 r5 r6 r7 r8 r9 r10 r' H1]; [done| |].
    - intros _. by destruct H1 as (b & -> & _).
    - intros _. by destruct H1 as (-> & (_ & (? & ? & -> & _) & _) & _). }
  induction 1 as [|fs s' r1 r2 r' H1 H2 Hf IH|n o t' a c fs s' r1 r2 r3 r4 r5 r6 r7 r8 r9 r10 r' H1 H2 H3 H4 H5 H6 H7 H8 H9 H10 Hf IH]; intros Hr.
  - apply bare_sealed, bare_refl.
  - eapply sealed_trans; [|by apply IH]. eapply (remark_sealed space_char); [exact space_plain|exact lf_space|exact H1|exact H2|].
    intros ->. apply (Hne _ _ _ Hf Hr). destruct H2 as (v & E & _). symmetry in E. by apply app_eq_nil in E as [_ ->].
  - eapply sealed_trans; [|by apply IH]. apply bare_sealed. bares. bchain.
Qed.
Definition keyword (t : atype) : string := match t with AEnum _ => "enum" | AStruct _ => "struct" end.
Lemma body_shape t s r : body t s r -> exists v m, s = txt (keyword t) ++ v ++ txt "{" ++ m ++ txt "}" ++ r /\ Forall blank_char v /\
  no_brace m /\ finished m /\ match t with AEnum _ => Forall plain_char m | AStruct _ => True end.
Proof.
  destruct 1 as [vs s r1 r2 r3 r4 r5 r H1 H2 H3 H4 H5 H6|fs s r1 r2 r3 r4 r5 r H1 H2 H3 H4 H5 H6]; unfold lit in *; subst s r2 r5; destruct H2 as (v & -> & Hv & _).
  - apply variants_bare in H5. bares. assert (bare r3 (txt "}" ++ r)) as (m & -> & Hm) by bchain. exists v, m. split; [done|]. split; [done|].
    split; [by apply no_brace_plain|]. split; [by apply plain_finished|done].
  - apply fields_sealed in H5; [|done]. bares. assert (sealed_off r3 (txt "}" ++ r)) as (m & -> & H7 & H8) by (eapply sealed_trans; [by apply bare_sealed|done]).
    by exists v, m.
Qed.

(** ** Blanks and comments inside of a declaration *)
Lemma variant_cut n v s r p k : Forall blank_char n -> variant_rel v s r -> s = p ++ lf :: k ++ r -> variant_rel v (p ++ n ++ lf :: k ++ r) r.
Proof.
  intros Hn (r1 & r2 & c & r3 & H1 & H2 & H3 & H4) E. destruct H1 as (-> & Hv & Hs1). symmetry in E. apply cut in E as [(k1 & -> & _)|(p1 & -> & ->)].
  { destruct Hv as [Hv _]. exfalso. by apply lf_not_name; eapply at_seg. }
  pose proof H2 as (w1 & E & Hw1 & Hs2). apply cut in E as [(k1 & -> & E)|(p2 & -> & ->)].
  - rewrite E. exists (p1 ++ n ++ lf :: k1 ++ r2), r2, c, r3. split_and!; try done.
    + split; [by rewrite <- app_assoc|]. split; [done|]. destruct p1 as [|y p1]; cbn in *; [|done]. destruct n as [|y n]; cbn; [exact lf_not_name|].
      apply Forall_cons in Hn as [Hn _]. apply space_not_name. by left.
    + exists (p1 ++ n ++ lf :: k1). split; [by rewrite <- !app_assoc|]. split; [|done]. apply Forall_app in Hw1 as [? ?]. repeat (apply Forall_app; split); try done. by apply blank_space.
  - assert (p2 ≠ []) as Hp2 by (intros ->; by apply Hs2, lf_space). destruct c; cbn in H3.
    + unfold lit in H3. destruct p2 as [|y p2]; [done|]. cbn in H3. injection H3 as -> <-. destruct H4 as (w2 & E & Hw2 & Hs4).
      assert (w2 = p2 ++ lf :: k) as ->. { apply (app_inv_tail r). rewrite <- E. by rewrite <- app_assoc. }
      exists (w1 ++ ","%char :: p2 ++ n ++ lf :: k ++ r), (","%char :: p2 ++ n ++ lf :: k ++ r), true, (p2 ++ n ++ lf :: k ++ r). split_and!.
      * split; [by rewrite <- !app_assoc|]. split; [done|]. eapply stops_head; [|exact Hs1]. by destruct w1.
      * exists w1. split; [done|]. split; [done|]. dec.
      * done.
      * exists (p2 ++ n ++ lf :: k). split; [by rewrite <- !app_assoc|]. split; [|done]. apply Forall_app in Hw2 as [? ?]. repeat (apply Forall_app; split); try done. by apply blank_space.
    + destruct H3 as [-> _]. apply (skip_id_iff space_char _ _ Hs2) in H4. by apply self_app in H4.
Qed.
Lemma variants_cut n vs s r : Forall blank_char n -> variants vs s r -> stops space_char s -> forall p k, s = p ++ lf :: k ++ r -> variants vs (p ++ n ++ lf :: k ++ r) r.
Proof.
  intros Hn. induction 1 as [r|v c vs s r1 r2 r3 r4 r H1 H2 H3 H4 Hv IH]; intros Hs p k E; [by apply self_app in E|].
  assert (variant_rel v s r4) as Hr by by exists r1, r2, c, r3. clear H1 H2 H3. pose proof (hl_variant _ _ _ Hr) as (c1 & -> & K1).
  pose proof (hl_variants _ _ _ Hv) as (c2 & -> & _).
  assert (stops space_char (c2 ++ r)) as Hs2 by by eapply skip_stops.
  symmetry in E. apply cut in E as [(k1 & -> & E)|(p1 & -> & E)].
  - rewrite E. eapply variants_cons; [|exact Hv]. apply (variant_cut n v _ (c2 ++ r) p k1 Hn Hr). by rewrite <- app_assoc.
  - rewrite <- !app_assoc. eapply variants_cons; [|by apply IH]. apply K1. rewrite E. destruct p1 as [|y p1]; [|done].
    rewrite E in Hs2. by destruct (Hs2 lf_space).
Qed.
(** the part of a field before the white space that may hold a line end *)
Definition front (n : text) (o : bool) (t : text) (a : bool) (s r7 : text) : Prop := exists r1 r2 r3 r4 r5 r6,
  name n s r1 /\ skip blank_char r1 r2 /\ perhaps "?" o r2 r3 /\ lit ":" r3 r4 /\ skip blank_char r4 r5 /\ word t r5 r6 /\ perhaps "[]" a r6 r7.
Lemma front_any n o t a s r7 : front n o t a s r7 -> exists C, s = C ++ r7 /\ lf ∉ C /\
  forall e r, Forall blank_char e -> (e ≠ [] -> t = [] /\ a = false) -> (a = false -> stops name_char r /\ head r ≠ Some "["%char) ->
    (t = [] -> a = false -> stops blank_char r) -> front n o t a (C ++ e ++ r) r.
Proof.
  intros (r1 & r2 & r3 & r4 & r5 & r6 & H1 & H2 & H3 & H4 & H5 & H6 & H7).
  destruct H1 as (-> & Hn & Hs1), H2 as (w1 & -> & Hw1 & Hs2). set (q := if o then txt "?" else []). assert (r2 = q ++ r3 /\ lf ∉ q) as [-> Hq].
  { unfold q. destruct o; cbn in H3; [by unfold lit in H3; subst; split; [|dec]|]. destruct H3 as [-> _]. split; [done|]. dec. }
  unfold lit in H4. subst r3. destruct H5 as (w2 & -> & Hw2 & Hs5), H6 as (-> & Ht & Hs6). set (b := if a then txt "[]" else []).
  assert (r6 = b ++ r7 /\ lf ∉ b) as [-> Hb].
  { unfold b. destruct a; cbn in H7; [by unfold lit in H7; subst; split; [|dec]|]. destruct H7 as [-> _]. split; [done|]. dec. }
  exists (n ++ w1 ++ q ++ txt ":" ++ w2 ++ t ++ b). split; [by rewrite <- !app_assoc|]. split.
  { assert (forall P w, Forall P w -> ~ P lf -> lf ∉ w) as Hin by (intros P w HF HP Hi; rewrite Forall_forall in HF; by apply HP, HF).
    rewrite !elem_of_app. intros [H|[H|[H|[H|[H|[H|H]]]]]].
    - destruct Hn as [Hn _]. by eapply Hin; [exact Hn|exact lf_not_name|].
    - by eapply Hin; [exact Hw1|exact lf_not_blank|].
    - done.
    - revert H. dec.
    - by eapply Hin; [exact Hw2|exact lf_not_blank|].
    - by eapply Hin; [exact Ht|exact lf_not_name|].
    - done. }
  intros e r He Hte Hr Htr.
  exists (w1 ++ q ++ txt ":" ++ w2 ++ t ++ b ++ e ++ r), (q ++ txt ":" ++ w2 ++ t ++ b ++ e ++ r), (txt ":" ++ w2 ++ t ++ b ++ e ++ r), (w2 ++ t ++ b ++ e ++ r),
    (if decide (e = []) then t ++ b ++ r else r), (if decide (e = []) then b ++ r else r).
  split_and!.
  - split; [by rewrite <- !app_assoc|]. split; [done|]. eapply stops_head; [|exact Hs1]. apply heads, heads. done.
  - exists w1. split; [done|]. split; [done|]. eapply stops_head; [|exact Hs2]. by apply heads.
  - unfold q. destruct o; cbn in H3; [done|]. split; [done|]. cbn. intros r' Hr'. unfold lit in Hr'. done.
  - done.
  - destruct (decide (e = [])) as [->|He'].
    + exists w2. split; [done|]. split; [done|]. destruct t as [|y t]; [|eapply stops_head; [|exact Hs5]; done]. unfold b. destruct a; [dec|]. by apply Htr.
    + destruct (Hte He') as [-> ->]. exists (w2 ++ e). split; [unfold b; cbn; by rewrite <- app_assoc|]. split; [by apply Forall_app|]. by apply Htr.
  - destruct (decide (e = [])) as [->|He'].
    + split; [done|]. split; [done|]. unfold b. destruct a; [dec|]. by apply Hr.
    + destruct (Hte He') as [-> ->]. split; [done|]. split; [done|]. by apply Hr.
  - unfold b. destruct (decide (e = [])) as [->|He']; [|destruct (Hte He') as [-> ->]]; [destruct a; [done|]|].
    all: split; [done|]; intros r' Hr'; unfold lit in Hr'; cbn in Hr'; apply (proj2 (Hr eq_refl)); by rewrite Hr'.
Qed.
Lemma front_space n o t a s r7 : front n o t a s r7 -> exists C, s = C ++ r7 /\ lf ∉ C /\
  forall w R, Forall space_char w -> stops space_char R -> lf ∈ w \/ (stops name_char R /\ head R ≠ Some "["%char) ->
    exists r, front n o t a (C ++ w ++ R) r /\ skip space_char r R.
Proof.
  intros H. apply front_any in H as (C & -> & HC & K). exists C. split; [done|]. split; [done|]. intros w R Hw HR Hc.
  destruct (skip_exists blank_char w) as (w2 & e & Ew & He & Hs).
  assert (forall w, Forall space_char w -> w ≠ [] -> stops name_char (w ++ R) /\ head (w ++ R) ≠ Some "["%char) as Hsp.
  { intros [|y u] HF Hu; [done|]. apply Forall_cons in HF as [HF _]. cbn. split; [by apply space_not_name|]. intros [= ->]. revert HF. dec. }
  assert (stops blank_char R) as HR' by by apply stops_blank.
  destruct (decide (t = [] /\ a = false)) as [[-> ->]|Hta].
  - exists (w2 ++ R). rewrite Ew, <- app_assoc. rewrite Ew in Hw. apply Forall_app in Hw as [_ Hw]. split.
    + apply K; [done..| |].
      * intros _. destruct w2 as [|y w2]; [|by apply Hsp]. destruct Hc as [Hc|Hc]; [|done]. exfalso. rewrite app_nil_r in Ew. subst w. rewrite Forall_forall in He. by apply lf_not_blank, He.
      * intros _ _. by destruct w2.
    + by exists w2.
  - exists (w ++ R). split; [|by exists w]. apply (K [] (w ++ R)); [by apply Forall_nil_2|done| |].
    + intros _. destruct w as [|y w]; [|by apply Hsp]. destruct Hc as [Hc|Hc]; [by apply elem_of_nil in Hc|done].
    + intros -> ->. by destruct Hta.
Qed.
Lemma stops_hash z : stops space_char (hash :: z).
Proof. exact hash_not_space. Qed.
Lemma field_cut f s r p k : field_rel (Some f) s r -> s = p ++ lf :: k ++ r ->
  Forall (fun x => x ≠ hash) p /\ (forall n, Forall blank_char n -> field_rel (Some f) (p ++ n ++ lf :: k ++ r) r) /\
  (~ comma_next (k ++ r) -> Forall space_char k /\ forall n z, Forall blank_char n -> field_rel (Some f) (p ++ n ++ hash :: z) (hash :: z)).
Proof.
  intros (n0 & o & t & a & c & r1 & r2 & r3 & r4 & r5 & r6 & r7 & r8 & r9 & H1 & H2 & H3 & H4 & H5 & H6 & H7 & H8 & H9 & H10 & ->) E. split.
  { assert (clean s r) as (d & Ed & Hd).
    { apply name_clean in H1. apply (skip_clean _ _ _ hash_not_blank) in H2. apply perhaps_clean in H3; [|dec]. apply lit_clean in H4; [|dec]. apply (skip_clean _ _ _ hash_not_blank) in H5.
      apply word_clean in H6. apply perhaps_clean in H7; [|dec]. apply (skip_clean _ _ _ hash_not_space) in H8. apply perhaps_clean in H9; [|dec]. apply (skip_clean _ _ _ hash_not_space) in H10.
      repeat (eapply clean_trans; [eassumption|]). apply clean_refl. }
    assert (d = p ++ lf :: k) as ->. { apply (app_inv_tail r). rewrite <- Ed, E. by rewrite <- app_assoc. } by apply Forall_app in Hd as [? _]. }
  assert (front n0 o t a s r7) as Hf by by exists r1, r2, r3, r4, r5, r6. clear H1 H2 H3 H4 H5 H6 H7.
  apply front_space in Hf as (C & -> & HC & K).
  assert (forall s' r7' r8' r', front n0 o t a s' r7' -> skip space_char r7' r8' -> forall c r9', perhaps "," c r8' r9' -> skip space_char r9' r' ->
     field_rel (Some (str n0, Unresolved (str t) a o)) s' r') as Fin.
  { intros s' r7' r8' r' (? & ? & ? & ? & ? & ? & ? & ? & ? & ? & ? & ? & ?) ? c' r9' ? ?. do 14 eexists. by split_and!. }
  symmetry in E. apply cut in E as [(k1 & -> & _)|(p1 & -> & ->)]; [exfalso; apply HC; apply elem_of_app; right; left|].
  assert (forall n, Forall blank_char n -> Forall space_char n) as Hbs by exact blank_space.
  pose proof H8 as (w3 & E & Hw3 & Hs8). apply cut in E as [(k3 & -> & E)|(p2 & -> & ->)].
  - apply Forall_app in Hw3 as [Hw3 Hk3]. split.
    + intros n Hn. rewrite E. destruct (K (p1 ++ n ++ lf :: k3) r8) as (r' & Q1 & Q2).
      { repeat (apply Forall_app; split); try done. by apply Hbs. } { done. } { left. rewrite !elem_of_app. right. right. left. }
      eapply Fin; [|exact Q2|exact H9|exact H10]. by rewrite <- !app_assoc in *.
    + intros Hc. destruct c; cbn in H9.
      { unfold lit in H9. subst r8. destruct Hc. exists k3, r9. split; [by rewrite E|]. by apply Forall_cons in Hk3 as [_ ?]. }
      destruct H9 as [-> H9]. apply (skip_id_iff space_char _ _ Hs8) in H10. subst r8. apply app_inv_tail in E as ->. split; [by apply Forall_cons in Hk3 as [_ ?]|].
      intros n z Hn. destruct (K (p1 ++ n) (hash :: z)) as (r' & Q1 & Q2).
      { repeat (apply Forall_app; split); try done. by apply Hbs. } { apply stops_hash. } { right. split; [exact hash_not_name|done]. }
      eapply (Fin _ _ _ _ _ Q2 false); [split; [done|]; intros ? Hl; by unfold lit in Hl|by apply skip_id, stops_hash].
      Unshelve. by rewrite <- !app_assoc in *.
  - assert (p2 ≠ []) as Hp2 by (intros ->; by apply Hs8, lf_space). destruct c; cbn in H9.
    + unfold lit in H9. destruct p2 as [|y p2]; [done|]. cbn in H9. injection H9 as -> <-. destruct H10 as (w4 & E & Hw4 & Hs10).
      assert (w4 = p2 ++ lf :: k) as ->. { apply (app_inv_tail r). rewrite <- E. by rewrite <- app_assoc. } apply Forall_app in Hw4 as [Hw4 Hk]. split.
      * intros n Hn. destruct (K w3 (txt "," ++ p2 ++ n ++ lf :: k ++ r) Hw3) as (r' & Q1 & Q2); [dec|right; split; [dec|done]|].
        eapply (Fin _ _ _ _ _ Q2 true); [done|]. exists (p2 ++ n ++ lf :: k). split; [by rewrite <- !app_assoc|]. split; [|done].
        repeat (apply Forall_app; split); try done. by apply Hbs. Unshelve. rewrite <- !app_assoc. exact Q1.
      * intros _. split; [by apply Forall_cons in Hk as [_ ?]|]. intros n z Hn. destruct (K w3 (txt "," ++ p2 ++ n ++ hash :: z) Hw3) as (r' & Q1 & Q2); [dec|right; split; [dec|done]|].
        eapply (Fin _ _ _ _ _ Q2 true); [done|]. exists (p2 ++ n). split; [by rewrite <- !app_assoc|]. split; [|apply stops_hash].
        repeat (apply Forall_app; split); try done. by apply Hbs. Unshelve. rewrite <- !app_assoc. exact Q1.
    + destruct H9 as [-> _]. apply (skip_id_iff space_char _ _ Hs8) in H10. by apply self_app in H10.
Qed.
Lemma no_hash_comment p : Forall (fun x => x ≠ hash) p -> ~ in_comment p.
Proof. intros H (p1 & p2 & -> & _). apply Forall_app in H as [_ H]. by apply Forall_cons in H as [[] _]. Qed.
Lemma remark_lf b q : one_line b -> remark (hash :: b ++ lf :: q) (lf :: q).
Proof. intros Hb. exists b. split; [done|]. split; [done|]. right. by exists q. Qed.
Lemma line_no_lf b : one_line b -> lf ∉ b.
Proof. intros H Hi. unfold one_line in H. rewrite Forall_forall in H. by apply (H lf). Qed.
Lemma finished_line b w : one_line b -> Forall space_char w -> finished (hash :: b ++ lf :: w).
Proof.
  intros Hb Hw p k E. destruct p as [|y p]; cbn in E; [injection E as <-; apply elem_of_app; right; left|]. injection E as _ E.
  apply app_eq_inv in E as [(j & -> & E)|(j & -> & E)].
  - destruct j as [|z j]; cbn in E; [done|]. injection E as <- ->. apply elem_of_app. right. left.
  - destruct j as [|z j]; cbn in E; [done|]. injection E as <- ->. apply Forall_app in Hw as [_ Hw]. apply Forall_cons in Hw as [Hw _]. by destruct hash_not_space.
Qed.
Lemma fields_cut fs s r : fields fs s r -> head r = Some "}"%char -> stops space_char s -> forall p k, s = p ++ lf :: k ++ r ->
  (in_comment p /\ forall x, one_line x -> fields fs (p ++ x ++ lf :: k ++ r) r) \/
  (~ in_comment p /\ (forall n, Forall blank_char n -> fields fs (p ++ n ++ lf :: k ++ r) r) /\
   (~ comma_next (k ++ r) -> forall n b, Forall blank_char n -> one_line b -> fields fs (p ++ n ++ hash :: b ++ lf :: k ++ r) r)).
Proof.
  induction 1 as [r|fs s r1 r2 r H1 H2 Hf IH|n o t a c fs s r1 r2 r3 r4 r5 r6 r7 r8 r9 r10 r H1 H2 H3 H4 H5 H6 H7 H8 H9 H10 Hf IH]; intros Hr Hs p k E.
  - by apply self_app in E.
  - destruct H1 as (b & -> & Hb & Hr1). symmetry in E. change (txt "#" ++ b ++ r1) with ((hash :: b) ++ r1) in E.
    apply cut in E as [(k1 & E & _)|(p1 & -> & E1)].
    { exfalso. apply (line_no_lf (hash :: b)); [by constructor|]. rewrite E. apply elem_of_app. right. left. }
    destruct Hr1 as [->|[q ->]]; [by destruct p1|]. destruct p1 as [|y p1]; cbn in E1.
    + left. injection E1 as ->. split; [exists [], b; split; [by rewrite app_nil_r|done]|]. intros x Hx.
      eapply fields_comment; [|exact H2|exact Hf]. rewrite app_nil_r. exists (b ++ x). split; [by cbn; rewrite <- !app_assoc|]. split; [by apply Forall_app|]. right. by eexists.
    + injection E1 as <- ->. destruct H2 as (w & E & Hw & Hs2). apply (cut (lf :: p1) lf (k ++ r)) in E as [(k1 & -> & E)|(p2 & E & ->)].
      * apply Forall_app in Hw as [Hw Hk]. apply Forall_cons in Hk as [_ Hk]. assert (finished ((hash :: b) ++ lf :: p1)) as Hfin by (apply finished_line; [done|by apply Forall_cons in Hw as [_ ?]]). right. split_and!.
        { intros Hc. rewrite <- (app_nil_r (_ ++ _)) in Hc. apply (in_comment_closed _ _ Hfin) in Hc as (? & ? & Hc & _). by destruct x. }
        { intros n Hn. rewrite <- app_assoc. eapply fields_comment; [by apply remark_lf| |exact Hf]. exists ((lf :: p1) ++ n ++ lf :: k1).
          split; [by rewrite E, <- !app_assoc|]. split; [|done]. repeat (apply Forall_app; split); try done; [by apply blank_space|]. by constructor; [exact lf_space|]. }
        { intros _ n b' Hn Hb'. rewrite <- app_assoc. eapply fields_comment; [by apply remark_lf| |].
          { exists ((lf :: p1) ++ n). split; [by rewrite <- !app_assoc|]. split; [|exact hash_not_space]. apply Forall_app. split; [done|by apply blank_space]. }
          eapply fields_comment; [by apply remark_lf| |exact Hf]. exists (lf :: k1). split; [by cbn; rewrite E|]. split; [|done]. by constructor; [exact lf_space|]. }
      * assert (p2 ≠ []) as Hp2. { intros ->. apply Hs2, lf_space. }
        destruct w as [|y w]; [cbn in E; subst p2; exfalso; apply Hs2, lf_space|]. cbn in E. injection E as <- ->. apply Forall_cons in Hw as [_ Hw].
        assert (forall z, fields fs (p2 ++ z) r -> fields fs (((hash :: b) ++ lf :: w ++ p2) ++ z) r) as Lift.
        { intros z Hz. rewrite <- app_assoc. eapply fields_comment; [by apply remark_lf| |exact Hz]. exists (lf :: w). split; [exact (f_equal (cons lf) (eq_sym (app_assoc w p2 z)))|].
          split; [by constructor; [exact lf_space|]|]. by destruct p2. }
        assert (in_comment ((hash :: b) ++ lf :: w ++ p2) <-> in_comment p2) as Hin.
        { replace ((hash :: b) ++ lf :: w ++ p2) with ((hash :: b ++ lf :: w) ++ p2) by by cbn; rewrite <- !app_assoc. split; [apply in_comment_closed; by apply finished_line|apply in_comment_app]. }
        rewrite Hin. destruct (IH Hr Hs2 p2 k eq_refl) as [(J1 & J2)|(J1 & J2 & J3)]; [left|right]; split_and!; try done.
        { intros x Hx. apply Lift. by apply J2. } { intros x Hx. apply Lift. by apply J2. } { intros Hc n b' Hn Hb'. apply Lift. by apply J3. }
  - assert (field_rel (Some (str n, Unresolved (str t) a o)) s r10) as Hfi by (do 14 eexists; split_and!; eassumption || done).
    assert (stops space_char r10) as Hs10 by by eapply skip_stops.
    assert (bare s r10) as (d & Ed & Hd) by (clear -H1 H2 H3 H4 H5 H6 H7 H8 H9 H10; bares; bchain).
    clear H1 H2 H3 H4 H5 H6 H7 H8 H9 H10. pose proof E as E'. rewrite Ed in E'. symmetry in E'. apply cut in E' as [(k1 & -> & E1)|(p2 & -> & E1)].
    + rewrite E1 in *. destruct (field_cut _ _ _ _ _ Hfi E) as (J1 & J2 & J3). right. split_and!.
      * by apply no_hash_comment.
      * intros x Hx. eapply fields_cons; [by apply J2|done].
      * intros Hc x b Hx Hb. destruct (J3 Hc) as (Hk1 & J4). eapply fields_cons; [by apply J4|]. eapply fields_comment; [by apply remark_lf| |exact Hf].
        exists (lf :: k1). split; [done|]. split; [|done]. by constructor; [exact lf_space|].
    + assert (p2 ≠ []) as Hp2. { intros ->. rewrite E1 in Hs10. by apply Hs10, lf_space. }
      assert (forall z, fields fs (p2 ++ z) r -> fields ((str n, Unresolved (str t) a o) :: fs) ((d ++ p2) ++ z) r) as Lift.
      { intros z Hz. eapply fields_cons; [|exact Hz]. destruct (hl_field _ _ _ (fields_head _ _ _ Hf Hr) Hfi) as (d' & Ed' & K). rewrite Ed in Ed'. apply app_inv_tail in Ed' as <-.
        rewrite <- app_assoc. apply K. rewrite E1. by destruct p2. }
      assert (in_comment (d ++ p2) <-> in_comment p2) as Hin. { split; [apply in_comment_closed; by apply plain_finished|apply in_comment_app]. }
      rewrite Hin. destruct (IH Hr Hs10 p2 k E1) as [(J1 & J2)|(J1 & J2 & J3)]; [left|right]; split_and!; try done.
      { intros x Hx. apply Lift. by apply J2. } { intros x Hx. apply Lift. by apply J2. } { intros Hc x b' Hx Hb'. apply Lift. by apply J3. }
Qed.
Lemma no_brace_prefix c d : no_brace (c ++ d) -> no_brace c.
Proof. intros H x y z -> Hy. apply (H x y (z ++ d)); [by rewrite <- app_assoc|done]. Qed.
Lemma body_inside t s r p k : body t s r -> s = p ++ lf :: k ++ r -> exists v p2, p = txt (keyword t) ++ v ++ txt "{" ++ p2 /\ Forall blank_char v /\ no_brace p2.
Proof.
  intros (v & m & -> & Hv & Hm & _)%body_shape E. symmetry in E.
  apply cut in E as [(k1 & E & _)|(p1 & -> & E)]. { exfalso. assert (lf ∈ txt (keyword t)) by (rewrite E; apply elem_of_app; right; left). destruct t; revert H; dec. }
  symmetry in E. apply cut in E as [(k1 & E & _)|(p2 & -> & E)]. { exfalso. by apply lf_not_blank, (at_seg _ _ _ _ _ Hv E). }
  destruct p2 as [|y p2]; cbn in E; [done|]. injection E as <- E. symmetry in E.
  apply cut in E as [(k1 & E & _)|(p3 & -> & E)]; [|destruct p3 as [|y p3]; [done|]; injection E as _ E; by apply self_app in E].
  exists v, p2. split; [done|]. split; [done|]. rewrite E in Hm. by eapply no_brace_prefix.
Qed.
Lemma body_cut t s r p k : body t s r -> s = p ++ lf :: k ++ r ->
  (in_comment p /\ forall x, one_line x -> body t (p ++ x ++ lf :: k ++ r) r) \/
  (~ in_comment p /\ (forall n, Forall blank_char n -> body t (p ++ n ++ lf :: k ++ r) r) /\
   (keyword t = "struct" -> ~ comma_next (k ++ r) -> forall n b, Forall blank_char n -> one_line b -> body t (p ++ n ++ hash :: b ++ lf :: k ++ r) r)).
Proof.
  intros Hb E. destruct (body_inside _ _ _ _ _ Hb E) as (v0 & p0 & -> & Hv0 & _).
  assert (forall z, finished z -> forall q, in_comment (z ++ q) <-> in_comment q) as Hfc by (intros z Hz q; split; [by apply in_comment_closed|apply in_comment_app]).
  assert (forall q, in_comment (txt (keyword t) ++ v0 ++ txt "{" ++ q) <-> in_comment q) as Hq.
  { intros q. rewrite !app_assoc. apply Hfc. apply finished_app; [apply finished_app|]; [|by apply plain_finished; eapply Forall_impl; [exact Hv0|exact blank_plain]|].
    - apply plain_finished. destruct t; dec.
    - intros [|y x] z Ez; [done|]. by destruct x. }
  rewrite Hq. rewrite <- !app_assoc in E.
  destruct Hb as [vs s r1 r2 r3 r4 r5 r H1 H2 H3 H4 H5 H6|fs s r1 r2 r3 r4 r5 r H1 H2 H3 H4 H5 H6]; unfold lit in *; subst s r2 r5; cbn [keyword] in *; apply app_inv_head in E; subst r1.
  - assert (r3 = p0 ++ lf :: k ++ r) as ->.
    { assert (skip blank_char (v0 ++ txt "{" ++ p0 ++ lf :: k ++ r) (txt "{" ++ p0 ++ lf :: k ++ r)) as H2' by (eexists; split; [done|split; [done|dec]]).
      by injection (skip_fun _ _ _ _ H2 H2'). }
    assert (forall q r4', skip space_char q r4' -> variants vs r4' (txt "}" ++ r) -> body (AEnum vs) ((txt "enum" ++ v0 ++ txt "{") ++ q) r) as Fin.
    { intros q r4' J1 J2. rewrite <- !app_assoc. eapply body_enum; [done| |done|exact J1|exact J2|done]. exists v0. split; [done|]. split; [done|dec]. }
    assert (clean (p0 ++ lf :: k ++ r) (txt "}" ++ r)) as (c & Ec & Hc) by (eapply clean_trans; [by eapply skip_clean; [exact hash_not_space|]|by eapply variants_clean]).
    pose proof Ec as E. apply cut in E as [(k0 & -> & E)|(p3 & -> & E)]; [|destruct p3 as [|y p3]; [done|]; injection E as _ E; by apply self_app in E].
    rewrite E in *. right. split; [by apply no_hash_comment; apply Forall_app in Hc as [? _]|]. split; [|done]. intros n Hn.
    replace ((txt "enum" ++ v0 ++ txt "{" ++ p0) ++ n ++ lf :: k0 ++ txt "}" ++ r) with ((txt "enum" ++ v0 ++ txt "{") ++ p0 ++ n ++ lf :: k0 ++ txt "}" ++ r) by by rewrite <- !app_assoc.
    destruct H4 as (w & Ew & Hw & Hs4). apply cut in Ew as [(k1 & -> & E1)|(p3 & -> & ->)].
    + apply Forall_app in Hw as [Hw Hk]. eapply Fin; [|exact H5]. exists (p0 ++ n ++ lf :: k1). split; [by rewrite E1, <- !app_assoc|]. split; [|done].
      repeat (apply Forall_app; split); try done. by apply blank_space.
    + assert (p3 ≠ []) as Hp3 by (intros ->; by apply Hs4, lf_space). rewrite <- (app_assoc w p3). eapply Fin; [|eapply variants_cut; [exact Hn|exact H5|exact Hs4|done]].
      exists w. split; [done|]. split; [done|]. by destruct p3.
  - assert (r3 = p0 ++ lf :: k ++ r) as ->.
    { assert (skip blank_char (v0 ++ txt "{" ++ p0 ++ lf :: k ++ r) (txt "{" ++ p0 ++ lf :: k ++ r)) as H2' by (eexists; split; [done|split; [done|dec]]).
      by injection (skip_fun _ _ _ _ H2 H2'). }
    assert (forall q r4', skip space_char q r4' -> fields fs r4' (txt "}" ++ r) -> body (AStruct fs) ((txt "struct" ++ v0 ++ txt "{") ++ q) r) as Fin.
    { intros q r4' J1 J2. rewrite <- !app_assoc. eapply body_struct; [done| |done|exact J1|exact J2|done]. exists v0. split; [done|]. split; [done|dec]. }
    assert (forall q, (txt "struct" ++ v0 ++ txt "{" ++ p0) ++ q = (txt "struct" ++ v0 ++ txt "{") ++ p0 ++ q) as Eq by (intros q; by rewrite <- !app_assoc).
    assert (closed (p0 ++ lf :: k ++ r) (txt "}" ++ r)) as (c & Ec & Hc).
    { eapply closed_trans; [apply clean_closed; by eapply skip_clean; [exact hash_not_space|]|by eapply fields_closed]. }
    apply cut in Ec as [(k0 & -> & E)|(p3 & -> & E)]; [|destruct p3 as [|y p3]; [done|]; injection E as _ E; by apply self_app in E].
    rewrite E in *. destruct H4 as (w & Ew & Hw & Hs4). apply cut in Ew as [(k1 & -> & E1)|(p3 & -> & ->)].
    + apply Forall_app in Hw as [Hw Hk]. apply Forall_cons in Hk as [_ Hk]. right. split_and!.
      * apply no_hash_comment. eapply Forall_impl; [exact Hw|]. intros x Hx ->. by apply hash_not_space.
      * intros n Hn. rewrite Eq. eapply Fin; [|exact H5]. exists (p0 ++ n ++ lf :: k1). split; [by rewrite E1, <- !app_assoc|]. split; [|done].
        repeat (apply Forall_app; split); try done; [by apply blank_space|]. by constructor; [exact lf_space|].
      * intros _ _ n b Hn Hb. rewrite Eq. eapply Fin.
        { exists (p0 ++ n). split; [by rewrite <- app_assoc|]. split; [|exact hash_not_space]. apply Forall_app. split; [done|by apply blank_space]. }
        eapply fields_comment; [by apply remark_lf| |exact H5]. exists (lf :: k1). split; [by rewrite E1|]. split; [|done]. by constructor; [exact lf_space|].
    + assert (p3 ≠ []) as Hp3 by (intros ->; by apply Hs4, lf_space).
      assert (forall z, fields fs (p3 ++ z) (txt "}" ++ r) -> body (AStruct fs) ((txt "struct" ++ v0 ++ txt "{" ++ w ++ p3) ++ z) r) as Lift.
      { intros z Hz. rewrite Eq, <- (app_assoc w p3). eapply Fin; [|exact Hz]. exists w. split; [done|]. split; [done|]. by destruct p3. }
      rewrite (Hfc w); [|by apply plain_finished; eapply Forall_impl; [exact Hw|exact space_plain]].
      destruct (fields_cut _ _ _ H5 eq_refl Hs4 p3 k0 eq_refl) as [(J1 & J2)|(J1 & J2 & J3)]; [left|right]; split_and!; try done.
      * intros x Hx. apply Lift. by apply J2.
      * intros x Hx. apply Lift. by apply J2.
      * intros _ Hc' x b' Hx Hb'. apply Lift. by apply J3.
Qed.
(** ** Positions *)
Lemma in_comment_snoc p c : Forall (fun x => x ≠ hash) c -> in_comment (p ++ c) -> in_comment p.
Proof.
  intros Hc (p1 & p2 & E & H). apply app_eq_inv in E as [(k & -> & E)|(k & -> & E)].
  - destruct k as [|x k]; cbn in E; [|injection E as <- ->; exists p1, k; split; [done|by apply Forall_app in H as [? _]]]. subst c. by apply Forall_cons in Hc as [[] _].
  - subst c. apply Forall_app in Hc as [_ Hc]. by apply Forall_cons in Hc as [[] _].
Qed.
Lemma opened_app c d : opened (c ++ d) -> opened c \/ opened d.
Proof.
  intros (x & y & E & Hx & Hy). symmetry in E. apply cut in E as [(k & -> & ->)|(x' & -> & ->)].
  - left. exists x, k. split; [done|]. split; [done|]. by eapply no_brace_prefix.
  - right. exists x', y. split; [done|]. split; [|done]. intros H. by apply Hx, in_comment_app.
Qed.
Lemma no_brace_opened c : no_brace c -> ~ opened c.
Proof. intros H (x & y & -> & Hx & _). apply Hx, (H x "{"%char y); [done|]. by left. Qed.
Lemma no_brace_at c : no_brace c -> ~ at_brace c.
Proof. intros H (x & y & -> & _ & Hx). apply Hx, (H x "}"%char y); [done|]. by right. Qed.
Lemma inside_app k c d : finished c -> inside k d -> inside k (c ++ d).
Proof. intros Hc (p1 & v & p2 & -> & Hv & Hp & Hn). exists (c ++ p1), v, p2. split; [by rewrite <- !app_assoc|]. split; [done|]. split; [|done]. intros H. apply Hp. by eapply in_comment_closed. Qed.
Lemma keyword_no_hash t : Forall (fun x => x ≠ hash) (txt (keyword t)).
Proof. destruct t; dec. Qed.
Lemma inside_opened t p : inside (keyword t) p -> opened p.
Proof.
  intros (p1 & v & p2 & -> & Hv & Hp & Hn). exists (p1 ++ txt (keyword t) ++ v), p2. split; [by rewrite <- !app_assoc|]. split; [|done]. intros H. apply Hp.
  eapply in_comment_snoc; [|exact H]. apply Forall_app. split; [apply keyword_no_hash|by apply blank_no_hash].
Qed.
Lemma blanks_plain n : Forall blank_char n -> Forall plain_char n.
Proof. intros H. eapply Forall_impl; [exact H|exact blank_plain]. Qed.
Lemma opened_blanks p n : Forall blank_char n -> opened (p ++ n) <-> opened p.
Proof.
  intros Hn. split.
  - intros [H|H]%opened_app; [done|]. by apply no_brace_opened in H; [|apply no_brace_plain, blanks_plain].
  - intros (x & y & -> & Hx & Hy). exists x, (y ++ n). split; [by rewrite <- !app_assoc|]. split; [done|]. apply no_brace_app; [done|by apply no_brace_plain, blanks_plain].
Qed.
Lemma at_brace_blanks p n : Forall blank_char n -> at_brace (p ++ n) -> at_brace p.
Proof.
  intros Hn (x & w & E & Hw & Hx). symmetry in E. apply cut in E as [(k & -> & ->)|(x' & -> & E)].
  - exists x, k. apply Forall_app in Hw as [Hw _]. done.
  - exfalso. pose proof (at_seg _ _ _ _ _ Hn E) as H. revert H. dec.
Qed.
Lemma inside_blanks k p n : Forall blank_char n -> inside k (p ++ n) -> inside k p.
Proof.
  intros Hn (p1 & v & p2 & E & Hv & Hp & Hb). rewrite !app_assoc in E. rewrite <- (app_assoc _ (txt "{")) in E. symmetry in E. apply cut in E as [(j & -> & ->)|(x' & _ & E)].
  - exists p1, v, j. split; [by rewrite <- !app_assoc|]. split; [done|]. split; [done|]. by eapply no_brace_prefix.
  - exfalso. pose proof (at_seg _ _ _ _ _ Hn E) as H. revert H. dec.
Qed.
Lemma last_brace x y x' y' : x ++ "{"%char :: y = x' ++ "{"%char :: y' -> ~ in_comment x -> ~ in_comment x' -> no_brace y -> no_brace y' -> x = x'.
Proof.
  assert (forall x y x' y', x ++ "{"%char :: y = x' ++ "{"%char :: y' -> ~ in_comment x' -> no_brace y -> forall k, x' = x ++ k -> k = []) as H.
  { intros ? ? ? ? E Hx Hy k ->. destruct k as [|z k]; [done|]. rewrite <- app_assoc in E. apply app_inv_head in E. injection E as <- ->. exfalso. apply Hx.
    pose proof (Hy k "{"%char y'0 eq_refl (or_introl eq_refl)) as Hk. apply (in_comment_app (x0 ++ txt "{")) in Hk. by rewrite <- app_assoc in Hk. }
  intros E Hx Hx' Hy Hy'. pose proof E as E'. apply app_eq_inv in E' as [(k & -> & _)|(k & -> & _)].
  - symmetry in E. rewrite (H _ _ _ _ E Hx Hy' k eq_refl). by rewrite app_nil_r.
  - rewrite (H _ _ _ _ E Hx' Hy k eq_refl). by rewrite app_nil_r.
Qed.
Lemma last_solid x c v x' c' v' : x ++ c :: v = x' ++ c' :: v' -> ~ blank_char c -> ~ blank_char c' -> Forall blank_char v -> Forall blank_char v' -> c = c'.
Proof.
  intros E Hc Hc' Hv Hv'. apply app_eq_inv in E as [(k & -> & E)|(k & -> & E)]; destruct k as [|z k]; cbn in E; injection E as -> E; try done; subst; [apply Forall_app in Hv' as [_ H]|apply Forall_app in Hv as [_ H]]; by apply Forall_cons in H as [? _].
Qed.
Lemma inside_only t p : inside (keyword t) p -> inside "struct" p -> keyword t = "struct".
Proof.
  intros (p1 & v & p2 & -> & Hv & Hp & Hn) (p1' & v' & p2' & E & Hv' & Hp' & Hn'). destruct t as [vs|fs]; [|done]. exfalso. cbn [keyword] in *.
  assert ((p1 ++ txt "enum" ++ v) ++ "{"%char :: p2 = (p1' ++ txt "struct" ++ v') ++ "{"%char :: p2') as E1 by (rewrite <- !app_assoc; exact E). apply last_brace in E1; [| | |done|done].
  - assert ((p1 ++ txt "enu") ++ "m"%char :: v = (p1' ++ txt "struc") ++ "t"%char :: v') as E2 by (rewrite <- !app_assoc; exact E1). apply last_solid in E2; [done|dec|dec|done|done].
  - intros H. apply Hp. eapply in_comment_snoc; [|exact H]. apply Forall_app. split; [dec|by apply blank_no_hash].
  - intros H. apply Hp'. eapply in_comment_snoc; [|exact H]. apply Forall_app. split; [dec|by apply blank_no_hash].
Qed.

Definition spot (L : text -> Prop) (p q : text) : Prop :=
  (in_comment p /\ forall x, one_line x -> L (p ++ x ++ lf :: q)) \/
  (~ in_comment p /\ exists t, inside (keyword t) p /\ (forall n, Forall blank_char n -> L (p ++ n ++ lf :: q)) /\
     (keyword t = "struct" -> ~ comma_next q -> forall n b, Forall blank_char n -> one_line b -> L (p ++ n ++ hash :: b ++ lf :: q))) \/
  (~ in_comment p /\ ~ opened p /\ (forall p0 x, p = p0 ++ [x] -> blank_char x -> at_brace p) /\
     (at_brace p -> forall n, Forall blank_char n -> L (p ++ n ++ lf :: q)) /\
     (~ ragged q -> forall n b, Forall blank_char n -> one_line b -> L (p ++ n ++ hash :: b ++ lf :: q))).
Lemma spot_lift (L L' : text -> Prop) c p q : finished c -> ~ opened c -> ~ Forall space_char p -> (forall z, L (p ++ z) -> L' (c ++ p ++ z)) -> spot L p q -> spot L' (c ++ p) q.
Proof.
  intros Hc Ho Hp HL. assert (in_comment (c ++ p) <-> in_comment p) as Hi by (split; [by apply in_comment_closed|apply in_comment_app]).
  pose proof (at_brace_closed c p Hc Hp) as Hb. unfold spot. rewrite Hi, Hb.
  intros [(H1 & H2)|[(H1 & t & H2 & H3 & H4)|(H1 & H2 & H3 & H4 & H5)]]; [left|right; left|right; right].
  - split; [done|]. intros x Hx. rewrite <- app_assoc. by apply HL, H2.
  - split; [done|]. exists t. split; [by apply inside_app|]. split.
    + intros n Hn. rewrite <- app_assoc. by apply HL, H3.
    + intros Ht Hq n b Hn Hb'. rewrite <- app_assoc. by apply HL, H4.
  - split; [done|]. split; [by intros [?|?]%opened_app|]. split_and!.
    + intros p0 x E Hx. destruct p as [|y p _] using rev_ind; [by destruct Hp; apply Forall_nil_2|]. rewrite app_assoc in E. apply app_inj_tail in E as [_ ->]. apply Hb. by eapply H3.
    + intros Ha n Hn. rewrite <- app_assoc. by apply HL, H4.
    + intros Hq n b Hn Hb'. rewrite <- app_assoc. by apply HL, H5.
Qed.
Lemma lines_start a s : lines a s -> exists v r, s = v ++ r /\ Forall blank_char v /\ stops space_char r /\ (r = [] -> v = []) /\ lines a r.
Proof.
  intros H. destruct (lines_blank a s H) as (r & (v & -> & Hv & Hb) & Hn & Hl). exists v, r. split; [done|]. split; [done|]. split.
  - destruct r as [|c r]; [done|]. cbn in *. intros [Hc|Hc]; [by apply Hb|by apply Hn].
  - split; [|done]. intros ->. rewrite app_nil_r in H. apply lines_space in H; [done|by apply blank_space].
Qed.
Lemma newline_space n : Forall newline_char n -> Forall space_char n.
Proof. intros H. eapply Forall_impl; [exact H|]. by right. Qed.
Lemma newline_not_blank c : newline_char c -> ~ blank_char c.
Proof. intros H1 H2. by apply (LayoutProofs.blank_not_nl c). Qed.
Lemma newlines_plain n : Forall newline_char n -> Forall plain_char n.
Proof. intros H. eapply Forall_impl; [exact H|exact newline_plain]. Qed.
Lemma lines_no_space a w q : lines a (w ++ lf :: q) -> ~ Forall space_char w.
Proof.
  intros (v & r & E & Hv & Hr & _)%lines_start Hw. apply cut in E as [(k & -> & _)|(p & -> & ->)].
  - apply Forall_app in Hv as [_ Hv]. apply Forall_cons in Hv as [Hv _]. by apply lf_not_blank.
  - destruct p as [|y p]; [by apply Hr, lf_space|]. apply Forall_app in Hw as [_ Hw]. apply Forall_cons in Hw as [Hw _]. by apply Hr.
Qed.
Lemma lines_more a r i : lines a r -> r ≠ [] -> Forall blank_char i -> lines a (i ++ r).
Proof.
  intros H Hr Hi. destruct H as [|a s r1 r2 r H1 H2 H3 Hl|e a s r1 r2 r3 r4 r H1 H2 H3 H4 H5 Hl|n t a s r1 r2 r3 r4 r5 r6 r H1 H2 Hx H3 H4 H5 H6 H7 Hl]; [done| | |];
    (apply (LayoutProofs.skip_run _ i) in H1; [|done]); econstructor; eassumption.
Qed.
Lemma tidy_runs k r : Forall space_char k -> ~ ragged (k ++ r) -> exists j i, k = j ++ i /\ Forall newline_char j /\ Forall blank_char i /\ (r = [] -> i = []).
Proof.
  induction k as [|x k IH]; intros Hk Hr; [by exists [], []|]. apply Forall_cons in Hk as [Hx Hk].
  destruct IH as (j & i & -> & Hj & Hi & He); [done| |].
  { intros (w & c & q' & E & Hw & Hc & Hq). apply Hr. exists (x :: w), c, q'. split; [by cbn; rewrite E|]. split; [by constructor|done]. }
  destruct Hx as [Hx|Hx].
  - destruct j as [|y j].
    + exists [], (x :: i). split; [done|]. split; [done|]. split; [by constructor|]. intros ->. exfalso. apply Hr. exists [], x, []. rewrite (He eq_refl). done.
    + exfalso. apply Hr. exists [], x, ((y :: j) ++ i ++ r). split; [exact (f_equal (cons x) (eq_sym (app_assoc (y :: j) i r)))|]. split; [done|]. split; [done|]. by apply Forall_cons in Hj as [? _].
  - exists (x :: j), i. split; [done|]. split; [by constructor|done].
Qed.
(** a comment on the rest of a line, and the lines that follow *)
Lemma lines_insert a n b k r : Forall blank_char n -> one_line b -> Forall newline_char k -> stops newline_char r -> lines a r -> lines a (n ++ hash :: b ++ lf :: k ++ r).
Proof.
  intros Hn Hb Hk Hr Hl. eapply lines_comment; [|by apply remark_lf| |exact Hl].
  - exists n. split; [done|]. split; [done|exact hash_not_blank].
  - exists (lf :: k). split; [done|]. split; [|done]. by constructor; [exact lf_newline|].
Qed.
Lemma hash_blanks_stop (P : ascii -> Prop) n b : ~ P hash -> (forall c, blank_char c -> ~ P c) -> Forall blank_char n -> stops P (n ++ hash :: b).
Proof. intros HP Hc Hn. destruct n as [|y n]; [done|]. apply Forall_cons in Hn as [Hn _]. by apply Hc. Qed.
Lemma skip_newlines_to u n b : Forall newline_char u -> Forall blank_char n -> skip newline_char (u ++ n ++ hash :: b) (n ++ hash :: b).
Proof. intros Hu Hn. exists u. split; [done|]. split; [done|]. apply hash_blanks_stop; [exact hash_not_newline|exact LayoutProofs.blank_not_nl|done]. Qed.
Lemma decl_any n t a s r1 r2 r3 r4 r5 : skip blank_char s r1 -> name n r1 r2 -> ~ txt "export" `prefix_of` n -> skip blank_char r2 r3 -> lit ":" r3 r4 -> skip blank_char r4 r5 ->
  exists pre, s = pre ++ r5 /\ Forall plain_char pre /\ lf ∉ pre /\ forall r5' r6 r, head r5' = head r5 -> body t r5' r6 -> skip space_char r6 r -> lines a r -> lines (NDecl (str n) t :: a) (pre ++ r5').
Proof.
  intros H1 H2 Hx H3 H4 H5. assert (bare s r5) as (pre & E & Hp) by (clear Hx; bares; bchain). exists pre. split; [done|]. split; [done|]. split.
  - destruct H1 as (c1 & -> & H1 & _), H2 as (-> & (H2 & _) & _), H3 as (c3 & -> & H3 & _), H5 as (c5 & E5 & H5 & _). unfold lit in H4. subst r3 r4.
    assert (pre = c1 ++ n ++ c3 ++ txt ":" ++ c5) as ->. { apply (app_inv_tail r5). rewrite <- E. by rewrite <- !app_assoc. }
    assert (forall P w, Forall P w -> ~ P lf -> lf ∉ w) as Hin by (intros P w HF HP Hi; rewrite Forall_forall in HF; by apply HP, HF).
    rewrite !elem_of_app. intros [H|[H|[H|[H|H]]]].
    + by eapply Hin; [exact H1|exact lf_not_blank|].
    + by eapply Hin; [exact H2|exact lf_not_name|].
    + by eapply Hin; [exact H3|exact lf_not_blank|].
    + revert H. dec.
    + by eapply Hin; [exact H5|exact lf_not_blank|].
  - apply hl_skip in H1 as (c1 & -> & K1). apply hl_name in H2 as (c2 & -> & K2). apply hl_skip in H3 as (c3 & -> & K3). apply hl_lit in H4 as (c4 & -> & K4). apply hl_skip in H5 as (c5 & -> & K5).
    assert (pre = c1 ++ c2 ++ c3 ++ c4 ++ c5) as ->. { apply (app_inv_tail r5). rewrite <- E. by rewrite <- !app_assoc. }
    intros r5' r6 r Hh Hb Hs Hl. rewrite <- !app_assoc. eapply lines_decl; [apply K1; hd|apply K2; hd|done|apply K3; hd|apply K4; hd|by apply K5|exact Hb|exact Hs|exact Hl].
Qed.
Lemma body_ends t s r : body t s r -> exists c, s = c ++ r /\ (forall r', body t (c ++ r') r') /\ finished c /\ ~ opened c /\ exists c', c = c' ++ txt "}" /\ finished c'.
Proof.
  intros Hb. destruct (any_body _ _ _ Hb) as (c & E & K). exists c. split; [done|]. split; [done|].
  destruct (body_shape _ _ _ (K [])) as (v & m & E1 & Hv & Hm & Hf & _). rewrite app_nil_r in E1. rewrite app_nil_r in E1. clear E Hb K.
  assert (finished (txt (keyword t) ++ v)) as Hkv. { apply plain_finished, Forall_app. split; [destruct t; dec|by apply blanks_plain]. }
  assert (finished (txt "{")) as Ho by (intros [|y x] z Ez; [done|]; by destruct x). assert (finished (txt "}")) as Hc by (intros [|y x] z Ez; [done|]; by destruct x).
  assert (finished (txt (keyword t) ++ v ++ txt "{" ++ m)) as Hall. { rewrite app_assoc. apply finished_app; [done|]. by apply finished_app. }
  split_and!.
  - rewrite E1. rewrite !app_assoc. apply finished_app; [|done]. by rewrite <- !app_assoc.
  - rewrite E1. rewrite app_assoc. intros [H|H]%opened_app.
    { revert H. apply no_brace_opened, no_brace_plain, Forall_app. split; [destruct t; dec|by apply blanks_plain]. }
    destruct H as (x & y & E & Hx & Hy). destruct x as [|z x]; cbn in E.
    + injection E as <-. destruct (Hy m "}"%char [] eq_refl) as (x & y & Ex & Hl); [by right|]. apply (line_no_lf _ Hl). exact (Hf _ _ Ex).
    + injection E as <- E. apply cut_sym in E as [(k & E & _)|(x' & -> & E)].
      * apply Hx. apply (in_comment_app (txt "{") x). apply (Hm x "{"%char k E). by left.
      * destruct x' as [|? [|??]]; done.
  - exists (txt (keyword t) ++ v ++ txt "{" ++ m). split; [by rewrite E1, <- !app_assoc|done].
Qed.
Lemma not_blank_last p0 (x : ascii) c y : p0 ++ [x] = c ++ [y] -> blank_char x -> ~ blank_char y -> False.
Proof. intros E Hx Hy. apply app_inj_tail in E as [_ ->]. done. Qed.
Lemma finished_no_comment c : finished c -> ~ in_comment c.
Proof. intros H (x & y & -> & Hy). apply (line_no_lf _ Hy). by apply (H x y). Qed.
Lemma newline_hash n : Forall newline_char n -> Forall (fun x => x ≠ hash) n.
Proof. intros H. eapply Forall_impl; [exact H|]. intros x Hx ->. by apply hash_not_newline. Qed.
Lemma lines_spot a s : lines a s -> NExport "" ∉ a -> forall p q, s = p ++ lf :: q -> spot (lines a) p q.
Proof.
  induction 1 as [|a s r1 r2 r H1 H2 H3 Hl IH|e a s r1 r2 r3 r4 r H1 H2 H3 H4 H5 Hl IH|n t a s r1 r2 r3 r4 r5 r6 r H1 H2 Hx H3 H4 H5 H6 H7 Hl IH]; intros Ha p q E.
  - by destruct p.
  - destruct H1 as (w & -> & Hw & Hs1), H2 as (b & -> & Hb & Hr2).
    apply cut_sym in E as [(k & E & _)|(p1 & -> & E)]; [by destruct (lf_not_blank (at_seg _ _ _ _ _ Hw E))|].
    apply (cut_sym p1 lf q (hash :: b) r2) in E as [(k & E & _)|(p2 & -> & E)].
    { exfalso. apply (line_no_lf (hash :: b)); [by constructor|]. rewrite E. apply elem_of_app. right. left. }
    destruct Hr2 as [->|[q0 ->]]; [by destruct p2|]. destruct p2 as [|y p2].
    + injection E as ->. left. split; [exists w, b; by rewrite app_nil_r|]. intros x Hx. eapply lines_comment; [| |exact H3|exact Hl].
      * exists w. split; [by rewrite app_nil_r, <- !app_assoc|]. split; [done|exact hash_not_blank].
      * replace ((hash :: b) ++ x ++ lf :: q) with (hash :: (b ++ x) ++ lf :: q) by by cbn; rewrite <- ?app_assoc. apply remark_lf. by apply Forall_app.
    + injection E as <- ->. assert (forall z, (w ++ (hash :: b) ++ lf :: p2) ++ z = w ++ hash :: b ++ lf :: p2 ++ z) as Eq by (intros z; rewrite <- !app_assoc; cbn; by rewrite <- ?app_assoc).
      assert (forall z r', skip newline_char (lf :: p2 ++ z) r' -> lines a r' -> lines a ((w ++ (hash :: b) ++ lf :: p2) ++ z)) as Fin.
      { intros z r' K1 K2. rewrite Eq. eapply lines_comment; [|by apply remark_lf|exact K1|exact K2]. exists w. split; [done|]. split; [done|exact hash_not_blank]. }
      destruct H3 as (u & E & Hu & Hs3). destruct u as [|y u]; [exfalso; cbn in E; subst r; by apply Hs3, lf_newline|]. cbn in E. injection E as <- E. apply Forall_cons in Hu as [_ Hu].
      apply cut in E as [(k & -> & ->)|(p3 & -> & ->)].
      * apply Forall_app in Hu as [Hu Hk]. apply Forall_cons in Hk as [_ Hk]. assert (no_brace (w ++ (hash :: b) ++ lf :: p2)) as Hnb.
        { apply no_brace_app; [by apply no_brace_plain, blanks_plain|]. apply no_brace_app; [by apply no_brace_remark|]. apply no_brace_plain, newlines_plain. by constructor; [exact lf_newline|]. }
        right. right. split_and!.
        -- apply finished_no_comment, finished_app; [by apply plain_finished, blanks_plain|]. apply finished_line; [done|by apply newline_space].
        -- by apply no_brace_opened.
        -- intros p0 x Ep Hx. exfalso. destruct p2 as [|y p2 _] using rev_ind.
           ++ rewrite app_assoc in Ep. symmetry in Ep. by apply not_blank_last in Ep; [|done|exact lf_not_blank].
           ++ apply Forall_app in Hu as [_ Hu]. apply Forall_cons in Hu as [Hu _]. change (lf :: p2 ++ [y]) with ((lf :: p2) ++ [y]) in Ep. rewrite !app_assoc in Ep. symmetry in Ep. apply not_blank_last in Ep; [done|done|by apply newline_not_blank].
        -- intros Hat. by apply no_brace_at in Hat.
        -- intros _ n b' Hn Hb'. eapply Fin; [|by apply (lines_insert a n b' k r)]. change (lf :: p2 ++ n ++ hash :: b' ++ lf :: k ++ r) with ((lf :: p2) ++ n ++ hash :: b' ++ lf :: k ++ r).
           apply skip_newlines_to; [|done]. by constructor; [exact lf_newline|].
      * replace (w ++ (hash :: b) ++ lf :: u ++ p3) with ((w ++ hash :: b ++ lf :: u) ++ p3) by (rewrite <- !app_assoc; cbn; by rewrite <- ?app_assoc).
        apply (spot_lift (lines a)).
        -- apply finished_app; [by apply plain_finished, blanks_plain|]. apply finished_line; [done|by apply newline_space].
        -- apply no_brace_opened. apply no_brace_app; [by apply no_brace_plain, blanks_plain|]. apply (no_brace_app (hash :: b)); [by apply no_brace_remark|]. apply no_brace_plain, newlines_plain. by constructor; [exact lf_newline|].
        -- by eapply lines_no_space.
        -- intros z Hz. specialize (Fin z (p3 ++ z)). replace ((w ++ hash :: b ++ lf :: u) ++ p3 ++ z) with ((w ++ (hash :: b) ++ lf :: u ++ p3) ++ z) by (rewrite <- !app_assoc; cbn; by rewrite <- ?app_assoc).
           apply Fin; [|done]. exists (lf :: u). split; [exact (f_equal (cons lf) (eq_sym (app_assoc u p3 z)))|]. split; [by constructor; [exact lf_newline|]|].
           destruct p3 as [|y p3]; [|done]. by destruct Hs3; apply lf_newline.
        -- by apply IH.
  - assert (e ≠ []) as He. { intros ->. apply Ha. left. }
    assert (bare s r4) as (c & -> & Hc) by (clear H5 IH Hl E; bares; bchain). assert (lf ∉ c /\ exists c' y, c = c' ++ [y] /\ ~ blank_char y) as [Hlf Hlast].
    { destruct H1 as (c1 & E1 & H1 & _), H3 as (c3 & -> & H3 & _), H4 as (-> & H4 & _). unfold lit in H2. subst r1. assert (c = c1 ++ txt "export" ++ c3 ++ e) as ->.
      { apply (app_inv_tail r4). rewrite E1. by rewrite <- !app_assoc. } split.
      - assert (forall P w, Forall P w -> ~ P lf -> lf ∉ w) as Hin by (intros P w HF HP Hi; rewrite Forall_forall in HF; by apply HP, HF).
        rewrite !elem_of_app. intros [H|[H|[H|H]]]; [by eapply Hin; [exact H1|exact lf_not_blank|]|revert H; dec|by eapply Hin; [exact H3|exact lf_not_blank|]|by eapply Hin; [exact H4|exact lf_not_name|]].
      - destruct e as [|y e _] using rev_ind; [done|]. exists (c1 ++ txt "export" ++ c3 ++ e), y. split; [by rewrite <- !app_assoc|]. apply Forall_app in H4 as [_ H4]. apply Forall_cons in H4 as [H4 _].
        intros Hy. apply (space_not_name y); [by left|done]. }
    assert (forall z r', stops name_char z -> skip newline_char z r' -> lines a r' -> lines (NExport (str e) :: a) (c ++ z)) as Fin.
    { clear IH E. intros z r' K1 K2 K3. destruct H1 as (c1 & E1 & H1 & S1), H3 as (c3 & -> & H3 & S3), H4 as (-> & H4 & S4). unfold lit in H2. subst r1. assert (c = c1 ++ txt "export" ++ c3 ++ e) as ->.
      { apply (app_inv_tail r4). rewrite E1. by rewrite <- !app_assoc. } rewrite <- !app_assoc. eapply lines_export; [by exists c1| done | |split; [done|split; [done|exact K1]]|exact K2|exact K3].
      exists c3. split; [done|]. split; [done|]. by destruct e. }
    apply cut_sym in E as [(k & E & _)|(p1 & -> & ->)]; [exfalso; apply Hlf; rewrite E; apply elem_of_app; right; left|].
    destruct H5 as (u & E & Hu & Hs5). apply cut in E as [(k & -> & ->)|(p2 & -> & ->)].
    + apply Forall_app in Hu as [Hu Hk]. apply Forall_cons in Hk as [_ Hk]. assert (Forall plain_char (c ++ p1)) as Hpl by (apply Forall_app; split; [done|by apply newlines_plain]).
      right. right. split_and!.
      * by apply finished_no_comment, plain_finished.
      * by apply no_brace_opened, no_brace_plain.
      * intros p0 x Ep Hx. exfalso. destruct p1 as [|y p1 _] using rev_ind.
        -- destruct Hlast as (c' & y & -> & Hy). rewrite app_nil_r in Ep. symmetry in Ep. by apply not_blank_last in Ep.
        -- apply Forall_app in Hu as [_ Hu]. apply Forall_cons in Hu as [Hu _]. rewrite app_assoc in Ep. symmetry in Ep. apply not_blank_last in Ep; [done|done|by apply newline_not_blank].
      * intros Hat. by apply no_brace_at in Hat; [|apply no_brace_plain].
      * intros _ n b Hn Hb. rewrite <- app_assoc. eapply Fin; [| |by apply (lines_insert a n b k r)]; [|by apply skip_newlines_to].
        destruct p1 as [|y p1].
        -- cbn. apply hash_blanks_stop; [exact hash_not_name| |done]. intros y Hy. apply space_not_name. by left.
        -- apply Forall_cons in Hu as [Hu _]. cbn. apply space_not_name. by right.
    + rewrite app_assoc. assert (p2 ≠ []) as Hp2 by (intros ->; by apply Hs5, lf_newline). apply (spot_lift (lines a)).
      * apply finished_app; [by apply plain_finished|by apply plain_finished, newlines_plain].
      * apply no_brace_opened, no_brace_app; [by apply no_brace_plain|by apply no_brace_plain, newlines_plain].
      * by eapply lines_no_space.
      * intros z Hz. rewrite <- app_assoc. eapply Fin; [| |exact Hz].
        -- destruct H4 as (_ & _ & S4). eapply stops_head; [|exact S4]. rewrite <- (app_assoc u p2). apply heads. by destruct p2.
        -- exists u. split; [done|]. split; [done|]. by destruct p2.
      * apply IH; [|done]. intros H. apply Ha. by right.
  - destruct (decl_any n t a s r1 r2 r3 r4 r5 H1 H2 Hx H3 H4 H5) as (pre & -> & Hpre & Hlf & Fin). clear H1 H2 H3 H4 H5.
    assert (finished pre) as Hpf by by apply plain_finished.
    apply cut_sym in E as [(k & E & _)|(p1 & -> & ->)]; [exfalso; apply Hlf; rewrite E; apply elem_of_app; right; left|].
    destruct (body_ends _ _ _ H6) as (B & E & HB & HBf & HBo & B' & EB & HBf'). apply cut in E as [(k & E & ->)|(p2 & -> & ->)].
    + destruct (body_inside _ _ _ _ _ H6 eq_refl) as (v & p2 & -> & Hv & Hp2). set (p1 := txt (keyword t) ++ v ++ txt "{" ++ p2) in *.
      assert (forall z, body t (p1 ++ z) r6 -> lines (NDecl (str n) t :: a) ((pre ++ p1) ++ z)) as Lift.
      { intros z Hz. rewrite <- app_assoc. eapply Fin; [|exact Hz|exact H7|exact Hl]. unfold p1. by destruct t. }
      assert (inside (keyword t) (pre ++ p1)) as Hins. { exists pre, v, p2. split; [done|]. split; [done|]. split; [|done]. by apply finished_no_comment. }
      assert (in_comment (pre ++ p1) <-> in_comment p1) as Hi by (split; [by apply in_comment_closed|apply in_comment_app]).
      destruct (body_cut _ _ _ _ _ H6 eq_refl) as [(J1 & J2)|(J1 & J2 & J3)].
      * left. split; [by apply Hi|]. intros x Hx'. by apply Lift, J2.
      * right. left. split; [by rewrite Hi|]. exists t. split; [done|]. split; [intros m Hm; by apply Lift, J2|]. intros Ht Hq m b Hm Hb. by apply Lift, J3.
    + assert (forall z r', skip space_char z r' -> lines a r' -> lines (NDecl (str n) t :: a) ((pre ++ B) ++ z)) as Lift.
      { intros z r' K1 K2. rewrite <- app_assoc. eapply Fin; [|apply HB|exact K1|exact K2]. rewrite EB. by destruct B'. }
      rewrite app_assoc. assert (finished (pre ++ B)) as Hf by by apply finished_app. assert (~ opened (pre ++ B)) as Ho.
      { intros [H|H]%opened_app; [|done]. by apply no_brace_opened in H; [|apply no_brace_plain]. }
      destruct H7 as (u & E & Hu & Hs7). apply cut in E as [(k & -> & ->)|(p3 & -> & ->)].
      * apply Forall_app in Hu as [Hu Hk]. apply Forall_cons in Hk as [_ Hk]. assert (Forall plain_char p2) as Hp2 by (eapply Forall_impl; [exact Hu|exact space_plain]).
        assert (at_brace ((pre ++ B) ++ p2)) as Hat.
        { exists (pre ++ B'), p2. split; [by rewrite EB, <- !app_assoc|]. split; [done|]. by apply finished_no_comment, finished_app. }
        right. right. split_and!.
        -- apply finished_no_comment, finished_app; [done|by apply plain_finished].
        -- intros [H|H]%opened_app; [done|]. by apply no_brace_opened in H; [|apply no_brace_plain].
        -- done.
        -- intros _ m Hm. rewrite <- (app_assoc (pre ++ B)). eapply Lift; [|exact Hl]. exists (p2 ++ m ++ lf :: k). split; [by rewrite <- !app_assoc|]. split; [|done].
           repeat (apply Forall_app; split); try done; [by apply blank_space|]. by constructor; [exact lf_space|].
        -- intros Hq m b Hm Hb. rewrite <- (app_assoc (pre ++ B)). destruct (tidy_runs k r Hk Hq) as (j & i & -> & Hj & Hi & He). rewrite <- (app_assoc j i r).
           eapply (Lift _ (hash :: b ++ lf :: j ++ i ++ r)).
           ++ exists (p2 ++ m). split; [by rewrite <- app_assoc|]. split; [|exact hash_not_space]. apply Forall_app. split; [done|by apply blank_space].
           ++ apply (lines_insert a [] b j (i ++ r)); [done..| |].
              { destruct i as [|y i]; [by apply stops_space_newline|]. apply Forall_cons in Hi as [Hi _]. cbn. by apply LayoutProofs.blank_not_nl. }
              destruct (decide (r = [])) as [->|Hr]; [by rewrite (He eq_refl)|]. by apply lines_more.
      * assert (p3 ≠ []) as Hp3 by (intros ->; by apply Hs7, lf_space). rewrite app_assoc. assert (Forall plain_char u) as Hup by (eapply Forall_impl; [exact Hu|exact space_plain]). apply (spot_lift (lines a)).
        -- apply finished_app; [done|by apply plain_finished].
        -- intros [H|H]%opened_app; [done|]. by apply no_brace_opened in H; [|apply no_brace_plain].
        -- by eapply lines_no_space.
        -- intros z Hz. rewrite <- (app_assoc (pre ++ B)). eapply Lift; [|exact Hz]. exists u. split; [done|]. split; [done|]. by destruct p3.
        -- apply IH; [|done]. intros H. apply Ha. by right.
Qed.
Lemma layout_spot a p q : layout a (p ++ lf :: q) -> NExport "" ∉ a -> spot (layout a) p q.
Proof.
  intros (r & (u & E & Hu & Hs) & Hl) Ha. apply cut in E as [(k & -> & ->)|(p1 & -> & ->)].
  - apply Forall_app in Hu as [Hu Hk]. apply Forall_cons in Hk as [_ Hk]. pose proof (newlines_plain _ Hu) as Hp. right. right. split_and!.
    + by apply finished_no_comment, plain_finished.
    + by apply no_brace_opened, no_brace_plain.
    + intros p0 x -> Hx. apply Forall_app in Hu as [_ Hu]. apply Forall_cons in Hu as [Hu _]. by apply newline_not_blank in Hu.
    + intros Hat. by apply no_brace_at in Hat; [|apply no_brace_plain].
    + intros _ n b Hn Hb. exists (n ++ hash :: b ++ lf :: k ++ r). split; [by apply skip_newlines_to|]. by apply lines_insert.
  - apply (spot_lift (lines a)).
    + by apply plain_finished, newlines_plain.
    + by apply no_brace_opened, no_brace_plain, newlines_plain.
    + by eapply lines_no_space.
    + intros z Hz. exists (p1 ++ z). split; [|done]. exists u. split; [done|]. split; [done|]. destruct p1 as [|y p1]; [|done]. by destruct Hs; apply lf_newline.
    + by eapply lines_spot.
Qed.

(** ** Where comments are *)
Lemma line_fun b q b' r : b ++ lf :: q = b' ++ r -> one_line b -> one_line b' -> r = [] \/ (exists q', r = lf :: q') -> b = b' /\ r = lf :: q.
Proof.
  intros E Hb Hb' Hr. apply cut in E as [(k & -> & _)|(p & -> & ->)].
  - exfalso. apply (line_no_lf _ Hb'). apply elem_of_app. right. left.
  - destruct p as [|y p]; [by rewrite app_nil_r|]. destruct Hr as [Hr|[q' Hr]]; [done|]. injection Hr as -> _. apply Forall_app in Hb as [_ Hb]. by apply Forall_cons in Hb as [[] _].
Qed.
Lemma not_in_hash (P : ascii -> Prop) c p k : Forall P c -> ~ P hash -> c ≠ p ++ hash :: k.
Proof. intros HF HP E. by apply HP, (at_seg _ _ _ _ _ HF E). Qed.
Lemma fields_no_comma fs s r : fields fs s r -> head r = Some "}"%char -> head s ≠ Some ","%char.
Proof.
  destruct 1 as [r|fs s r1 r2 r H1|n o t a c fs s r1 r2 r3 r4 r5 r6 r7 r8 r9 r10 r H1]; intros Hr.
  - by rewrite Hr.
  - by destruct H1 as (b & -> & _).
  - destruct H1 as (-> & (HF & (y & w & -> & Hy) & _) & _). cbn. intros [= ->]. revert Hy. dec.
Qed.
Lemma fields_hash fs s r : fields fs s r -> head r = Some "}"%char -> forall p k b q, s = p ++ hash :: k ++ r -> k ++ r = b ++ lf :: q -> one_line b -> in_comment p \/ ~ comma_next q.
Proof.
  induction 1 as [r|fs s r1 r2 r H1 H2 Hf IH|n o t a c fs s r1 r2 r3 r4 r5 r6 r7 r8 r9 r10 r H1 H2 H3 H4 H5 H6 H7 H8 H9 H10 Hf IH]; intros Hr p k b q E Eb Hb.
  - by apply self_app in E.
  - destruct H1 as (b0 & -> & Hb0 & Hr1). destruct p as [|y p].
    + right. injection E as E. rewrite Eb in E. symmetry in E. apply line_fun in E as [-> ->]; [|done..]. intros (w & q' & -> & Hw).
      assert (skip space_char (lf :: w ++ txt "," ++ q') (txt "," ++ q')) as H2'. { exists (lf :: w). split; [done|]. split; [by constructor; [exact lf_space|]|dec]. }
      rewrite (skip_fun _ _ _ _ H2 H2') in Hf. by apply fields_no_comma in Hf.
    + injection E as <- E. apply cut_sym in E as [(j & -> & _)|(p1 & -> & E)].
      * left. exists [], p. split; [done|]. by apply Forall_app in Hb0 as [? _].
      * destruct H2 as (w & -> & Hw & Hs2). apply cut_sym in E as [(j & E & _)|(p2 & -> & E)]; [by apply (not_in_hash _ _ _ _ Hw hash_not_space) in E|].
        destruct (IH Hr p2 k b q E Eb Hb) as [H|H]; [left|by right]. replace ("#"%char :: b0 ++ w ++ p2) with (("#"%char :: b0 ++ w) ++ p2) by (cbn; by rewrite <- ?app_assoc). by apply in_comment_app.
  - assert (clean s r10) as (d & -> & Hd).
    { clear E IH Hf. apply name_clean in H1. apply (skip_clean _ _ _ hash_not_blank) in H2. apply perhaps_clean in H3; [|dec]. apply lit_clean in H4; [|dec]. apply (skip_clean _ _ _ hash_not_blank) in H5.
      apply word_clean in H6. apply perhaps_clean in H7; [|dec]. apply (skip_clean _ _ _ hash_not_space) in H8. apply perhaps_clean in H9; [|dec]. apply (skip_clean _ _ _ hash_not_space) in H10.
      repeat (eapply clean_trans; [eassumption|]). apply clean_refl. }
    apply cut_sym in E as [(j & E & _)|(p2 & -> & E)]; [by apply (not_in_hash _ _ _ _ Hd) in E; [|intros []]|].
    destruct (IH Hr p2 k b q E Eb Hb) as [H|H]; [left|by right]. by apply in_comment_app.
Qed.
Lemma body_hash t s r p k b q : body t s r -> s = p ++ hash :: k ++ r -> k ++ r = b ++ lf :: q -> one_line b -> in_comment p \/ (inside "struct" p /\ ~ comma_next q).
Proof.
  intros Hb E Eb Hl. destruct (body_shape _ _ _ Hb) as (v & m & Es & Hv & Hm & Hf & Ht). pose proof E as E'. rewrite Es in E'.
  apply cut_sym in E' as [(j & E' & _)|(p1 & -> & E')]; [by apply (not_in_hash _ _ _ _ (keyword_no_hash t)) in E'; [|intros []]|].
  apply cut_sym in E' as [(j & E' & _)|(p2 & -> & E')]; [by apply (not_in_hash _ _ _ _ Hv hash_not_blank) in E'|].
  apply cut_sym in E' as [(j & E' & _)|(p3 & -> & E')]; [by destruct p2 as [|? [|??]]|].
  apply cut_sym in E' as [(j & E' & Ek)|(p4 & -> & E')]; [|exfalso; destruct p4 as [|? p4]; [done|]; injection E' as _ E'; by apply self_app in E'].
  destruct t as [vs|fs]; [rewrite E' in Ht; apply Forall_app in Ht as [_ Ht]; apply Forall_cons in Ht as [[[] _] _]; done|]. cbn [keyword] in *.
  assert (in_comment p3 \/ ~ comma_next q) as [H|H]; [|left|right; split; [|done]].
  - clear Es E'. inversion Hb as [|? ? r1 r2 r3 r4 r5 ? H1 H2 H3 H4 H5 H6]; subst. unfold lit in *. subst r2 r5. rewrite <- !app_assoc in H1. apply app_inv_head in H1. subst r1.
    assert (skip blank_char (v ++ txt "{" ++ p3 ++ hash :: k ++ r) (txt "{" ++ p3 ++ hash :: k ++ r)) as H2' by (eexists; split; [done|split; [done|dec]]).
    pose proof (skip_fun _ _ _ _ H2 H2') as E3. injection E3 as ->. destruct H4 as (w & E4 & Hw & Hs4).
    apply (cut p3 hash) in E4 as [(j' & -> & _)|(p5 & -> & ->)]; [by exfalso; eapply (not_in_hash _ _ p3 j' Hw hash_not_space)|].
    rewrite Ek in *. destruct (fields_hash _ _ _ H5 eq_refl p5 j b q eq_refl Eb Hl) as [H|H]; [left; by apply in_comment_app|by right].
  - rewrite !app_assoc. by apply in_comment_app.
  - exists [], v, p3. split; [done|]. split; [done|]. split; [by intros (? & ? & H' & _); destruct x|]. rewrite E' in Hm. by eapply no_brace_prefix.
Qed.
Lemma fits_lift c p q : finished c -> ~ opened c -> comment_fits p q -> comment_fits (c ++ p) q.
Proof.
  intros Hc Ho [H|[[H1 H2]|[H1 H2]]]; [left|right; left|right; right].
  - by apply in_comment_app.
  - split; [by apply inside_app|done].
  - split; [|done]. by intros [?|?]%opened_app.
Qed.
Lemma lines_not_ragged a k r : Forall newline_char k -> lines a r -> ~ ragged (k ++ r).
Proof.
  intros Hk (v & r0 & -> & Hv & Hs & He & _)%lines_start (w & c & q & E & Hw & Hc & Hq).
  apply cut_sym in E as [(j & E & _)|(w1 & -> & E)]; [by destruct (newline_not_blank c (at_seg _ _ _ _ _ Hk E))|].
  apply cut_sym in E as [(j & -> & ->)|(w2 & -> & E)].
  - destruct j as [|y j].
    + destruct r0 as [|z r0]; [by destruct w1; specialize (He eq_refl)|]. cbn in Hq. by apply Hs; right.
    + apply Forall_app in Hv as [_ Hv]. apply Forall_cons in Hv as [_ Hv]. apply Forall_cons in Hv as [Hv _]. cbn in Hq. by apply newline_not_blank in Hq.
  - subst r0. apply Forall_app in Hw as [_ Hw]. apply Forall_app in Hw as [_ Hw]. destruct w2 as [|y w2]; [by apply Hs; left|]. apply Forall_cons in Hw as [Hw _]. by apply Hs.
Qed.
Lemma lines_comment_fits a s : lines a s -> forall p b q, s = p ++ hash :: b ++ lf :: q -> one_line b -> comment_fits p q.
Proof.
  induction 1 as [|a s r1 r2 r H1 H2 H3 Hl IH|e a s r1 r2 r3 r4 r H1 H2 H3 H4 H5 Hl IH|n t a s r1 r2 r3 r4 r5 r6 r H1 H2 Hx H3 H4 H5 H6 H7 Hl IH]; intros p b q E Hb.
  - by destruct p.
  - destruct H1 as (w & -> & Hw & Hs1), H2 as (b0 & -> & Hb0 & Hr2).
    apply cut_sym in E as [(k & E & _)|(p1 & -> & E)]; [by apply (not_in_hash _ _ _ _ Hw hash_not_blank) in E|].
    destruct p1 as [|y p1].
    + injection E as E. symmetry in E. apply line_fun in E as [-> ->]; [|done..]. right. right. rewrite app_nil_r. split; [by apply no_brace_opened, no_brace_plain, blanks_plain|].
      destruct H3 as (u & E & Hu & Hs3). destruct u as [|y u]; [exfalso; cbn in E; subst r; by apply Hs3, lf_newline|]. injection E as _ ->. apply Forall_cons in Hu as [_ Hu].
      by eapply lines_not_ragged.
    + injection E as <- E. apply cut_sym in E as [(j & -> & _)|(p2 & -> & E)].
      * left. exists w, p1. split; [done|]. by apply Forall_app in Hb0 as [? _].
      * destruct Hr2 as [->|[q0 ->]]; [by destruct p2|]. destruct H3 as (u & E3 & Hu & Hs3). destruct u as [|y u]; [exfalso; cbn in E3; subst r; by apply Hs3, lf_newline|]. injection E3 as <- ->.
        change (lf :: u ++ r = p2 ++ hash :: b ++ lf :: q) in E. apply (cut_sym p2 hash _ (lf :: u) r) in E as [(j & E & _)|(p3 & -> & E)]; [by apply (not_in_hash _ _ _ _ Hu hash_not_newline) in E|].
        apply Forall_cons in Hu as [_ Hu].
        replace (w ++ "#"%char :: b0 ++ (lf :: u) ++ p3) with ((w ++ hash :: b0 ++ lf :: u) ++ p3) by (rewrite <- !app_assoc; cbn; by rewrite <- ?app_assoc).
        apply fits_lift; [| |by eapply IH].
        -- apply finished_app; [by apply plain_finished, blanks_plain|]. apply finished_line; [done|by apply newline_space].
        -- apply no_brace_opened. apply no_brace_app; [by apply no_brace_plain, blanks_plain|]. apply (no_brace_app (hash :: b0)); [by apply no_brace_remark|]. apply no_brace_plain, newlines_plain. by constructor; [exact lf_newline|].
  - assert (bare s r) as (c & -> & Hc) by (clear Hl IH E; bares; bchain).
    apply cut_sym in E as [(j & E & _)|(p1 & -> & E)]; [apply (not_in_hash _ _ _ _ Hc) in E; [done|by intros []]|].
    apply fits_lift; [by apply plain_finished|by apply no_brace_opened, no_brace_plain|by eapply IH].
  - destruct (decl_any n t a s r1 r2 r3 r4 r5 H1 H2 Hx H3 H4 H5) as (pre & -> & Hpre & Hlf & _). clear H1 H2 H3 H4 H5.
    apply cut_sym in E as [(j & E & _)|(p1 & -> & E)]; [apply (not_in_hash _ _ _ _ Hpre) in E; [done|by intros []]|].
    apply fits_lift; [by apply plain_finished|by apply no_brace_opened, no_brace_plain|].
    destruct (body_ends _ _ _ H6) as (B & EB & HB & HBf & HBo & _). rewrite E in EB. apply cut in EB as [(k & _ & Ek)|(p2 & -> & E2)].
    + symmetry in Ek. rewrite <- Ek in E. destruct (body_hash _ _ _ _ _ _ _ H6 E Ek Hb) as [H|H]; [by left|by right; left].
    + apply fits_lift; [done..|]. destruct H7 as (u & -> & Hu & Hs7). apply cut_sym in E2 as [(j & E2 & _)|(p3 & -> & E2)]; [by apply (not_in_hash _ _ _ _ Hu hash_not_space) in E2|].
      assert (Forall plain_char u) as Hup by (eapply Forall_impl; [exact Hu|exact space_plain]).
      apply fits_lift; [by apply plain_finished|by apply no_brace_opened, no_brace_plain|by eapply IH].
Qed.
Lemma layout_comment_fits a p b q : layout a (p ++ hash :: b ++ lf :: q) -> one_line b -> comment_fits p q.
Proof.
  intros (r & (u & E & Hu & Hs) & Hl) Hb. apply cut in E as [(k & E & _)|(p1 & -> & ->)]; [by apply (not_in_hash _ _ _ _ Hu hash_not_newline) in E|].
  apply fits_lift; [by apply plain_finished, newlines_plain|by apply no_brace_opened, no_brace_plain, newlines_plain|by eapply lines_comment_fits].
Qed.

(** ** The criteria *)
Lemma blanks_criterion p q n a : parse_schema (p ++ [lf] ++ q) = POk a -> NExport "" ∉ a -> blanks n ->
  parse_schema (p ++ n ++ [lf] ++ q) = POk a <-> blanks_fit p.
Proof.
  intros H Ha [Hn Hne]. apply parse_schema_ok in H. rewrite parse_schema_ok. split.
  - intros H2. cbn in H2. rewrite app_assoc in H2. apply layout_spot in H2 as [(H1 & _)|[(_ & t & H1 & _)|(_ & _ & H1 & _)]]; [| | |done].
    + left. eapply in_comment_snoc; [|exact H1]. by apply blank_no_hash.
    + right. left. apply inside_opened in H1. by apply opened_blanks in H1.
    + right. right. apply (at_brace_blanks p n Hn). destruct n as [|x n _] using rev_ind; [done|]. apply (H1 (p ++ n) x); [by rewrite app_assoc|].
      apply Forall_app in Hn as [_ Hn]. by apply Forall_cons in Hn as [? _].
  - intros Hf. destruct (layout_spot a p q H Ha) as [(_ & H1)|[(Hc & t & _ & H1 & _)|(Hc & Ho & _ & H1 & _)]].
    + apply H1. by apply blank_one_line.
    + by apply H1.
    + destruct Hf as [Hf|[Hf|Hf]]; [done..|]. by apply H1.
Qed.
Lemma comments_criterion p q n b a : parse_schema (p ++ [lf] ++ q) = POk a -> NExport "" ∉ a -> Forall blank_char n -> one_line b ->
  parse_schema (p ++ n ++ txt "#" ++ b ++ [lf] ++ q) = POk a <-> comment_fits p q.
Proof.
  intros H Ha Hn Hb. apply parse_schema_ok in H. rewrite parse_schema_ok. split.
  - intros H2. rewrite app_assoc in H2. apply layout_comment_fits in H2; [|done]. destruct H2 as [H2|[[H2 H3]|[H2 H3]]]; [left|right; left|right; right].
    + eapply in_comment_snoc; [|exact H2]. by apply blank_no_hash.
    + split; [|done]. by eapply inside_blanks.
    + split; [|done]. by rewrite opened_blanks in H2.
  - intros Hf. destruct (layout_spot a p q H Ha) as [(_ & H1)|[(Hc & t & Ht & _ & H1)|(Hc & Ho & _ & _ & H1)]].
    + specialize (H1 (n ++ txt "#" ++ b)). rewrite <- !app_assoc in H1. apply H1. apply Forall_app. split; [by apply blank_one_line|]. by apply Forall_cons.
    + destruct Hf as [Hf|[[Hf Hq]|[Hf _]]]; [done| |]; [|by apply inside_opened in Ht]. apply H1; [by eapply inside_only|done..].
    + destruct Hf as [Hf|[[Hf Hq]|[Hf Hq]]]; [done| |]; [|by apply H1]. by apply (inside_opened (AStruct [])) in Hf.
Qed.
