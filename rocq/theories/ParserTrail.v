(** White space after the last declaration of a text changes nothing (C48). *)
From Verif Require Import ParserProofs2.

(** ** White space after a declaration at the end of the text *)
Lemma lines_space a s : lines a s -> Forall space_char s -> s = [].
Proof.
  assert (forall s r1, skip blank_char s r1 -> Forall space_char s -> Forall space_char r1) as Hb.
  { intros s' r1 (v & -> & _) HF. by apply Forall_app in HF as [_ ?]. }
  destruct 1 as [|a s r1 r2 r H1 H2 H3 Hl|e a s r1 r2 r3 r4 r H1 H2 H3 H4 H5 Hl
      |n t a s r1 r2 r3 r4 r5 r6 r H1 H2 Hx H3 H4 H5 H6 H7 Hl]; [done|..]; intros HF;
    pose proof (Hb _ _ H1 HF) as HF1; exfalso.
  - destruct H2 as (b & -> & _). apply Forall_cons in HF1 as [HF1 _]. revert HF1.
    apply (bool_decide_unpack _). vm_compute. exact I.
  - unfold lit in H2. subst r1. apply Forall_cons in HF1 as [HF1 _]. revert HF1.
    apply (bool_decide_unpack _). vm_compute. exact I.
  - destruct H2 as (-> & (HN & (c & n' & -> & _) & _) & _). apply Forall_cons in HF1 as [HF1 _].
    apply Forall_cons in HN as [HN _]. by apply (space_not_name c).
Qed.
(** Every comment of [s] is finished. *)
Definition finished (s : text) : Prop := forall p q, s = p ++ "#"%char :: q -> lf ∈ q.
Lemma finished_drop p s : finished (p ++ s) -> finished s.
Proof. intros H p' q ->. apply (H (p ++ p')). by rewrite app_assoc. Qed.
Lemma brace_split c r s1 w0 : Forall space_char w0 -> s1 ++ "}"%char :: w0 = c ++ r ->
  (exists s2, s1 = c ++ s2 /\ r = s2 ++ "}"%char :: w0) \/
  (exists c2, c = s1 ++ "}"%char :: c2 /\ Forall space_char r).
Proof.
  intros Hw E. apply app_eq_inv in E as [(k & -> & ->)|(k & -> & E)]; [left; by exists k|].
  destruct k as [|x k]; simpl in E; [left; exists []; by rewrite !app_nil_r|].
  injection E as <- ->. right. exists k. split; [done|]. by apply Forall_app in Hw as [_ ?].
Qed.
Lemma skip_suf P s r : skip P s r -> r `suffix_of` s.
Proof. intros (v & -> & _). by exists v. Qed.
Lemma lit_suf l s r : lit l s r -> r `suffix_of` s.
Proof. intros ->. by eexists. Qed.
Lemma perhaps_suf l b s r : perhaps l b s r -> r `suffix_of` s.
Proof. destruct b; simpl; [apply lit_suf|]. by intros [-> _]. Qed.
Lemma word_suf n s r : word n s r -> r `suffix_of` s.
Proof. intros (-> & _). by exists n. Qed.
Lemma name_suf n s r : name n s r -> r `suffix_of` s.
Proof. intros (-> & _). by exists n. Qed.
Lemma remark_suf s r : remark s r -> r `suffix_of` s.
Proof. intros (b & -> & _). exists (txt "#" ++ b). by rewrite <-app_assoc. Qed.
Lemma body_suf t s r : body t s r -> r `suffix_of` s.
Proof.
  assert (forall vs s r, variants vs s r -> r `suffix_of` s) as Hv.
  { induction 1 as [|v c vs s' r1 r2 r3 r4 r' H1%name_suf H2%skip_suf H3%perhaps_suf H4%skip_suf Hv IH]; [done|].
    by repeat (etrans; [|eassumption]). }
  assert (forall fs s r, fields fs s r -> r `suffix_of` s) as Hf.
  { induction 1 as [|fs s' r1 r2 r' H1%remark_suf H2%skip_suf Hf IH
       |n o t' a c fs s' r1 r2 r3 r4 r5 r6 r7 r8 r9 r10 r' H1%name_suf H2%skip_suf H3%perhaps_suf H4%lit_suf H5%skip_suf
         H6%word_suf H7%perhaps_suf H8%skip_suf H9%perhaps_suf H10%skip_suf Hf IH]; [done|..];
    by repeat (etrans; [|eassumption]). }
  destruct 1 as [vs s r1 r2 r3 r4 r5 r H1%lit_suf H2%skip_suf H3%lit_suf H4%skip_suf H5%Hv H6%lit_suf
    |fs s r1 r2 r3 r4 r5 r H1%lit_suf H2%skip_suf H3%lit_suf H4%skip_suf H5%Hf H6%lit_suf];
    by repeat (etrans; [|eassumption]).
Qed.
Lemma lines_trail a s : lines a s -> forall s1 w0 w, s = s1 ++ "}"%char :: w0 -> Forall space_char w0 ->
  finished s1 -> Forall space_char w -> lines a (s ++ w).
Proof.
  assert (forall c r s1 w0 a, lines a r -> Forall space_char w0 -> s1 ++ "}"%char :: w0 = c ++ r -> r ≠ [] ->
    exists s2, s1 = c ++ s2 /\ r = s2 ++ "}"%char :: w0) as Hsplit.
  { intros c r s1 w0 a' Hl Hw0 E Hr. destruct (brace_split c r s1 w0 Hw0 E) as [?|(_ & _ & HF)]; [done|].
    destruct Hr. by eapply lines_space. }
  assert (forall s1 w0 P, Forall P (s1 ++ "}"%char :: w0) -> P "}"%char) as Hin.
  { intros s1 w0 P HF. apply Forall_app in HF as [_ HF]. by apply Forall_cons in HF as [? _]. }
  induction 1 as [|a s r1 r2 r H1 H2 H3 Hl IH
      |e a s r1 r2 r3 r4 r H1 H2 H3 H4 H5 Hl IH
      |n t a s r1 r2 r3 r4 r5 r6 r H1 H2 Hx H3 H4 H5 H6 H7 Hl IH]; intros s1 w0 w E Hw0 Hf Hw;
    [by destruct s1|..].
  - pose proof H1 as (v & -> & HFv & _). pose proof H2 as (b & -> & HFb & Hb). pose proof H3 as (u & -> & HFu & _).
    destruct (decide (r = [])) as [->|Hr].
    + exfalso. clear IH Hl. rewrite app_nil_r in *. rewrite !app_assoc in E. symmetry in E. rewrite <-!app_assoc in E.
      apply app_eq_inv in E as [(k & -> & E)|(k & -> & E)].
      * simpl in E. destruct k as [|x k]; simpl in E; [by discriminate E|]. injection E as <- E.
        assert (lf ∈ k) as Hk by exact (Hf v k eq_refl).
        apply app_eq_inv in E as [(k2 & -> & E)|(k2 & -> & E)].
        -- apply Forall_app in HFb as [HFb _]. rewrite Forall_forall in HFb. by apply (HFb lf).
        -- rewrite E in HFu. apply Hin in HFu as K. revert K. apply (bool_decide_unpack _). vm_compute. exact I.
      * destruct k as [|x k]; simpl in E; [by discriminate E|]. injection E as <- E.
        apply Forall_app in HFv as [_ HFv]. apply Forall_cons in HFv as [K _]. revert K.
        apply (bool_decide_unpack _). vm_compute. exact I.
    + destruct (Hsplit (v ++ txt "#" ++ b ++ u) r s1 w0 a Hl Hw0) as (s2 & -> & ->);
        [rewrite <-E; by rewrite <-!app_assoc|done|].
      eapply lines_comment; [apply skip_app_ne; [exact H1|done]|apply remark_app; [exact H2|by destruct u, s2]|
        apply skip_app_ne; [exact H3|done]|].
      eapply IH; try done. by eapply finished_drop.
  - pose proof H1 as (v & -> & HFv & _). unfold lit in H2. subst r1.
    pose proof H3 as (v2 & -> & HFv2 & _). pose proof H4 as (-> & HFe & He). pose proof H5 as (u & -> & HFu & _).
    destruct (decide (r = [])) as [->|Hr].
    + exfalso. set (P c := blank_char c \/ name_char c \/ newline_char c).
      assert (P "}"%char) as K.
      { apply (Hin s1 w0). rewrite <-E. rewrite app_nil_r. repeat (apply Forall_app; split).
        - eapply Forall_impl; [exact HFv|]. by left.
        - apply (bool_decide_unpack _). vm_compute. exact I.
        - eapply Forall_impl; [exact HFv2|]. by left.
        - eapply Forall_impl; [exact HFe|]. intros; by right; left.
        - eapply Forall_impl; [exact HFu|]. intros; by right; right. }
      revert K. apply (bool_decide_unpack _). vm_compute. exact I.
    + destruct (Hsplit (v ++ txt "export" ++ v2 ++ e ++ u) r s1 w0 a Hl Hw0) as (s2 & -> & ->);
        [rewrite <-E; by rewrite <-!app_assoc|done|].
      assert (u ++ s2 ++ "}"%char :: w0 ≠ []) as N1 by by destruct u, s2.
      assert (e ++ u ++ s2 ++ "}"%char :: w0 ≠ []) as N2 by by destruct e.
      eapply lines_export; [apply skip_app_ne; [exact H1|done]|by apply lit_app|apply skip_app_ne; [exact H3|done]|
        apply word_app; [done|exact H4]|apply skip_app_ne; [exact H5|done]|].
      eapply IH; try done. by eapply finished_drop.
  - assert (r5 ≠ []) as N5 by (destruct H6 as [? ? ? ? ? ? ? ? K|? ? ? ? ? ? ? ? K]; unfold lit in K; subst; discriminate).
    assert (r3 ≠ []) as N3 by (unfold lit in H4; subst; discriminate).
    assert (r1 ≠ []) as N1 by (destruct H2 as (-> & (_ & (? & ? & -> & _) & _) & _); discriminate).
    destruct (decide (r = [])) as [->|Hr].
    + eapply lines_decl with (r := []); [by apply skip_app_ne|by apply name_app|done|by apply skip_app_ne|by apply lit_app|
          by apply skip_app_ne|by apply body_app|by apply skip_app_end|done].
    + assert (r `suffix_of` s) as [c Ec].
      { apply skip_suf in H1. apply name_suf in H2. apply skip_suf in H3. apply lit_suf in H4. apply skip_suf in H5.
        apply body_suf in H6. apply skip_suf in H7. by repeat (etrans; [|eassumption]). }
      rewrite E in Ec. destruct (Hsplit c r s1 w0 a Hl Hw0 Ec Hr) as (s2 & -> & ->).
      eapply lines_decl; [by apply skip_app_ne|by apply name_app|done|by apply skip_app_ne|by apply lit_app|
          by apply skip_app_ne|by apply body_app|by apply skip_app_ne|].
      eapply IH; try done. by eapply finished_drop.
Qed.
Lemma parse_trail a s1 w0 w : finished s1 -> Forall space_char w0 -> Forall space_char w ->
  parse_schema (s1 ++ txt "}" ++ w0) = POk a -> parse_schema (s1 ++ txt "}" ++ w0 ++ w) = POk a.
Proof.
  rewrite !parse_schema_ok. intros Hf Hw0 Hw (r & H1 & H2). pose proof H1 as (v & E & HF & Hs).
  destruct (brace_split v r s1 w0 Hw0 E) as [(s2 & -> & ->)|(c2 & -> & _)].
  - exists ((s2 ++ "}"%char :: w0) ++ w). split.
    + apply (skip_app_ne w) in H1; [|by destruct s2]. rewrite <-!app_assoc in H1. rewrite <-!app_assoc. exact H1.
    + eapply lines_trail; try done. by eapply finished_drop.
  - apply Forall_app in HF as [_ HF]. apply Forall_cons in HF as [K _]. exfalso. revert K.
    apply (bool_decide_unpack _). vm_compute. exact I.
Qed.
Fixpoint finishedb (s : text) : bool :=
  match s with
  | [] => true
  | c :: s' => (if decide (c = "#"%char) then bool_decide (lf ∈ s') else true) && finishedb s'
  end.
Lemma finishedb_spec s : finishedb s = true -> finished s.
Proof.
  induction s as [|c s IH]; intros H p q E; [by destruct p|]. simpl in H. apply andb_true_iff in H as [H1 H2].
  destruct p as [|d p]; simplify_eq/=; [|by eapply IH].
  by apply bool_decide_eq_true in H1.
Qed.
Lemma trail_example : exists a s,
  (forall p q, s = p ++ "#"%char :: q -> lf ∈ q) /\ "#"%char ∈ s /\ parse_schema (s ++ txt "}" ++ [lf]) = POk a.
Proof.
  exists [NExport "A"; NDecl "A" (AStruct [("x", Unresolved "uint8" false false)])],
    (txt "export A" ++ [lf] ++ txt "# }" ++ [lf] ++ txt "A: struct { x: uint8 ").
  split; [by apply finishedb_spec; vm_compute|]. split; [|by vm_compute].
  apply (bool_decide_unpack _). vm_compute. exact I.
Qed.

(** ** White space at the end never changes the schema: it is accepted or an error *)
Lemma line_space s : Forall space_char s -> never line_rel s.
Proof.
  intros HF o r (r1 & (v & -> & _) & H). apply Forall_app in HF as [_ HF]. destruct o as [[n t|e]|].
  - destruct H as (w & r2 & _ & _ & _ & _ & (-> & (HN & (c & n' & -> & _) & _) & _) & _).
    apply Forall_cons in HF as [HF _]. apply Forall_cons in HN as [HN _]. by apply (space_not_name c).
  - destruct H as (t & r2 & _ & _ & H & _). unfold lit in H. subst r1. apply Forall_cons in HF as [HF _]. revert HF.
    apply (bool_decide_unpack _). vm_compute. exact I.
  - destruct H as (r2 & (b & -> & _) & _). apply Forall_cons in HF as [HF _]. revert HF.
    apply (bool_decide_unpack _). vm_compute. exact I.
Qed.
Lemma star_space s : Forall space_char s -> Star line_rel [] s s.
Proof. intros H. constructor. by apply line_space. Qed.
Lemma skip_into (P : ascii -> Prop) `{D : !forall c, Decision (P c)} s w : skip P s [] ->
  exists w3, w3 `suffix_of` w /\ skip P (s ++ w) w3.
Proof.
  intros (v & -> & HF & _). rewrite app_nil_r. destruct (skip_exists P w) as (w3 & u & -> & HF' & Hs).
  exists w3. split; [by exists u|]. exists (v ++ u). split; [by rewrite app_assoc|]. split; [by apply Forall_app|done].
Qed.
Lemma suffix_space w3 w : w3 `suffix_of` w -> Forall space_char w -> Forall space_char w3.
Proof. intros [u ->] H. by apply Forall_app in H as [_ ?]. Qed.
Lemma skip_ends (P : ascii -> Prop) `{D : !forall c, Decision (P c)} s r w : skip P s r -> 
  exists r', skip P (s ++ w) r' /\ (r ≠ [] -> r' = r ++ w) /\ (r = [] -> r' `suffix_of` w).
Proof.
  intros H. destruct (decide (r = [])) as [->|Hr].
  - destruct (skip_into P s w H) as (w3 & ? & ?). by exists w3.
  - exists (r ++ w). split; [by apply skip_app_ne|done].
Qed.
Lemma lines_tail w a s : Forall space_char w -> lines a s -> s ≠ [] ->
  exists os w3, Star line_rel os (s ++ w) w3 /\ a = somes os /\ w3 `suffix_of` w.
Proof.
  intros Hw.
  assert (forall o s r w3 a', line_rel o (s ++ w) w3 -> (r ≠ [] -> w3 = r ++ w) -> (r = [] -> w3 `suffix_of` w) ->
    (r ≠ [] -> exists os w3, Star line_rel os (r ++ w) w3 /\ a' = somes os /\ w3 `suffix_of` w) -> lines a' r ->
    exists os w3, Star line_rel os (s ++ w) w3 /\ match o with Some n => [n] | None => [] end ++ a' = somes os /\ w3 `suffix_of` w) as K.
  { intros o s' r w3 a' Ho Hne Hnil IH Hl. destruct (decide (r = [])) as [->|Hr].
    - assert (a' = []) as ->.
      { apply lines_star in Hl as (os & Hst & ->). inversion Hst as [|? ? ? ? ? Hl']; [done|]. by apply line_nil in Hl'. }
      exists [o], w3. split; [|split; [by destruct o|by apply Hnil]]. econstructor; [exact Ho|].
      apply star_space. eapply suffix_space; [by apply Hnil|done].
    - destruct (IH Hr) as (os & w4 & Hst & -> & Hsuf). exists (o :: os), w4. split; [|split; [by destruct o|done]].
      econstructor; [exact Ho|]. by rewrite (Hne Hr). }
  induction 1 as [|a s r1 r2 r H1 H2 H3 Hl IH
      |e a s r1 r2 r3 r4 r H1 H2 H3 H4 H5 Hl IH
      |n t a s r1 r2 r3 r4 r5 r6 r H1 H2 Hx H3 H4 H5 H6 H7 Hl IH]; intros Hs; [done|..].
  - assert (r1 ≠ []) as N1 by by destruct H2 as (b & -> & _).
    destruct (decide (r2 = [])) as [->|Hr2].
    + apply (skip_id_iff newline_char [] _ I) in H3 as ->. pose proof H2 as (b & -> & HF & _).
      destruct (skip_exists (fun c => c ≠ lf) w) as (w2 & w1 & E & HF1 & Hst).
      destruct (skip_exists newline_char w2) as (w3 & Hw3).
      apply (K None s [] w3 a); [|done| |done|done].
      * exists ((txt "#" ++ b ++ []) ++ w). split; [by apply skip_app_ne|]. exists w2. split; [|done].
        exists (b ++ w1). split; [rewrite E, app_nil_r; by rewrite <-!app_assoc|].
        split; [by apply Forall_app|]. destruct w2 as [|c w2]; [by left|]. right. exists w2. f_equal.
        destruct (decide (c = lf)); [done|]. by destruct Hst.
      * intros _. rewrite E. destruct Hw3 as (u & -> & _). exists (w1 ++ u). by rewrite app_assoc.
    + destruct (skip_ends _ _ _ w H3) as (r' & Q1 & Q2 & Q3).
      apply (K None s r r' a); try done. exists (r1 ++ w). split; [by apply skip_app_ne|]. exists (r2 ++ w).
      split; [by apply remark_app|done].
  - assert (r1 ≠ []) as N1 by (unfold lit in H2; by subst).
    assert (forall r3' r4' r', skip blank_char (r2 ++ w) r3' -> word e r3' r4' -> skip newline_char r4' r' ->
      line_rel (Some (NExport (str e))) (s ++ w) r') as Hline.
    { intros r3' r4' r' Q1 Q2 Q3. exists (r1 ++ w). split; [by apply skip_app_ne|]. exists e, (r2 ++ w), r3', r4'.
      split; [by apply lit_app|]. done. }
    destruct (decide (r3 = [])) as [->|Hr3].
    + pose proof H4 as (E & _). symmetry in E. apply app_eq_nil in E as [-> ->].
      apply (skip_id_iff newline_char [] _ I) in H5 as ->.
      destruct (skip_into blank_char r2 w H3) as (w2 & Hw2 & Q). destruct (skip_exists newline_char w2) as (w3 & Hw3).
      apply (K (Some (NExport (str []))) s [] w3 a); [|done| |done|done].
      * eapply Hline; [exact Q| |exact Hw3]. split; [done|]. split; [done|]. pose proof (suffix_space _ _ Hw2 Hw) as F.
        destruct w2; [done|]. apply Forall_cons in F as [F _]. by apply space_not_name.
      * intros _. apply skip_suf in Hw3. by etrans.
    + destruct (skip_ends _ _ _ w H5) as (r' & Q1 & Q2 & Q3).
      apply (K (Some (NExport (str e))) s r r' a); try done.
      eapply Hline; [by apply skip_app_ne|apply word_app; [done|exact H4]|done].
  - assert (r5 ≠ []) as N5 by (destruct H6 as [? ? ? ? ? ? ? ? Z|? ? ? ? ? ? ? ? Z]; unfold lit in Z; subst; discriminate).
    assert (r3 ≠ []) as N3 by (unfold lit in H4; subst; discriminate).
    assert (r1 ≠ []) as N1 by (destruct H2 as (-> & (_ & (? & ? & -> & _) & _) & _); discriminate).
    destruct (skip_ends _ _ _ w H7) as (r' & Q1 & Q2 & Q3).
    apply (K (Some (NDecl (str n) t)) s r r' a); try done.
    exists (r1 ++ w). split; [by apply skip_app_ne|]. exists n, (r2 ++ w), (r3 ++ w), (r4 ++ w), (r5 ++ w), (r6 ++ w).
    split_and!; [by apply name_app|done|by apply skip_app_ne|by apply lit_app|by apply skip_app_ne|by apply body_app|done|done].
Qed.
(** The parser reads all of [s] and stops at [w3] inside the white space. *)
Lemma parse_tail a s w : Forall space_char w -> parse_schema s = POk a ->
  parse_schema (s ++ w) = POk a \/ exists off, parse_schema (s ++ w) = PErr off /\ length s <= off <= length (s ++ w).
Proof.
  intros Hw H. apply parse_schema_ok in H as (r & H1 & H2).
  assert (exists r1 os w3, skip newline_char (s ++ w) r1 /\ Star line_rel os r1 w3 /\ a = somes os /\ w3 `suffix_of` w)
    as (r1 & os & w3 & Q1 & Q2 & Q3 & w0 & Q4).
  { destruct (decide (r = [])) as [->|Hr].
    - destruct (skip_into newline_char s w H1) as (w3 & Hsuf & Q). exists w3, [], w3. split; [done|].
      split; [by apply star_space; eapply suffix_space|]. split; [|done].
      apply lines_star in H2 as (os & Hst & ->). inversion Hst as [|? ? ? ? ? Hl']; [done|]. by apply line_nil in Hl'.
    - destruct (lines_tail w a r Hw H2 Hr) as (os & w3 & ? & ? & ?). exists (r ++ w), os, w3.
      split; [by apply skip_app_ne|done]. }
  unfold parse_schema, prun. destruct (ex_schema (s ++ w) (length (s ++ w))) as [_ He].
  destruct (proj1 (He a w3)) as [m Hm]; [by exists r1, os|]. rewrite Hm.
  destruct w3 as [|c w3]; [by left|]. right. eexists. split; [reflexivity|].
  assert (length (s ++ w) = length s + length w0 + length (c :: w3)) as -> by (rewrite Q4, !app_length; lia).
  cbn [length]. lia.
Qed.
Lemma trail_cases : exists a, parse_schema (txt "export A") = POk a /\
  parse_schema (txt "export A" ++ [lf]) = POk a /\ parse_schema (txt "export A" ++ txt " ") = PErr 9.
Proof. exists [NExport "A"]. by vm_compute. Qed.
