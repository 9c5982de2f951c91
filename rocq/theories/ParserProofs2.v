(** Consequences of the parser's agreement with its specification. *)
From Verif Require Export ParserProofs.

Lemma txt_str w : txt (str w) = w.
Proof. apply list_ascii_of_string_of_list_ascii. Qed.
Lemma str_txt s : str (txt s) = s.
Proof. apply string_of_list_ascii_of_string. Qed.

(** ** Names *)
Lemma body_legal t s r : body t s r -> legal_type t.
Proof.
  assert (forall vs s r, variants vs s r -> Forall (fun v => legal_name (txt v)) vs) as Hvs.
  { induction 1 as [|v c vs s' r1 r2 r3 r4 r' (_ & Hv & _) _ _ _ _ IH]; constructor; [|done]. by rewrite txt_str. }
  assert (forall fs s r, fields fs s r ->
    Forall (fun f => legal_name (txt f.1) /\ Forall name_char (txt (u_name f.2))) fs) as Hfs.
  { induction 1 as [| |n o t' a c fs s' r1 r2 r3 r4 r5 r6 r7 r8 r9 r10 r' (_ & Hn & _) _ _ _ _ (_ & Hw & _) _ _ _ _ _ IH];
      [constructor|done|]. constructor; [|done]. simpl. by rewrite !txt_str. }
  destruct 1; simpl; eauto.
Qed.
Lemma lines_legal a s : lines a s -> legal_ast a.
Proof.
  induction 1 as [|a s r1 r2 r H1 H2 H3 _ IH
      |e a s r1 r2 r3 r4 r H1 H2 H3 (_ & H4 & _) H5 _ IH
      |n t a s r1 r2 r3 r4 r5 r6 r H1 (_ & H2 & _) H3 H4 H5 H6 H7 H8 _ IH].
  - constructor.
  - done.
  - constructor; [|done]. simpl. by rewrite txt_str.
  - constructor; [|done]. simpl. rewrite txt_str. split; [done|]. split; [done|]. by eapply body_legal.
Qed.
Lemma parse_legal a s : parse_schema s = POk a -> legal_ast a.
Proof. rewrite parse_schema_ok. intros (r & _ & H). by eapply lines_legal. Qed.

(** ** Every legal AST has a text *)
Ltac class_no := let H := fresh in intros H; revert H; apply (bool_decide_unpack _); vm_compute; exact I.
Lemma skip_none (P : ascii -> Prop) c r : ~ P c -> skip P (c :: r) (c :: r).
Proof. intros H. by apply skip_id. Qed.
Lemma skip_one (P : ascii -> Prop) c r : P c -> stops P r -> skip P (c :: r) r.
Proof. intros H Hs. exists [c]. split; [done|]. split; [by constructor|done]. Qed.
Lemma name_stop w c r : legal_name w -> ~ name_char c -> name w (w ++ c :: r) (c :: r).
Proof. intros H Hc. split; [done|]. split; done. Qed.
Lemma word_stop w c r : Forall name_char w -> ~ name_char c -> word w (w ++ c :: r) (c :: r).
Proof. intros H Hc. split; [done|]. split; done. Qed.
Lemma perhaps_none l x c r : x ≠ c -> perhaps (String x l) false (c :: r) (c :: r).
Proof. intros H. split; [done|]. intros r' E. unfold lit in E. simpl in E. congruence. Qed.

Lemma name_char_not_blank c : name_char c -> ~ space_char c.
Proof. revert c. apply (ascii_all (fun c => name_char c -> ~ space_char c)). apply (bool_decide_unpack _). vm_compute. exact I. Qed.
Lemma legal_stops w r : legal_name w -> stops space_char (w ++ r).
Proof.
  intros (H & (c & w' & -> & _) & _). simpl. apply Forall_cons in H as [H _]. by apply name_char_not_blank.
Qed.
Lemma stops_blank r : stops space_char r -> stops blank_char r.
Proof. destruct r; simpl; [done|]. unfold space_char. tauto. Qed.

Lemma show_variants_ok vs r : Forall (fun v => legal_name (txt v)) vs ->
  variants vs (concat (map show_variant vs) ++ txt "}" ++ r) (txt "}" ++ r).
Proof.
  induction 1 as [|v vs Hv Hvs IH]; [constructor|]. cbn [map concat]. unfold show_variant at 1.
  rewrite <-!app_assoc. rewrite <-(str_txt v) at 1. 
  eapply (variants_more (txt v) true); [| | | |exact IH].
  - apply name_stop; [done|class_no].
  - apply skip_none. class_no.
  - done.
  - apply skip_one; [by left; left|].
    destruct Hvs as [|v' vs' Hv' Hvs]; [apply stops_space_close|]. cbn [map concat]. unfold show_variant at 1.
    rewrite <-!app_assoc. by apply legal_stops.
Qed.
Lemma name_char_not c : name_char c -> c ≠ "["%char /\ c ≠ ","%char /\ c ≠ "?"%char.
Proof. revert c. apply (ascii_all (fun c => name_char c -> c ≠ "["%char /\ c ≠ ","%char /\ c ≠ "?"%char)). apply (bool_decide_unpack _). vm_compute. exact I. Qed.
Lemma show_fields_ok fs r :
  Forall (fun f => legal_name (txt f.1) /\ Forall name_char (txt (u_name f.2))) fs ->
  fields fs (concat (map show_field fs) ++ txt "}" ++ r) (txt "}" ++ r).
Proof.
  induction 1 as [|[n [t a o]] fs [Hn Ht] Hfs IH]; [constructor|]. cbn [map concat]. unfold show_field at 1.
  cbn [fst snd u_name u_array u_opt] in *.
  rewrite <-!app_assoc. rewrite <-(str_txt n) at 1. rewrite <-(str_txt t) at 1.
  assert (skip space_char (txt " " ++ concat (map show_field fs) ++ txt "}" ++ r)
            (concat (map show_field fs) ++ txt "}" ++ r)) as Hend.
  { apply skip_one; [by left; left|].
    destruct Hfs as [|[n' [t' a' o']] fs' [Hn' _] Hfs]; [apply stops_space_close|]. cbn [map concat].
    unfold show_field at 1. rewrite <-!app_assoc. by apply legal_stops. }
  set (rest := concat (map show_field fs) ++ txt "}" ++ r) in *.
  pose (q7 := txt ", " ++ rest). pose (q6 := (if a then txt "[]" else []) ++ q7).
  pose (q5 := txt t ++ q6). pose (q3 := txt ":" ++ q5). pose (q2 := (if o then txt "?" else []) ++ q3).
  fold q7 q6 q5 q3 q2.
  apply (fields_more (txt n) o (txt t) a true _ _ q2 q2 q3 q5 q5 q6 q7 q7 (txt " " ++ rest) rest); [..|exact IH].
  - destruct o; apply name_stop; try done; class_no.
  - destruct o; apply skip_none; class_no.
  - destruct o; [done|]. by apply perhaps_none.
  - done.
  - apply skip_id. destruct (txt t) as [|c w]; [destruct a; simpl; class_no|].
    apply stops_blank. apply Forall_cons in Ht as [Ht _]. by apply name_char_not_blank.
  - destruct a; apply word_stop; try done; class_no.
  - destruct a; [done|]. by apply perhaps_none.
  - apply skip_none. class_no.
  - done.
  - exact Hend.
Qed.
Lemma show_type_ok t r : legal_type t -> body t (show_type t ++ r) r.
Proof.
  intros Ht. destruct t as [vs|fs]; simpl in Ht; unfold show_type.
  - rewrite <-!app_assoc. eapply body_enum; [| | | |by apply show_variants_ok|done].
    + done.
    + apply (skip_one _ _ (txt "{ " ++ concat (map show_variant vs) ++ txt "}" ++ r)); [by left|simpl; class_no].
    + done.
    + apply skip_one; [by left; left|].
      destruct Ht as [|v' vs' Hv' Hvs]; [apply stops_space_close|]. cbn [map concat]. unfold show_variant at 1.
      rewrite <-!app_assoc. by apply legal_stops.
  - rewrite <-!app_assoc. eapply body_struct; [| | | |by apply show_fields_ok|done].
    + done.
    + apply (skip_one _ _ (txt "{ " ++ concat (map show_field fs) ++ txt "}" ++ r)); [by left|simpl; class_no].
    + done.
    + apply skip_one; [by left; left|].
      destruct Ht as [|[n' [t' a' o']] fs' [Hn' _] Hfs]; [apply stops_space_close|]. cbn [map concat].
      unfold show_field at 1. rewrite <-!app_assoc. by apply legal_stops.
Qed.
Lemma show_node_stops n r : legal_node n -> stops space_char (show_node n ++ r).
Proof.
  destruct n as [d t|e]; simpl; [|intros _; class_no]. intros [H _]. rewrite <-app_assoc. by apply legal_stops.
Qed.
Lemma show_ast_stops a : legal_ast a -> stops space_char (show_ast a).
Proof. intros [|n a' Hn Ha]; [done|]. by apply show_node_stops. Qed.
Lemma show_ast_lines a : legal_ast a -> lines a (show_ast a).
Proof.
  induction 1 as [|n a Hn Ha IH]; [constructor|]. unfold show_ast. cbn [map concat]. fold (show_ast a).
  pose proof (show_ast_stops a Ha) as Hst. destruct n as [d t|e].
  - destruct Hn as (Hd & Hx & Ht). unfold show_node. rewrite <-!app_assoc. rewrite <-(str_txt d) at 1.
    eapply lines_decl with (n := txt d); [| |done| | | | | |exact IH].
    + apply skip_id, stops_blank. by apply legal_stops.
    + apply name_stop; [done|class_no].
    + apply skip_none. class_no.
    + done.
    + apply skip_one; [by left|]. destruct t; simpl; class_no.
    + by apply show_type_ok.
    + apply skip_one; [|done]. right. by left.
  - unfold show_node. rewrite <-!app_assoc. rewrite <-(str_txt e) at 1.
    eapply lines_export with (e := txt e); [| | | | |exact IH].
    + apply skip_none. class_no.
    + unfold lit. reflexivity.
    + apply skip_one; [by left|]. simpl in Hn. destruct (txt e) as [|c w]; [simpl; class_no|].
      apply stops_blank. apply Forall_cons in Hn as [Hc _]. by apply name_char_not_blank.
    + apply word_stop; [done|class_no].
    + apply skip_one; [by left|]. by apply stops_space_newline.
Qed.
Lemma parse_show a : legal_ast a -> parse_schema (show_ast a) = POk a.
Proof.
  intros H. apply parse_schema_ok. exists (show_ast a). split; [|by apply show_ast_lines].
  apply skip_id, stops_space_newline. by apply show_ast_stops.
Qed.

(** ** White space at the end of the text *)
Section append.
Context (w : text) (Hw : stops (fun c => ~ space_char c) w).
Lemma skip_app_ne P s r : skip P s r -> r ≠ [] -> skip P (s ++ w) (r ++ w).
Proof.
  intros (v & -> & HF & Hs) Hr. exists v. split; [by rewrite app_assoc|]. split; [done|]. by destruct r.
Qed.
Lemma skip_app_end (P : ascii -> Prop) s : Forall P w -> skip P s [] -> skip P (s ++ w) [].
Proof.
  intros HP (v & -> & HF & _). exists (v ++ w). split; [by rewrite !app_nil_r|]. split; [|done].
  by apply Forall_app.
Qed.
Lemma stops_app (P : ascii -> Prop) r : stops P w -> stops P r -> stops P (r ++ w).
Proof. by destruct r. Qed.
Lemma nl_not_blank c : newline_char c -> ~ blank_char c.
Proof. revert c. apply (ascii_all (fun c => newline_char c -> ~ blank_char c)). apply (bool_decide_unpack _). vm_compute. exact I. Qed.
Lemma space_not_name c : space_char c -> ~ name_char c.
Proof. revert c. apply (ascii_all (fun c => space_char c -> ~ name_char c)). apply (bool_decide_unpack _). vm_compute. exact I. Qed.
Lemma w_not_name : stops name_char w.
Proof. destruct w as [|c w']; [done|]. simpl in *. intros H. apply Hw. intros H'. by apply (space_not_name c). Qed.
Lemma skip_app_other (P : ascii -> Prop) s r : stops P w -> skip P s r -> skip P (s ++ w) (r ++ w).
Proof.
  intros HP (v & -> & HF & Hs). exists v. split; [by rewrite app_assoc|]. split; [done|]. by apply stops_app.
Qed.
Lemma lit_app l s r : lit l s r -> lit l (s ++ w) (r ++ w).
Proof. intros ->. unfold lit. by rewrite app_assoc. Qed.
Lemma name_ext n s r : name n s r -> name n (s ++ w) (r ++ w).
Proof.
  intros (-> & Hn & Hs). split; [by rewrite app_assoc|]. split; [done|]. apply stops_app; [apply w_not_name|done].
Qed.
Lemma word_ext n s r : word n s r -> word n (s ++ w) (r ++ w).
Proof.
  intros (-> & Hn & Hs). split; [by rewrite app_assoc|]. split; [done|]. apply stops_app; [apply w_not_name|done].
Qed.
Lemma perhaps_ext l b s r : s ≠ [] -> Forall (fun c => ~ space_char c) (txt l) -> perhaps l b s r -> perhaps l b (s ++ w) (r ++ w).
Proof.
  intros Hne Hl. destruct b; simpl; [apply lit_app|]. intros [-> Hn]. split; [done|]. intros r' E.
  unfold lit in E.
  assert (exists r1, s = txt l ++ r1) as [r1 ->]; [|by apply (Hn r1)].
  revert E Hl. clear -Hw. revert s. induction (txt l) as [|x t IH]; intros s E Hl; [by exists s|].
  apply Forall_cons in Hl as [Hx Hl]. destruct s as [|y s]; simpl in E.
  - subst w. simpl in Hw. destruct Hw. done.
  - injection E as -> E. destruct (IH s E Hl) as [r1 ->]. by exists r1.
Qed.
Lemma ne_of_len {A} (s r : list A) : length r <= length s -> r ≠ [] -> s ≠ [].
Proof. destruct s; [|done]. destruct r; simpl; [done|lia]. Qed.
Lemma variants_ext vs s r : variants vs s r -> r ≠ [] -> variants vs (s ++ w) (r ++ w).
Proof.
  assert (forall vs s r, variants vs s r -> length r <= length s) as Hlen.
  { induction 1 as [|v' c vs' s' r1 r2 r3 r4 r' H1%name_len H2%skip_len H3%perhaps_len H4%skip_len _ IH]; lia. }
  induction 1 as [|v c vs s' r1 r2 r3 r4 r' H1 H2 H3 H4 Hv IH]; intros Hr; [constructor|].
  assert (r4 ≠ []) as N4 by (eapply ne_of_len; [by eapply Hlen|done]).
  assert (r3 ≠ []) as N3 by (eapply ne_of_len; [by eapply skip_len|done]).
  assert (r2 ≠ []) as N2 by (eapply ne_of_len; [by eapply perhaps_len|done]).
  econstructor; [by apply name_ext|by apply skip_app_ne| |by apply skip_app_ne|by apply IH].
  apply perhaps_ext; [done| |done]. apply (bool_decide_unpack _). vm_compute. exact I.
Qed.
Lemma remark_app s r : remark s r -> r ≠ [] -> remark (s ++ w) (r ++ w).
Proof.
  intros (b & -> & HF & [->|[r' ->]]) Hr; [done|]. exists b. split; [by rewrite <-!app_assoc|]. split; [done|].
  right. by exists (r' ++ w).
Qed.
Lemma fields_ext fs s r : fields fs s r -> r ≠ [] -> fields fs (s ++ w) (r ++ w).
Proof.
  assert (forall fs s r, fields fs s r -> length r <= length s) as Hlen.
  { induction 1 as [|fs' s' r1 r2 r' H1%remark_len H2%skip_len _ IH
       |n o t' a c fs' s' r1 r2 r3 r4 r5 r6 r7 r8 r9 r10 r' H1%name_len H2%skip_len H3%perhaps_len H4%lit_len
         H5%skip_len H6%word_len H7%perhaps_len H8%skip_len H9%perhaps_len H10%skip_len _ IH]; lia. }
  induction 1 as [|fs s' r1 r2 r' H1 H2 Hf IH
       |n o t' a c fs s' r1 r2 r3 r4 r5 r6 r7 r8 r9 r10 r' H1 H2 H3 H4 H5 H6 H7 H8 H9 H10 Hf IH]; intros Hr.
  - constructor.
  - assert (r2 ≠ []) as N2 by (eapply ne_of_len; [by eapply Hlen|done]).
    assert (r1 ≠ []) as N1 by (eapply ne_of_len; [by eapply skip_len|done]).
    eapply fields_comment; [by apply remark_app|by apply skip_app_ne|by apply IH].
  - assert (r10 ≠ []) as N10 by (eapply ne_of_len; [by eapply Hlen|done]).
    assert (r9 ≠ []) as N9 by (eapply ne_of_len; [by eapply skip_len|done]).
    assert (r8 ≠ []) as N8 by (eapply ne_of_len; [by eapply perhaps_len|done]).
    assert (r7 ≠ []) as N7 by (eapply ne_of_len; [by eapply skip_len|done]).
    assert (r6 ≠ []) as N6 by (eapply ne_of_len; [by eapply perhaps_len|done]).
    assert (r5 ≠ []) as N5 by (eapply ne_of_len; [|exact N6]; apply word_len in H6; lia).
    assert (r4 ≠ []) as N4 by (eapply ne_of_len; [by eapply skip_len|done]).
    assert (r3 ≠ []) as N3 by (eapply ne_of_len; [|exact N4]; apply lit_len in H4; lia).
    assert (r2 ≠ []) as N2 by (eapply ne_of_len; [by eapply perhaps_len|done]).
    apply (fields_more n o t' a c fs (s' ++ w) (r1 ++ w) (r2 ++ w) (r3 ++ w) (r4 ++ w) (r5 ++ w) (r6 ++ w)
      (r7 ++ w) (r8 ++ w) (r9 ++ w) (r10 ++ w));
      [by apply name_ext|by apply skip_app_ne| |by apply lit_app|by apply skip_app_ne|by apply word_ext| |
       by apply skip_app_ne| |by apply skip_app_ne|by apply IH];
    (apply perhaps_ext; [done| |done]); apply (bool_decide_unpack _); vm_compute; exact I.
Qed.
Lemma body_ext t s r : body t s r -> body t (s ++ w) (r ++ w).
Proof.
  destruct 1 as [vs s r1 r2 r3 r4 r5 r H1 H2 H3 H4 H5 H6|fs s r1 r2 r3 r4 r5 r H1 H2 H3 H4 H5 H6].
  - assert (r5 ≠ []) as N5 by (unfold lit in H6; subst; discriminate).
    assert (r4 ≠ []) as N4.
    { assert (forall vs s r, variants vs s r -> length r <= length s) as Hlen.
      { induction 1 as [|v' c vs' s' ? ? ? ? r' K1%name_len K2%skip_len K3%perhaps_len K4%skip_len _ IH]; lia. }
      eapply ne_of_len; [by eapply Hlen|done]. }
    eapply body_enum; [by apply lit_app|apply skip_app_ne; [done|]|by apply lit_app|by apply skip_app_ne|by apply variants_ext|by apply lit_app].
    unfold lit in H3; subst; discriminate.
  - assert (r5 ≠ []) as N5 by (unfold lit in H6; subst; discriminate).
    assert (r4 ≠ []) as N4.
    { assert (forall fs s r, fields fs s r -> length r <= length s) as Hlen.
      { induction 1 as [|fs' s' ? ? r' K1%remark_len K2%skip_len _ IH
       |n o t' a c fs' s' ? ? ? ? ? ? ? ? ? ? r' K1%name_len K2%skip_len K3%perhaps_len K4%lit_len
         K5%skip_len K6%word_len K7%perhaps_len K8%skip_len K9%perhaps_len K10%skip_len _ IH]; lia. }
      eapply ne_of_len; [by eapply Hlen|done]. }
    eapply body_struct; [by apply lit_app|apply skip_app_ne; [done|]|by apply lit_app|by apply skip_app_ne|by apply fields_ext|by apply lit_app].
    unfold lit in H3; subst; discriminate.
Qed.
End append.
Lemma space_stops w : Forall space_char w -> stops (fun c => ~ space_char c) w.
Proof. destruct 1 as [|c w Hc HF]; [done|]. simpl. intros Hn. by apply Hn. Qed.
Lemma name_app w : Forall space_char w -> forall n s r, name n s r -> name n (s ++ w) (r ++ w).
Proof. intros Hw%space_stops. by apply name_ext. Qed.
Lemma word_app w : Forall space_char w -> forall n s r, word n s r -> word n (s ++ w) (r ++ w).
Proof. intros Hw%space_stops. by apply word_ext. Qed.
Lemma body_app w : Forall space_char w -> forall t s r, body t s r -> body t (s ++ w) (r ++ w).
Proof. intros Hw%space_stops. by apply body_ext. Qed.
Section newlines.
Context (w : text) (Hw : Forall newline_char w).
Lemma w_space : Forall space_char w.
Proof. eapply Forall_impl; [exact Hw|]. apply newline_space. Qed.
Lemma w_not_blank : stops blank_char w.
Proof. destruct Hw; [done|]. by apply nl_not_blank. Qed.
Hint Resolve w_space w_not_blank : core.
Lemma lines_app a s : lines a s -> s ≠ [] -> lines a (s ++ w).
Proof.
  induction 1 as [|a s r1 r2 r H1 H2 H3 Hl IH
      |e a s r1 r2 r3 r4 r H1 H2 H3 H4 H5 Hl IH
      |n t a s r1 r2 r3 r4 r5 r6 r H1 H2 Hx H3 H4 H5 H6 H7 Hl IH]; intros Hne; [done|..];
    pose proof (skip_app_other w blank_char _ _ w_not_blank H1) as H1'.
  - destruct (decide (r2 = [])) as [->|Hr2].
    + apply (skip_id_iff newline_char [] _ I) in H3 as ->.
      destruct H2 as (b & -> & HF & _).
      destruct (skip_exists (fun c => c ≠ lf) w) as (w2 & w1 & E & HF1 & Hs).
      eapply lines_comment with (r2 := w2) (r := []); [exact H1'| | |done].
      * exists (b ++ w1). split; [rewrite E, app_nil_r; by rewrite <-!app_assoc|].
        split; [by apply Forall_app|]. destruct w2 as [|c w2]; [by left|]. right. exists w2. f_equal.
        destruct (decide (c = lf)); [done|]. by destruct Hs.
      * exists w2. split; [by rewrite app_nil_r|]. split; [|done]. rewrite E in Hw. by apply Forall_app in Hw as [_ ?].
    + destruct (decide (r = [])) as [->|Hr].
      * eapply lines_comment; [exact H1'|by apply remark_app|by apply skip_app_end|done].
      * eapply lines_comment; [exact H1'|by apply remark_app|by apply skip_app_ne|by apply IH].
  - destruct (decide (r = [])) as [->|Hr].
    + eapply lines_export; [exact H1'|by apply lit_app|apply skip_app_other; [done|done]|by apply word_app
        |by apply skip_app_end|done].
    + eapply lines_export; [exact H1'|by apply lit_app|apply skip_app_other; [done|done]|by apply word_app
        |by apply skip_app_ne|by apply IH].
  - destruct (decide (r = [])) as [->|Hr].
    + eapply lines_decl; [exact H1'|by apply name_app|done|apply skip_app_other; [done|done]|by apply lit_app|
        apply skip_app_other; [done|done]|by apply body_app|apply skip_app_end; [exact w_space|done]|done].
    + eapply lines_decl; [exact H1'|by apply name_app|done|apply skip_app_other; [done|done]|by apply lit_app|
        apply skip_app_other; [done|done]|by apply body_app|by apply skip_app_ne|by apply IH].
Qed.
Lemma layout_app a s : layout a s -> layout a (s ++ w).
Proof.
  intros (r & H1 & H2). destruct (decide (r = [])) as [->|Hr].
  - exists []. split; [|done]. by apply skip_app_end.
  - exists (r ++ w). split; [by apply skip_app_ne|by apply lines_app].
Qed.
Lemma layout_prepend a s : layout a s -> layout a (w ++ s).
Proof.
  intros (r & (v & -> & HF & Hs) & H2). exists r. split; [|done]. exists (w ++ v). split; [by rewrite app_assoc|].
  split; [by apply Forall_app|done].
Qed.
End newlines.
Lemma parse_newlines a s w1 w2 : Forall newline_char w1 -> Forall newline_char w2 ->
  parse_schema s = POk a -> parse_schema (w1 ++ s ++ w2) = POk a.
Proof. rewrite !parse_schema_ok. intros H1 H2 H. by apply layout_prepend, layout_app. Qed.
