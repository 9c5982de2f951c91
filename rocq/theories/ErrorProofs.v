(** Where parse errors are: the text before the reported place can be completed to a schema. *)
From Verif Require Export ReportProofs ParserProofs2.

Definition valid (s : text) : Prop := exists a, layout a s.
Definition viable (s : text) : Prop := exists w, ascii_only w /\ valid (s ++ w).

(** ** States of the parser *)
(** [m'] is the old furthest failure or one where the text before it is viable. *)
Definition seen (pre s : text) (m m' : nat) : Prop := m' = m \/ m' <= length s /\ viable (pre ++ take (length s - m') s).
(** [pre] has been read and [s] is left; every text of [G] that does not begin with a character of some class within [B]
    completes [pre]. *)
Definition St (B : ascii -> Prop) (G : text -> Prop) (pre s : text) : Prop :=
  (s = [] /\ viable pre) \/ exists P : ascii -> Prop, (forall c, P c -> B c) /\ stops (fun c => P c /\ c ≠ "["%char) s /\
    forall tail, G tail -> stops P tail -> valid (pre ++ tail).
Definition tracks {A} (p : parser A) (F : text -> text -> Prop) (F' : A -> text -> text -> Prop) : Prop := forall pre s m, F pre s ->
  match p s m with
  | PSucc a r m' => (exists w, s = w ++ r /\ F' a (pre ++ w) r) /\ seen pre s m m'
  | PFail m' => seen pre s m m'
  | PDiv => True
  end.
Definition comp (B : ascii -> Prop) (G : text -> Prop) : Prop := exists c, ascii_only c /\ G c /\ stops B c.

Lemma stops_mono (P Q : ascii -> Prop) s : (forall c, P c -> Q c) -> stops Q s -> stops P s.
Proof. destruct s; cbn; naive_solver. Qed.
Lemma St_viable (B : ascii -> Prop) (G : text -> Prop) pre s : comp B G -> St B G pre s -> viable pre.
Proof.
  intros (c & Hc & HG & Hs) [[_ H]|(P & HP & _ & H)]; [done|]. exists c. split; [done|]. apply H; [done|]. by eapply stops_mono.
Qed.
Lemma St_weaken (B B' : ascii -> Prop) (G G' : text -> Prop) pre s : (forall c, B c -> B' c) -> (forall t, G' t -> G t) -> St B G pre s -> St B' G' pre s.
Proof.
  intros HB HG [H|(P & HP & Hs & H)]; [by left|right]. exists P. split; [auto|]. split; [done|]. auto.
Qed.
Lemma seen_refl pre s m : seen pre s m m.
Proof. by left. Qed.
Lemma seen_min pre w r m : viable (pre ++ w) -> seen pre (w ++ r) m (Nat.min m (length r)).
Proof.
  intros H. destruct (Nat.min_spec m (length r)) as [[_ ->]|[_ ->]]; [by left|right]. rewrite app_length. split; [lia|].
  replace (length w + length r - length r) with (length w) by lia. by rewrite take_app.
Qed.
Lemma seen_trans pre w r m m1 m2 : seen pre (w ++ r) m m1 -> seen (pre ++ w) r m1 m2 -> seen pre (w ++ r) m m2.
Proof.
  intros H [->|[Hl H2]]; [done|right]. rewrite app_length. split; [lia|].
  replace (length w + length r - m2) with (length w + (length r - m2)) by lia. by rewrite firstn_app_2, app_assoc.
Qed.
Lemma seen_again pre s m m1 m2 : seen pre s m m1 -> seen pre s m1 m2 -> seen pre s m m2.
Proof. intros H [->|H2]; [done|by right]. Qed.

(** ** Combinators *)
Lemma tr_ret {A} (a : A) (F : text -> text -> Prop) (F' : A -> text -> text -> Prop) : (forall pre s, F pre s -> F' a pre s) -> tracks (pret a) F F'.
Proof. intros H pre s m HF. split; [|by left]. exists []. rewrite app_nil_r. by auto. Qed.
Lemma tr_bind {A B} (p : parser A) (k : A -> parser B) (F : text -> text -> Prop) (F1 : A -> text -> text -> Prop) (F2 : B -> text -> text -> Prop) : tracks p F F1 -> (forall a, tracks (k a) (F1 a) F2) -> tracks (pbind p k) F F2.
Proof.
  intros Hp Hk pre s m HF. unfold pbind. specialize (Hp pre s m HF). destruct (p s m) as [a r m1|m1|]; [|done|done].
  destruct Hp as [(w & -> & HF1) Hs]. specialize (Hk a (pre ++ w) r m1 HF1). destruct (k a r m1) as [b r2 m2|m2|]; [| |done].
  - destruct Hk as [(w2 & -> & HF2) Hs2]. split; [|by eapply seen_trans]. exists (w ++ w2). rewrite !app_assoc in *. done.
  - by eapply seen_trans.
Qed.
Lemma tr_map {A B} (f : A -> B) (p : parser A) (F : text -> text -> Prop) (F' : B -> text -> text -> Prop) : tracks p F (fun a => F' (f a)) -> tracks (pmap f p) F F'.
Proof. intros H. eapply tr_bind; [exact H|]. intros a. by apply tr_ret. Qed.
Lemma tr_alt {A} (p q : parser A) (F : text -> text -> Prop) (F' : A -> text -> text -> Prop) : tracks p F F' -> tracks q F F' -> tracks (palt p q) F F'.
Proof.
  intros Hp Hq pre s m HF. unfold palt. specialize (Hp pre s m HF). destruct (p s m) as [a r m1|m1|]; [done| |done].
  specialize (Hq pre s m1 HF). destruct (q s m1) as [a r m2|m2|]; [| |done].
  - destruct Hq as [Hq Hs]. split; [done|]. by eapply seen_again.
  - by eapply seen_again.
Qed.
Lemma tr_slice {A} (p : parser A) (F F' : text -> text -> Prop) : tracks p F (fun _ => F') -> tracks (pslice p) F (fun _ => F').
Proof. intros Hp pre s m HF. unfold pslice. specialize (Hp pre s m HF). by destruct (p s m). Qed.
Lemma tr_weaken {A} (p : parser A) (F G : text -> text -> Prop) (F' G' : A -> text -> text -> Prop) : (forall pre s, G pre s -> F pre s) -> (forall a pre s, F' a pre s -> G' a pre s) -> tracks p F F' -> tracks p G G'.
Proof.
  intros H1 H2 Hp pre s m HG. specialize (Hp pre s m (H1 _ _ HG)). destruct (p s m) as [a r m1|m1|]; [|done|done].
  destruct Hp as [(w & -> & H) Hs]. split; [|done]. exists w. split; [done|]. by apply H2.
Qed.
Lemma tr_star {A} (p : parser A) (F : text -> text -> Prop) : tracks p F (fun _ => F) -> tracks (pstar p) F (fun _ => F).
Proof.
  intros Hp. unfold pstar. assert (forall fuel, tracks (pstar_loop fuel p) F (fun _ => F)) as H; [|intros pre s m; apply H].
  induction fuel as [|fuel IH]; intros pre s m HF; [done|]. cbn [pstar_loop]. specialize (Hp pre s m HF). destruct (p s m) as [a r m1|m1|]; [| |done].
  - destruct Hp as [(w & -> & HF1) Hs]. specialize (IH (pre ++ w) r m1 HF1). destruct (pstar_loop fuel p r m1) as [b r2 m2|m2|]; [| |done].
    + destruct IH as [(w2 & -> & HF2) Hs2]. split; [|by eapply seen_trans]. exists (w ++ w2). rewrite !app_assoc in *. done.
    + by eapply seen_trans.
  - split; [|done]. exists []. by rewrite app_nil_r.
Qed.

(** ** Terminals *)
Lemma St_take (B : ascii -> Prop) (G : text -> Prop) pre x w r (P' B' : ascii -> Prop) (G' : text -> Prop) : x ≠ "["%char \/ ~ B x -> (forall c, P' c -> B' c) -> stops (fun c => P' c /\ c ≠ "["%char) r ->
  (forall tail, stops P' tail -> G' tail -> G (x :: w ++ tail)) -> St B G pre (x :: w ++ r) -> St B' G' (pre ++ x :: w) r.
Proof.
  intros Hx HP' Hr HG [[? _]|(P & HP & Hs & H)]; [done|right]. exists P'. split; [done|]. split; [done|]. intros tail Ht Hst.
  rewrite <- app_assoc. cbn [app]. apply H; [by apply HG|]. cbn in *. intros HPx. destruct Hx as [Hx|Hx]; [by apply Hs|]. by apply Hx, HP.
Qed.
Lemma tr_lit x l (B : ascii -> Prop) (G G' : text -> Prop) : x ≠ "["%char \/ ~ B x -> (forall t, G' t -> G (txt (String x l) ++ t)) -> comp B G ->
  tracks (plit (T (String x l))) (St B G) (fun _ => St (fun _ => False) G').
Proof.
  intros Hx HG Hc pre s m HF. unfold plit. destruct (strip (T (String x l)) s) as [r|] eqn:E.
  - apply strip_some in E as ->. split; [|by left]. exists (txt (String x l)). split; [done|].
    eapply (St_take B G pre x (txt l) r (fun _ => False)); [done|done|by destruct r; cbn; [|intros []]|intros t _; apply HG|exact HF].
  - apply (seen_min pre [] s). rewrite app_nil_r. by eapply St_viable.
Qed.
Definition either (B P : ascii -> Prop) (c : ascii) : Prop := B c \/ P c.
Lemma class_star (f : ascii -> bool) (P : ascii -> Prop) s m : (forall c, f c = true <-> P c) -> exists w r, pstar (pclass f) s m = PSucc w r (Nat.min m (length r)) /\ s = w ++ r /\ Forall P w /\ stops P r.
Proof.
  intros Hf. unfold pstar. assert (forall fuel s, length s < fuel -> exists w r, pstar_loop fuel (pclass f) s m = PSucc w r (Nat.min m (length r)) /\ s = w ++ r /\ Forall P w /\ stops P r) as H; [|apply H; lia].
  clear s. induction fuel as [|fuel IH]; intros s Hl; [lia|]. cbn [pstar_loop]. unfold pclass at 1. destruct s as [|c s].
  - exists [], []. done.
  - destruct (f c) eqn:E.
    + destruct (IH s) as (w & r & -> & -> & Hw & Hr); [cbn in Hl; lia|]. exists (c :: w), r. split; [done|]. split; [done|]. split; [|done]. constructor; [by apply Hf|done].
    + exists [], (c :: s). split; [done|]. split; [done|]. split; [done|]. cbn. rewrite <- Hf, E. done.
Qed.
Lemma tr_class_star f (P : ascii -> Prop) (B : ascii -> Prop) (G G' : text -> Prop) : (forall c, f c = true <-> P c) -> ~ P "["%char \/ ~ B "["%char ->
  (forall w t, Forall P w -> stops P t -> G' t -> G (w ++ t)) -> comp (either B P) G' -> tracks (pstar (pclass f)) (St B G) (fun _ => St (either B P) G').
Proof.
  intros Hf Hx HG Hc pre s m HF. destruct (class_star f P s m Hf) as (w & r & -> & -> & Hw & Hr).
  assert (St (either B P) G' (pre ++ w) r) as HS.
  { destruct w as [|x w].
    - rewrite app_nil_r. cbn [app] in HF. destruct HF as [[-> Hv]|(Q & HQ & Hs & H)]; [by left|right]. exists (either Q P). split; [by intros c [?|?]; [left; apply HQ|right]|].
      split.
      + destruct r as [|c r]; [done|]. cbn in *. unfold either. tauto.
      + intros tail Ht Hst. apply H; [|by eapply stops_mono; [|exact Hst]; intros c ?; left]. apply (HG [] tail); [done| |done]. by eapply stops_mono; [|exact Hst]; intros c ?; right.
    - apply Forall_cons in Hw as [Hx' Hw]. eapply (St_take B G pre x w r P); [|by intros c ?; right|by eapply stops_mono; [|exact Hr]; intros c [? _]| |exact HF].
      + destruct (decide (x = "["%char)) as [->|]; [|by left]. right. tauto.
      + intros t Hst Ht. apply (HG (x :: w) t); [by constructor|done..]. }
  split; [by exists w|]. apply seen_min. by eapply St_viable.
Qed.
Lemma tr_skip f (P : ascii -> Prop) (B : ascii -> Prop) (G G' : text -> Prop) : (forall c, f c = true <-> P c) -> ~ P "["%char \/ ~ B "["%char ->
  (forall w t, Forall P w -> stops P t -> G' t -> G (w ++ t)) -> comp (either B P) G' ->
  tracks (pmap (fun _ => ()) (pstar (pclass f))) (St B G) (fun _ => St (either B P) G').
Proof. intros. apply tr_map. by apply tr_class_star. Qed.
Lemma ident_keeps s m : match ident s m with PSucc w r m' => name w s r /\ m' = m | PFail m' => m' = m | PDiv => False end.
Proof.
  destruct (ex_ident s m) as [Hd He]. destruct (ident s m) as [w r m'|m'|] eqn:E; [| |done].
  - split; [apply He; by eexists|]. unfold ident, pquiet in E. by destruct (pslice _ s m); inversion E.
  - unfold ident, pquiet in E. by destruct (pslice _ s m); inversion E.
Qed.
Lemma start_not_bracket c : start_char c -> c ≠ "["%char.
Proof. intros H ->. revert H. apply (bool_decide_unpack _). vm_compute. exact I. Qed.
Lemma tr_ident (B : ascii -> Prop) (G G' : text -> Prop) (F : text -> text -> Prop) : (forall pre s, F pre s -> St B G pre s) ->
  (forall pre s w r t, F pre s -> name w s r -> legal_name w -> stops name_char t -> G' t -> G (w ++ t)) ->
  tracks ident F (fun _ => St name_char G').
Proof.
  intros HF HG pre s m Hs. pose proof (ident_keeps s m) as H. destruct (ident s m) as [w r m'|m'|]; [|by left|done].
  destruct H as [Hn ->]. split; [|by left]. exists w. pose proof Hn as (E & Hl & Hr). split; [done|].
  destruct (Hl) as (_ & (c & w' & Ew & Hc) & _). subst w s. eapply (St_take B G pre c w' r name_char); [left; by apply start_not_bracket|done| | |by apply HF].
  - by eapply stops_mono; [|exact Hr]; intros ? [? _].
  - intros t Hst Ht. by eapply (HG pre ((c :: w') ++ r) (c :: w') r t).
Qed.
Lemma tr_perhaps x l (B : ascii -> Prop) (G : text -> Prop) (G' : bool -> text -> Prop) : (l = "" /\ x ≠ "["%char) \/ (x = "["%char /\ ~ B x) ->
  (forall t, G' true t -> G (txt (String x l) ++ t)) -> (forall t, stops (eq x) t -> G' false t -> G t) -> comp B G ->
  tracks (popt (plit (T (String x l)))) (St B G) (fun o => match o with Some _ => St (fun _ => False) (G' true) | None => St (either B (eq x)) (G' false) end).
Proof.
  intros Hx HG1 HG2 Hc pre s m HF. pose proof (tr_lit x l B G (G' true) ltac:(tauto) HG1 Hc pre s m HF) as H. unfold popt, plit in *.
  destruct (strip (T (String x l)) s) as [r|] eqn:E; [exact H|]. split; [|exact H]. exists []. rewrite app_nil_r. split; [done|].
  destruct HF as [[-> Hv]|(Q & HQ & Hs & HT)]; [by left|right]. exists (either Q (eq x)). split; [by intros c [?|?]; [left; apply HQ|right]|]. split.
  - destruct s as [|c s]; [done|]. cbn in *. intros [[H1|<-] H2]; [by apply Hs|]. destruct Hx as [[-> _]|[-> _]]; [|done]. cbn in E. by rewrite Ascii.eqb_refl in E.
  - intros tail Ht Hst. apply HT; [|by eapply stops_mono; [|exact Hst]; intros c ?; left]. apply HG2; [|done]. by eapply stops_mono; [|exact Hst]; intros c ?; right.
Qed.

(** ** What may follow at each point of the grammar *)
Definition Gskip (P : ascii -> Prop) (G : text -> Prop) (t : text) : Prop := exists r, skip P t r /\ G r.
Definition Glit (l : string) (G : text -> Prop) (t : text) : Prop := exists r, lit l t r /\ G r.
Definition Gper (l : string) (G : text -> Prop) (t : text) : Prop := exists b r, perhaps l b t r /\ G r.
Definition Gword (G : text -> Prop) (t : text) : Prop := exists w r, word w t r /\ G r.
Definition Lines (t : text) : Prop := exists a, lines a t.
Definition Lines1 (t : text) : Prop := t ≠ [] /\ Lines t.
Definition After_body : text -> Prop := Gskip space_char Lines.
Definition Variants : text -> Prop := Gskip space_char (fun t => exists vs r, variants vs t r /\ Glit "}" After_body r).
Definition Fields : text -> Prop := Gskip space_char (fun t => exists fs r, fields fs t r /\ Glit "}" After_body r).
Definition After_type : text -> Prop := Gskip space_char (Gper "," Fields).
Definition After_colon : text -> Prop := Gskip blank_char (Gword (Gper "[]" After_type)).
Definition After_field : text -> Prop := Gskip blank_char (Gper "?" (Glit ":" After_colon)).
Definition Body : text -> Prop := Gskip blank_char (fun t => exists b r, body b t r /\ After_body r).
Definition After_name : text -> Prop := Gskip blank_char (Glit ":" Body).

Lemma gskip_app (P : ascii -> Prop) (G : text -> Prop) w t : Forall P w -> Gskip P G t -> Gskip P G (w ++ t).
Proof.
  intros Hw (r & (w' & -> & Hw' & Hr) & HG). exists r. split; [|done]. exists (w ++ w'). rewrite <- app_assoc. split; [done|]. split; [|done]. by apply Forall_app.
Qed.
Lemma gskip_here (P : ascii -> Prop) (G : text -> Prop) t : stops P t -> G t -> Gskip P G t.
Proof. intros Hs HG. exists t. split; [by apply skip_id|done]. Qed.
Lemma tr_then_skip f (P B : ascii -> Prop) (G : text -> Prop) : (forall c, f c = true <-> P c) -> ~ P "["%char -> comp (either B P) G ->
  tracks (pmap (fun _ => ()) (pstar (pclass f))) (St B (Gskip P G)) (fun _ => St (either B P) G).
Proof. intros Hf Hx Hc. apply tr_skip; [done|by left| |done]. intros w t Hw Ht HG. apply gskip_app; [done|]. by apply gskip_here. Qed.
Lemma tr_more_skip f (P B : ascii -> Prop) (G : text -> Prop) : (forall c, f c = true <-> P c) -> ~ P "["%char -> comp (either B P) (Gskip P G) ->
  tracks (pmap (fun _ => ()) (pstar (pclass f))) (St B (Gskip P G)) (fun _ => St (either B P) (Gskip P G)).
Proof. intros Hf Hx Hc. apply tr_skip; [done|by left| |done]. intros w t Hw Ht HG. by apply gskip_app. Qed.
Lemma tr_then_lit x l (B : ascii -> Prop) (G : text -> Prop) : x ≠ "["%char -> comp B (Glit (String x l) G) ->
  tracks (plit (T (String x l))) (St B (Glit (String x l) G)) (fun _ => St (fun _ => False) G).
Proof. intros Hx Hc. apply tr_lit; [by left| |done]. intros t Ht. by exists t. Qed.
Lemma gper_none x l (G : text -> Prop) t : stops (eq x) t -> G t -> Gper (String x l) G t.
Proof. intros Hs HG. exists false, t. split; [|done]. split; [done|]. intros r' E. unfold lit in E. subst t. by apply Hs. Qed.
Lemma tr_then_perhaps x l (B : ascii -> Prop) (G : text -> Prop) : (l = "" /\ x ≠ "["%char) \/ (x = "["%char /\ ~ B x) -> comp B (Gper (String x l) G) ->
  tracks (popt (plit (T (String x l)))) (St B (Gper (String x l) G)) (fun _ => St (either B (eq x)) G).
Proof.
  intros Hx Hc. eapply tr_weaken; [done| |apply (tr_perhaps x l B _ (fun _ => G) Hx)]; [| | |done].
  - intros [[]|] pre s; [|done]. apply St_weaken; [done|done].
  - intros t Ht. by exists true, t.
  - apply gper_none.
Qed.
Lemma tr_then_word (B : ascii -> Prop) (G : text -> Prop) : comp (either B name_char) G -> tracks string_ (St B (Gword G)) (fun _ => St (either B name_char) G).
Proof.
  intros Hc. apply tr_slice, tr_class_star; [exact is_name_spec|left; apply (bool_decide_unpack _); vm_compute; exact I| |done]. intros w t Hw Ht HG. by exists w, t.
Qed.
Lemma tr_comment (B : ascii -> Prop) (G G' : text -> Prop) :
  (forall w nl t, Forall (fun c => c ≠ lf) w -> Forall newline_char nl -> stops newline_char t -> G' t -> G (txt "#" ++ w ++ lf :: nl ++ t)) ->
  comp B G -> comp newline_char G' -> tracks comment (St B G) (fun _ => St newline_char G').
Proof.
  intros HG Hc (c & Hc1 & Hc2 & Hc3). unfold comment. eapply tr_bind; [apply (tr_lit _ _ B G (fun t => G (txt "#" ++ t))); [by left|done|done]|]. intros _ pre s m HF.
  unfold pbind at 1. destruct (class_star (fun c => negb (Ascii.eqb c LF)) (fun c => c ≠ lf) s m not_lf_spec) as (w & r & -> & -> & Hw & Hr).
  unfold newlines, pmap, pbind, pret. destruct (class_star is_newline newline_char r (Nat.min m (length r)) is_newline_spec) as (w2 & r2 & -> & -> & Hw2 & Hr2).
  assert (viable (pre ++ w)) as Hv.
  { destruct HF as [[E Hv]|(P & HP & Hs & H)]; [apply app_eq_nil in E as [-> _]; by rewrite app_nil_r|]. exists (lf :: c). split; [constructor; [apply (bool_decide_unpack _); vm_compute; exact I|done]|].
    rewrite <- app_assoc. apply H; [by apply (HG w [] c)|]. destruct w as [|x w]; cbn; intros Hx; by apply HP in Hx. }
  destruct w2 as [|x w2].
  - cbn [app] in *. assert (r2 = []) as ->.
    { destruct r2 as [|y r2]; [done|]. destruct (decide (y = lf)) as [->|Hy]; [|by destruct Hr]. exfalso. apply Hr2. by left. }
    split; [|rewrite <- Nat.min_assoc, Nat.min_id; by apply seen_min]. exists w. split; [done|]. by left.
  - assert (x = lf) as -> by (destruct (decide (x = lf)) as [|Hx]; [done|by destruct Hr]). apply Forall_cons in Hw2 as [_ Hw2].
    assert (forall t, G' t -> stops newline_char t -> valid (pre ++ w ++ lf :: w2 ++ t)) as Ht.
    { intros t Ht Hst. destruct HF as [[E Hv']|(P & HP & Hs & H)]; [by destruct w|]. apply H; [by apply HG|]. destruct w; cbn; intros Hx; by apply HP in Hx. }
    assert (St newline_char G' (pre ++ w ++ lf :: w2) r2) as HS.
    { right. exists newline_char. split; [done|]. split; [by eapply stops_mono; [|exact Hr2]; intros ? [? _]|]. intros t Ht1 Ht2. rewrite <- !app_assoc. by apply Ht. }
    split; [exists (w ++ lf :: w2); rewrite <- app_assoc; by split|].
    rewrite <- Nat.min_assoc, (Nat.min_r (length _) (length r2)) by (rewrite app_length; cbn; lia).
    change (w ++ (lf :: w2) ++ r2) with (w ++ lf :: w2 ++ r2). replace (w ++ lf :: w2 ++ r2) with ((w ++ lf :: w2) ++ r2) by by rewrite <- app_assoc. apply seen_min.
    eapply St_viable; [|exact HS]. by exists c.
Qed.

(** ** The rules of the grammar *)
Definition AnyB (c : ascii) : Prop := name_char c \/ space_char c \/ c = ","%char \/ c = "?"%char \/ c = "["%char.
Ltac decide_now := apply (bool_decide_unpack _); vm_compute; exact I.
Lemma after_body_nil : After_body [].
Proof. apply gskip_here; [done|]. exists []. constructor. Qed.
Lemma close_after : Glit "}" After_body (txt "}").
Proof. exists []. split; [done|]. exact after_body_nil. Qed.
Lemma variants_close : Variants (txt "}").
Proof. apply gskip_here; [decide_now|]. exists [], (txt "}"). split; [constructor|exact close_after]. Qed.
Lemma fields_close : Fields (txt "}").
Proof. apply gskip_here; [decide_now|]. exists [], (txt "}"). split; [constructor|exact close_after]. Qed.
Lemma comma_close (G : text -> Prop) : G (txt "}") -> Gper "," G (txt "}").
Proof. intros H. apply gper_none; [|done]. decide_now. Qed.
Lemma type_close : After_type (txt "}").
Proof. apply gskip_here; [decide_now|]. apply comma_close, fields_close. Qed.
Lemma array_close : Gper "[]" After_type (txt "}").
Proof. apply gper_none; [|apply type_close]. decide_now. Qed.
Lemma word_close : Gword (Gper "[]" After_type) (txt "}").
Proof. exists [], (txt "}"). split; [|apply array_close]. split; [done|]. split; [done|]. decide_now. Qed.
Lemma colon_close : Glit ":" After_colon (txt ":}").
Proof. exists (txt "}"). split; [done|]. apply gskip_here; [decide_now|]. exact word_close. Qed.
Lemma optional_close : Gper "?" (Glit ":" After_colon) (txt ":}").
Proof. apply gper_none; [|apply colon_close]. decide_now. Qed.
Lemma enum_close : Gskip blank_char (Glit "{" Variants) (txt "{}").
Proof. apply gskip_here; [decide_now|]. exists (txt "}"). split; [done|]. exact variants_close. Qed.
Lemma struct_close : Gskip blank_char (Glit "{" Fields) (txt "{}").
Proof. apply gskip_here; [decide_now|]. exists (txt "}"). split; [done|]. exact fields_close. Qed.
Lemma body_enum_tail t : Gskip blank_char (Glit "{" Variants) t -> Body (txt "enum" ++ t).
Proof.
  intros (r2 & H2 & r3 & H3 & r4 & H4 & vs & r5 & H5 & r & H6 & Hr). apply gskip_here; [decide_now|]. exists (AEnum vs), r. split; [|done].
  by eapply (body_enum vs _ t r2 r3 r4 r5 r).
Qed.
Lemma body_struct_tail t : Gskip blank_char (Glit "{" Fields) t -> Body (txt "struct" ++ t).
Proof.
  intros (r2 & H2 & r3 & H3 & r4 & H4 & fs & r5 & H5 & r & H6 & Hr). apply gskip_here; [decide_now|]. exists (AStruct fs), r. split; [|done].
  by eapply (body_struct fs _ t r2 r3 r4 r5 r).
Qed.
Lemma body_close : Body (txt "enum{}").
Proof. apply (body_enum_tail (txt "{}")), enum_close. Qed.

Ltac fill x lem := exists (txt x); split; [decide_now|split; [exact lem|decide_now]].
Lemma not_bracket_blank : ~ blank_char "["%char. Proof. decide_now. Qed.
Lemma not_bracket_space : ~ space_char "["%char. Proof. decide_now. Qed.
Lemma not_bracket_newline : ~ newline_char "["%char. Proof. decide_now. Qed.
Lemma legal_stops_space w r : legal_name w -> stops space_char (w ++ r).
Proof. intros (HF & (c & w' & -> & _) & _). apply Forall_cons in HF as [Hc _]. by apply name_char_not_blank. Qed.

Lemma tr_variant : tracks enum_variant (St AnyB Variants) (fun _ => St AnyB Variants).
Proof.
  unfold enum_variant. eapply tr_bind.
  { apply (tr_ident AnyB Variants (Gskip space_char (Gper "," Variants))); [done|]. intros _ _ w _ t _ _ Hw Ht (r2 & H2 & b & r3 & H3 & r4 & H4 & vs & r & Hvs & HG).
    apply gskip_here; [by apply legal_stops_space|]. exists (str w :: vs), r. split; [|done]. eapply variants_more; [|exact H2|exact H3|exact H4|exact Hvs]. done. }
  intros w. eapply tr_bind; [apply tr_then_skip; [exact is_white_spec|exact not_bracket_space|]|intros ?; cbn beta].
  { fill "}" (comma_close _ variants_close). }
  eapply tr_bind; [apply tr_then_perhaps; [by left|]|intros ?; cbn beta].
  { fill "}" (comma_close _ variants_close). }
  eapply tr_bind; [apply tr_more_skip; [exact is_white_spec|exact not_bracket_space|]|intros ?; cbn beta].
  { fill "}" variants_close. }
  apply tr_ret. intros pre s. apply St_weaken; [|done]. unfold either, AnyB. naive_solver.
Qed.
Lemma tr_enum_type : tracks enum_type (St blank_char Body) (fun _ => St (fun _ => False) After_body).
Proof.
  unfold enum_type. eapply tr_bind; [apply tr_more_skip; [exact is_blank_spec|exact not_bracket_blank|]|intros ?; cbn beta].
  { fill "enum{}" body_close. }
  eapply tr_bind; [apply (tr_lit _ _ _ _ (Gskip blank_char (Glit "{" Variants))); [by left|exact body_enum_tail|]|intros ?; cbn beta].
  { fill "enum{}" body_close. }
  eapply tr_bind; [apply tr_then_skip; [exact is_blank_spec|exact not_bracket_blank|]|intros ?; cbn beta].
  { exists (txt "{}"). split; [decide_now|]. split; [|decide_now]. exists (txt "}"). split; [done|]. exact variants_close. }
  eapply tr_bind; [apply tr_then_lit; [done|]|intros ?; cbn beta].
  { exists (txt "{}"). split; [decide_now|]. split; [|decide_now]. exists (txt "}"). split; [done|]. exact variants_close. }
  eapply tr_bind; [apply tr_more_skip; [exact is_white_spec|exact not_bracket_space|]|intros ?; cbn beta].
  { fill "}" variants_close. }
  eapply tr_bind; [eapply tr_weaken; [|done|apply tr_star, tr_variant]|intros vs; cbn beta].
  { intros pre s. apply St_weaken; [|done]. unfold either, AnyB. naive_solver. }
  eapply tr_bind; [apply (tr_skip _ space_char _ _ (Glit "}" After_body)); [exact is_white_spec|left; exact not_bracket_space| |]|intros ?; cbn beta].
  { intros w t Hw Ht HG. apply gskip_app; [done|]. apply gskip_here; [done|]. exists [], t. split; [constructor|done]. }
  { fill "}" close_after. }
  eapply tr_bind; [apply tr_then_lit; [done|]|intros ?; cbn beta].
  { fill "}" close_after. }
  by apply tr_ret.
Qed.
Lemma tr_field : tracks struct_field (St AnyB Fields) (fun _ => St AnyB Fields).
Proof.
  unfold struct_field. apply tr_alt.
  - eapply tr_bind; [apply (tr_comment _ _ Fields)|intros ?; cbn beta].
    { intros w nl t Hw Hnl Hst (r2 & (w2 & -> & Hw2 & Hr2) & fs & r & Hfs & HG). apply gskip_here; [decide_now|]. exists fs, r. split; [|done].
      eapply (fields_comment fs _ (lf :: nl ++ w2 ++ r2) r2); [| |exact Hfs].
      - exists w. split; [done|]. split; [done|]. right. by eexists.
      - exists (lf :: nl ++ w2). split; [cbn; by rewrite <- app_assoc|]. split; [|done]. constructor; [by right; left|]. apply Forall_app. split; [|done].
        eapply Forall_impl; [exact Hnl|]. intros c Hc. by right. }
    { fill "}" fields_close. }
    { fill "}" fields_close. }
    eapply tr_bind; [apply tr_more_skip; [exact is_white_spec|exact not_bracket_space|]|intros ?; cbn beta].
    { fill "}" fields_close. }
    apply tr_ret. intros pre s. apply St_weaken; [|done]. unfold either, AnyB, space_char. naive_solver.
  - eapply tr_bind.
    { apply (tr_ident AnyB Fields After_field); [done|]. intros _ _ w _ t _ _ Hw Ht (r2 & H2 & o & r3 & H3 & r4 & H4 & r5 & H5 & ty & r6 & H6 & a & r7 & H7 & r8 & H8 & c & r9 & H9 & r10 & H10 & fs & r & Hfs & HG).
      apply gskip_here; [by apply legal_stops_space|]. eexists _, r. split; [|done]. eapply fields_more; [|exact H2|exact H3|exact H4|exact H5|exact H6|exact H7|exact H8|exact H9|exact H10|exact Hfs]. done. }
    intros n. eapply tr_bind; [apply tr_then_skip; [exact is_blank_spec|exact not_bracket_blank|]|intros ?; cbn beta].
    { fill ":}" optional_close. }
    eapply tr_bind; [apply (tr_map _ _ _ (fun _ => St (either (either name_char blank_char) (eq "?"%char)) (Glit ":" After_colon))), tr_then_perhaps; [by left|]|intros o; cbn beta].
    { fill ":}" optional_close. }
    eapply tr_bind; [apply tr_then_lit; [done|]|intros ?; cbn beta].
    { fill ":}" colon_close. }
    eapply tr_bind; [apply tr_then_skip; [exact is_blank_spec|exact not_bracket_blank|]|intros ?; cbn beta].
    { fill "}" word_close. }
    eapply tr_bind; [apply tr_then_word|intros ty; cbn beta].
    { fill "}" array_close. }
    eapply tr_bind; [apply tr_then_perhaps; [right; split; [done|decide_now]|]|intros ?; cbn beta].
    { fill "}" array_close. }
    eapply tr_bind; [apply tr_then_skip; [exact is_white_spec|exact not_bracket_space|]|intros ?; cbn beta].
    { fill "}" (comma_close _ fields_close). }
    eapply tr_bind; [apply tr_then_perhaps; [by left|]|intros c; cbn beta].
    { fill "}" (comma_close _ fields_close). }
    eapply tr_bind; [apply tr_more_skip; [exact is_white_spec|exact not_bracket_space|]|intros ?; cbn beta].
    { fill "}" fields_close. }
    apply tr_ret. intros pre s. apply St_weaken; [|done]. unfold either, AnyB, space_char. naive_solver.
Qed.
Lemma tr_struct_type : tracks struct_type (St blank_char Body) (fun _ => St (fun _ => False) After_body).
Proof.
  unfold struct_type. eapply tr_bind; [apply tr_more_skip; [exact is_blank_spec|exact not_bracket_blank|]|intros ?; cbn beta].
  { fill "enum{}" body_close. }
  eapply tr_bind; [apply (tr_lit _ _ _ _ (Gskip blank_char (Glit "{" Fields))); [by left|exact body_struct_tail|]|intros ?; cbn beta].
  { fill "enum{}" body_close. }
  eapply tr_bind; [apply tr_then_skip; [exact is_blank_spec|exact not_bracket_blank|]|intros ?; cbn beta].
  { exists (txt "{}"). split; [decide_now|]. split; [|decide_now]. exists (txt "}"). split; [done|]. exact fields_close. }
  eapply tr_bind; [apply tr_then_lit; [done|]|intros ?; cbn beta].
  { exists (txt "{}"). split; [decide_now|]. split; [|decide_now]. exists (txt "}"). split; [done|]. exact fields_close. }
  eapply tr_bind; [apply tr_more_skip; [exact is_white_spec|exact not_bracket_space|]|intros ?; cbn beta].
  { fill "}" fields_close. }
  eapply tr_bind; [eapply tr_weaken; [|done|apply tr_star, tr_field]|intros vs; cbn beta].
  { intros pre s. apply St_weaken; [|done]. unfold either, AnyB. naive_solver. }
  eapply tr_bind; [apply (tr_skip _ space_char _ _ (Glit "}" After_body)); [exact is_white_spec|left; exact not_bracket_space| |]|intros ?; cbn beta].
  { intros w t Hw Ht HG. apply gskip_app; [done|]. apply gskip_here; [done|]. exists [], t. split; [constructor|done]. }
  { fill "}" close_after. }
  eapply tr_bind; [apply tr_then_lit; [done|]|intros ?; cbn beta].
  { fill "}" close_after. }
  by apply tr_ret.
Qed.

(** ** Lines *)
Definition LineB (c : ascii) : Prop := name_char c \/ space_char c.
Lemma lines_nil : Lines []. Proof. exists []. constructor. Qed.
Lemma lines_blank w t : Forall blank_char w -> stops blank_char t -> Lines1 t -> Lines1 (w ++ t).
Proof.
  intros Hw Ht [Hne [a Ha]]. split; [by destruct w|]. exists a.
  assert (forall r, skip blank_char t r -> skip blank_char (w ++ t) r) as Hsk.
  { intros r (w' & -> & Hw' & Hr). exists (w ++ w'). rewrite <- app_assoc. split; [done|]. split; [by apply Forall_app|done]. }
  inversion Ha; subst; [done|..].
  - eapply lines_comment; eauto.
  - eapply lines_export; eauto.
  - eapply lines_decl; eauto.
Qed.
Lemma comment_line w nl t : Forall (fun c => c ≠ lf) w -> Forall newline_char nl -> stops newline_char t -> Gskip newline_char Lines t -> Lines1 (txt "#" ++ w ++ lf :: nl ++ t).
Proof.
  intros Hw Hnl Hst (r & H & a & Ha). apply skip_id_iff in H as ->; [|done]. split; [done|]. exists a.
  eapply (lines_comment a _ _ (lf :: nl ++ t) t); [apply skip_id; decide_now| | |done].
  - exists w. split; [done|]. split; [done|]. right. by eexists.
  - exists (lf :: nl). split; [done|]. split; [|done]. constructor; [by left|done].
Qed.
Definition After_export : text -> Prop := Gskip blank_char (Gword (Gskip newline_char Lines)).
Lemma export_line t : After_export t -> Lines1 (txt "export" ++ t).
Proof.
  intros (r3 & H3 & e & r4 & H4 & r & H5 & a & Ha). split; [done|]. eexists. eapply (lines_export e a _ (txt "export" ++ t) t r3 r4 r); [|done..]. apply skip_id. decide_now.
Qed.
Lemma decl_line w t : legal_name w -> ~ txt "export" `prefix_of` w -> stops name_char t -> After_name t -> Lines1 (w ++ t).
Proof.
  intros Hw He Ht (r3 & H3 & r4 & H4 & r5 & H5 & b & r6 & H6 & r & H7 & a & Ha). split; [destruct Hw as (_ & (c & w' & -> & _) & _); done|].
  eexists. eapply (lines_decl w b a _ (w ++ t) t r3 r4 r5 r6 r); [|done..]. apply skip_id. apply stops_blank. by apply legal_stops_space.
Qed.
Lemma hash_line : Lines1 (txt "#").
Proof. split; [done|]. exists []. eapply (lines_comment [] _ (txt "#") [] []); [apply skip_id; decide_now| |by apply skip_id|constructor]. exists []. split; [done|]. split; [done|by left]. Qed.
Lemma newline_lines : Gskip newline_char Lines []. Proof. apply gskip_here; [done|]. exact lines_nil. Qed.
Lemma name_close : Glit ":" Body (txt ":enum{}").
Proof. exists (txt "enum{}"). split; [done|]. exact body_close. Qed.

Lemma tr_newlines (B : ascii -> Prop) : tracks newlines (St B (Gskip newline_char Lines)) (fun _ => St (either B newline_char) Lines).
Proof. apply tr_then_skip; [exact is_newline_spec|exact not_bracket_newline|]. exists []. split; [constructor|]. split; [exact lines_nil|done]. Qed.
Lemma tr_blanks_line (B : ascii -> Prop) : ~ B "#"%char -> tracks blanks (St B Lines) (fun _ => St (either B blank_char) Lines1).
Proof.
  intros HB. apply tr_skip; [exact is_blank_spec|left; exact not_bracket_blank| |].
  - intros w t Hw Ht HG. by apply lines_blank.
  - exists (txt "#"). split; [decide_now|]. split; [exact hash_line|]. cbn. intros [H|H]; [done|]. revert H. decide_now.
Qed.
Lemma tr_comment_line : tracks (blanks ~> comment ~> newlines ~> pret None) (St LineB Lines) (fun _ : option node => St LineB Lines).
Proof.
  eapply tr_bind; [apply tr_blanks_line; decide_now|intros ?; cbn beta].
  eapply tr_bind; [apply (tr_comment _ _ (Gskip newline_char Lines)); [exact comment_line| |]|intros ?; cbn beta].
  { fill "#" hash_line. }
  { exists []. split; [constructor|]. split; [exact newline_lines|done]. }
  eapply tr_bind; [apply tr_newlines|intros ?; cbn beta]. apply tr_ret. intros pre s. apply St_weaken; [|done]. unfold either, LineB, space_char. naive_solver.
Qed.
Lemma tr_export_line : tracks (blanks ~> e <~ export_; newlines ~> pret (Some e)) (St LineB Lines) (fun _ => St LineB Lines).
Proof.
  eapply tr_bind; [apply tr_blanks_line; decide_now|intros ?; cbn beta]. unfold export_. eapply tr_bind.
  - eapply tr_bind; [apply (tr_lit _ _ _ _ After_export); [by left|exact export_line|]|intros ?; cbn beta].
    { fill "#" hash_line. }
    assert (Gword (Gskip newline_char Lines) []) as Hw by (exists [], []; split; [done|exact newline_lines]).
    eapply tr_bind; [apply tr_then_skip; [exact is_blank_spec|exact not_bracket_blank|]|intros ?; cbn beta].
    { exists []. split; [constructor|]. split; [exact Hw|done]. }
    eapply tr_bind; [apply tr_then_word|intros e; cbn beta].
    { exists []. split; [constructor|]. split; [exact newline_lines|done]. }
    apply (tr_ret _ _ (fun _ => St (either (either (fun _ => False) blank_char) name_char) (Gskip newline_char Lines))). done.
  - intros e. eapply tr_bind; [apply tr_newlines|intros ?; cbn beta]. apply tr_ret. intros pre s. apply St_weaken; [|done]. unfold either, LineB, space_char. naive_solver.
Qed.
(** a declaration, where no export begins *)
Definition no_export (s : text) : Prop := forall r1 r2, skip blank_char s r1 -> ~ lit "export" r1 r2.
Lemma tr_keep {A} (p : parser A) (F : text -> text -> Prop) (F' : A -> text -> text -> Prop) (C C' : text -> Prop) :
  (forall s m a r m', C s -> p s m = PSucc a r m' -> C' r) -> tracks p F F' -> tracks p (fun pre s => F pre s /\ C s) (fun a pre s => F' a pre s /\ C' s).
Proof.
  intros HC Hp pre s m [HF Hs]. specialize (Hp pre s m HF). pose proof (HC s m) as H. destruct (p s m) as [a r m1|m1|]; [|done|done].
  destruct Hp as [(w & -> & HF1) Hseen]. split; [|done]. exists w. split; [done|]. split; [done|]. by eapply H.
Qed.
Lemma blanks_no_export s m a r m' : no_export s -> blanks s m = PSucc a r m' -> no_export r.
Proof.
  intros Hs E r1 r2 Hr. destruct (ex_blanks s m) as [_ He]. assert (skip blank_char s r) as Hsk by (apply (He a); by eexists).
  apply Hs. pose proof (skip_stops _ _ _ Hsk) as Hst. by apply (skip_id_iff _ _ _ Hst) in Hr as ->.
Qed.
Lemma tr_decl_line : tracks (blanks ~> s <~ decl; newlines ~> pret (Some s)) (fun pre s => St LineB Lines pre s /\ no_export s) (fun _ => St LineB Lines).
Proof.
  eapply tr_bind; [eapply (tr_keep _ _ _ no_export no_export); [exact blanks_no_export|apply tr_blanks_line; decide_now]|intros ?; cbn beta]. cbn beta. unfold decl. eapply tr_bind.
  - eapply tr_bind; [eapply (tr_keep _ _ _ no_export no_export); [exact blanks_no_export|]|intros ?; cbn beta].
    { apply (tr_skip _ blank_char _ _ Lines1); [exact is_blank_spec|left; exact not_bracket_blank|intros; by apply lines_blank|]. fill "#" hash_line. }
    cbn beta. eapply tr_bind.
    { apply (tr_ident (either (either LineB blank_char) blank_char) Lines1 After_name); [by intros ? ? [? _]|]. intros pre s w r t [_ Hs] Hn Hw Ht HG. apply decl_line; [done| |done|done].
      intros [k Hk]. apply (Hs s (k ++ r)); [|destruct Hn as (-> & _); unfold lit; by rewrite Hk, app_assoc]. apply skip_id. destruct Hn as (-> & _). by apply stops_blank, legal_stops_space. }
    intros n. eapply tr_bind; [apply tr_then_skip; [exact is_blank_spec|exact not_bracket_blank|]|intros ?; cbn beta].
    { fill ":enum{}" name_close. }
    eapply tr_bind; [apply tr_then_lit; [done|]|intros ?; cbn beta].
    { fill ":enum{}" name_close. }
    eapply tr_bind; [apply tr_more_skip; [exact is_blank_spec|exact not_bracket_blank|]|intros ?; cbn beta].
    { fill "enum{}" body_close. }
    eapply tr_bind; [eapply (tr_weaken _ (St blank_char Body)); [|intros ? pre s H; exact H|apply (tr_alt _ _ _ (fun _ => St (fun _ => False) After_body)); apply tr_map; [exact tr_enum_type|exact tr_struct_type]]|intros t; cbn beta].
    { intros pre s. apply St_weaken; [|done]. unfold either. naive_solver. }
    eapply tr_bind; [apply (tr_skip _ space_char _ _ (Gskip newline_char Lines)); [exact is_white_spec|left; exact not_bracket_space| |]|intros ?; cbn beta].
    { intros w r Hw Hr (r' & H & HL). apply skip_id_iff in H as ->; [|by apply stops_space_newline]. apply gskip_app; [done|]. by apply gskip_here. }
    { exists []. split; [constructor|]. split; [exact newline_lines|done]. }
    apply (tr_ret _ _ (fun _ => St (either (fun _ => False) space_char) (Gskip newline_char Lines))). done.
  - intros e. eapply tr_bind; [apply tr_newlines|intros ?; cbn beta]. apply tr_ret. intros pre s. apply St_weaken; [|done]. unfold either, LineB, space_char. naive_solver.
Qed.
Lemma export_fails s m m' : (blanks ~> e <~ export_; newlines ~> pret (Some e)) s m = PFail m' -> no_export s.
Proof.
  intros E r1 r2 H1 H2.
  assert (exact_for (blanks ~> e <~ export_; newlines ~> pret (Some e)) (fun b s r => exists r1, skip blank_char s r1 /\ exists a r2, (exists r3, lit "export" r1 r3 /\
    exists r4, skip blank_char r3 r4 /\ exists w r5, word w r4 r5 /\ a = NExport (name_of w) /\ r2 = r5) /\ exists r6, skip newline_char r2 r6 /\ b = Some a /\ r = r6)) as Hex.
  { unfold export_. eapply ex_then_u; [apply ex_blanks|]. eapply ex_bind.
    - eapply ex_then_u; [apply ex_lit|]. eapply ex_then_u; [apply ex_blanks|]. eapply ex_bind; [apply ex_string|]. intros w. apply ex_ret.
    - intros e. eapply ex_then_u; [apply ex_newlines|]. apply ex_ret. }
  destruct (skip_exists blank_char r2) as [q1 Q1]. destruct (skip_exists name_char q1) as (q2 & w & -> & Hw1 & Hw2). destruct (skip_exists newline_char q2) as [q3 Q3].
  destruct (Hex s m) as [_ He]. destruct (proj1 (He (Some (NExport (name_of w))) q3)) as [? E2]; [|congruence].
  exists r1. split; [done|]. eexists _, q2. split; [|by eexists]. exists r2. split; [done|]. exists (w ++ q2). split; [done|]. by exists w, q2.
Qed.
Lemma tr_line : tracks line (St LineB Lines) (fun _ => St LineB Lines).
Proof.
  unfold line. apply tr_alt; [exact tr_comment_line|]. intros pre s m HF. unfold palt. pose proof (tr_export_line pre s m HF) as H1. pose proof (export_fails s m) as Hx.
  destruct ((blanks ~> e <~ export_; newlines ~> pret (Some e)) s m) as [a r m1|m1|]; [done| |done].
  pose proof (tr_decl_line pre s m1 (conj HF (Hx m1 eq_refl))) as H2. destruct ((blanks ~> s0 <~ decl; newlines ~> pret (Some s0)) s m1) as [a r m2|m2|]; [| |done].
  - destruct H2 as [H2 Hs]. split; [done|]. by eapply seen_again.
  - by eapply seen_again.
Qed.

(** ** The whole text *)
Lemma schema_viable s off : parse_schema s = PErr off -> off <= length s /\ viable (take off s).
Proof.
  unfold parse_schema, prun, schema. intros E. set (m0 := length s) in *.
  assert (tracks (popt newlines) (fun pre r => pre = []) (fun _ => St LineB Lines)) as H1.
  { intros pre r m ->. unfold popt, newlines, pmap, pbind, pret. destruct (class_star is_newline newline_char r m is_newline_spec) as (w & r2 & -> & -> & Hw & Hr). cbn [app].
    assert (forall t, Lines t -> stops newline_char t -> valid (w ++ t)) as Hv.
    { intros t [a Ha] Hst. exists a, t. split; [|done]. by exists w. }
    split.
    - exists w. split; [done|]. right. exists newline_char. split; [intros c ?; right; by right|]. split; [|exact Hv]. by eapply stops_mono; [|exact Hr]; intros ? [? _].
    - apply (seen_min [] w r2). exists []. split; [constructor|]. apply Hv; [|done]. exact lines_nil. }
  assert (tracks (popt newlines ~> lines <~ pstar line; pret (somes lines)) (fun pre r => pre = []) (fun _ => St LineB Lines)) as H.
  { eapply tr_bind; [exact H1|intros ?; cbn beta]. eapply tr_bind; [apply tr_star, tr_line|intros ls; cbn beta]. by apply tr_ret. }
  specialize (H [] s m0 eq_refl). destruct ((popt newlines ~> lines <~ pstar line; pret (somes lines)) s m0) as [a r m|m|]; [| |done].
  - destruct H as [(w & -> & HS) Hseen]. destruct r as [|c r]; [done|]. injection E as <-. subst m0. split; [lia|].
    assert (seen [] (w ++ c :: r) (length (w ++ c :: r)) (Nat.min m (length (c :: r)))) as Hs.
    { eapply seen_again; [exact Hseen|]. apply seen_min. eapply St_viable; [|exact HS]. exists []. split; [constructor|]. split; [exact lines_nil|done]. }
    change (S (length r)) with (length (c :: r)). destruct Hs as [->|[_ Hv]]; [|exact Hv]. rewrite Nat.sub_diag. exists []. split; [constructor|]. exists [], []. split; [by apply skip_id|constructor].
  - injection E as <-. split; [lia|]. destruct H as [->|[_ Hv]]; [|exact Hv]. subst m0. rewrite Nat.sub_diag. exists []. split; [constructor|]. exists [], []. split; [by apply skip_id|constructor].
Qed.
