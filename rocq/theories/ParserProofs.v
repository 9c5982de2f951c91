(** The parser model agrees with the specification of schema texts. *)
From Verif Require Export Parser ParserSpec.

(** [p] never loops, and its successes are exactly the triples of [R]. *)
Definition exact_for {A} (p : parser A) (R : A -> text -> text -> Prop) : Prop :=
  forall s m, p s m ≠ PDiv /\ forall a r, R a s r <-> exists m', p s m = PSucc a r m'.

Lemma ex_equiv {A} (p : parser A) R Q :
  exact_for p R -> (forall a s r, Q a s r <-> R a s r) -> exact_for p Q.
Proof. intros H E s m. destruct (H s m) as [H1 H2]. split; [done|]. intros a r. by rewrite E. Qed.

Lemma ex_fun {A} (p : parser A) R a a' s r r' : exact_for p R -> R a s r -> R a' s r' -> a = a' /\ r = r'.
Proof.
  intros H H1 H2. destruct (H s 0) as [_ H3]. apply H3 in H1 as [m1 E1]. apply H3 in H2 as [m2 E2].
  rewrite E1 in E2. by injection E2.
Qed.

Lemma ex_ret {A} (a : A) : exact_for (pret a) (fun b s r => b = a /\ r = s).
Proof. intros s m. split; [done|]. intros b r. unfold pret. split; [intros [-> ->]; eauto|intros [m' [= -> -> ->]]; done]. Qed.

Lemma ex_bind {A B} (p : parser A) (k : A -> parser B) R Q :
  exact_for p R -> (forall a, exact_for (k a) (Q a)) ->
  exact_for (pbind p k) (fun b s r => exists a r1, R a s r1 /\ Q a b r1 r).
Proof.
  intros Hp Hk s m. unfold pbind. destruct (Hp s m) as [Hd He].
  destruct (p s m) as [a r1 m1|m1|] eqn:E; [| |done].
  - assert (R a s r1) as HR by (apply He; eauto).
    destruct (Hk a r1 m1) as [Hd' He']. split; [done|]. intros b r. rewrite <-He'. split.
    + intros (a' & r1' & HR' & HQ). destruct (ex_fun _ _ _ _ _ _ _ Hp HR HR') as [<- <-]. done.
    + intros HQ. eauto.
  - split; [done|]. intros b r. split; [|intros [? [=]]].
    intros (a' & r1' & HR' & HQ). apply He in HR' as [? [=]].
Qed.
Lemma ex_then {A B} (p : parser A) (k : parser B) R Q : exact_for p R -> exact_for k Q ->
  exact_for (p ~> k) (fun b s r => exists r1, (exists a, R a s r1) /\ Q b r1 r).
Proof.
  intros Hp Hk. eapply ex_equiv; [eapply ex_bind; [exact Hp|intros a; exact Hk]|]. simpl.
  intros b s r. split; [intros (r1 & (a & H1) & H2); eauto|intros (a & r1 & H1 & H2); eauto].
Qed.
Lemma ex_then_u {B} (p : parser ()) (k : parser B) R Q : exact_for p (fun _ => R) -> exact_for k Q ->
  exact_for (p ~> k) (fun b s r => exists r1, R s r1 /\ Q b r1 r).
Proof.
  intros Hp Hk. eapply ex_equiv; [eapply ex_then; [exact Hp|exact Hk]|]. simpl.
  intros b s r. split; [intros (r1 & H1 & H2); eauto using tt|intros (r1 & (a & H1) & H2); eauto].
Qed.
Lemma ex_map {A B} (f : A -> B) (p : parser A) R :
  exact_for p R -> exact_for (pmap f p) (fun b s r => exists a, b = f a /\ R a s r).
Proof.
  intros H. eapply ex_equiv; [apply ex_bind; [exact H|intros a; apply ex_ret]|].
  intros b s r. simpl. split; [intros (a & -> & ?); eauto|intros (a & r1 & HR & -> & ->); eauto].
Qed.

Lemma ex_class (f : ascii -> bool) (P : ascii -> Prop) : (forall c, f c = true <-> P c) ->
  exact_for (pclass f) (fun c s r => s = c :: r /\ P c).
Proof.
  intros Hf s m. unfold pclass. destruct s as [|c s].
  - split; [done|]. intros a r. split; [intros [[=] _]|intros [? [=]]].
  - destruct (f c) eqn:E.
    + split; [done|]. intros a r. split.
      * intros [[= <- <-] _]. eauto.
      * intros [m' [= <- <- <-]]. split; [done|]. by apply Hf.
    + split; [done|]. intros a r. split; [|intros [? [=]]].
      intros [[= <- <-] HP]. apply Hf in HP. congruence.
Qed.

Lemma strip_some l s r : strip l s = Some r <-> s = l ++ r.
Proof.
  revert s. induction l as [|a l IH]; intros [|b s]; simpl.
  - naive_solver.
  - split; congruence.
  - done.
  - destruct (Ascii.eqb_spec a b) as [->|Hne]; [rewrite IH; naive_solver|]. split; [done|congruence].
Qed.
Lemma ex_lit l : exact_for (plit (T l)) (fun _ s r => lit l s r).
Proof.
  intros s m. unfold plit, lit. destruct (strip (T l) s) as [s'|] eqn:E.
  - split; [done|]. intros [] r. apply strip_some in E. split.
    + rewrite E. intros ->%app_inv_head. eauto.
    + intros [m' [= -> ->]]. done.
  - split; [done|]. intros [] r. split; [|intros [? [=]]]. intros H. 
    assert (strip (T l) s = Some r) as H' by by apply strip_some. congruence.
Qed.

Definition never {A} (R : A -> text -> text -> Prop) (s : text) : Prop := forall a r, ~ R a s r.

Lemma ex_alt {A} (p q : parser A) R Q : exact_for p R -> exact_for q Q ->
  exact_for (palt p q) (fun a s r => R a s r \/ (never R s /\ Q a s r)).
Proof.
  intros Hp Hq s m. unfold palt. destruct (Hp s m) as [Hd He].
  destruct (p s m) as [a r1 m1|m1|] eqn:E; [| |done].
  - split; [done|]. intros b r. split.
    + intros [HR|[Hn _]]; [by apply He|]. exfalso. apply (Hn a r1). apply He. eauto.
    + intros H. left. by apply He.
  - destruct (Hq s m1) as [Hd' He']. split; [done|]. intros b r. rewrite <-He'. split.
    + intros [HR|[_ ?]]; [|done]. apply He in HR as [? [=]].
    + intros HQ. right. split; [|done]. intros a' r' HR. apply He in HR as [? [=]].
Qed.
Lemma ex_opt {A} (p : parser A) R : exact_for p R ->
  exact_for (popt p) (fun o s r => (exists a, o = Some a /\ R a s r) \/ (o = None /\ r = s /\ never R s)).
Proof.
  intros Hp s m. unfold popt. destruct (Hp s m) as [Hd He].
  destruct (p s m) as [a r1 m1|m1|] eqn:E; [| |done].
  - split; [done|]. intros o r. split.
    + intros [(a' & -> & HR)|(_ & _ & Hn)]; [apply He in HR as [m' [= -> -> ->]]; eauto|].
      exfalso. apply (Hn a r1). apply He. eauto.
    + intros [m' [= <- <- <-]]. left. exists a. split; [done|]. apply He. eauto.
  - split; [done|]. intros o r. split.
    + intros [(a' & -> & HR)|(-> & -> & _)]; [apply He in HR as [? [=]]|eauto].
    + intros [m' [= <- <- <-]]. right. split; [done|]. split; [done|]. intros a' r' HR. apply He in HR as [? [=]].
Qed.
Lemma ex_not {A} (p : parser A) R : exact_for p R ->
  exact_for (pnot p) (fun _ s r => r = s /\ never R s).
Proof.
  intros Hp s m. unfold pnot. destruct (Hp s m) as [Hd He].
  destruct (p s m) as [a r1 m1|m1|] eqn:E; [| |done].
  - split; [done|]. intros o r. split; [|intros [? [=]]].
    intros (_ & Hn). exfalso. apply (Hn a r1). apply He. eauto.
  - split; [done|]. intros [] r. split.
    + intros (-> & _). eauto.
    + intros [m' [= <- <-]]. split; [done|]. intros a' r' HR. apply He in HR as [? [=]].
Qed.
Lemma ex_quiet {A} (p : parser A) R : exact_for p R -> exact_for (pquiet p) R.
Proof.
  intros Hp s m. unfold pquiet. destruct (Hp s m) as [Hd He].
  destruct (p s m) as [a r1 m1|m1|] eqn:E; [| |done].
  - split; [done|]. intros b r. rewrite He. split; intros [m' [= <- <-]]; eauto.
  - split; [done|]. intros b r. rewrite He. split; intros [m' [=]].
Qed.
Lemma ex_slice {A} (p : parser A) R : exact_for p R -> (forall a s r, R a s r -> exists w, s = w ++ r) ->
  exact_for (pslice p) (fun w s r => s = w ++ r /\ exists a, R a s r).
Proof.
  intros Hp Hsuf s m. unfold pslice. destruct (Hp s m) as [Hd He].
  destruct (p s m) as [a r1 m1|m1|] eqn:E; [| |done].
  - split; [done|]. assert (R a s r1) as HR by (apply He; eauto).
    destruct (Hsuf _ _ _ HR) as [w ->].
    rewrite app_length, Nat.add_sub, take_app. intros b r. split.
    + intros (Hs & a' & HR'). destruct (ex_fun _ _ _ _ _ _ _ Hp HR HR') as [<- <-].
      apply app_inv_tail in Hs as ->. eauto.
    + intros [m' [= <- <- <-]]. split; [done|]. eauto.
  - split; [done|]. intros b r. split; [|intros [m' [=]]].
    intros (Hs & a' & HR'). apply He in HR' as [? [=]].
Qed.

Inductive Star {A} (R : A -> text -> text -> Prop) : list A -> text -> text -> Prop :=
| Star_nil s : never R s -> Star R [] s s
| Star_cons a l s r1 r : R a s r1 -> Star R l r1 r -> Star R (a :: l) s r.

Lemma ex_star {A} (p : parser A) R : exact_for p R ->
  (forall a s r, R a s r -> length r < length s) -> exact_for (pstar p) (Star R).
Proof.
  intros Hp Hlen. unfold exact_for, pstar.
  assert (forall fuel s m, length s < fuel -> pstar_loop fuel p s m ≠ PDiv /\
     forall a r, Star R a s r <-> exists m', pstar_loop fuel p s m = PSucc a r m') as H.
  { induction fuel as [|fuel IH]; intros s m Hf; [lia|]. simpl.
    destruct (Hp s m) as [Hd He]. destruct (p s m) as [a r1 m1|m1|] eqn:E; [| |done].
    - assert (R a s r1) as HR by (apply He; eauto). pose proof (Hlen _ _ _ HR).
      destruct (IH r1 m1) as [Hd' He']; [lia|].
      destruct (pstar_loop fuel p r1 m1) as [l r2 m2|m2|] eqn:E'; [| |done].
      + split; [done|]. intros l' r. split.
        * inversion 1 as [? Hn|a' l'' ? r1' ? HR' Hst]; subst; [by apply Hn in HR|].
          destruct (ex_fun _ _ _ _ _ _ _ Hp HR HR') as [<- <-].
          apply He' in Hst as [m' [= -> -> ->]]. eauto.
        * intros [m' [= <- <- <-]]. econstructor; [done|]. apply He'. eauto.
      + split; [done|]. intros l' r. split; [|intros [? [=]]].
        inversion 1 as [? Hn|a' l'' ? r1' ? HR' Hst]; subst; [by apply Hn in HR|].
        destruct (ex_fun _ _ _ _ _ _ _ Hp HR HR') as [<- <-]. apply He' in Hst as [? [=]].
    - split; [done|]. intros l' r. split.
      + inversion 1 as [? Hn|a' l'' ? r1' ? HR' Hst]; subst; [eauto|]. apply He in HR' as [? [=]].
      + intros [m' [= <- <- <-]]. constructor. intros a' r' HR. apply He in HR as [? [=]]. }
  intros s m. apply H. lia.
Qed.

(** ** Character classes *)
Lemma ascii_all (P : ascii -> Prop) `{!forall c, Decision (P c)} :
  Forall P (map ascii_of_nat (seq 0 256)) -> forall c, P c.
Proof.
  intros HF c. rewrite Forall_forall in HF. apply HF. rewrite <-(ascii_nat_embedding c).
  apply elem_of_list_fmap. exists (nat_of_ascii c). split; [done|]. apply elem_of_seq.
  pose proof (nat_ascii_bounded c). lia.
Qed.
#[local] Instance bool_iff_dec (b : bool) (P : Prop) `{!Decision P} : Decision (b = true <-> P).
Proof. destruct b; destruct (decide P); [left|right|right|left]; naive_solver. Defined.
#[export] Instance blank_dec c : Decision (blank_char c). Proof. unfold blank_char. apply _. Defined.
#[export] Instance newline_dec c : Decision (newline_char c). Proof. unfold newline_char. apply _. Defined.
#[export] Instance space_dec c : Decision (space_char c). Proof. unfold space_char. apply _. Defined.
#[export] Instance start_dec c : Decision (start_char c). Proof. unfold start_char. apply _. Defined.
#[export] Instance name_dec c : Decision (name_char c). Proof. unfold name_char. apply _. Defined.

Lemma is_blank_spec c : is_blank c = true <-> blank_char c.
Proof. revert c. apply ascii_all; [apply _|]. apply (bool_decide_unpack _). vm_compute. exact I. Qed.
Lemma is_newline_spec c : is_newline c = true <-> newline_char c.
Proof. revert c. apply ascii_all; [apply _|]. apply (bool_decide_unpack _). vm_compute. exact I. Qed.
Lemma is_white_spec c : is_white c = true <-> space_char c.
Proof. revert c. apply ascii_all; [apply _|]. apply (bool_decide_unpack _). vm_compute. exact I. Qed.
Lemma is_start_spec c : is_start c = true <-> start_char c.
Proof. revert c. apply ascii_all; [apply _|]. apply (bool_decide_unpack _). vm_compute. exact I. Qed.
Lemma is_name_spec c : is_name c = true <-> name_char c.
Proof. revert c. apply ascii_all; [apply _|]. apply (bool_decide_unpack _). vm_compute. exact I. Qed.
Lemma not_lf_spec c : negb (Ascii.eqb c LF) = true <-> c ≠ lf.
Proof. revert c. apply ascii_all; [apply _|]. apply (bool_decide_unpack _). vm_compute. exact I. Qed.

Lemma ex_class_star f P : (forall c, f c = true <-> P c) ->
  exact_for (pstar (pclass f)) (fun w s r => s = w ++ r /\ Forall P w /\ stops P r).
Proof.
  intros Hf. eapply ex_equiv.
  - apply ex_star; [by apply ex_class|]. simpl. intros a s r [-> _]. simpl. lia.
  - intros w s r. split.
    + intros (-> & HF & Hst). induction w as [|c w IH]; simpl.
      * constructor. intros a r' [-> HP]. by apply Hst.
      * apply Forall_cons in HF as [Hc HF]. econstructor; [|by apply IH]. done.
    + induction 1 as [s Hn|a l s r1 r [-> HP] Hst IH]; simpl.
      * split; [done|]. split; [done|]. destruct s as [|c s]; [done|]. simpl. intros HP. by apply (Hn c s).
      * destruct IH as (-> & HF & Hs). split; [done|]. split; [by constructor|done].
Qed.

Lemma ex_skip f P : (forall c, f c = true <-> P c) ->
  exact_for (pmap (fun _ => ()) (pstar (pclass f))) (fun _ s r => skip P s r).
Proof.
  intros Hf. eapply ex_equiv; [apply ex_map, ex_class_star, Hf|].
  intros [] s r. unfold skip. simpl. naive_solver.
Qed.
Lemma ex_blanks : exact_for blanks (fun _ s r => skip blank_char s r).
Proof. apply ex_skip, is_blank_spec. Qed.
Lemma ex_newlines : exact_for newlines (fun _ s r => skip newline_char s r).
Proof. apply ex_skip, is_newline_spec. Qed.
Lemma ex_spaces : exact_for spaces (fun _ s r => skip space_char s r).
Proof. apply ex_skip, is_white_spec. Qed.

Lemma skip_stops P s r : skip P s r -> stops P r.
Proof. by intros (w & _ & _ & ?). Qed.
Lemma skip_id P s : stops P s -> skip P s s.
Proof. exists []. done. Qed.
Lemma skip_id_iff P s r : stops P s -> skip P s r <-> r = s.
Proof.
  intros Hs. split; [|intros ->; by apply skip_id]. intros (w & -> & HF & _).
  destruct w as [|c w]; [done|]. apply Forall_cons in HF as [HF _]. by destruct Hs.
Qed.
Lemma skip_suffix P s r : skip P s r -> exists w, s = w ++ r.
Proof. intros (w & -> & _). eauto. Qed.
Lemma skip_len P s r : skip P s r -> length r <= length s.
Proof. intros (w & -> & _). rewrite app_length. lia. Qed.
Lemma skip_fun P s r r' `{!forall c, Decision (P c)} : skip P s r -> skip P s r' -> r = r'.
Proof.
  intros (w & -> & HF & Hst) (w' & E & HF' & Hst'). revert w' E HF'.
  induction w as [|c w IH]; intros [|c' w'] E HF'; simpl in *; subst.
  - done.
  - exfalso. apply Forall_cons in HF' as [? _]. by apply Hst.
  - exfalso. apply Forall_cons in HF as [? _]. by apply Hst'.
  - injection E as -> E. apply Forall_cons in HF as [_ HF]. apply Forall_cons in HF' as [_ HF'].
    by eapply IH.
Qed.
Lemma lit_len l s r : lit l s r -> length s = length (txt l) + length r.
Proof. intros ->. by rewrite app_length. Qed.
Lemma perhaps_len l b s r : perhaps l b s r -> length r <= length s.
Proof. destruct b; simpl; [intros ->; rewrite app_length; lia|intros [-> _]; done]. Qed.
Lemma word_len w s r : word w s r -> length s = length w + length r.
Proof. intros (-> & _). by rewrite app_length. Qed.

Lemma ex_string : exact_for string_ word.
Proof.
  unfold string_, word. eapply ex_equiv; [apply ex_slice; [apply ex_class_star, is_name_spec|]|].
  - intros a s r (-> & _). eauto.
  - intros w s r. simpl. split.
    + intros (-> & HF & Hs). eauto.
    + intros (-> & w' & E%app_inv_tail & HF & Hs). by subst.
Qed.

Lemma ex_perhaps l :
  exact_for (popt (plit (T l))) (fun o s r => perhaps l (match o with Some _ => true | None => false end) s r).
Proof.
  eapply ex_equiv; [apply ex_opt, ex_lit|]. intros o s r. simpl. unfold never. destruct o as [[]|]; simpl.
  - split; [eauto|]. intros [(? & _ & ?)|([=] & _)]. done.
  - split.
    + intros [-> Hn]. right. split; [done|]. split; [done|]. intros _. apply Hn.
    + intros [(? & [=] & _)|(_ & -> & Hn)]. split; [done|]. intros r'. apply (Hn ()).
Qed.

(** ** Identifiers *)
Lemma ex_reserved : exact_for reserved (fun _ s r => exists k, k ∈ reserved_list /\ lit k s r).
Proof.
  unfold reserved. eapply ex_equiv.
  - repeat (eapply ex_alt; [apply ex_lit|]). apply ex_lit.
  - intros [] s r. simpl.
    assert (forall k k' s' r1 r2, lit k s' r1 -> lit k' s' r2 ->
       is_Some (strip (txt k) (txt k')) \/ is_Some (strip (txt k') (txt k))) as Hcmp.
    { intros k k' s' r1 r2. unfold lit. intros -> E.
      assert (forall l1 l2 (a b : text), l1 ++ a = l2 ++ b -> is_Some (strip l1 l2) \/ is_Some (strip l2 l1)) as HH.
      { induction l1 as [|x l1 IH]; intros [|y l2] a b; simpl; eauto.
        intros [= -> E']. rewrite Ascii.eqb_refl. eauto. }
      by eapply HH. }
    assert (forall k k' s' r1 r2, strip (txt k) (txt k') = None -> strip (txt k') (txt k) = None ->
        lit k s' r1 -> ~ lit k' s' r2) as Hno.
    { intros k k' s' r1 r2 E1 E2 H1 H2. destruct (Hcmp _ _ _ _ _ H1 H2) as [[? ?]|[? ?]]; congruence. }
    split.
    + intros (k & Hk & Hl). unfold reserved_list in Hk.
      repeat (apply elem_of_cons in Hk as [->|Hk]); [..|by apply elem_of_nil in Hk];
      repeat (first [left; exact Hl | exact Hl |
        right; split; [intros [] r'; eapply Hno; [| |exact Hl]; vm_compute; reflexivity|]]).
    + intros H. unfold reserved_list.
      repeat (destruct H as [H|[_ H]]; [eexists; split; [|exact H]; set_solver|]).
      eexists; split; [|exact H]; set_solver.
Qed.

Lemma reserved_name_chars k : k ∈ reserved_list -> Forall name_char (txt k).
Proof.
  unfold reserved_list. intros Hk.
  repeat (apply elem_of_cons in Hk as [->|Hk]); [..|by apply elem_of_nil in Hk];
    apply (bool_decide_unpack _); vm_compute; exact I.
Qed.

Lemma name_prefix l w r r' : Forall name_char l -> stops name_char r -> w ++ r = l ++ r' -> l `prefix_of` w.
Proof.
  intros Hl Hs. revert w. induction l as [|x l IH]; intros w E; [apply prefix_nil|].
  apply Forall_cons in Hl as [Hx Hl]. destruct w as [|y w]; simpl in E.
  - subst r. by destruct Hs.
  - injection E as -> E. apply prefix_cons. by apply IH.
Qed.

Lemma ex_ident : exact_for ident name.
Proof.
  unfold ident, name, legal_name. apply ex_quiet. eapply ex_equiv.
  - apply ex_slice.
    + eapply ex_then_u; [apply ex_not, ex_reserved|].
      eapply ex_then; [apply ex_slice; [apply ex_class, is_start_spec|]|].
      { intros x s r [-> _]. by exists [x]. }
      apply ex_star; [apply ex_slice; [apply ex_class, is_name_spec|]|].
      { intros x s r [-> _]. by exists [x]. }
      simpl. intros a s r (_ & c & -> & _). simpl. lia.
    + simpl. intros a s r (r1 & [-> _] & r2 & (w & -> & _) & Hst).
      assert (exists w', r2 = w' ++ r) as [w' ->].
      { clear -Hst. induction Hst as [s|a l s r1 r (-> & _) Hst [w' IH]]; [by exists []|]. subst.
        eexists (a ++ w'). by rewrite app_assoc. }
      eexists. by rewrite app_assoc.
  - intros w s r. simpl.
    assert (forall l s r, Star (fun w s r => s = w ++ r /\ exists a, s = a :: r /\ name_char a) l s r <->
              exists w, l = map (fun c => [c]) w /\ s = w ++ r /\ Forall name_char w /\ stops name_char r) as Hstar.
    { clear. intros l s r. split.
      - induction 1 as [s Hn|a l s r1 r (Ha & c & -> & Hc) Hst (w & -> & -> & HF & Hs)].
        + exists []. split_and!; try done. destruct s as [|c s]; [done|]. simpl. intros Hc.
          apply (Hn [c] s). split; [done|]. eauto.
        + exists (c :: w). split_and!; try done.
          * simpl. f_equal. change (c :: w ++ r) with ([c] ++ w ++ r) in Ha.
            by apply app_inv_tail in Ha.
          * by constructor.
      - intros (w & -> & -> & HF & Hs). induction w as [|c w IH]; simpl.
        + constructor. intros a r' (_ & c & -> & Hc). by apply Hs.
        + apply Forall_cons in HF as [Hc HF]. econstructor; [|by apply IH]. split; [done|]. eauto. }
    assert (forall w r, Forall name_char w -> stops name_char r ->
       (forall k, k ∈ reserved_list -> ~ txt k `prefix_of` w) ->
       never (fun (_ : ()) s r => exists k, k ∈ reserved_list /\ lit k s r) (w ++ r)) as Hnr.
    { intros w0 r0 HF Hs Hk [] r' (k & Hin & Hl). unfold lit in Hl.
      apply (Hk k Hin). eapply name_prefix; [by apply reserved_name_chars|exact Hs|exact Hl]. }
    split.
    + intros (-> & (HF0 & (c & w' & -> & Hc) & Hres) & Hs). pose proof HF0 as HF.
      apply Forall_cons in HF as [Hc' HF].
      split; [done|]. exists (map (fun c => [c]) w'), ((c :: w') ++ r). split.
      { split; [done|]. by apply Hnr. }
      exists (w' ++ r). split; [exists [c]; split; [done|]; eauto|]. apply Hstar. eauto.
    + intros (Hw & l & r1 & [-> Hn] & r2 & (w1 & Hw1 & c & Hc & Hsc) & Hst).
      apply Hstar in Hst as (w' & -> & -> & HF & Hs). rewrite Hc in Hw.
      change (c :: w' ++ r) with ((c :: w') ++ r) in Hw. apply app_inv_tail in Hw as <-.
      split; [exact Hc|]. split; [|done].
      split; [constructor; [unfold name_char; unfold start_char in Hsc; tauto|done]|].
      split; [by exists c, w'|].
      intros k Hk [t Ht]. apply (Hn tt (t ++ r)). exists k. split; [done|]. unfold lit. rewrite Hc.
      change (c :: w' ++ r) with ((c :: w') ++ r). rewrite Ht. by rewrite app_assoc.
Qed.

(** ** Comments *)
Lemma ex_comment : exact_for comment (fun _ s r => exists r1, remark s r1 /\ skip newline_char r1 r).
Proof.
  unfold comment. eapply ex_equiv.
  - eapply ex_then_u; [apply ex_lit|]. eapply ex_then; [apply ex_class_star, not_lf_spec|]. apply ex_newlines.
  - intros [] s r. simpl. unfold remark, lit. split.
    + intros (r1 & (body & -> & HF & Hr1) & Hsk). eexists. split; [done|]. exists r1. split; [|done].
      exists body. split; [done|]. split; [done|]. destruct Hr1 as [->|[r' ->]]; simpl; [done|]. by intros ?.
    + intros (r1 & -> & r2 & (w & -> & HF & Hst) & Hsk). exists r2. split; [|done]. exists w.
      split; [done|]. split; [done|]. destruct r2 as [|c r2]; [by left|]. right. exists r2. f_equal.
      destruct (decide (c = lf)) as [->|Hne]; [done|]. by destruct Hst.
Qed.
Lemma remark_len s r : remark s r -> length r < length s.
Proof. intros (b & -> & _). rewrite !app_length. simpl. lia. Qed.
Lemma name_len w s r : name w s r -> length r < length s.
Proof. intros (-> & (_ & (c & w' & -> & _) & _) & _). rewrite app_length. simpl. lia. Qed.
Lemma name_not_remark w s r r' : name w s r -> ~ remark s r'.
Proof.
  intros (-> & (_ & (c & w' & -> & Hc) & _) & _) (b & E & _). simpl in E. injection E as -> _.
  revert Hc. apply (bool_decide_unpack _). vm_compute. exact I.
Qed.

Lemma ex_perhaps_then {B} l (k : parser B) Q : exact_for k Q ->
  exact_for (popt (plit (T l)) ~> k) (fun b s r => exists r1, (exists c, perhaps l c s r1) /\ Q b r1 r).
Proof.
  intros Hk. eapply ex_equiv; [eapply ex_then; [apply ex_perhaps|exact Hk]|]. simpl.
  intros b s r. split.
  - intros (r1 & (c & H1) & H2). exists r1. split; [|done]. by exists (if c then Some () else None); destruct c.
  - intros (r1 & (c & H1) & H2). eauto.
Qed.

(** ** Enums *)
Definition variant_rel (v s r : text) : Prop := exists r1 r2 c r3,
  name v s r1 /\ skip space_char r1 r2 /\ perhaps "," c r2 r3 /\ skip space_char r3 r.
Lemma ex_variant : exact_for enum_variant variant_rel.
Proof.
  unfold enum_variant, variant_rel. eapply ex_equiv.
  - eapply ex_bind; [apply ex_ident|]. intros v.
    eapply ex_then_u; [apply ex_spaces|]. eapply ex_perhaps_then.
    eapply ex_then_u; [apply ex_spaces|]. apply ex_ret.
  - intros v s r. simpl. split.
    + intros (r1 & r2 & c & r3 & H1 & H2 & H3 & H4). eauto 20.
    + intros (v' & r1 & H1 & r2 & H2 & r3 & (c & H3) & r4 & H4 & -> & ->). eauto 20.
Qed.
Lemma variant_len v s r : variant_rel v s r -> length r < length s.
Proof.
  intros (r1 & r2 & c & r3 & H1%name_len & H2%skip_len & H3%perhaps_len & H4%skip_len). lia.
Qed.

Lemma name_not_close w r r' : ~ name w (txt "}" ++ r) r'.
Proof.
  intros (E & (_ & (c & w' & -> & Hc) & _) & _). simpl in E. injection E as <- _.
  revert Hc. apply (bool_decide_unpack _). vm_compute. exact I.
Qed.
Lemma stops_space_close r : stops space_char (txt "}" ++ r).
Proof. apply (bool_decide_unpack _). vm_compute. exact I. Qed.
Lemma remark_not_close r r' : ~ remark (txt "}" ++ r) r'.
Proof. intros (b & E & _). simpl in E. congruence. Qed.

Lemma ex_enum_type :
  exact_for (pmap (fun vs => AEnum (map name_of vs)) enum_type)
    (fun t s r => exists r0, skip blank_char s r0 /\ (exists vs, t = AEnum vs) /\ body t r0 r).
Proof.
  unfold enum_type. eapply ex_equiv.
  - apply ex_map.
    eapply ex_then_u; [apply ex_blanks|]. eapply ex_then_u; [apply ex_lit|].
    eapply ex_then_u; [apply ex_blanks|]. eapply ex_then_u; [apply ex_lit|].
    eapply ex_then_u; [apply ex_spaces|].
    eapply ex_bind; [apply ex_star; [apply ex_variant|apply variant_len]|]. intros vs.
    eapply ex_then_u; [apply ex_spaces|]. eapply ex_then_u; [apply ex_lit|]. apply ex_ret.
  - intros t s r. simpl. split.
    + intros (r0 & H0 & [vs ->] & Hb). inversion Hb as [vs' s' r1 r2 r3 r4 r5 r' H1 H2 H3 H4 Hv Hc|]. subst.
      assert (exists ws, vs = map name_of ws /\ Star variant_rel ws r4 r5) as (ws & -> & Hst).
      { clear -Hv Hc. unfold lit in Hc. induction Hv as [r'|v c vs s r1 r2 r3 r4 r' H1 H2 H3 H4 Hv IH].
        - exists []. split; [done|]. constructor. subst r'. intros v r' (r1 & _ & _ & _ & Hn & _).
          by apply name_not_close in Hn.
        - destruct IH as (ws & -> & Hst); [done|]. exists (v :: ws). split; [done|].
          econstructor; [|done]. unfold variant_rel. eauto 20. }
      exists ws. split; [done|].
      do 5 (eexists; split; [eassumption|]). exists ws, r5. split; [done|].
      exists r5. split; [|by eauto].
      apply skip_id. unfold lit in Hc. subst r5. apply stops_space_close.
    + intros (ws & -> & r0 & H0 & r1 & H1 & r2 & H2 & r3 & H3 & r4 & H4 & ws' & r5 & Hst & r6 & H6 & r7 & H7 & -> & ->).
      exists r0. split; [done|]. split; [eauto|].
      assert (stops space_char r5 /\ variants (map name_of ws') r4 r5) as [Hs Hv].
      { apply skip_stops in H4. clear -Hst H4. induction Hst as [s Hn|v l s r1 r Hv Hst IH].
        - split; [done|constructor].
        - destruct Hv as (r2 & r3 & c & r4 & Hn & Hs1 & Hp & Hs2).
          destruct IH as [IH1 IH2]; [by eapply skip_stops|]. split; [done|]. simpl. econstructor; eassumption. }
      apply (skip_id_iff _ _ _ Hs) in H6 as ->. econstructor; eassumption.
Qed.

(** ** Structs *)
Definition field_rel (o : option (string * unresolved)) (s r : text) : Prop :=
  match o with
  | None => exists r1 r2, remark s r1 /\ skip newline_char r1 r2 /\ skip space_char r2 r
  | Some f => exists n o t a c r1 r2 r3 r4 r5 r6 r7 r8 r9,
      name n s r1 /\ skip blank_char r1 r2 /\ perhaps "?" o r2 r3 /\ lit ":" r3 r4 /\
      skip blank_char r4 r5 /\ word t r5 r6 /\ perhaps "[]" a r6 r7 /\
      skip space_char r7 r8 /\ perhaps "," c r8 r9 /\ skip space_char r9 r /\
      f = (str n, Unresolved (str t) a o)
  end.
Lemma ex_field : exact_for struct_field field_rel.
Proof.
  unfold struct_field, is_optional. eapply ex_equiv.
  - apply ex_alt.
    + eapply ex_then_u; [apply ex_comment|]. eapply ex_then_u; [apply ex_spaces|]. apply ex_ret.
    + eapply ex_bind; [apply ex_ident|]. intros n.
      eapply ex_then_u; [apply ex_blanks|].
      eapply ex_bind; [apply ex_map, ex_perhaps|]. intros o.
      eapply ex_then_u; [apply ex_lit|]. eapply ex_then_u; [apply ex_blanks|].
      eapply ex_bind; [apply ex_string|]. intros t.
      eapply ex_bind; [apply ex_perhaps|]. intros a.
      eapply ex_then_u; [apply ex_spaces|]. eapply ex_perhaps_then. eapply ex_then_u; [apply ex_spaces|]. apply ex_ret.
  - intros f s r. simpl. unfold never. split.
    + destruct f as [f|]; simpl.
      * intros (n & o & t & a & c & r1 & r2 & r3 & r4 & r5 & r6 & r7 & r8 & r9 &
                H1 & H2 & H3 & H4 & H5 & H6 & H7 & H8 & H9 & H10 & ->).
        right. split.
        { intros _ r' (r1' & (r2' & Hr & _) & _). by eapply name_not_remark. }
        exists n, r1. split; [done|]. exists r2. split; [done|]. exists o, r3. split.
        { exists (if o then Some () else None). by destruct o. }
        exists r4. split; [done|]. exists r5. split; [done|]. exists t, r6. split; [done|].
        exists (if a then Some () else None), r7. split; [by destruct a|].
        exists r8. split; [done|]. exists r9. split; [eauto|]. exists r. split; [done|]. split; [|done].
        by destruct a.
      * intros (r1 & r2 & H1 & H2 & H3). left. eauto 10.
    + intros [(r1 & (r2 & H1 & H2) & r3 & H3 & -> & ->)|[_ H]]; [simpl; eauto 10|].
      destruct H as (n & r1 & H1 & r2 & H2 & o & r3 & (o' & -> & H3) & r4 & H4 & r5 & H5 & t & r6 & H6 &
                     a & r7 & H7 & r8 & H8 & r9 & (c & H9) & r10 & H10 & -> & ->).
      simpl. do 14 eexists. split_and!; try eassumption. done.
Qed.
Lemma field_len o s r : field_rel o s r -> length r < length s.
Proof.
  destruct o; simpl.
  - intros (n & o & t & a & c & r1 & r2 & r3 & r4 & r5 & r6 & r7 & r8 & r9 &
      H1%name_len & H2%skip_len & H3%perhaps_len & H4%lit_len & H5%skip_len & H6%word_len & H7%perhaps_len
      & H8%skip_len & H9%perhaps_len & H10%skip_len & _). lia.
  - intros (r1 & r2 & H1%remark_len & H2%skip_len & H3%skip_len). lia.
Qed.

Lemma newline_space c : newline_char c -> space_char c.
Proof. by right. Qed.
Lemma skip_newline_space s r1 r : skip newline_char s r1 -> skip space_char r1 r -> skip space_char s r.
Proof.
  intros (w1 & -> & H1 & _) (w2 & -> & H2 & Hs). exists (w1 ++ w2). split; [by rewrite app_assoc|].
  split; [|done]. apply Forall_app. split; [|done]. eapply Forall_impl; [done|apply newline_space].
Qed.
Lemma skip_exists (P : ascii -> Prop) `{!forall c, Decision (P c)} s : exists r, skip P s r.
Proof.
  induction s as [|c s (r & w & -> & HF & Hs)].
  - exists []. by apply skip_id.
  - destruct (decide (P c)).
    + exists r, (c :: w). split; [done|]. split; [by constructor|done].
    + exists (c :: w ++ r). by apply skip_id.
Qed.
Lemma skip_space_newline s r : skip space_char s r -> exists r1, skip newline_char s r1 /\ skip space_char r1 r.
Proof.
  intros H. destruct (skip_exists newline_char s) as [r1 H1]. exists r1. split; [done|].
  destruct (skip_exists space_char r1) as [r' H2].
  pose proof (skip_newline_space _ _ _ H1 H2) as H'. by rewrite (skip_fun _ _ _ _ H H').
Qed.

Lemma ex_struct_type :
  exact_for (pmap AStruct struct_type)
    (fun t s r => exists r0, skip blank_char s r0 /\ (exists fs, t = AStruct fs) /\ body t r0 r).
Proof.
  unfold struct_type. eapply ex_equiv.
  - apply ex_map.
    eapply ex_then_u; [apply ex_blanks|]. eapply ex_then_u; [apply ex_lit|].
    eapply ex_then_u; [apply ex_blanks|]. eapply ex_then_u; [apply ex_lit|].
    eapply ex_then_u; [apply ex_spaces|].
    eapply ex_bind; [apply ex_star; [apply ex_field|apply field_len]|]. intros fs.
    eapply ex_then_u; [apply ex_spaces|]. eapply ex_then_u; [apply ex_lit|]. apply ex_ret.
  - intros t s r. simpl. split.
    + intros (r0 & H0 & [fs0 ->] & Hb). inversion Hb as [|fs s' r1 r2 r3 r4 r5 r' H1 H2 H3 H4 Hv Hc]. subst.
      assert (exists os, fs0 = somes os /\ Star field_rel os r4 r5) as (os & -> & Hst).
      { clear -Hv Hc. unfold lit in Hc.
        induction Hv as [r'|fs s r1 r2 r' H1 H2 Hv IH|n o t a c fs s r1 r2 r3 r4 r5' r6 r7 r8 r9 r10 r' H1 H2 H3 H4 H5 H6 H7 H8 H9 H10 Hv IH].
        - exists []. split; [done|]. constructor. subst r'. intros [f|] r'; simpl.
          + intros (n & o & t & a & c & r1 & r2 & r3 & r4 & r5 & r6 & r7 & r8 & r9 & Hn & _).
            by apply name_not_close in Hn.
          + intros (r1 & r2 & Hr & _). by apply remark_not_close in Hr.
        - destruct IH as (ws & -> & Hst); [done|]. exists (None :: ws). split; [done|].
          econstructor; [|done]. simpl. apply skip_space_newline in H2 as (r3 & H2 & H3). eauto 10.
        - destruct IH as (ws & -> & Hst); [done|]. eexists (Some _ :: ws). split; [done|].
          econstructor; [|done]. simpl. do 14 eexists. split_and!; try eassumption. done. }
      eexists. split; [done|].
      do 5 (eexists; split; [eassumption|]). exists os, r5. split; [done|].
      exists r5. split; [|by eauto].
      apply skip_id. unfold lit in Hc. subst r5. apply stops_space_close.
    + intros (ws & -> & r0 & H0 & r1 & H1 & r2 & H2 & r3 & H3 & r4 & H4 & ws' & r5 & Hst & r6 & H6 & r7 & H7 & -> & ->).
      exists r0. split; [done|]. split; [eauto|].
      assert (stops space_char r5 /\ fields (somes ws') r4 r5) as [Hs Hv].
      { apply skip_stops in H4. clear -Hst H4. induction Hst as [s Hn|[f|] l s r1 r Hf Hst IH].
        - split; [done|constructor].
        - destruct Hf as (n & o & t & a & c & r1' & r2 & r3 & r4 & r5 & r6 & r7 & r8 & r9 &
                K1 & K2 & K3 & K4 & K5 & K6 & K7 & K8 & K9 & K10 & ->).
          destruct IH as [IH1 IH2]; [by eapply skip_stops|]. split; [done|].
          change (somes (Some (str n, Unresolved (str t) a o) :: l)) with ((str n, Unresolved (str t) a o) :: somes l).
          econstructor; eassumption.
        - destruct Hf as (r2 & r3 & Hr & Hs1 & Hs2). destruct IH as [IH1 IH2]; [by eapply skip_stops|].
          split; [done|]. change (somes (None :: l)) with (somes l). eapply fields_comment; [done| |done].
          by eapply skip_newline_space. }
      apply (skip_id_iff _ _ _ Hs) in H6 as ->. econstructor; eassumption.
Qed.

Lemma body_enum_not_struct vs fs s r r' : body (AEnum vs) s r -> body (AStruct fs) s r' -> False.
Proof.
  inversion 1 as [? ? r1 ? ? ? ? ? H1|]; subst. inversion 1 as [|? ? r1' ? ? ? ? ? H1']; subst.
  unfold lit in *. subst. simpl in H1'. congruence.
Qed.
Lemma ex_type : exact_for type_ (fun t s r => exists r0, skip blank_char s r0 /\ body t r0 r).
Proof.
  unfold type_. eapply ex_equiv; [apply ex_alt; [apply ex_enum_type|apply ex_struct_type]|].
  intros t s r. simpl. unfold never. split.
  - intros (r0 & H0 & Hb). destruct t as [vs|fs]; [left; eauto|]. right. split; [|eauto].
    intros t' r' (r0' & H0' & [vs ->] & Hb'). rewrite (skip_fun _ _ _ _ H0' H0) in Hb'.
    by eapply body_enum_not_struct.
  - intros [(r0 & H0 & _ & Hb)|[_ (r0 & H0 & _ & Hb)]]; eauto.
Qed.
Lemma body_len t s r : body t s r -> length r < length s.
Proof.
  assert (forall vs s r, variants vs s r -> length r <= length s) as Hvs.
  { induction 1 as [|v c vs s' r1 r2 r3 r4 r' H1%name_len H2%skip_len H3%perhaps_len H4%skip_len _ IH]; lia. }
  assert (forall fs s r, fields fs s r -> length r <= length s) as Hfs.
  { induction 1 as [|fs s' r1 r2 r' H1%remark_len H2%skip_len _ IH
       |n o t' a c fs s' r1 r2 r3 r4 r5 r6 r7 r8 r9 r10 r' H1%name_len H2%skip_len H3%perhaps_len H4%lit_len
         H5%skip_len H6%word_len H7%perhaps_len H8%skip_len H9%perhaps_len H10%skip_len _ IH]; lia. }
  destruct 1 as [vs s r1 r2 r3 r4 r5 r H1%lit_len H2%skip_len H3%lit_len H4%skip_len H5%Hvs H6%lit_len|
    fs s r1 r2 r3 r4 r5 r H1%lit_len H2%skip_len H3%lit_len H4%skip_len H5%Hfs H6%lit_len]; simpl in *; lia.
Qed.

(** ** Lines *)
Definition line_rel (o : option node) (s r : text) : Prop := exists r1, skip blank_char s r1 /\
  match o with
  | None => exists r2, remark r1 r2 /\ skip newline_char r2 r
  | Some (NExport e) => exists t r2 r3 r4, lit "export" r1 r2 /\ skip blank_char r2 r3 /\ word t r3 r4 /\
       skip newline_char r4 r /\ e = str t
  | Some (NDecl n t) => exists w r2 r3 r4 r5 r6, name w r1 r2 /\ ~ txt "export" `prefix_of` w /\
       skip blank_char r2 r3 /\ lit ":" r3 r4 /\ skip blank_char r4 r5 /\ body t r5 r6 /\ skip space_char r6 r /\
       n = str w
  end.

Lemma name_not_export w s r r' : name w s r -> lit "export" s r' -> txt "export" `prefix_of` w.
Proof.
  intros (-> & _ & Hs) E. unfold lit in E. eapply name_prefix; [|exact Hs|exact E].
  apply (bool_decide_unpack _). vm_compute. exact I.
Qed.
Lemma stops_space_newline r : stops space_char r -> stops newline_char r.
Proof. destruct r; simpl; [done|]. unfold space_char. tauto. Qed.

Lemma ex_line : exact_for line line_rel.
Proof.
  unfold line, export_, decl. eapply ex_equiv.
  - apply ex_alt; [|apply ex_alt].
    + eapply ex_then_u; [apply ex_blanks|]. eapply ex_then_u; [apply ex_comment|].
      eapply ex_then_u; [apply ex_newlines|]. apply ex_ret.
    + eapply ex_then_u; [apply ex_blanks|]. eapply ex_bind.
      * eapply ex_then_u; [apply ex_lit|]. eapply ex_then_u; [apply ex_blanks|].
        eapply ex_bind; [apply ex_string|]. intros w. apply ex_ret.
      * intros e. eapply ex_then_u; [apply ex_newlines|]. apply ex_ret.
    + eapply ex_then_u; [apply ex_blanks|]. eapply ex_bind.
      * eapply ex_then_u; [apply ex_blanks|]. eapply ex_bind; [apply ex_ident|]. intros n.
        eapply ex_then_u; [apply ex_blanks|]. eapply ex_then_u; [apply ex_lit|].
        eapply ex_then_u; [apply ex_blanks|]. eapply ex_bind; [apply ex_type|]. intros t.
        eapply ex_then_u; [apply ex_spaces|]. apply ex_ret.
      * intros e. eapply ex_then_u; [apply ex_newlines|]. apply ex_ret.
  - intros o s r. simpl. unfold never, line_rel. split.
    + intros (r1 & H1 & H). destruct o as [[n t|e]|].
      * destruct H as (w & r2 & r3 & r4 & r5 & r6 & K1 & K2 & K3 & K4 & K5 & K6 & K7 & ->).
        right. split.
        { intros _ r' (r1' & H1' & r2' & (r3' & Hr & _) & _).
          rewrite (skip_fun _ _ _ _ H1' H1) in Hr. by eapply name_not_remark. }
        right. split.
        { intros _ r' (r1' & H1' & _ & r2' & (r3' & Hr & _) & _).
          rewrite (skip_fun _ _ _ _ H1' H1) in Hr. apply K2. by eapply name_not_export. }
        exists r1. split; [done|]. eexists (NDecl (str w) t), r. split.
        { exists r1. split; [by apply skip_id, (skip_stops _ _ _ H1)|]. exists w, r2. split; [done|].
          exists r3. split; [done|]. exists r4. split; [done|]. exists r5. split; [done|].
          exists t, r6. split; [|eauto]. exists r5. split; [|done]. by apply skip_id, (skip_stops _ _ _ K5). }
        exists r. split; [|done]. apply skip_id, stops_space_newline. by eapply skip_stops.
      * destruct H as (t & r2 & r3 & r4 & K1 & K2 & K3 & K4 & ->).
        right. split.
        { intros _ r' (r1' & H1' & r2' & (r3' & Hr & _) & _).
          rewrite (skip_fun _ _ _ _ H1' H1) in Hr. unfold lit in K1. subst r1.
          destruct Hr as (b & E & _). simpl in E. congruence. }
        left. exists r1. split; [done|]. exists (NExport (str t)), r4. split; [|eauto].
        exists r2. split; [done|]. exists r3. split; [done|]. eauto.
      * destruct H as (r2 & K1 & K2). left. exists r1. split; [done|]. exists r. split; [eauto|].
        exists r. split; [|done]. by apply skip_id, (skip_stops _ _ _ K2).
    + intros [H|[Hn1 [H|[Hn2 H]]]].
      * destruct H as (r1 & H1 & r2 & (r3 & H2 & H3) & r4 & H4 & -> & ->).
        apply (skip_id_iff _ _ _ (skip_stops _ _ _ H3)) in H4 as ->. eauto 10.
      * destruct H as (r1 & H1 & e & r2 & (r3 & H3 & r4 & H4 & w & r5 & H5 & -> & ->) & r6 & H6 & -> & ->).
        exists r1. split; [done|]. unfold name_of. eauto 15.
      * destruct H as (r1 & H1 & e & r2 & (r3 & H3 & w & r4 & H4 & r5 & H5 & r6 & H6 & r7 & H7 & t & r8 &
          (r9 & H8 & H9) & r10 & H10 & -> & ->) & r11 & H11 & -> & ->).
        apply (skip_id_iff _ _ _ (skip_stops _ _ _ H1)) in H3 as ->.
        apply (skip_id_iff _ _ _ (skip_stops _ _ _ H7)) in H8 as ->.
        apply (skip_id_iff _ _ _ (stops_space_newline _ (skip_stops _ _ _ H10))) in H11 as ->.
        exists r1. split; [done|]. exists w, r4, r5, r6, r7, r8. split_and!; try done.
        intros [k Hk]. destruct (skip_exists blank_char (k ++ r4)) as [q1 Q1].
        assert (exists w' q2, word w' q1 q2) as (w' & q2 & Q2).
        { destruct (skip_exists name_char q1) as (q2 & w' & -> & ? & ?). by exists w', q2. }
        destruct (skip_exists newline_char q2) as [q3 Q3].
        apply (Hn2 (Some (NExport (name_of w'))) q3). exists r1. split; [done|].
        exists (NExport (name_of w')), q2. split; [|eauto].
        exists (k ++ r4). split.
        { unfold lit. destruct H4 as (-> & _). rewrite Hk. by rewrite app_assoc. }
        eauto 10.
Qed.
Lemma line_len o s r : line_rel o s r -> length r < length s.
Proof.
  intros (r1 & H1%skip_len & H). destruct o as [[n t|e]|].
  - destruct H as (w & r2 & r3 & r4 & r5 & r6 & K1%name_len & _ & K3%skip_len & K4%lit_len & K5%skip_len & K6%body_len & K7%skip_len & _). lia.
  - destruct H as (t & r2 & r3 & r4 & K1%lit_len & K2%skip_len & K3%word_len & K4%skip_len & ->). simpl in *. lia.
  - destruct H as (r2 & K1%remark_len & K2%skip_len). lia.
Qed.

Lemma ex_schema : exact_for schema (fun a s r =>
  exists r1 os, skip newline_char s r1 /\ Star line_rel os r1 r /\ a = somes os).
Proof.
  unfold schema. eapply ex_equiv.
  - eapply ex_then; [apply ex_opt, ex_newlines|].
    eapply ex_bind; [apply ex_star; [apply ex_line|apply line_len]|]. intros l. apply ex_ret.
  - intros a s r. simpl. unfold never. split.
    + intros (r1 & os & H1 & H2 & ->). exists r1. split; [exists (Some ()); left; eauto|]. eauto.
    + intros (r1 & (o & [(? & _ & H1)|(_ & _ & Hn)]) & os & r2 & Hst & -> & ->).
      * eauto 10.
      * destruct (skip_exists newline_char s) as [r' Hr']. by destruct (Hn () r').
Qed.
Lemma line_nil o r : ~ line_rel o [] r.
Proof. intros H%line_len. simpl in H. lia. Qed.
Lemma lines_star a s : lines a s <-> exists os, Star line_rel os s [] /\ a = somes os.
Proof.
  split.
  - induction 1 as [|a s r1 r2 r H1 H2 H3 _ (os & Hst & ->)
      |e a s r1 r2 r3 r4 r H1 H2 H3 H4 H5 _ (os & Hst & ->)
      |n t a s r1 r2 r3 r4 r5 r6 r H1 H2 H3 H4 H5 H6 H7 H8 _ (os & Hst & ->)].
    + exists []. split; [|done]. constructor. intros ? ?. apply line_nil.
    + exists (None :: os). split; [|done]. econstructor; [|done]. exists r1. split; [done|]. eauto.
    + exists (Some (NExport (str e)) :: os). split; [|done]. econstructor; [|done]. exists r1. split; [done|]. eauto 10.
    + exists (Some (NDecl (str n) t) :: os). split; [|done]. econstructor; [|done]. exists r1. split; [done|].
      do 6 eexists. split_and!; try eassumption. done.
  - intros (os & Hst & ->). remember [] as e eqn:He. induction Hst as [s Hn|[[n t|e']|] l s r1 r Hl Hst IH].
    + subst. constructor.
    + destruct Hl as (q1 & Q1 & w & r2 & r3 & r4 & r5 & r6 & K1 & K2 & K3 & K4 & K5 & K6 & K7 & ->).
      change (somes (Some (NDecl (str w) t) :: l)) with (NDecl (str w) t :: somes l).
      eapply lines_decl; try eassumption. by apply IH.
    + destruct Hl as (q1 & Q1 & t & r2 & r3 & r4 & K1 & K2 & K3 & K4 & ->).
      change (somes (Some (NExport (str t)) :: l)) with (NExport (str t) :: somes l).
      eapply lines_export; try eassumption. by apply IH.
    + destruct Hl as (q1 & Q1 & r2 & K1 & K2). change (somes (None :: l)) with (@somes node l).
      eapply lines_comment; try eassumption. by apply IH.
Qed.

(** ** The entry point *)
Lemma parse_schema_ok a s : parse_schema s = POk a <-> layout a s.
Proof.
  unfold parse_schema, prun, layout. destruct (ex_schema s (length s)) as [Hd He].
  transitivity (exists m, schema s (length s) = PSucc a [] m).
  - destruct (schema s (length s)) as [a' r m|m|] eqn:E; [| |done].
    + destruct r; [|split; [done|intros [? [=]]]].
      split; [intros [= ->]; eauto|intros [? [= ->]]; done].
    + split; [done|]. intros [? [=]].
  - rewrite <-He. split.
    + intros (r1 & os & H1 & H2 & ->). exists r1. split; [done|]. apply lines_star. eauto.
    + intros (r1 & H1 & H2). apply lines_star in H2 as (os & ? & ->). eauto.
Qed.
Lemma parse_schema_terminates s : parse_schema s ≠ PLoop.
Proof.
  unfold parse_schema, prun. destruct (ex_schema s (length s)) as [Hd _].
  destruct (schema s (length s)) as [a' r m|m|]; [|done|done]. by destruct r.
Qed.
