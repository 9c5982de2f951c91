(** The parse error report names the right place. *)
From Verif Require Export Report ReportSpec ParserProofs2.

(** ** UTF-8 *)
Definition starts (s : text) : Prop := match s with c :: _ => is_cont c = false | [] => True end.
Lemma is_cont_spec c : is_cont c = true <-> in_range 128 191 c.
Proof. unfold is_cont, byte_in, in_range, byte. rewrite andb_true_iff, !Nat.leb_le. done. Qed.
Lemma not_cont_spec c : is_cont c = false <-> ~ in_range 128 191 c.
Proof. rewrite <-is_cont_spec. by destruct (is_cont c). Qed.
Lemma utf8_char_shape g : utf8_char g ->
  exists c g', g = c :: g' /\ is_cont c = false /\ Forall (fun c => is_cont c = true) g'.
Proof.
  unfold utf8_char, in_range. 
  destruct g as [|a [|b [|c [|d [|e g]]]]]; try done; intros H; eexists a, _; (split; [done|]);
    rewrite not_cont_spec; (split; [unfold in_range; intuition lia|]);
    repeat constructor; rewrite is_cont_spec; unfold in_range; intuition lia.
Qed.
Lemma utf8_nil : utf8 [].
Proof. by exists []. Qed.
Lemma utf8_starts s : utf8 s -> starts s.
Proof.
  intros (gs & HF & ->). destruct HF as [|g gs Hg HF]; [done|]. simpl.
  destruct (utf8_char_shape g Hg) as (c & g' & -> & Hc & _). done.
Qed.
Lemma spells_cons g gs s : utf8_char g -> spells gs s -> spells (g :: gs) (g ++ s).
Proof. intros Hg [HF ->]. split; [by constructor|done]. Qed.
Lemma spells_app gs gs' s s' : spells gs s -> spells gs' s' -> spells (gs ++ gs') (s ++ s').
Proof. intros [H1 ->] [H2 ->]. split; [by apply Forall_app|]. by rewrite concat_app. Qed.
Lemma spells_split gs u v : spells gs (u ++ v) -> starts v -> exists gs1 gs2, gs = gs1 ++ gs2 /\ spells gs1 u /\ spells gs2 v.
Proof.
  intros [HF E] Hv. revert u E. induction HF as [|g gs Hg HF IH]; intros u E.
  - apply app_nil in E as [-> ->]. by exists [], [].
  - destruct u as [|x u].
    { exists [], (g :: gs). split; [done|]. split; [done|]. split; [by constructor|done]. }
    change (concat (g :: gs)) with (g ++ concat gs) in E.
    destruct (app_eq_inv _ _ _ _ E) as [(k & Hk & E')|(k & Hk & E')].
    + destruct (IH k) as (gs1 & gs2 & -> & H1 & H2); [done|]. exists (g :: gs1), gs2. split; [done|]. split; [|done].
      rewrite Hk. by apply spells_cons.
    + destruct k as [|c k].
      * rewrite app_nil_r in Hk. subst g. exists [x :: u], gs. split; [done|]. split; [|by split].
        split; [by constructor|]. simpl. by rewrite app_nil_r.
      * exfalso. subst g. destruct (utf8_char_shape _ Hg) as (c0 & g' & E0 & _ & HF').
        simpl in E0. injection E0 as -> <-. apply Forall_app in HF' as [_ HF'].
        apply Forall_cons in HF' as [HF' _]. rewrite E' in Hv. simpl in Hv. congruence.
Qed.
Lemma utf8_split u v : utf8 (u ++ v) -> starts v -> utf8 u /\ utf8 v.
Proof. intros [gs H] Hv. destruct (spells_split _ _ _ H Hv) as (g1 & g2 & -> & H1 & H2). split; eexists; done. Qed.
Lemma utf8_tail c r : utf8 (c :: r) -> byte c <= 127 -> utf8 r.
Proof.
  intros (gs & HF & E) Hc. destruct HF as [|g gs Hg HF]; [done|].
  assert (g = [c]) as ->.
  { destruct (utf8_char_shape g Hg) as (c' & g' & -> & _). simpl in E. injection E as <- E.
    unfold utf8_char, in_range in Hg. destruct g' as [|b [|c1 [|d [|e g']]]]; try done; exfalso; intuition lia. }
  simpl in E. injection E as ->. by exists gs.
Qed.
Lemma utf8_drop l r : utf8 (l ++ r) -> ascii_only l -> utf8 r.
Proof.
  induction l as [|c l IH]; [done|]. simpl. intros H Hl. apply Forall_cons in Hl as [Hc Hl].
  apply IH; [|done]. eapply utf8_tail; [done|]. unfold in_range in Hc. lia.
Qed.

Lemma chars_app g s : utf8_char g -> starts s -> chars (g ++ s) = g :: chars s.
Proof.
  intros Hg Hs. destruct (utf8_char_shape g Hg) as (c & g' & -> & Hc & HF). clear Hg Hc. revert c.
  induction HF as [|d g' Hd HF IH]; intros c.
  - simpl. destruct s as [|d s]; [done|]. simpl in Hs. by rewrite Hs.
  - change (chars ((c :: d :: g') ++ s)) with
      (if is_cont d then match chars ((d :: g') ++ s) with g0 :: gs => (c :: g0) :: gs | [] => [[c]] end
       else [c] :: chars ((d :: g') ++ s)). by rewrite Hd, IH.
Qed.
Lemma chars_spells gs s : spells gs s -> chars s = gs.
Proof.
  intros [HF ->]. induction HF as [|g gs Hg HF IH]; [done|]. simpl. rewrite chars_app; [by rewrite IH|done|].
  apply utf8_starts. by exists gs.
Qed.

(** ** Positions that the parser remembers are character boundaries *)
Definition pos (s : text) (m m' : nat) : Prop :=
  m' = m \/ exists u v, s = u ++ v /\ length v = m' /\ utf8 v.
Definition good {A} (p : parser A) : Prop := forall s m, utf8 s ->
  match p s m with
  | PSucc _ r m' => (exists w, s = w ++ r) /\ utf8 r /\ pos s m m'
  | PFail m' => pos s m m'
  | PDiv => True
  end.
Lemma pos_refl s m : pos s m m.
Proof. by left. Qed.
Lemma pos_min s m : utf8 s -> pos s m (Nat.min m (length s)).
Proof. intros Hs. destruct (Nat.min_spec m (length s)) as [[_ ->]|[_ ->]]; [by left|]. right. by exists [], s. Qed.
Lemma pos_trans w r m m1 m2 : pos (w ++ r) m m1 -> pos r m1 m2 -> pos (w ++ r) m m2.
Proof.
  intros H [->|(u & v & -> & Hl & Hv)]; [done|]. right. exists (w ++ u), v. by rewrite app_assoc.
Qed.
Lemma good_ret {A} (a : A) : good (pret a).
Proof. intros s m Hs. split; [by exists []|]. split; [done|apply pos_refl]. Qed.
Lemma good_bind {A B} (p : parser A) (k : A -> parser B) : good p -> (forall a, good (k a)) -> good (pbind p k).
Proof.
  intros Hp Hk s m Hs. unfold pbind. specialize (Hp s m Hs). destruct (p s m) as [a r m1|m1|]; [|done|done].
  destruct Hp as ([w ->] & Hr & Hm). specialize (Hk a r m1 Hr). destruct (k a r m1) as [b r' m2|m2|]; [| |done].
  - destruct Hk as ([w' ->] & Hr' & Hm'). split; [exists (w ++ w'); by rewrite app_assoc|]. split; [done|].
    by eapply pos_trans.
  - by eapply pos_trans.
Qed.
Lemma good_map {A B} (f : A -> B) p : good p -> good (pmap f p).
Proof. intros H. apply good_bind; [done|]. intros a. apply good_ret. Qed.
Lemma good_class f : (forall c, f c = true -> byte c <= 127) -> good (pclass f).
Proof.
  intros Hf s m Hs. unfold pclass. destruct s as [|c s]; [by apply pos_min|].
  destruct (f c) eqn:E; [|by apply pos_min]. split; [by exists [c]|]. split; [|apply pos_refl].
  eapply utf8_tail; [done|]. by apply Hf.
Qed.
Lemma good_lit l : ascii_only (T l) -> good (plit (T l)).
Proof.
  intros Hl s m Hs. unfold plit. destruct (strip (T l) s) as [r|] eqn:E; [|by apply pos_min].
  apply strip_some in E as ->. split; [by exists (T l)|]. split; [|apply pos_refl]. by eapply utf8_drop.
Qed.
Lemma good_alt {A} (p q : parser A) : good p -> good q -> good (palt p q).
Proof.
  intros Hp Hq s m Hs. unfold palt. specialize (Hp s m Hs). destruct (p s m) as [a r m1|m1|]; [done| |done].
  specialize (Hq s m1 Hs). destruct (q s m1) as [a r m2|m2|]; [| |done].
  - destruct Hq as (H1 & H2 & H3). split; [done|]. split; [done|]. by apply (pos_trans [] s m m1).
  - by apply (pos_trans [] s m m1).
Qed.
Lemma good_opt {A} (p : parser A) : good p -> good (popt p).
Proof.
  intros Hp s m Hs. unfold popt. specialize (Hp s m Hs). destruct (p s m) as [a r m1|m1|]; [done| |done].
  split; [by exists []|]. done.
Qed.
Lemma good_not {A} (p : parser A) : good (pnot p).
Proof.
  intros s m Hs. unfold pnot. destruct (p s m); [apply pos_refl| |done].
  split; [by exists []|]. split; [done|apply pos_refl].
Qed.
Lemma good_quiet {A} (p : parser A) : good p -> good (pquiet p).
Proof.
  intros Hp s m Hs. unfold pquiet. specialize (Hp s m Hs). destruct (p s m) as [a r m1|m1|]; [|apply pos_refl|done].
  destruct Hp as (H1 & H2 & H3). split; [done|]. split; [done|apply pos_refl].
Qed.
Lemma good_slice {A} (p : parser A) : good p -> good (pslice p).
Proof. intros Hp s m Hs. unfold pslice. specialize (Hp s m Hs). by destruct (p s m) as [a r m1|m1|]. Qed.
Lemma good_star {A} (p : parser A) : good p -> good (pstar p).
Proof.
  intros Hp s m Hs. unfold pstar. revert s m Hs.
  assert (forall fuel s m, utf8 s -> match pstar_loop fuel p s m with
     | PSucc _ r m' => (exists w, s = w ++ r) /\ utf8 r /\ pos s m m'
     | PFail m' => pos s m m' | PDiv => True end) as H; [|intros s m; apply H].
  induction fuel as [|fuel IH]; intros s m Hs; [done|]. simpl.
  specialize (Hp s m Hs). destruct (p s m) as [a r m1|m1|]; [| |done].
  - destruct Hp as ([w ->] & Hr & Hm). specialize (IH r m1 Hr).
    destruct (pstar_loop fuel p r m1) as [b r' m2|m2|]; [| |done].
    + destruct IH as ([w' ->] & Hr' & Hm'). split; [exists (w ++ w'); by rewrite app_assoc|]. split; [done|].
      by eapply pos_trans.
    + by eapply pos_trans.
  - split; [by exists []|]. done.
Qed.
(** The body of a comment may hold any character, but it ends before a line feed or at the end. *)
Lemma good_comment_body : good (pstar (pclass (fun c => negb (Ascii.eqb c LF)))).
Proof.
  intros s m Hs. 
  assert (match pstar (pclass (fun c => negb (Ascii.eqb c LF))) s m with
     | PSucc _ r m' => m' = Nat.min m (length r) | _ => True end) as Hm.
  { unfold pstar. generalize (S (length s)). intros fuel. clear Hs. revert s m.
    induction fuel as [|fuel IH]; intros s m; [done|]. simpl. unfold pclass at 1.
    destruct s as [|c s]; [done|]. destruct (negb (Ascii.eqb c LF)); [|done].
    specialize (IH s m). by destruct (pstar_loop fuel _ s m). }
  destruct (ex_class_star _ _ not_lf_spec s m) as [Hd He].
  destruct (pstar (pclass (fun c => negb (Ascii.eqb c LF))) s m) as [w r m'|m'|] eqn:E; [| |done].
  - destruct (He w r) as [_ H]. destruct H as (-> & HF & Hst); [by eexists|].
    assert (utf8 r) as Hr.
    { apply (utf8_split w r Hs). destruct r as [|c r]; [done|]. simpl in Hst. simpl.
      destruct (decide (c = lf)) as [->|?]; [by vm_compute|]. by destruct Hst. }
    split; [by exists w|]. split; [done|]. subst m'. destruct (Nat.min_spec m (length r)) as [[_ ->]|[_ ->]]; [by left|].
    right. by exists w, r.
  - exfalso. unfold pstar in E. assert (forall fuel s m m', pstar_loop fuel (pclass (λ c, negb (Ascii.eqb c LF))) s m ≠ PFail m') as HN.
    { clear. induction fuel as [|fuel IH]; intros s m m'; [done|]. simpl. destruct (pclass _ s m); [|done|done].
      destruct (pstar_loop fuel _ rest m0) eqn:E; [done| |done]. by apply IH in E. }
    by apply HN in E.
Qed.

Ltac ascii_ok := apply (bool_decide_unpack _); vm_compute; exact I.
#[local] Instance in_range_dec lo hi c : Decision (in_range lo hi c).
Proof. unfold in_range. apply _. Defined.
Lemma class_ascii (f : ascii -> bool) :
  forallb (fun c => implb (f c) (nat_of_ascii c <=? 127)%nat) (map ascii_of_nat (seq 0 256)) = true ->
  forall c, f c = true -> byte c <= 127.
Proof.
  intros H c Hc. rewrite forallb_forall in H. specialize (H c).
  assert (implb (f c) (nat_of_ascii c <=? 127)%nat = true) as H'.
  { apply H. apply in_map_iff. exists (nat_of_ascii c). split; [apply ascii_nat_embedding|]. apply in_seq.
    pose proof (nat_ascii_bounded c). lia. }
  rewrite Hc in H'. simpl in H'. by apply Nat.leb_le in H'.
Qed.
Lemma good_schema : good schema.
Proof.
  assert (good blanks) as Hb.
  { apply good_map, good_star, good_class, class_ascii. by vm_compute. }
  assert (good newlines) as Hn.
  { apply good_map, good_star, good_class, class_ascii. by vm_compute. }
  assert (good spaces) as Hs.
  { apply good_map, good_star, good_class, class_ascii. by vm_compute. }
  assert (good comment) as Hc.
  { unfold comment. apply good_bind; [apply good_lit; ascii_ok|]. intros _. apply good_bind; [apply good_comment_body|]. done. }
  assert (good string_) as Hstr.
  { apply good_slice, good_star, good_class, class_ascii. by vm_compute. }
  assert (good ident) as Hi.
  { apply good_quiet, good_slice. apply good_bind; [apply good_not|]. intros _.
    apply good_bind; [apply good_slice, good_class, class_ascii; by vm_compute|]. intros _.
    apply good_star, good_slice, good_class, class_ascii. by vm_compute. }
  unfold schema, line, export_, decl, type_, struct_type, struct_field, is_optional, enum_type, enum_variant.
  repeat first [ apply good_ret | apply Hb | apply Hn | apply Hs | apply Hc | apply Hstr | apply Hi
               | apply good_lit; ascii_ok | apply good_alt | apply good_opt | apply good_star | apply good_map
               | apply good_bind; [|intros ?] ].
Qed.

Lemma error_boundary s off : utf8 s -> parse_schema s = PErr off ->
  exists u v, s = u ++ v /\ length u = off /\ utf8 u /\ utf8 v.
Proof.
  intros Hs. unfold parse_schema, prun. pose proof (good_schema s (length s) Hs) as H.
  assert (forall m, pos s (length s) m -> exists u v, s = u ++ v /\ length u = length s - m /\ utf8 u /\ utf8 v) as Hpos.
  { intros m [->|(u & v & -> & Hl & Hv)].
    - exists [], s. rewrite Nat.sub_diag. split; [done|]. split; [done|]. split; [apply utf8_nil|done].
    - exists u, v. split; [done|]. split; [rewrite app_length; lia|]. split; [|done].
      by apply (utf8_split u v Hs), utf8_starts. }
  destruct (schema s (length s)) as [a r m|m|]; [| |done].
  - destruct H as ([w ->] & Hr & Hm). destruct r as [|c r]; [done|]. intros [= <-]. apply Hpos.
    apply (pos_trans w (c :: r) _ m); [done|]. by apply pos_min.
  - intros [= <-]. by apply Hpos.
Qed.

(** ** The report *)
Lemma count_lf_none l : lf ∉ l -> length (List.filter (fun c => Ascii.eqb c LF) l) = 0.
Proof.
  induction l as [|c l IH]; [done|]. intros H. apply not_elem_of_cons in H as [Hc H]. simpl.
  destruct (Ascii.eqb_spec c LF) as [->|_]; [done|]. by apply IH.
Qed.
Lemma count_lf full line : Forall (fun l => lf ∉ l) full -> lf ∉ line ->
  length (List.filter (fun c => Ascii.eqb c LF) (concat (map (fun l => l ++ [lf]) full) ++ line)) = length full.
Proof.
  intros HF Hl. induction HF as [|l full Hn HF IH]; [by apply count_lf_none|]. simpl.
  rewrite <-!app_assoc, List.filter_app, app_length, count_lf_none; [|done]. simpl. by rewrite IH.
Qed.
Lemma split_place before : exists full line, Forall (fun l => lf ∉ l) full /\ lf ∉ line /\
  before = concat (map (fun l => l ++ [lf]) full) ++ line.
Proof.
  induction before as [|c b (full & line & HF & Hl & ->)].
  - exists [], []. split; [done|]. split; [apply not_elem_of_nil|done].
  - destruct (decide (c = lf)) as [->|Hc].
    + exists ([] :: full), line. split; [constructor; [apply not_elem_of_nil|done]|]. done.
    + destruct HF as [|l full Hn HF].
      * exists [], (c :: line). split; [done|]. split; [|done]. by apply not_elem_of_cons.
      * exists ((c :: l) :: full), line. split; [constructor; [|done]; by apply not_elem_of_cons|]. done.
Qed.
Lemma split_rest after : exists rest more, after = rest ++ more /\ lf ∉ rest /\ (more = [] \/ exists m, more = lf :: m).
Proof.
  induction after as [|c b (r & m & -> & Hr & Hm)].
  - exists [], []. split; [done|]. split; [apply not_elem_of_nil|by left].
  - destruct (decide (c = lf)) as [->|Hc].
    + exists [], (lf :: r ++ m). split; [done|]. split; [apply not_elem_of_nil|right; by eexists].
    + exists (c :: r), m. split; [done|]. split; [by apply not_elem_of_cons|done].
Qed.
Lemma split_lf_line l s : lf ∉ l -> split_lf (l ++ lf :: s) = l :: split_lf s.
Proof.
  induction l as [|c l IH]; [done|]. intros H. apply not_elem_of_cons in H as [Hc H]. simpl.
  rewrite (IH H). destruct (Ascii.eqb_spec c LF) as [->|_]; [by destruct Hc|done].
Qed.
Lemma split_lf_none l : lf ∉ l -> split_lf l = [l].
Proof.
  induction l as [|c l IH]; [done|]. intros H. apply not_elem_of_cons in H as [Hc H]. simpl.
  rewrite (IH H). destruct (Ascii.eqb_spec c LF) as [->|_]; [by destruct Hc|done].
Qed.
Lemma split_lf_full full x : Forall (fun l => lf ∉ l) full ->
  split_lf (concat (map (fun l => l ++ [lf]) full) ++ x) = full ++ split_lf x.
Proof.
  induction 1 as [|l full Hl HF IH]; [done|]. simpl. rewrite <-!app_assoc. simpl. rewrite split_lf_line; [|done].
  by rewrite IH.
Qed.
Lemma take_while_app {A} f (l k : list A) : Forall (fun a => f a = true) l -> (match k with [] => True | a :: _ => f a = false end) ->
  take_while f (l ++ k) = l.
Proof.
  intros HF Hk. induction HF as [|a l Ha HF IH]; simpl.
  - destruct k; [done|]. simpl. by rewrite Hk.
  - by rewrite Ha, IH.
Qed.
Lemma chars_ascii l s : ascii_only l -> starts s -> chars (l ++ s) = map (fun c => [c]) l ++ chars s.
Proof.
  intros HF Hs. induction HF as [|c l Hc HF IH]; [done|].
  assert (starts (l ++ s)) as Hs'.
  { destruct l as [|d l]; [done|]. simpl. apply Forall_cons in HF as [Hd _].
    apply not_cont_spec. unfold in_range in *. lia. }
  change ((c :: l) ++ s) with ([c] ++ (l ++ s)). rewrite chars_app; [by rewrite IH|by simpl|done].
Qed.
Lemma first_char_chars s : utf8 s -> first_char s (default [ch 0] (head (chars s))).
Proof.
  intros [gs H]. rewrite (chars_spells _ _ H). destruct H as [HF ->]. destruct HF as [|g gs Hg HF].
  - by left.
  - right. simpl. by exists (concat gs).
Qed.

Lemma report_place before after : utf8 before -> utf8 after ->
  exists lines cur rest token, place before after lines cur rest /\
    parse_message (before ++ after) (length before) = Ok (report token lines cur rest) /\
    (ascii_only before -> first_char after token) /\ token = default [ch 0] (chars (before ++ after) !! length before).
Proof.
  intros Hb Ha. destruct (split_place before) as (full & line & HF & Hl & E).
  destruct (split_rest after) as (rest & more & E' & Hr & Hm).
  assert (exists gs0 cur, spells (gs0 ++ cur) before /\ spells cur line /\ (gs0 = [] \/ exists g1, gs0 = g1 ++ [[lf]]))
    as (gs0 & cur & Hsp & Hcur & Hgs0).
  { destruct full as [|l0 full0] eqn:Efull.
    - simpl in E. subst before. destruct Hb as [gs Hgs]. exists [], gs. split; [done|]. split; [done|by left].
    - destruct (exists_last (l := l0 :: full0)) as (full1 & l1 & E1); [done|]. rewrite E1 in E.
      rewrite map_app, concat_app in E. simpl in E. rewrite app_nil_r in E. rewrite <-!app_assoc in E. simpl in E.
      rewrite app_assoc in E. destruct Hb as [gs Hgs]. rewrite E in Hgs.
      destruct (spells_split _ _ _ Hgs) as (g1 & g2 & -> & H1 & H2); [by vm_compute|].
      destruct H2 as [HF2 E2]. destruct HF2 as [|g g2 Hg HF2]; [done|].
      assert (g = [lf]) as ->.
      { destruct (utf8_char_shape g Hg) as (c' & g' & -> & _). simpl in E2. injection E2 as <- E2.
        unfold utf8_char, in_range, byte, lf in Hg. rewrite nat_ascii_embedding in Hg; [|lia].
        destruct g' as [|b [|c1 [|d [|e g']]]]; try done; exfalso; intuition lia. }
      simpl in E2. injection E2 as ->. exists (g1 ++ [[lf]]), g2. split; [|split; [by split|right; by eexists]].
      rewrite <-app_assoc. simpl. rewrite E. done. }
  exists (length full), cur, rest, (default [ch 0] (chars (before ++ after) !! length before)).
  split; [by econstructor|]. split.
  - unfold parse_message, position_repr, is_char_boundary. rewrite drop_app, take_app.
    assert ((match after with c :: _ => negb (is_cont c) | [] => (length before =? length (before ++ after))%nat end) = true) as ->.
    { destruct after as [|c after']; [rewrite app_nil_r; apply Nat.eqb_refl|]. apply utf8_starts in Ha. simpl in Ha. by rewrite Ha. }
    simpl. unfold pretty_error, report. cbn [lc_line lc_column lc_offset].
    assert (length (List.filter (fun c => Ascii.eqb c LF) before) = length full) as ->.
    { rewrite E. by apply count_lf. }
    assert (take_while (λ g : list ascii, negb (bool_decide (g = [LF]))) (rev (chars before)) = rev cur) as Htw.
    { rewrite (chars_spells _ _ Hsp), rev_app_distr. apply take_while_app.
      - apply List.Forall_rev, Forall_forall. intros g Hg. apply negb_true_iff, bool_decide_eq_false. intros ->.
        apply Hl. destruct Hcur as [_ ->]. apply elem_of_list_In, in_concat. exists [LF]. split; [by apply elem_of_list_In|by left].
      - destruct Hgs0 as [->|[g1 ->]]; [done|]. rewrite rev_app_distr. simpl. done. }
    rewrite Htw, rev_length, Nat.add_sub, !Nat.add_1_r.
    assert (split_lf (before ++ after) !! length full = Some (line ++ rest)) as ->.
    { rewrite E, E', <-!app_assoc, split_lf_full; [|done]. rewrite lookup_app_r, Nat.sub_diag; [|done].
      assert (lf ∉ line ++ rest) as Hlr by (rewrite elem_of_app; tauto).
      destruct Hm as [->|[m ->]].
      - rewrite app_nil_r, split_lf_none; done.
      - rewrite app_assoc, split_lf_line; done. }
    destruct Hcur as [_ ->]. cbn [default from_option id]. rewrite !app_assoc. reflexivity.
  - split; [|done]. intros Hasc. rewrite chars_ascii; [|done|by apply utf8_starts].
    rewrite lookup_app_r; rewrite map_length; [|done]. rewrite Nat.sub_diag.
    pose proof (first_char_chars after Ha) as H. by destruct (chars after).
Qed.

Lemma parse_report s off : utf8 s -> parse_schema s = PErr off ->
  exists before after lines cur rest token, s = before ++ after /\ length before = off /\
    place before after lines cur rest /\ parse_message s off = Ok (report token lines cur rest) /\
    (ascii_only before -> first_char after token).
Proof.
  intros Hs He. destruct (error_boundary s off Hs He) as (u & v & -> & <- & Hu & Hv).
  destruct (report_place u v Hu Hv) as (n & cur & rest & tok & H1 & H2 & H3 & _).
  exists u, v, n, cur, rest, tok. done.
Qed.

(** ** Which character is quoted *)
Lemma spells_length gs s : spells gs s -> length gs <= length s.
Proof.
  intros [H ->]. induction H as [|g gs Hg _ IH]; [done|]. cbn. rewrite app_length. destruct (utf8_char_shape g Hg) as (c & g' & -> & _). cbn. lia.
Qed.
Lemma utf8_char_longer g k : utf8_char g -> utf8_char (g ++ k) -> k = [].
Proof.
  unfold utf8_char, in_range. destruct g as [|a [|b [|c [|d [|e g]]]]]; try done; destruct k as [|x k]; try done; intros H1 H2; exfalso; cbn [app] in H2;
    destruct k as [|y [|z [|w k]]]; cbn in H2; try done; intuition lia.
Qed.
Lemma first_char_nth gs s g : spells gs s -> first_char s g <-> g = nth 0 gs [ascii_of_nat 0].
Proof.
  intros [HF ->]. destruct HF as [|g0 gs Hg0 _].
  - cbn. split; [|by left]. intros [[_ ->]|(r & Hr & Hg)]; [done|]. by destruct g.
  - cbn [nth concat]. destruct (utf8_char_shape g0 Hg0) as (c & t & Hc & _). split; [|intros ->; right; by exists (concat gs)].
    intros [[H _]|(r & Hr & Hg)]; [by rewrite Hc in H|]. destruct (app_eq_inv _ _ _ _ Hr) as [(k & Hk & _)|(k & Hk & _)].
    + rewrite Hk in Hg0. apply utf8_char_longer in Hg0 as ->; [|done]. by rewrite Hk, app_nil_r.
    + rewrite Hk in Hg. apply utf8_char_longer in Hg as ->; [|done]. by rewrite Hk, app_nil_r.
Qed.
Lemma token_place s off : utf8 s -> parse_schema s = PErr off ->
  exists before after gs hs lines cur rest token, s = before ++ after /\ length before = off /\ spells gs before /\ spells hs after /\
    place before after lines cur rest /\ parse_message s off = Ok (report token lines cur rest) /\
    token = nth (off - length gs) hs [ascii_of_nat 0] /\
    (first_char after token <-> nth (off - length gs) hs [ascii_of_nat 0] = nth 0 hs [ascii_of_nat 0]).
Proof.
  intros Hs He. destruct (error_boundary s off Hs He) as (u & v & -> & <- & [gs Hu] & [hs Hv]).
  destruct (report_place u v) as (n & cur & rest & tok & H1 & H2 & _ & ->); [by exists gs|by exists hs|].
  exists u, v, gs, hs, n, cur, rest. eexists. split; [done|]. split; [done|]. split; [done|]. split; [done|]. split; [done|]. split; [done|].
  assert (default [ch 0] (chars (u ++ v) !! length u) = nth (length u - length gs) hs [ascii_of_nat 0]) as ->.
  { rewrite (chars_spells _ _ (spells_app _ _ _ _ Hu Hv)), lookup_app_r by by apply spells_length. by rewrite <- nth_lookup. }
  split; [done|]. by rewrite (first_char_nth hs v).
Qed.
