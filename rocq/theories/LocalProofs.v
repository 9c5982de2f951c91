(** Where parse errors are: the text up to six bytes after the reported place rules out every schema. *)
From Verif Require Export ErrorProofs.

(** No literal and no reserved word is longer. *)
Definition reach : nat := 6.
(** Runs of [p] that remember no failure beyond [u], less [reach], do not depend on what follows [u].
    [pre]: [p] is only run where a failure is remembered already; [post]: a success leaves a remembered failure. *)
Definition loc {A} (pre post : bool) (p : parser A) : Prop := forall (u t : text) m, (pre = true -> m <= length (u ++ t)) ->
  match p (u ++ t) m with
  | PSucc a r m' => m' <= m /\ (exists w, u ++ t = w ++ r) /\ (post = true -> m' <= length r) /\
      (length t + reach <= Nat.min m' (length r) -> exists r0, r = r0 ++ t /\
        forall t', p (u ++ t') (m - length t + length t') = PSucc a (r0 ++ t') (m' - length t + length t'))
  | PFail m' => m' <= m /\ m' <= length (u ++ t) /\
      (length t + reach <= m' -> forall t', p (u ++ t') (m - length t + length t') = PFail (m' - length t + length t'))
  | PDiv => True
  end.

Lemma app_split (u t w r : text) : u ++ t = w ++ r -> length t <= length r -> exists r0, u = w ++ r0 /\ r = r0 ++ t.
Proof.
  intros E Hl. assert (length w <= length u) as Hw by (apply (f_equal length) in E; rewrite !app_length in E; lia).
  exists (drop (length w) u). split.
  - rewrite <- (take_drop (length w) u) at 1. f_equal. apply (f_equal (take (length w))) in E. rewrite take_app, take_app_le in E by done. done.
  - apply (f_equal (drop (length w))) in E. rewrite drop_app, drop_app_le in E by done. done.
Qed.
Lemma lo_weaken {A} (pre post : bool) (p : parser A) : loc false post p -> loc pre post p.
Proof. intros H u t m _. by apply H. Qed.
Lemma lo_post {A} (pre post : bool) (p : parser A) : loc pre post p -> loc pre false p.
Proof. intros H u t m Hm. specialize (H u t m Hm). destruct (p (u ++ t) m); naive_solver. Qed.
Lemma lo_ret {A} (b : bool) (a : A) : loc b b (pret a).
Proof. intros u t m Hm. unfold pret. split; [done|]. split; [by exists []|]. split; [done|]. intros _. by exists u. Qed.
Lemma lo_ret' {A} (b : bool) (a : A) : loc b false (pret a).
Proof. apply (lo_post _ b), lo_ret. Qed.
Lemma lo_bind {A B} (pre mid post : bool) (p : parser A) (k : A -> parser B) : loc pre mid p -> (forall a, loc mid post (k a)) -> loc pre post (pbind p k).
Proof.
  intros Hp Hk u t m Hm. unfold pbind. specialize (Hp u t m Hm). destruct (p (u ++ t) m) as [a r m1|m1|]; [| |done].
  - destruct Hp as (Hm1 & [w Ew] & Hmid & Hrep).
    destruct (decide (length t <= length r)) as [Hl|Hl].
    + destruct (app_split u t w r Ew Hl) as (r0 & Eu & ->). specialize (Hk a r0 t m1 Hmid). destruct (k a (r0 ++ t) m1) as [b r2 m2|m2|]; [| |done].
      * destruct Hk as (Hm2 & [w2 Ew2] & Hpost & Hrep2). split; [lia|]. split; [exists (w ++ w2); by rewrite Ew, Ew2, app_assoc|]. split; [done|].
        intros Hr. destruct Hrep as (r0' & E0 & Hrep). { apply (f_equal length) in Ew2. rewrite (app_length w2) in Ew2. lia. }
        apply app_inv_tail in E0 as <-. destruct Hrep2 as (r2' & -> & Hrep2); [done|]. exists r2'. split; [done|]. intros t'. by rewrite Hrep, Hrep2.
      * destruct Hk as (Hm2 & Hl2 & Hrep2). split; [lia|]. split; [rewrite Ew, app_length; lia|]. intros Hr. destruct Hrep as (r0' & E0 & Hrep); [lia|].
        apply app_inv_tail in E0 as <-. intros t'. by rewrite Hrep, Hrep2.
    + specialize (Hk a [] r m1 Hmid). cbn [app] in Hk. destruct (k a r m1) as [b r2 m2|m2|]; [| |done].
      * destruct Hk as (Hm2 & [w2 Ew2] & Hpost & _). split; [lia|]. split; [exists (w ++ w2); by rewrite Ew, Ew2, app_assoc|]. split; [done|].
        intros Hr. apply (f_equal length) in Ew2. rewrite (app_length w2) in Ew2. lia.
      * destruct Hk as (Hm2 & Hl2 & _). split; [lia|]. split; [rewrite Ew, app_length; lia|]. lia.
  - destruct Hp as (Hm1 & Hl & Hrep). split; [done|]. split; [done|]. intros Hr t'. by rewrite Hrep.
Qed.
Lemma lo_map {A B} (pre post : bool) (f : A -> B) (p : parser A) : loc pre post p -> loc pre post (pmap f p).
Proof. intros H. eapply lo_bind; [exact H|]. intros a. apply lo_ret. Qed.
Lemma lo_alt {A} (pre post : bool) (p q : parser A) : loc pre post p -> loc true post q -> loc pre post (palt p q).
Proof.
  intros Hp Hq u t m Hm. unfold palt. specialize (Hp u t m Hm). destruct (p (u ++ t) m) as [a r m1|m1|]; [| |done].
  - destruct Hp as (Hm1 & Hw & Hpost & Hrep). split; [done|]. split; [done|]. split; [done|]. intros Hr. destruct (Hrep Hr) as (r0 & -> & Hrep'). exists r0. split; [done|]. intros t'. by rewrite Hrep'.
  - destruct Hp as (Hm1 & Hl & Hrep). specialize (Hq u t m1 (fun _ => Hl)). destruct (q (u ++ t) m1) as [a r m2|m2|]; [| |done].
    + destruct Hq as (Hm2 & Hw & Hpost & Hrep2). split; [lia|]. split; [done|]. split; [done|]. intros Hr. destruct (Hrep2 Hr) as (r0 & -> & Hrep'). exists r0. split; [done|].
      intros t'. rewrite Hrep by lia. apply Hrep'.
    + destruct Hq as (Hm2 & Hl2 & Hrep2). split; [lia|]. split; [done|]. intros Hr t'. rewrite Hrep by lia. by apply Hrep2.
Qed.
Lemma lo_opt {A} (pre post : bool) (p : parser A) : loc pre post p -> loc pre post (popt p).
Proof.
  intros Hp u t m Hm. unfold popt. specialize (Hp u t m Hm). destruct (p (u ++ t) m) as [a r m1|m1|]; [| |done].
  - destruct Hp as (Hm1 & Hw & Hpost & Hrep). split; [done|]. split; [done|]. split; [done|]. intros Hr. destruct (Hrep Hr) as (r0 & -> & Hrep'). exists r0. split; [done|]. intros t'. by rewrite Hrep'.
  - destruct Hp as (Hm1 & Hl & Hrep). split; [done|]. split; [by exists []|]. split; [done|]. intros Hr. exists u. split; [done|]. intros t'. rewrite Hrep by lia. done.
Qed.
Lemma lo_slice {A} (pre post : bool) (p : parser A) : loc pre post p -> loc pre post (pslice p).
Proof.
  intros Hp u t m Hm. unfold pslice. specialize (Hp u t m Hm). destruct (p (u ++ t) m) as [a r m1|m1|]; [| |done].
  - destruct Hp as (Hm1 & [w Hw] & Hpost & Hrep). split; [done|]. split; [by exists w|]. split; [done|]. intros Hr. destruct (Hrep Hr) as (r0 & -> & Hrep'). exists r0. split; [done|]. intros t'. rewrite Hrep'.
    rewrite app_assoc in Hw. apply app_inv_tail in Hw as ->. rewrite <- !app_assoc, !app_length.
    replace (length w + (length r0 + length t') - (length r0 + length t')) with (length w) by lia.
    replace (length w + (length r0 + length t) - (length r0 + length t)) with (length w) by lia. by rewrite !take_app.
  - destruct Hp as (Hm1 & Hl & Hrep). split; [done|]. split; [done|]. intros Hr t'. by rewrite Hrep.
Qed.
Lemma strip_none l s : strip l s = None <-> ~ l `prefix_of` s.
Proof.
  revert s. induction l as [|x l IH]; intros [|y s]; cbn.
  - split; [done|]. intros []. apply prefix_nil.
  - split; [done|]. intros []. apply prefix_nil.
  - split; [|done]. intros _ [k [=]].
  - destruct (Ascii.eqb_spec x y) as [->|Hn]; [rewrite IH|].
    + split; intros H1 H2; apply H1; [by apply prefix_cons_inv_2 in H2|by apply prefix_cons].
    + split; [|done]. intros _ H. by apply prefix_cons_inv_1 in H.
Qed.
Lemma strip_front l s : strip l (l ++ s) = Some s.
Proof. induction l as [|x l IH]; [done|]. cbn. by rewrite Ascii.eqb_refl. Qed.
Lemma prefix_within (l u t t' : text) : length l <= length u -> l `prefix_of` (u ++ t) -> l `prefix_of` (u ++ t').
Proof.
  intros Hl [k E]. symmetry in E. assert (length t <= length k) as Hk by (apply (f_equal length) in E; rewrite !app_length in E; lia).
  destruct (app_split u t l k (eq_sym E) Hk) as (r0 & -> & _). exists (r0 ++ t'). by rewrite app_assoc.
Qed.
Lemma lo_lit l (b : bool) : length (T l) <= reach -> loc b false (plit (T l)).
Proof.
  intros Hl u t m Hm. unfold plit. destruct (strip (T l) (u ++ t)) as [r|] eqn:E.
  - apply strip_some in E. split; [done|]. split; [by eexists|]. split; [done|]. intros Hr. destruct (app_split u t (T l) r E) as (r0 & -> & ->); [lia|]. exists r0. split; [done|].
    intros t'. rewrite <- app_assoc. by rewrite strip_front.
  - split; [lia|]. split; [lia|]. intros Hr t'. destruct (strip (T l) (u ++ t')) as [r|] eqn:E'.
    + exfalso. apply strip_none in E. apply E. apply strip_some in E'. eapply prefix_within; [|exists r; exact E']. rewrite app_length in Hr. lia.
    + f_equal. rewrite !app_length. lia.
Qed.
Lemma class_star_to (f : ascii -> bool) (P : ascii -> Prop) w r m : (forall c, f c = true <-> P c) -> Forall P w -> stops P r -> pstar (pclass f) (w ++ r) m = PSucc w r (Nat.min m (length r)).
Proof.
  intros Hf Hw Hr. destruct (class_star f P (w ++ r) m Hf) as (w2 & r2 & E & E2 & _). destruct (ex_class_star f P Hf (w ++ r) m) as [_ He].
  destruct (proj1 (He w r)) as [m' E']; [done|]. rewrite E in E' |- *. by injection E' as -> ->.
Qed.
Lemma stops_front (P : ascii -> Prop) r0 t t' : r0 ≠ [] -> stops P (r0 ++ t) -> stops P (r0 ++ t').
Proof. by destruct r0. Qed.
Lemma lo_class_star f (P : ascii -> Prop) (b : bool) : (forall c, f c = true <-> P c) -> loc b true (pstar (pclass f)).
Proof.
  intros Hf u t m _. destruct (class_star f P (u ++ t) m Hf) as (w & r & -> & E & Hw & Hr). split; [lia|]. split; [by eexists|]. split; [lia|].
  intros Hl. destruct (app_split u t w r E) as (r0 & -> & ->); [lia|]. exists r0. split; [done|]. intros t'. rewrite <- app_assoc.
  assert (stops P (r0 ++ t')) as Hst. { eapply stops_front; [|exact Hr]. intros ->. cbn [app] in Hl. unfold reach in Hl. lia. }
  rewrite (class_star_to f P) by done. f_equal. rewrite !app_length in *. lia.
Qed.
Lemma lo_blanks b : loc b true blanks. Proof. apply lo_map. eapply lo_class_star, is_blank_spec. Qed.
Lemma lo_newlines b : loc b true newlines. Proof. apply lo_map. eapply lo_class_star, is_newline_spec. Qed.
Lemma lo_spaces b : loc b true spaces. Proof. apply lo_map. eapply lo_class_star, is_white_spec. Qed.
Lemma lo_string b : loc b true string_. Proof. apply lo_slice. eapply lo_class_star, is_name_spec. Qed.
Lemma reserved_reach k : k ∈ reserved_list -> length (txt k) <= reach.
Proof. revert k. apply Forall_forall. apply (bool_decide_unpack _). vm_compute. exact I. Qed.
Lemma name_front (u t t' w r : text) : reach <= length u -> name w (u ++ t) r -> exists w' r', name w' (u ++ t') r'.
Proof.
  intros Hu (E & (HF & (c & w0 & -> & Hc) & Hk) & Hs). destruct (skip_exists name_char (u ++ t')) as (r' & w' & E' & Hw' & Hr'). exists w', r'. split; [done|]. split; [|done]. split; [done|]. split.
  - destruct u as [|x u]; [cbn in Hu; unfold reach in Hu; lia|]. cbn in E. injection E as -> E. destruct w' as [|y w'].
    + exfalso. cbn in E'. subst r'. apply Hr'. by left.
    + cbn in E'. injection E' as -> E'. by eexists _, w'.
  - intros k Hin [q Eq]. apply (Hk k Hin). apply (name_prefix (txt k) (c :: w0) r (drop (length (txt k)) (u ++ t))); [by apply reserved_name_chars|done|].
    rewrite <- E. assert (txt k `prefix_of` (u ++ t)) as [z Ez].
    { eapply (prefix_within _ _ t'); [by etransitivity; [apply reserved_reach|]|]. exists (q ++ r'). by rewrite E', Eq, app_assoc. }
    by rewrite Ez, drop_app.
Qed.
Lemma lo_ident : loc true false ident.
Proof.
  intros u t m Hm. specialize (Hm eq_refl). pose proof (ident_keeps (u ++ t) m) as H. destruct (ident (u ++ t) m) as [w r m'|m'|] eqn:E; [| |done].
  - destruct H as [Hn ->]. split; [done|]. split; [exists w; by destruct Hn|]. split; [done|]. intros Hl. destruct Hn as (E1 & Hw & Hs). destruct (app_split u t w r E1) as (r0 & -> & ->); [lia|].
    exists r0. split; [done|]. intros t'. pose proof (ident_keeps ((w ++ r0) ++ t') (m - length t + length t')) as H'. destruct (ex_ident ((w ++ r0) ++ t') (m - length t + length t')) as [_ He].
    destruct (proj1 (He w (r0 ++ t'))) as [m2 E2].
    { split; [by rewrite app_assoc|]. split; [done|]. eapply stops_front; [|exact Hs]. intros ->. cbn [app] in Hl. unfold reach in Hl. lia. }
    rewrite E2 in H' |- *. by destruct H' as [_ ->].
  - subst m'. split; [done|]. split; [done|]. intros Hl t'. pose proof (ident_keeps (u ++ t') (m - length t + length t')) as H'. destruct (ident (u ++ t') (m - length t + length t')) as [w r m2|m2|] eqn:E2; [|by subst|done].
    exfalso. destruct H' as [Hn _]. apply (name_front u t' t) in Hn as (w' & r' & Hn); [|rewrite app_length in Hm; lia]. destruct (ex_ident (u ++ t) m) as [_ He]. destruct (proj1 (He w' r') Hn) as [m3 E3]. congruence.
Qed.
Lemma lo_star {A} (pre post : bool) (p : parser A) (R : A -> text -> text -> Prop) : (pre = false \/ post = true) -> exact_for p R -> (forall a s r, R a s r -> length r < length s) -> loc pre post p -> loc pre true (pstar p).
Proof.
  intros Hpp Hex Hlen Hp.
  assert (forall fuel (u t : text) m, (pre = true -> m <= length (u ++ t)) -> match pstar_loop fuel p (u ++ t) m with
    | PSucc a r m' => m' <= m /\ (exists w, u ++ t = w ++ r) /\ m' <= length r /\
      (length t + reach <= Nat.min m' (length r) -> exists r0, r = r0 ++ t /\
        forall t' fuel', length (u ++ t') < fuel' -> pstar_loop fuel' p (u ++ t') (m - length t + length t') = PSucc a (r0 ++ t') (m' - length t + length t'))
    | PFail m' => False
    | PDiv => True end) as H.
  { induction fuel as [|fuel IH]; intros u t m Hm; [done|]. cbn [pstar_loop]. specialize (Hp u t m Hm) as Hp1. destruct (p (u ++ t) m) as [a r m1|m1|] eqn:E1; [| |done].
    - destruct Hp1 as (Hm1 & [w Ew] & Hpost & Hrep). assert (pre = true -> m1 <= length r) as Hpre by (destruct Hpp as [->| ->]; [done|auto]).
      destruct (decide (length t <= length r)) as [Hl|Hl].
      + destruct (app_split u t w r Ew Hl) as (r0 & Eu & ->). specialize (IH r0 t m1 Hpre). destruct (pstar_loop fuel p (r0 ++ t) m1) as [b r2 m2|m2|]; [|done|done].
        destruct IH as (Hm2 & [w2 Ew2] & Hpost2 & Hrep2). split; [lia|]. split; [exists (w ++ w2); by rewrite Ew, Ew2, app_assoc|]. split; [done|].
        intros Hr. destruct Hrep as (r0' & E0 & Hrep). { apply (f_equal length) in Ew2. rewrite (app_length w2) in Ew2. lia. }
        apply app_inv_tail in E0 as <-. destruct Hrep2 as (r2' & -> & Hrep2); [done|]. exists r2'. split; [done|]. intros t' [|fuel'] Hf; [lia|]. cbn [pstar_loop]. rewrite Hrep.
        rewrite Hrep2; [done|]. pose proof (Hlen a (u ++ t') (r0 ++ t')) as Hx. destruct (Hex (u ++ t') (m - length t + length t')) as [_ He].
        specialize (Hx (proj2 (He _ _) (ex_intro _ _ (Hrep t')))). lia.
      + specialize (IH [] r m1). cbn [app] in IH. specialize (IH Hpre). destruct (pstar_loop fuel p r m1) as [b r2 m2|m2|]; [|done|done].
        destruct IH as (Hm2 & [w2 Ew2] & Hpost2 & _). split; [lia|]. split; [exists (w ++ w2); by rewrite Ew, Ew2, app_assoc|]. split; [done|].
        intros Hr. apply (f_equal length) in Ew2. rewrite (app_length w2) in Ew2. lia.
    - destruct Hp1 as (Hm1 & Hl & Hrep). split; [done|]. split; [by exists []|]. split; [done|]. intros Hr. exists u. split; [done|]. intros t' [|fuel'] Hf; [lia|]. cbn [pstar_loop]. rewrite Hrep by lia. done. }
  intros u t m Hm. unfold pstar. specialize (H (S (length (u ++ t))) u t m Hm). destruct (pstar_loop (S (length (u ++ t))) p (u ++ t) m) as [a r m'|m'|]; [|done|done].
  destruct H as (H1 & H2 & H3 & H4). split; [done|]. split; [done|]. split; [done|]. intros Hr. destruct (H4 Hr) as (r0 & -> & H5). exists r0. split; [done|]. intros t'. apply H5. lia.
Qed.

(** ** The rules of the grammar *)
Ltac short := vm_compute; lia.
Ltac step l := eapply lo_bind; [l|intros ?].
Lemma lo_comment b : loc b true comment.
Proof.
  unfold comment. step ltac:(apply lo_lit; short). step ltac:(eapply (lo_class_star _ _ false), not_lf_spec). apply lo_newlines.
Qed.
Lemma lo_variant : loc true true enum_variant.
Proof.
  unfold enum_variant. step ltac:(apply lo_ident). step ltac:(apply lo_spaces). step ltac:(apply (lo_opt true false), lo_lit; short). step ltac:(apply lo_spaces). apply lo_ret.
Qed.
Lemma lo_enum b : loc b false enum_type.
Proof.
  unfold enum_type. step ltac:(apply lo_blanks). step ltac:(apply lo_lit; short). step ltac:(apply lo_blanks). step ltac:(apply lo_lit; short). step ltac:(apply lo_spaces).
  step ltac:(eapply (lo_star true true); [by right|exact ex_variant|exact variant_len|exact lo_variant]). step ltac:(apply lo_spaces). step ltac:(apply lo_lit; short). apply lo_ret.
Qed.
Lemma lo_field b : loc b true struct_field.
Proof.
  unfold struct_field. apply lo_alt.
  - step ltac:(apply lo_comment). step ltac:(apply lo_spaces). apply lo_ret.
  - step ltac:(apply lo_ident). step ltac:(apply lo_blanks). step ltac:(apply lo_map, (lo_opt true false), lo_lit; short). step ltac:(apply lo_lit; short). step ltac:(apply lo_blanks). step ltac:(apply lo_string).
    step ltac:(apply (lo_opt true false), lo_lit; short). step ltac:(apply lo_spaces). step ltac:(apply (lo_opt true false), lo_lit; short). step ltac:(apply lo_spaces). apply lo_ret.
Qed.
Lemma lo_struct b : loc b false struct_type.
Proof.
  unfold struct_type. step ltac:(apply lo_blanks). step ltac:(apply lo_lit; short). step ltac:(apply lo_blanks). step ltac:(apply lo_lit; short). step ltac:(apply lo_spaces).
  step ltac:(eapply (lo_star true true); [by right|exact ex_field|exact field_len|apply lo_field]). step ltac:(apply lo_spaces). step ltac:(apply lo_lit; short). apply lo_ret.
Qed.
Lemma lo_decl b : loc b true decl.
Proof.
  unfold decl. step ltac:(apply lo_blanks). step ltac:(apply lo_ident). step ltac:(apply lo_blanks). step ltac:(apply lo_lit; short). step ltac:(apply lo_blanks).
  step ltac:(apply (lo_alt true false); apply lo_map; [apply lo_enum|apply lo_struct]). step ltac:(apply lo_spaces). apply lo_ret.
Qed.
Lemma lo_line b : loc b true line.
Proof.
  unfold line. apply lo_alt; [|apply lo_alt].
  - step ltac:(apply lo_blanks). step ltac:(apply lo_comment). step ltac:(apply lo_newlines). apply lo_ret.
  - step ltac:(apply lo_blanks). unfold export_. step ltac:(step ltac:(apply lo_lit; short); step ltac:(apply lo_blanks); step ltac:(apply lo_string); apply lo_ret). step ltac:(apply lo_newlines). apply lo_ret.
  - step ltac:(apply lo_blanks). step ltac:(apply lo_decl). step ltac:(apply lo_newlines). apply lo_ret.
Qed.
Lemma lo_schema : loc false true schema.
Proof.
  unfold schema. step ltac:(apply lo_opt, lo_newlines). step ltac:(eapply (lo_star true true); [by right|exact ex_line|exact line_len|apply lo_line]). apply lo_ret.
Qed.
Lemma schema_local s off s' : parse_schema s = PErr off -> take (off + reach) s' = take (off + reach) s -> parse_schema s' = PErr off.
Proof.
  intros He E. pose proof (proj1 (schema_viable s off He)) as Hoff. destruct (decide (off + reach <= length s)) as [Hl|Hl].
  - pose proof (take_drop (off + reach) s) as Es. pose proof (take_drop (off + reach) s') as Es'. rewrite E in Es'. set (u := take (off + reach) s) in *. set (t := drop (off + reach) s) in *.
    set (t' := drop (off + reach) s') in *. assert (length u = off + reach) as Hu by (unfold u; rewrite take_length; lia). clearbody u t t'. subst s s'. unfold parse_schema, prun in *.
    pose proof (lo_schema u t (length (u ++ t)) ltac:(done)) as H. rewrite app_length in Hl, Hoff.
    replace (length (u ++ t) - length t) with (length u) in H by (rewrite app_length; lia).
    destruct (schema (u ++ t) (length (u ++ t))) as [b r m|m|]; [| |done].
    + destruct H as (Hm & [w Hw] & _ & Hrep). assert (Nat.min m (length r) = length t + reach) as Hr.
      { rewrite app_length in Hm. apply (f_equal length) in Hw. rewrite !app_length in Hw. destruct r as [|c r]; [done|]. injection He as He. rewrite app_length in He. cbn [length] in *. lia. }
      destruct (Hrep ltac:(lia)) as (r0 & -> & Hrep'). specialize (Hrep' t'). rewrite <- app_length in Hrep'. rewrite Hrep'. rewrite app_length in Hr.
      destruct r0 as [|c r0]; [cbn [app length] in Hr; unfold reach in Hr; lia|]. cbn [app]. f_equal. rewrite app_length. cbn [length] in *. rewrite app_length. lia.
    + destruct H as (Hm & Hl2 & Hrep). injection He as He. rewrite app_length in He, Hl2. specialize (Hrep ltac:(lia) t'). rewrite <- app_length in Hrep. rewrite Hrep. f_equal. rewrite app_length. lia.
  - rewrite (take_ge s) in E by lia. assert (length s' <= off + reach) as Hs' by (apply (f_equal length) in E; rewrite take_length in E; lia).
    rewrite take_ge in E by done. by subst s'.
Qed.
Lemma error_completes s off : parse_schema s = PErr off -> off <= length s /\ exists w a, ascii_only w /\ parse_schema (take off s ++ w) = POk a.
Proof. intros H. destruct (schema_viable s off H) as (Hl & w & Hw & a & Ha). split; [done|]. exists w, a. split; [done|]. by apply parse_schema_ok. Qed.
Lemma error_settled s off s' : parse_schema s = PErr off -> take (off + 6) s' = take (off + 6) s -> parse_schema s' = PErr off.
Proof. apply schema_local. Qed.
