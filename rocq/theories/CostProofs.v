(** The parser takes linear time (C78). *)
From Verif Require Export ParserCost.

(** ** The counters change nothing *)
Definition erases {A} (c : cparser A) (p : parser A) : Prop := forall s m, (c s m).1 = p s m.
Lemma er_ret {A} (a : A) : erases (cret a) (pret a).
Proof. done. Qed.
Lemma er_bind {A B} p p' (k : A -> cparser B) k' : erases p p' -> (forall a, erases (k a) (k' a)) -> erases (cbind p k) (pbind p' k').
Proof.
  intros Hp Hk s m. unfold cbind, pbind. rewrite <- Hp. destruct (p s m) as [[a s' m'|m'|] c]; [|done..]. cbn [fst].
  rewrite <- Hk. by destruct (k a s' m').
Qed.
Lemma er_class f : erases (cclass f) (pclass f).
Proof. done. Qed.
Lemma er_lit l : erases (clit l) (plit l).
Proof. done. Qed.
Lemma er_alt {A} p p' (q : cparser A) q' : erases p p' -> erases q q' -> erases (calt p q) (palt p' q').
Proof.
  intros Hp Hq s m. unfold calt, palt. rewrite <- Hp. destruct (p s m) as [[a s' m'|m'|] c]; [done| |done]. cbn [fst].
  rewrite <- Hq. by destruct (q s m').
Qed.
Lemma er_opt {A} (p : cparser A) p' : erases p p' -> erases (copt p) (popt p').
Proof. intros H s m. unfold copt, popt. rewrite <- H. by destruct (p s m) as [[? ? ?|?|] ?]. Qed.
Lemma er_not {A} (p : cparser A) p' : erases p p' -> erases (cnot p) (pnot p').
Proof. intros H s m. unfold cnot, pnot. rewrite <- H. by destruct (p s m) as [[? ? ?|?|] ?]. Qed.
Lemma er_quiet {A} (p : cparser A) p' : erases p p' -> erases (cquiet p) (pquiet p').
Proof. intros H s m. unfold cquiet, pquiet. rewrite <- H. by destruct (p s m) as [[? ? ?|?|] ?]. Qed.
Lemma er_slice {A} (p : cparser A) p' : erases p p' -> erases (cslice p) (pslice p').
Proof. intros H s m. unfold cslice, pslice. rewrite <- H. by destruct (p s m) as [[? ? ?|?|] ?]. Qed.
Lemma er_star {A} (p : cparser A) p' : erases p p' -> erases (cstar p) (pstar p').
Proof.
  intros H s m. unfold cstar, pstar. generalize (S (length s)) as n. intros n. revert s m. induction n as [|n IH]; intros s m; [done|].
  cbn [cstar_loop pstar_loop]. rewrite <- H. destruct (p s m) as [[a s' m'|m'|] c]; [|done..]. cbn [fst]. rewrite <- IH.
  by destruct (cstar_loop n p s' m') as [[? ? ?|?|] ?].
Qed.
Lemma er_map {A B} (f : A -> B) p p' : erases p p' -> erases (cmap f p) (pmap f p').
Proof. intros H. apply er_bind; [done|]. intros a. apply er_ret. Qed.
Ltac er := repeat first [apply er_map|apply er_ret|apply er_class|apply er_lit|apply er_alt|apply er_opt|apply er_not|apply er_quiet|apply er_slice|apply er_star|apply er_bind; [|intros ?]].
Lemma er_schema : erases c_schema schema.
Proof. repeat first [progress er|match goal with |- erases ?c ?p => unfold c, p end|progress cbn beta]. Qed.

(** ** Bounds
    A parser that succeeds takes at most [K] steps per character that it consumes, and [C] more; one that fails at most [K]
    steps per character that is left, and [C] more. With [b], it consumes something. *)
Definition result_ok {A} (b : bool) (K C : nat) (s : text) (x : pres A * nat) : Prop :=
  match x with
  | (PSucc _ r _, c) => exists w, s = w ++ r /\ (b = true -> w ≠ []) /\ c <= K * length w + C
  | (PFail _, c) => c <= K * length s + C
  | (PDiv, _) => False
  end.
Definition sized {A} (b : bool) (K C : nat) (p : cparser A) : Prop := forall s m, result_ok b K C s (p s m).
(** failures take at most [F] steps, on texts in [P] *)
Definition quick {A} (P : text -> Prop) (F : nat) (p : cparser A) : Prop :=
  forall s m, P s -> match p s m with (PFail _, c) => c <= F | _ => True end.
Definition any (s : text) : Prop := True.

Lemma sz_weaken {A} (b b' : bool) K C K' C' (p : cparser A) : sized b K C p -> (b' = true -> b = true) -> K <= K' -> C <= C' -> sized b' K' C' p.
Proof.
  intros H Hb HK HC s m. specialize (H s m). destruct (p s m) as [[a r m'|m'|] c]; [|cbn in *; nia|done].
  destruct H as (w & -> & Hw & Hc). exists w. split; [done|]. split; [auto|]. nia.
Qed.
Lemma sz_ret {A} (a : A) : sized false 0 0 (cret a).
Proof. intros s m. exists []. split; [done|]. split; [done|]. cbn. lia. Qed.
Lemma sz_class f : sized true 0 1 (cclass f).
Proof.
  intros s m. unfold cclass, pclass. destruct s as [|c s]; [cbn; lia|]. destruct (f c); [|cbn; lia].
  exists [c]. split; [done|]. split; [done|]. lia.
Qed.
Lemma strip_app l s r : strip l s = Some r -> s = l ++ r.
Proof.
  revert s. induction l as [|x l IH]; intros s H; [by injection H as ->|]. destruct s as [|y s]; [done|]. cbn [strip] in H.
  destruct (Ascii.eqb_spec x y); [|done]. subst. by rewrite (IH _ H).
Qed.
Lemma sz_lit l : l ≠ [] -> sized true 0 (length l) (clit l).
Proof.
  intros Hl s m. unfold clit, plit. destruct (strip l s) as [r|] eqn:E; [|cbn; lia]. apply strip_app in E as ->.
  exists l. split; [done|]. split; [done|]. lia.
Qed.
Lemma sz_bind {A B} b1 b2 K1 C1 K2 C2 (p : cparser A) (k : A -> cparser B) :
  sized b1 K1 C1 p -> (forall a, sized b2 K2 C2 (k a)) -> sized (b1 || b2) (max K1 K2) (C1 + C2) (cbind p k).
Proof.
  intros Hp Hk s m. specialize (Hp s m). unfold cbind. destruct (p s m) as [[a r m'|m'|] c]; [|cbn in *; nia|done].
  destruct Hp as (w & -> & Hw & Hc). specialize (Hk a r m'). destruct (k a r m') as [[a2 r2 m2|m2|] c2]; [| |done].
  - destruct Hk as (w2 & -> & Hw2 & Hc2). exists (w ++ w2). split; [by rewrite app_assoc|]. split.
    + intros [?| ?]%orb_true_iff [? ?]%app_eq_nil; [by apply Hw|by apply Hw2].
    + rewrite app_length. nia.
  - cbn in Hk |- *. rewrite app_length. nia.
Qed.
Lemma sz_opt {A} b K C (p : cparser A) : sized b K C p -> quick any C p -> sized false K C (copt p).
Proof.
  intros Hp Hq s m. specialize (Hp s m). specialize (Hq s m I). unfold copt. destruct (p s m) as [[a r m'|m'|] c]; [| |done].
  - destruct Hp as (w & -> & _ & Hc). by exists w.
  - exists []. split; [done|]. split; [done|]. lia.
Qed.
Lemma sz_quiet {A} b K C (p : cparser A) : sized b K C p -> sized b K C (cquiet p).
Proof. intros Hp s m. specialize (Hp s m). unfold cquiet. by destruct (p s m) as [[a r m'|m'|] c]. Qed.
Lemma sz_slice {A} b K C (p : cparser A) : sized b K C p -> sized b K C (cslice p).
Proof. intros Hp s m. specialize (Hp s m). unfold cslice. by destruct (p s m) as [[a r m'|m'|] c]. Qed.
Lemma sz_map {A B} (f : A -> B) b K C (p : cparser A) : sized b K C p -> sized b K C (cmap f p).
Proof.
  intros Hp. eapply sz_weaken; [apply sz_bind; [exact Hp|intros a; apply sz_ret]|..]; [by intros ->|lia|lia].
Qed.
Lemma star_loop {A} K C (p : cparser A) : sized true K C p -> forall n s m, length s < n ->
  exists l w r m' m1 c c1, cstar_loop n p s m = (PSucc l r m', c) /\ s = w ++ r /\ p r m1 = (PFail m', c1) /\ c <= (K + C) * length w + c1.
Proof.
  intros Hp. induction n as [|n IH]; intros s m Hn; [lia|]. cbn [cstar_loop]. pose proof (Hp s m) as H.
  destruct (p s m) as [[a r m'|m'|] c] eqn:E; [| |done].
  - destruct H as (w & -> & Hw & Hc). specialize (Hw eq_refl). destruct w as [|x w]; [done|]. rewrite app_length in Hn. cbn in Hn.
    destruct (IH r m' ltac:(lia)) as (l & w2 & r2 & m2 & m3 & c2 & c3 & E2 & -> & E3 & Hc2). rewrite E2.
    eexists _, ((x :: w) ++ w2), r2, m2, m3, _, c3. split; [reflexivity|]. split; [by rewrite app_assoc|]. split; [done|].
    rewrite app_length. cbn [length] in *. nia.
  - exists [], [], s, m', m, c, c. split; [done|]. split; [done|]. split; [done|]. lia.
Qed.
Lemma star_run {A} K C (p : cparser A) s m : sized true K C p ->
  exists l w r m' m1 c c1, cstar p s m = (PSucc l r m', c) /\ s = w ++ r /\ p r m1 = (PFail m', c1) /\ c <= (K + C) * length w + c1.
Proof. intros Hp. apply star_loop; [done|lia]. Qed.
Lemma sz_star {A} K C F (p : cparser A) : sized true K C p -> quick any F p -> sized false (K + C) F (cstar p).
Proof.
  intros Hp Hq s m. destruct (star_run K C p s m Hp) as (l & w & r & m' & m1 & c & c1 & -> & -> & E & Hc).
  exists w. split; [done|]. split; [done|]. pose proof (Hq r m1 I) as H. rewrite E in H. lia.
Qed.

Lemma q_class f : quick any 1 (cclass f).
Proof. intros s m _. unfold cclass. destruct (pclass f s m); done || lia. Qed.
Lemma q_lit l : quick any (length l) (clit l).
Proof. intros s m _. unfold clit. destruct (plit l s m); done || lia. Qed.
Definition sure {A} (p : cparser A) : Prop := forall s m, match p s m with (PFail _, _) => False | _ => True end.
Lemma q_sure {A} P F (p : cparser A) : sure p -> quick P F p.
Proof. intros H s m _. specialize (H s m). by destruct (p s m) as [[a r m'|m'|] c]. Qed.
Lemma q_bind {A B} P F (p : cparser A) (k : A -> cparser B) : quick P F p -> (forall a, sure (k a)) -> quick P F (cbind p k).
Proof.
  intros Hp Hk s m Hs. specialize (Hp s m Hs). unfold cbind. destruct (p s m) as [[a r m'|m'|] c]; [|done..].
  specialize (Hk a r m'). by destruct (k a r m') as [[? ? ?|?|] ?].
Qed.
Lemma sure_ret {A} (a : A) : sure (cret a).
Proof. by intros s m. Qed.
Lemma sure_bind {A B} (p : cparser A) (k : A -> cparser B) : sure p -> (forall a, sure (k a)) -> sure (cbind p k).
Proof.
  intros Hp Hk s m. specialize (Hp s m). unfold cbind. destruct (p s m) as [[a r m'|m'|] c]; [|done..].
  specialize (Hk a r m'). by destruct (k a r m') as [[? ? ?|?|] ?].
Qed.
Lemma sure_opt {A} (p : cparser A) : sure (copt p).
Proof. intros s m. unfold copt. by destruct (p s m) as [[a r m'|m'|] c]. Qed.
Lemma sure_slice {A} (p : cparser A) : sure p -> sure (cslice p).
Proof. intros Hp s m. specialize (Hp s m). unfold cslice. by destruct (p s m) as [[a r m'|m'|] c]. Qed.
Lemma sure_star {A} (p : cparser A) : sure (cstar p).
Proof.
  intros s m. unfold cstar. generalize (S (length s)) as n. intros n. revert s m. induction n as [|n IH]; intros s m; [done|].
  cbn [cstar_loop]. destruct (p s m) as [[a r m'|m'|] c]; [|done..]. specialize (IH r m'). by destruct (cstar_loop n p r m') as [[? ? ?|?|] ?].
Qed.
Lemma sure_map {A B} (f : A -> B) p : sure p -> sure (cmap f p).
Proof. intros H. apply sure_bind; [done|]. intros a. apply sure_ret. Qed.
Lemma q_quiet {A} P F (p : cparser A) : quick P F p -> quick P F (cquiet p).
Proof. intros Hp s m Hs. specialize (Hp s m Hs). unfold cquiet. by destruct (p s m) as [[a r m'|m'|] c]. Qed.
Lemma q_slice {A} P F (p : cparser A) : quick P F p -> quick P F (cslice p).
Proof. intros Hp s m Hs. specialize (Hp s m Hs). unfold cslice. by destruct (p s m) as [[a r m'|m'|] c]. Qed.

(** ** The rules *)
Lemma sz_run f : sized false 1 1 (cmap (fun _ => ()) (cstar (cclass f))).
Proof. apply sz_map. apply (sz_star 0 1 1); [apply sz_class|apply q_class]. Qed.
Lemma sz_blanks : sized false 1 1 c_blanks. Proof. apply sz_run. Qed.
Lemma sz_newlines : sized false 1 1 c_newlines. Proof. apply sz_run. Qed.
Lemma sz_spaces : sized false 1 1 c_spaces. Proof. apply sz_run. Qed.
Lemma sure_run f : sure (cmap (fun _ => ()) (cstar (cclass f))).
Proof. apply sure_map, sure_star. Qed.
Lemma sz_string : sized false 1 1 c_string.
Proof. apply sz_slice. apply (sz_star 0 1 1); [apply sz_class|apply q_class]. Qed.
Lemma sure_string : sure c_string. Proof. apply sure_slice, sure_star. Qed.
Lemma sz_comment : sized true 1 3 c_comment.
Proof.
  eapply sz_weaken; [apply sz_bind; [apply (sz_lit (T "#")); done|intros _]; apply sz_bind; [apply (sz_star 0 1 1); [apply sz_class|apply q_class]|intros _; apply sz_newlines]|..]; done || (cbn; lia).
Qed.
Lemma q_comment : quick any 1 c_comment.
Proof. apply q_bind; [apply (q_lit (T "#"))|intros _]. apply sure_bind; [apply sure_star|intros _; apply sure_run]. Qed.
(** the whole cost of trying the reserved words *)
Definition cheap {A} (C : nat) (p : cparser A) : Prop := forall s m, (p s m).2 <= C /\ match p s m with (PDiv, _) => False | _ => True end.
Lemma cheap_lit l : cheap (length l) (clit l).
Proof. intros s m. unfold clit, plit. destruct (strip l s); cbn; split; done || lia. Qed.
Lemma cheap_alt {A} C1 C2 (p q : cparser A) : cheap C1 p -> cheap C2 q -> cheap (C1 + C2) (calt p q).
Proof.
  intros Hp Hq s m. unfold calt. destruct (Hp s m) as [H1 H2]. destruct (p s m) as [[a r m'|m'|] c]; [| |done].
  - cbn in *. split; [lia|done].
  - destruct (Hq s m') as [H3 H4]. destruct (q s m') as [[? ? ?|?|] ?]; cbn in *; split; done || lia.
Qed.
Lemma reserved_cost s m : (c_reserved s m).2 <= 52 /\ match c_reserved s m with (PDiv, _) => False | _ => True end.
Proof. revert s m. change 52 with (5 + (6 + (6 + (4 + (5 + (5 + (5 + (6 + (4 + 6))))))))). repeat apply cheap_alt; apply cheap_lit. Qed.
Lemma not_reserved s m : match cnot c_reserved s m with (PSucc _ r _, c) => r = s /\ c <= 52 | (PFail _, c) => c <= 52 | (PDiv, _) => False end.
Proof. pose proof (reserved_cost s m) as [H1 H2]. unfold cnot. destruct (c_reserved s m) as [[a r m'|m'|] c]; cbn in *; try done; lia. Qed.
Lemma sz_ident_chars : sized true 0 1 c_ident_chars. Proof. apply sz_slice, sz_class. Qed.
Lemma sz_ident : sized true 1 54 c_ident.
Proof.
  apply sz_quiet, sz_slice. intros s m. unfold cbind at 1. pose proof (not_reserved s m) as H. destruct (cnot c_reserved s m) as [[a r m'|m'|] c]; [|cbn; lia|done].
  destruct H as [-> Hc].
  assert (sized true 1 2 (c_ident_start ~>c cstar c_ident_chars)) as Hs.
  { eapply sz_weaken; [apply sz_bind; [apply sz_slice, sz_class|intros _; apply (sz_star 0 1 1); [apply sz_ident_chars|apply q_slice, q_class]]|..]; done || (cbn; lia). }
  specialize (Hs s m'). destruct ((c_ident_start ~>c cstar c_ident_chars) s m') as [[a2 r2 m2|m2|] c2]; [|cbn in *; lia|done].
  destruct Hs as (w & -> & Hw & Hc2). exists w. split; [done|]. split; [done|]. lia.
Qed.
Lemma q_ident : quick any 53 c_ident.
Proof.
  apply q_quiet, q_slice. intros s m _. unfold cbind at 1. pose proof (not_reserved s m) as H. destruct (cnot c_reserved s m) as [[a r m'|m'|] c]; [|lia|done].
  destruct H as [-> Hc].
  assert (quick any 1 (c_ident_start ~>c cstar c_ident_chars)) as Hs by (apply q_bind; [apply q_slice, q_class|intros _; apply sure_star]).
  specialize (Hs s m' I). destruct ((c_ident_start ~>c cstar c_ident_chars) s m') as [[a2 r2 m2|m2|] c2]; try done; lia.
Qed.
Lemma sz_opt_lit l : l ≠ [] -> sized false 0 (length l) (copt (clit l)).
Proof. intros H. eapply sz_opt; [by apply sz_lit|apply q_lit]. Qed.
Lemma sz_optional : sized false 0 1 c_is_optional.
Proof. apply sz_map, sz_opt_lit. done. Qed.
Ltac sz := first [apply sz_blanks|apply sz_newlines|apply sz_spaces|apply sz_string|apply sz_comment|apply sz_ident|apply sz_ret
  |apply sz_lit; done|apply sz_opt_lit; done|apply sz_optional|apply sz_bind; [|intros ?]].
Ltac sure_ := repeat first [apply sure_run|apply sure_string|apply sure_ret|apply sure_opt|apply sure_star|apply sure_map|apply sure_bind; [|intros ?]].
Lemma sz_variant : sized true 1 57 c_enum_variant.
Proof. eapply sz_weaken; [unfold c_enum_variant; repeat sz|..]; done || (cbn; lia). Qed.
Lemma q_variant : quick any 53 c_enum_variant.
Proof. apply q_bind; [apply q_ident|intros s]. sure_. Qed.

Lemma sz_enum_type : sized true 58 65 c_enum_type.
Proof.
  eapply sz_weaken; [unfold c_enum_type; repeat first [sz|apply (sz_star 1 57 53); [apply sz_variant|apply q_variant]]|..]; done || (cbn; lia).
Qed.
(** *** struct_type: the attempt that ends the list of fields is short, or the type fails as well *)
Definition no_start (s : text) : Prop := match s with c :: _ => is_start c = false | [] => True end.
Lemma ident_head s m : match c_ident s m with (PSucc _ _ _, _) => ~ no_start s | _ => True end.
Proof.
  unfold c_ident, cquiet, cslice, cbind. destruct (cnot c_reserved s m) as [[a r m'|m'|] c] eqn:E; [|done..].
  pose proof (not_reserved s m) as H. rewrite E in H. destruct H as [-> _].
  unfold c_ident_start, cslice, cclass, pclass. destruct s as [|x s]; [done|]. destruct (is_start x) eqn:Ex; [|done].
  destruct (cstar c_ident_chars s m') as [[? ? ?|?|] ?]; try done. cbn. by rewrite Ex.
Qed.
Lemma sz_alt {A} b K C1 C2 F (p q : cparser A) : sized b K C1 p -> sized b K C2 q -> quick any F p -> sized b K (C1 + C2 + F) (calt p q).
Proof.
  intros Hp Hq Hf s m. unfold calt. specialize (Hp s m). specialize (Hf s m I). destruct (p s m) as [[a r m'|m'|] c]; [| |done].
  - destruct Hp as (w & -> & Hw & Hc). exists w. split; [done|]. split; [done|]. lia.
  - specialize (Hq s m'). destruct (q s m') as [[a r m2|m2|] c2]; [|cbn in *; lia|done].
    destruct Hq as (w & -> & Hw & Hc). exists w. split; [done|]. split; [done|]. lia.
Qed.
Lemma sz_field : sized true 1 69 c_struct_field.
Proof.
  unfold c_struct_field. eapply sz_weaken; [apply (sz_alt true 1 4 64 1)|..]; [| |apply q_bind; [apply q_comment|intros _; sure_]|done|done|done].
  - eapply sz_weaken; [repeat sz|..]; done || (cbn; lia).
  - eapply sz_weaken; [repeat sz|..]; done || (cbn; lia).
Qed.
Lemma q_field : quick no_start 54 c_struct_field.
Proof.
  intros s m Hs. unfold c_struct_field, calt.
  assert (quick any 1 (c_comment ~>c c_spaces ~>c cret (@None (string * unresolved)))) as H1 by (apply q_bind; [apply q_comment|intros _; sure_]).
  specialize (H1 s m I). destruct ((c_comment ~>c c_spaces ~>c cret None) s m) as [[a r m'|m'|] c]; [done| |done].
  unfold cbind at 1. pose proof (ident_head s m') as H2. pose proof (q_ident s m' I) as H3. destruct (c_ident s m') as [[i r m2|m2|] c2]; [by destruct H2|lia|done].
Qed.
Lemma run_loop f n s m : length s < n -> exists l w r m', s = w ++ r /\ Forall (fun c => f c = true) w /\ match r with c :: _ => f c = false | [] => True end /\
  cstar_loop n (cclass f) s m = (PSucc l r m', length w + 1).
Proof.
  revert s m. induction n as [|n IH]; intros s m Hn; [lia|]. cbn [cstar_loop]. unfold cclass at 1, pclass. destruct s as [|x s].
  { eexists _, [], [], _. split_and!; done || constructor. }
  destruct (f x) eqn:Ex; [|by eexists _, [], (x :: s), _; split_and!; done || constructor].
  destruct (IH s m) as (l & w & r & m' & -> & H1 & H2 & H3); [cbn in Hn; lia|]. rewrite H3.
  eexists _, (x :: w), r, m'. split_and!; [done|by constructor|done|reflexivity].
Qed.
Lemma run_run f s m : exists w r m', s = w ++ r /\ Forall (fun c => f c = true) w /\ match r with c :: _ => f c = false | [] => True end /\
  cmap (fun _ => ()) (cstar (cclass f)) s m = (PSucc () r m', length w + 1).
Proof.
  destruct (run_loop f (S (length s)) s m ltac:(lia)) as (l & w & r & m' & H1 & H2 & H3 & H4). exists w, r, m'. split_and!; [done..|].
  unfold cmap, cbind, cstar. rewrite H4. unfold cret, pret. by rewrite Nat.add_0_r.
Qed.
Lemma white_not_start c : is_white c = true -> is_start c = false.
Proof. intros H. destruct (is_start c) eqn:E; [|done]. exfalso. revert c H E. by vm_compute; intros [[] [] [] [] [] [] [] []]. Qed.
Lemma close_head s m : match (c_spaces ~>c clit (T "}")) s m with (PSucc _ _ _, _) => no_start s | _ => True end.
Proof.
  destruct (run_run is_white s m) as (w & r & m' & -> & H1 & H2 & H3). unfold cbind. fold c_spaces in H3. rewrite H3.
  unfold clit, plit. destruct (strip (T "}") r) as [r'|] eqn:E; [|done]. apply strip_app in E as ->.
  destruct w as [|x w]; [done|]. apply Forall_cons in H1 as [H1 _]. by apply white_not_start.
Qed.
Lemma sz_fields : sized true 70 72 (fields <~c cstar c_struct_field; c_spaces ~>c clit (T "}") ~>c cret (somes fields)).
Proof.
  intros s m. unfold cbind at 1. destruct (star_run 1 69 c_struct_field s m sz_field) as (l & w & r & m' & m1 & c & c1 & -> & -> & E & Hc).
  pose proof (sz_field r m1) as F1. rewrite E in F1. pose proof (q_field r m1) as F2. rewrite E in F2. cbn in F1.
  assert (sized true 1 2 (c_spaces ~>c clit (T "}"))) as F3 by (eapply sz_weaken; [repeat sz|..]; done || (cbn; lia)).
  specialize (F3 r m'). pose proof (close_head r m') as F4. unfold cbind in F3, F4 |- *. destruct (c_spaces r m') as [[a r1 m2|m2|] c2]; [| |done].
  - destruct (clit (T "}") r1 m2) as [[a3 r3 m3|m3|] c3]; [| |done].
    + specialize (F2 F4). destruct F3 as (w3 & -> & Hw3 & Hc3). exists (w ++ w3). split; [by rewrite app_assoc|]. split.
      * intros _ [_ ->]%app_eq_nil. by apply Hw3.
      * rewrite app_length. lia.
    + cbn in F3 |- *. rewrite app_length. lia.
  - cbn in F3 |- *. rewrite app_length. lia.
Qed.
Lemma sz_struct_type : sized true 70 82 c_struct_type.
Proof. eapply sz_weaken; [unfold c_struct_type; repeat first [apply sz_fields|sz]|..]; done || (cbn; lia). Qed.

(** *** alternatives that begin with the same blanks *)
Fixpoint lead (s : text) : nat := match s with c :: s => if is_blank c then S (lead s) else 0 | [] => 0 end.
Lemma blanks_run s m : exists r m', c_blanks s m = (PSucc () r m', lead s + 1) /\ length s = lead s + length r /\ r = drop (lead s) s.
Proof.
  destruct (run_run is_blank s m) as (w & r & m' & -> & H1 & H2 & H3). assert (lead (w ++ r) = length w) as Hl.
  { clear H3. induction H1 as [|x w Hx _ IH]; [|by cbn; rewrite Hx, IH]. destruct r as [|x r]; [done|]. cbn. by rewrite H2. }
  exists r, m'. rewrite Hl. split; [exact H3|]. split; [by rewrite app_length|]. by rewrite drop_app.
Qed.
Lemma sz_alt_gen {A} b1 b2 K1 C1 K2 C2 F (p q : cparser A) : sized b1 K1 C1 p -> sized b2 K2 C2 q ->
  (forall s m m', match p s m, q s m' with (PFail _, c), (PSucc _ r _, _) => c + length r <= F + length s | _, _ => True end) ->
  sized (b1 && b2) (K1 + K2 + 1) (C1 + C2 + F) (calt p q).
Proof.
  intros Hp Hq Hx s m. unfold calt. specialize (Hp s m). specialize (Hx s m). destruct (p s m) as [[a r m'|m'|] c]; [| |done].
  - destruct Hp as (w & -> & Hw & Hc). exists w. split; [done|]. split; [by intros [-> _]%andb_true_iff; apply Hw|]. nia.
  - specialize (Hq s m'). specialize (Hx m'). destruct (q s m') as [[a r m2|m2|] c2]; [|cbn in *; nia|done].
    destruct Hq as (w & -> & Hw & Hc). exists w. split; [done|]. split; [by intros [_ ->]%andb_true_iff; apply Hw|]. rewrite app_length in Hx. nia.
Qed.
Definition covers {A} (q : cparser A) : Prop := forall s m, match q s m with (PSucc _ r _, _) => lead s + length r <= length s | _ => True end.
Definition lazy {A} (F : nat) (p : cparser A) : Prop := forall s m, match p s m with (PFail _, c) => c <= F + lead s | _ => True end.
Lemma covers_blanks {A} b K C (k : cparser A) : sized b K C k -> covers (c_blanks ~>c k).
Proof.
  intros Hk s m. unfold cbind. destruct (blanks_run s m) as (r & m' & -> & E & _). specialize (Hk r m'). destruct (k r m') as [[a r2 m2|m2|] c2]; [|done..].
  destruct Hk as (w & -> & _). rewrite app_length in E. lia.
Qed.
Lemma covers_alt {A} (p q : cparser A) : covers p -> covers q -> covers (calt p q).
Proof.
  intros Hp Hq s m. unfold calt. specialize (Hp s m). destruct (p s m) as [[a r m'|m'|] c]; [done| |done]. specialize (Hq s m').
  by destruct (q s m') as [[? ? ?|?|] ?].
Qed.
Lemma lazy_blanks {A} F (k : cparser A) : quick any F k -> lazy (F + 1) (c_blanks ~>c k).
Proof.
  intros Hk s m. unfold cbind. destruct (blanks_run s m) as (r & m' & -> & E & _). specialize (Hk r m' I). destruct (k r m') as [[a r2 m2|m2|] c2]; [done| |done]. lia.
Qed.
Lemma sz_alt_lazy {A} b1 b2 K1 C1 K2 C2 F (p q : cparser A) : sized b1 K1 C1 p -> sized b2 K2 C2 q -> lazy F p -> covers q ->
  sized (b1 && b2) (K1 + K2 + 1) (C1 + C2 + F) (calt p q).
Proof.
  intros Hp Hq Hl Hc. apply sz_alt_gen; [done..|]. intros s m m'. specialize (Hl s m). specialize (Hc s m').
  destruct (p s m) as [[? ? ?|?|] ?]; [done| |done]. destruct (q s m') as [[? ? ?|?|] ?]; [|done..]. lia.
Qed.

(** *** type: struct_type succeeds only if enum_type has failed at its first word *)
Lemma enum_or_struct s m m' : match cmap (fun vs => AEnum (map name_of vs)) c_enum_type s m, cmap AStruct c_struct_type s m' with
  (PFail _, c), (PSucc _ r _, _) => c + length r <= 5 + length s | _, _ => True end.
Proof.
  pose proof (covers_blanks true 70 81 (clit (T "struct") ~>c c_blanks ~>c clit (T "{") ~>c c_spaces ~>c
    fields <~c cstar c_struct_field; c_spaces ~>c clit (T "}") ~>c cret (somes fields))) as Hcov.
  assert (covers c_struct_type) as Hc. { apply Hcov. eapply sz_weaken; [repeat first [apply sz_fields|sz]|..]; done || (cbn; lia). } clear Hcov.
  specialize (Hc s m'). unfold cmap. destruct ((x <~c c_struct_type; cret (AStruct x)) s m') as [[a r m2|m2|] c2] eqn:E2; [|by destruct ((x <~c c_enum_type; cret (AEnum (map name_of x))) s m) as [[? ? ?|?|] ?]..].
  destruct ((x <~c c_enum_type; cret (AEnum (map name_of x))) s m) as [[? ? ?|m3|] c3] eqn:E3; [done| |done].
  unfold cbind at 1 in E2. destruct (c_struct_type s m') as [[a4 r4 m4|m4|] c4] eqn:E4; [|done..]. injection E2 as <- <- <- <-.
  unfold c_struct_type in E4. unfold cbind at 1 in E4. destruct (blanks_run s m') as (r1 & m1 & E1 & L1 & D1). rewrite E1 in E4.
  unfold cbind at 1 in E4. unfold clit at 1, plit in E4. destruct (strip (T "struct") r1) as [r5|] eqn:S5; [|done].
  unfold cbind at 1 in E3. destruct (c_enum_type s m) as [[a6 r6 m6|m6|] c6] eqn:E6; [done| |done]. injection E3 as <- <-.
  unfold c_enum_type in E6. unfold cbind at 1 in E6. destruct (blanks_run s m) as (r7 & m7 & E7 & L7 & D7). rewrite E7 in E6.
  assert (r7 = r1) as -> by congruence. apply strip_app in S5 as ->. unfold cbind at 1 in E6. unfold clit at 1, plit in E6.
  change (strip (T "enum") (T "struct" ++ r5)) with (@None text) in E6. cbv beta iota in E6. injection E6 as _ <-. change (length (T "enum")) with 4. lia.
Qed.
Lemma sz_type : sized true 129 152 c_type.
Proof.
  unfold c_type. eapply sz_weaken; [apply (sz_alt_gen true true 58 65 70 82 5); [apply sz_map, sz_enum_type|apply sz_map, sz_struct_type|apply enum_or_struct]|..]; done || (cbn; lia).
Qed.
Lemma sz_decl : sized true 129 211 c_decl.
Proof. eapply sz_weaken; [unfold c_decl; repeat first [apply sz_type|sz]|..]; done || (cbn; lia). Qed.
Lemma sz_export : sized true 1 8 c_export.
Proof. eapply sz_weaken; [unfold c_export; repeat sz|..]; done || (cbn; lia). Qed.
Lemma q_export : quick any 6 c_export.
Proof. apply q_bind; [apply (q_lit (T "export"))|intros _]. sure_. Qed.
Lemma sz_line : sized true 133 238 c_line.
Proof.
  assert (sized true 1 5 (c_blanks ~>c c_comment ~>c c_newlines ~>c cret (@None node))) as H1 by (eapply sz_weaken; [repeat sz|..]; done || (cbn; lia)).
  assert (sized true 1 9 (e <~c c_export; c_newlines ~>c cret (Some e))) as H2'.
  { eapply sz_weaken; [repeat first [apply sz_export|sz]|..]; done || (cbn; lia). }
  assert (sized true 1 10 (c_blanks ~>c e <~c c_export; c_newlines ~>c cret (Some e))) as H2.
  { eapply sz_weaken; [apply sz_bind; [sz|intros _; exact H2']|..]; done || (cbn; lia). }
  assert (sized true 129 212 (s <~c c_decl; c_newlines ~>c cret (Some s))) as H3'.
  { eapply sz_weaken; [repeat first [apply sz_decl|sz]|..]; done || (cbn; lia). }
  assert (sized true 129 213 (c_blanks ~>c s <~c c_decl; c_newlines ~>c cret (Some s))) as H3.
  { eapply sz_weaken; [apply sz_bind; [sz|intros _; exact H3']|..]; done || (cbn; lia). }
  unfold c_line. eapply sz_weaken; [eapply (sz_alt_lazy true true 1 5 131 230 2)|..]; [exact H1|..].
  - eapply sz_weaken; [apply (sz_alt_lazy true true 1 10 129 213 7); [exact H2|exact H3| |by eapply covers_blanks]|..]; [|done|cbn; lia|cbn; lia].
    apply (lazy_blanks 6). apply q_bind; [apply q_export|intros e; sure_].
  - apply (lazy_blanks 1). apply q_bind; [apply q_comment|intros _; sure_].
  - apply covers_alt; by eapply covers_blanks.
  - done.
  - cbn. lia.
  - cbn. lia.
Qed.
Lemma schema_steps s m : (c_schema s m).2 <= 371 * length s + 240.
Proof.
  unfold c_schema, cbind. assert (sized false 1 1 (copt c_newlines)) as H1 by (eapply sz_opt; [apply sz_newlines|apply q_sure, sure_run]).
  specialize (H1 s m). destruct (copt c_newlines s m) as [[a r m'|m'|] c]; [|cbn in *; lia|done]. destruct H1 as (w & -> & _ & Hc).
  destruct (star_run 133 238 c_line r m' sz_line) as (l & w2 & r2 & m2 & m1 & c2 & c1 & -> & -> & E & Hc2).
  pose proof (sz_line r2 m1) as H. rewrite E in H. cbn in H. cbn [cret snd]. rewrite !app_length. lia.
Qed.
Lemma parse_counted_ok s : (parse_counted s).1 = parse_schema s /\ (parse_counted s).2 <= 371 * length s + 240.
Proof.
  unfold parse_counted, crun, parse_schema, prun. pose proof (er_schema s (length s)) as H1. pose proof (schema_steps s (length s)) as H2.
  destruct (c_schema s (length s)) as [[a r m|m|] c]; cbn [fst snd] in *; rewrite <- H1; [|done..]. by destruct r.
Qed.
Lemma parse_work_ok s : (parse_counted s).1 = parse_schema s /\ parse_work s <= 742 * length s + 480.
Proof. destruct (parse_counted_ok s) as [H1 H2]. split; [done|]. unfold parse_work. destruct (parse_counted s).1; lia. Qed.
