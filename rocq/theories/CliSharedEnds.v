(** Proofs for C112: the command ends. *)
From Verif Require Export CliSharedProofs.

Lemma slen_app a b : String.length (a +:+ b) = String.length a + String.length b.
Proof. induction a as [|c a IH]; [by rewrite sapp_nil_l|]. rewrite sapp_cons. cbn [String.length]. by rewrite IH. Qed.
Lemma join_app_len a b : a ≠ [] -> b ≠ [] -> String.length (join "/" (a ++ b)) = S (String.length (join "/" a) + String.length (join "/" b)).
Proof.
  intros Ha Hb. induction a as [|x a IH]; [done|]. destruct a as [|y a].
  - destruct b as [|z b]; [done|]. change (join "/" ([x] ++ z :: b)) with (x +:+ "/" +:+ join "/" (z :: b)). rewrite !slen_app. cbn [join String.length]. lia.
  - change (join "/" ((x :: y :: a) ++ b)) with (x +:+ "/" +:+ join "/" ((y :: a) ++ b)). change (join "/" (x :: y :: a)) with (x +:+ "/" +:+ join "/" (y :: a)). rewrite !slen_app, IH by done. cbn [String.length]. lia.
Qed.
Lemma join_len_le a b : String.length (join "/" a) <= String.length (join "/" (a ++ b)).
Proof. destruct a as [|x a]; [cbn; lia|]. destruct b as [|y b]; [by rewrite app_nil_r|]. rewrite join_app_len by done. lia. Qed.
Lemma parent_shorter s q : s ≠ "" -> parent s = Some q -> String.length q < String.length s.
Proof.
  intros Hs. unfold parent. destruct (drop_while_split junk (rev (pieces s))) as (ju & Hp & _ & Hn). destruct (drop_while junk (rev (pieces s))) as [|n before] eqn:Ed.
  { assert (0 < String.length s) as Hl by (destruct s; [done|cbn; lia]). intros Hq. assert (q = "") as ->; [|done]. by repeat case_match; simplify_eq. }
  assert (pieces s = (rev before ++ [n]) ++ rev ju) as Ep.
  { rewrite <- (rev_involutive (pieces s)), Hp, rev_app_distr. cbn [rev]. done. }
  assert (String.length (join "/" (rev before ++ [n])) <= String.length s) as Hle by (rewrite <- (join_pieces s), Ep; apply join_len_le).
  assert (0 < String.length n) as Hn0 by (apply junk_false in Hn as [Hn _]; destruct n; [done|cbn; lia]).
  assert (rev before ≠ [] -> String.length (join "/" (rev before)) + 1 < String.length s) as Hb.
  { intros Hne. rewrite join_app_len in Hle by done. cbn [join] in Hle. lia. }
  assert (String.length n <= String.length s) as Hns by (destruct (rev before) as [|x xs] eqn:Er; [cbn in Hle; lia|rewrite join_app_len in Hle by done; cbn [join] in Hle; lia]).
  destruct (drop_while_split junk before) as (ju2 & Hp2 & _ & _). destruct (drop_while junk before) as [|x xs] eqn:Eb.
  - intros [= <-]. destruct (has_root s) eqn:R.
    + apply root_pieces in R as (p & ps & R). destruct (rev before) as [|y ys] eqn:Er; [|specialize (Hb ltac:(done)); cbn [String.length]; lia].
      rewrite R in Ep. cbn [app] in Ep. injection Ep as Ep _. rewrite <- Ep in Hn. done.
    + destruct (rev before) as [|y ys] eqn:Er; [cbn; lia|]. specialize (Hb ltac:(done)). match goal with |- String.length ?q < _ => assert (String.length q <= 1) by (clear; repeat case_match; cbn; lia) end. lia.
  - intros [= <-]. assert (rev before = rev (x :: xs) ++ rev ju2) as Er by by rewrite Hp2, rev_app_distr.
    specialize (Hb ltac:(rewrite Er; cbn; by destruct (rev xs))). pose proof (join_len_le (rev (x :: xs)) (rev ju2)) as Hl. rewrite <- Er in Hl. cbn [rev] in Hl |- *. lia.
Qed.

Section ends.
  Context (E : env) (meddle : nat -> fs -> fs) (Hm : keeps_tree meddle) (Hh1 : forall n, fair_order (hash1 E n)).
  (** [m] keeps [I], and ends *)
  Definition halts {A : Type} (I : fs -> Prop) (m : shio A) (P : A -> Prop) : Prop := forall w w' r, I (p_fs w) -> m w = (w', r) -> I (p_fs w') /\ r ≠ Diverge /\ forall a, r = Ok a -> P a.
  Lemma halts_ret {A : Type} (I : fs -> Prop) (a : A) (P : A -> Prop) : P a -> halts I (hret a) P.
  Proof. intros H w w' r Hw [= <- <-]. split_and!; [done|done|]. by intros b [= <-]. Qed.
  Lemma halts_lift {A : Type} (I : fs -> Prop) (x : res A) (P : A -> Prop) : x ≠ Diverge -> (forall a, x = Ok a -> P a) -> halts I (hlift x) P.
  Proof. intros H1 H2 w w' r Hw [= <- <-]. by split_and!. Qed.
  Lemma halts_bind {A B : Type} (I : fs -> Prop) (m : shio A) (k : A -> shio B) (P : A -> Prop) (Q : B -> Prop) : halts I m P -> (forall a, P a -> halts I (k a) Q) -> halts I (hbind m k) Q.
  Proof.
    intros H1 H2 w w' r Hw. unfold hbind. destruct (m w) as [w1 r1] eqn:M. destruct (H1 _ _ _ Hw M) as (I1 & D1 & P1).
    destruct r1 as [a| | |]; [|by intros [= <- <-]..]. by apply (H2 a (P1 a eq_refl)).
  Qed.
  Lemma halts_tick {A : Type} (I : fs -> Prop) (op : nat -> fs -> fs * list event * res A) (P : A -> Prop) : (forall n f, I f -> I (meddle n f)) ->
    (forall n f, I f -> let '(f', ev, r) := op n f in I f' /\ r ≠ Diverge /\ forall a, r = Ok a -> P a) -> halts I (htick meddle op) P.
  Proof. intros Hi H w w' r Hw. unfold htick. specialize (H (p_op w) _ (Hi (p_op w) _ Hw)). destruct (op _ _) as [[f' ev] r']. intros [= <- <-]. apply H. Qed.
  Notation any := (fun _ => True).
  Lemma inspect_ends n f s : inspect E n f s ≠ Diverge.
  Proof. unfold inspect. by repeat case_match. Qed.
  Lemma rbind_ends {A B : Type} (x : res A) (k : A -> res B) : x ≠ Diverge -> (forall a, k a ≠ Diverge) -> rbind x k ≠ Diverge.
  Proof. intros H1 H2. destruct x; [apply H2|done..]. Qed.
  Section walk.
    (** [I] is kept by the others, and bounds the depth of the directories that can be visited *)
    Context (I : fs -> Prop) (Ht : forall f, I f -> tree f) (Hi : forall n f, I f -> I (meddle n f)) (D : nat) (Hlim : forall n f s l, I f -> inspect E n f s = Ok (l, Dir) -> length l < D).
    Context (Ho : forall n l, listing E n l ≡ₚ l).
    Lemma halts_metadata s : halts I (hmetadata E meddle s) (fun e => e = Dir -> length (leads_to E s) < D).
    Proof.
      apply halts_tick; [apply Hi|]. intros n f Hf. split; [done|]. split; [apply rbind_ends; [apply inspect_ends|done]|]. intros e H ->. destruct (inspect E n f s) as [[l e]| | |] eqn:R; [|done..].
      cbn [rbind snd] in H. injection H as ->. pose proof (Hlim _ _ _ _ Hf R) as Hl. unfold inspect in R. destruct (resolve E f s) as [l'|] eqn:R'; [|done]. apply resolve_lex in R' as <-.
      repeat case_match; by simplify_eq.
    Qed.
    Lemma halts_next : halts I (hnext_entry E meddle) any.
    Proof. apply halts_tick; [apply Hi|]. intros n f Hf. split; [done|]. split; [|done]. by destruct (fault E n []). Qed.
    Lemma halts_is_dir s : halts I (his_dir E meddle s) any.
    Proof. by apply halts_tick. Qed.
    Lemma halts_read_dir s : halts I (hread_dir E meddle s) (Forall proper_name).
    Proof.
      apply halts_tick; [apply Hi|]. intros n f Hf. split; [done|]. split.
      - apply rbind_ends; [apply inspect_ends|]. intros [l [c|]]; done.
      - intros names. destruct (inspect E n f s) as [[l [c|]]| | |]; [done| |done..]. cbn [rbind snd fst]. intros [= <-]. apply Forall_forall. intros x Hx. rewrite Ho in Hx. apply elem_of_children in Hx as [e Hx].
        apply (tree_names f (Ht f Hf)) in Hx. apply Forall_app in Hx as [_ Hx]. by apply Forall_cons in Hx as [? _].
    Qed.
    Lemma halts_run_one s : halts I (hrun_one E meddle s) any.
    Proof.
      unfold hrun_one. eapply (halts_bind _ _ _ (fun c => utf8 c)).
      - apply halts_tick; [apply Hi|]. intros n f Hf. destruct (inspect E n f s) as [[l [c|]]| | |]; [|done..]. destruct (from_utf8 c) eqn:U; [|done]. split; [done|]. split; [done|]. intros a [= <-]. by apply from_utf8_spec.
      - intros c Hc. eapply (halts_bind _ _ _ any); [|intros t _; by apply halts_ret]. apply halts_tick; [apply Hi|]. intros n f Hf. split; [done|]. split; [|done].
        unfold compile_io, tick. cbn [w_op w_fs snd]. destruct (compile_total (hash1 E n) (version E) (clock E n) (hash2 E n) (Hh1 n) c Hc) as [x ->]. by destruct x.
    Qed.
    Lemma leads_push d n : d ≠ "" -> proper_name n -> leads_to E (push d n) = leads_to E d ++ [n].
    Proof.
      intros Hd Hn. pose proof Hn as (Hn1 & _ & _ & Hn2). unfold leads_to, origin. rewrite root_push by done. destruct (pieces_push d n Hn2) as (pre & -> & H). rewrite foldl_app. cbn [foldl]. rewrite descend_proper by done. f_equal.
      destruct H as [[? _]|[[_ ->]|(_ & _ & ->)]]; [done|done|]. by rewrite foldl_app.
    Qed.
    Lemma halts_entries (visit : string -> shio (list schema)) dir names : (forall n, proper_name n -> halts I (visit (push dir n)) any) ->
      Forall proper_name names -> halts I (hvisit_entries E meddle visit dir names) any.
    Proof.
      intros Hv. induction 1 as [|n names Hn _ IH]; [by apply halts_ret|]. cbn [hvisit_entries]. eapply halts_bind; [apply halts_next|intros _ _]. eapply halts_bind; [apply halts_is_dir|]. intros d _.
      eapply (halts_bind _ _ _ any); [|intros found _; eapply halts_bind; [apply IH|intros more _; by apply halts_ret]].
      destruct d; [destruct (to_str_ok _); [by apply Hv|by apply halts_lift]|]. destruct (decide _); [|by apply halts_ret]. destruct (to_str_ok _); [|by apply halts_lift].
      eapply halts_bind; [apply halts_run_one|]. intros s _. by apply halts_ret.
    Qed.
    Lemma halts_visit fuel : forall d, d ≠ "" -> 0 < fuel -> D < fuel + length (leads_to E d) -> halts I (hvisit_files E meddle fuel d) any.
    Proof.
      induction fuel as [|fuel IH]; intros d Hd H0 Hf; [lia|]. cbn [hvisit_files]. eapply halts_bind; [apply halts_metadata|]. intros [c|] Hl; [by apply halts_ret|]. specialize (Hl eq_refl).
      eapply halts_bind; [apply halts_read_dir|]. intros names Hn. apply halts_entries; [|done]. intros n Hp.
      apply IH; [by apply push_ne; apply Hp|lia|]. rewrite leads_push, app_length by done. cbn [length]. lia.
    Qed.
  End walk.
  (** writing ends without that bound *)
  Notation nothing := (fun _ : fs => True).
  Lemma halts_mkdir s : halts nothing (hmkdir E meddle s) any.
  Proof. apply halts_tick; [done|]. intros n f _. destruct (resolve E f s) as [l|]; [|done]. destruct (entry_at f l); [done|]. by destruct (torn E n). Qed.
  Lemma halts_there s : halts nothing (hbind (his_dir E meddle s) (fun d : bool => if d then hret () else hlift (Err "I/O error"))) any.
  Proof. eapply (halts_bind _ _ _ any); [by apply halts_tick|]. intros [] _; [by apply halts_ret|by apply halts_lift]. Qed.
  Lemma halts_create fuel : forall s, String.length s < fuel -> halts nothing (hcreate_dir_all E meddle fuel s) any.
  Proof.
    induction fuel as [|fuel IH]; intros s Hl; [lia|]. cbn [hcreate_dir_all]. cbn zeta. destruct (decide _); [by apply halts_ret|]. eapply halts_bind; [apply halts_mkdir|]. intros [] _; [by apply halts_ret| |apply halts_there].
    eapply (halts_bind _ _ _ any).
    - destruct (parent s) as [q|] eqn:Hq; [|by apply halts_lift]. apply IH. apply parent_shorter in Hq; [lia|done].
    - intros _ _. eapply halts_bind; [apply halts_mkdir|]. intros [] _; [by apply halts_ret|apply halts_there..].
  Qed.
  Lemma halts_save s p : halts nothing (hsave_one E meddle s p) any.
  Proof.
    unfold hsave_one. eapply (halts_bind _ _ _ any); [destruct (parent p); [apply halts_create; lia|by apply halts_ret]|]. intros _ _. apply halts_tick; [done|]. intros n f _.
    destruct (resolve E f p) as [l|]; [|done]. destruct (entry_at f l) as [[c|]|]; [|done|]; by destruct (torn E n) as [[|k]|].
  Qed.
  Lemma format_ends s path out preserve : format_path s path out preserve ≠ Diverge.
  Proof. unfold format_path. by repeat case_match. Qed.
  Lemma halts_save_all path out found : halts nothing (hsave_all E meddle path out found) any.
  Proof.
    induction found as [|s found IH]; [by apply halts_ret|]. cbn [hsave_all]. eapply (halts_bind _ _ _ any); [apply halts_lift; [apply format_ends|done]|]. intros p _.
    eapply halts_bind; [apply halts_save|]. intros _ _. exact IH.
  Qed.
  Lemma main_halts (I : fs -> Prop) D fuel path out f w r : (forall f, I f -> tree f) -> (forall n f, I f -> I (meddle n f)) -> (forall n f s l, I f -> inspect E n f s = Ok (l, Dir) -> length l < D) ->
    (forall n l, listing E n l ≡ₚ l) -> I f -> D < fuel -> hrun E meddle fuel path out f = (w, r) -> r ≠ Diverge.
  Proof.
    intros Ht Hi Hlim Ho Hf Hfuel. unfold hrun, hmain. destruct (hmetadata E meddle path _) as [w1 r1] eqn:M. destruct (halts_metadata I Hi D Hlim path (Place f 0 []) _ _ Hf M) as (I1 & _ & _).
    destruct r1 as [[c|]| | |]; [| |by intros [= <- <-]..].
    - unfold hbind at 1. destruct (hrun_one E meddle path w1) as [w2 r2] eqn:R. destruct (halts_run_one I Hi path _ _ _ I1 R) as (_ & D2 & _). destruct r2 as [s| | |]; [|by intros [= <- <-]..].
      unfold hbind, hlift. destruct (format_path _ _ _ _) eqn:F; [|by intros [= <- <-]..|by apply format_ends in F]. intros S. by apply (halts_save s a w2 w r).
    - assert (path ≠ "") as Hp. { intros ->. unfold hmetadata, htick in M. by simplify_eq/=. }
      unfold hbind. destruct (hvisit_files E meddle fuel path w1) as [w2 r2] eqn:R. destruct (halts_visit I Ht Hi D Hlim Ho fuel path Hp ltac:(lia) ltac:(lia) _ _ _ I1 R) as (_ & D2 & _).
      destruct r2 as [found| | |]; [|by intros [= <- <-]..]. intros S. by apply (halts_save_all path out found w2 w r).
  Qed.
  Definition within_depth (D : nat) (f : fs) : Prop := tree f /\ depth f <= D.
  Lemma run_halts D fuel path out f w r : keeps_depth D meddle -> (forall n l, listing E n l ≡ₚ l) -> tree f -> depth f <= D -> D < fuel -> hrun E meddle fuel path out f = (w, r) -> r ≠ Diverge.
  Proof.
    intros HD Ho Hf Hd. apply (main_halts (within_depth D)); [by intros ? []|intros n g [H1 H2]; split; [by apply Hm|by apply HD]| |done|done].
    intros n g s l [_ Hg] H. unfold inspect in H. destruct (resolve E g s) as [l'|]; [|done]. destruct (entry_at g l') as [e|] eqn:He; [|done]. destruct (fault E n l'); [done|]. injection H as -> ->.
    apply entry_some in He as [[-> _]|He]; [pose proof (depth_pos g); cbn; lia|]. apply depth_spec in He. lia.
  Qed.
  (** nothing below some depth can be opened, as with a limit on the length of paths *)
  Lemma run_halts_limit L fuel path out f w r : (forall n l, L < length l -> fault E n l = true) -> (forall n l, listing E n l ≡ₚ l) -> tree f -> S L < fuel -> hrun E meddle fuel path out f = (w, r) -> r ≠ Diverge.
  Proof.
    intros HL Ho Hf. apply (main_halts tree); [done|apply Hm| |done|done].
    intros n g s l _ H. unfold inspect in H. destruct (resolve E g s) as [l'|]; [|done]. destruct (entry_at g l') as [e|]; [|done]. destruct (fault E n l') eqn:F; [done|]. injection H as -> ->.
    destruct (decide (L < length l)) as [Hl|]; [|lia]. by rewrite (HL n l Hl) in F.
  Qed.
End ends.
