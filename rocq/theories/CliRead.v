(** The reading half of the command: nothing is changed, and all schemas are found. *)
From Verif Require Export CliPaths.

(** ** UTF-8 *)
Lemma within_spec lo hi c : within lo hi c = true <-> ReportSpec.in_range lo hi c.
Proof. unfold within, ReportSpec.in_range, ReportSpec.byte. rewrite andb_true_iff, !Nat.leb_le. done. Qed.
Lemma within_false lo hi c : within lo hi c = false <-> ~ ReportSpec.in_range lo hi c.
Proof. rewrite <- within_spec. by rewrite not_true_iff_false. Qed.
Lemma utf8_nil : utf8 [].
Proof. exists []. by split; [constructor|]. Qed.
Lemma utf8_glue g s : utf8_char g -> utf8 s -> utf8 (g ++ s).
Proof. intros Hg (gs & Hgs & ->). exists (g :: gs). split; [by constructor|done]. Qed.
Lemma utf8_append s t : utf8 s -> utf8 t -> utf8 (s ++ t).
Proof. intros (gs & Hgs & ->) (hs & Hhs & ->). exists (gs ++ hs). split; [by apply Forall_app|]. by rewrite concat_app. Qed.
Ltac inr := unfold ReportSpec.in_range in *; lia.
Lemma from_utf8_char g s : utf8_char g -> from_utf8 (g ++ s) = from_utf8 s.
Proof.
  assert (forall lo hi c, ReportSpec.in_range lo hi c -> within lo hi c = true) as Y by (intros; by apply within_spec).
  assert (forall lo hi c, ~ ReportSpec.in_range lo hi c -> within lo hi c = false) as N by (intros; by apply within_false).
  destruct g as [|a [|b [|c [|d [|]]]]]; try done; intros Hg; cbn [utf8_char] in Hg; cbn [app from_utf8].
  - by rewrite (Y _ _ _ Hg).
  - destruct Hg as [Ha Hb]. rewrite (N 0 127 a), (Y 194 223 a), (Y 128 191 b) by inr. done.
  - destruct Hg as [Hab Hc]. rewrite (Y 128 191 c Hc). rewrite (N 0 127 a), (N 194 223 a), (Y 224 239 a) by inr.
    destruct Hab as [[Ha Hb]|[[Ha Hb]|[[Ha Hb]|[Ha Hb]]]].
    + rewrite (Y 224 224 a), (Y 160 191 b) by inr. done.
    + rewrite (N 224 224 a), (N 237 237 a), (Y 128 191 b) by inr. done.
    + rewrite (N 224 224 a), (Y 237 237 a), (Y 128 159 b) by inr. done.
    + rewrite (N 224 224 a), (N 237 237 a), (Y 128 191 b) by inr. done.
  - destruct Hg as (Hab & Hc & Hd). rewrite (Y 128 191 c Hc), (Y 128 191 d Hd). rewrite (N 0 127 a), (N 194 223 a), (N 224 239 a) by inr.
    destruct Hab as [[Ha Hb]|[[Ha Hb]|[Ha Hb]]].
    + rewrite (Y 240 240 a), (Y 144 191 b) by inr. done.
    + rewrite (N 240 240 a), (Y 241 243 a), (Y 128 191 b) by inr. done.
    + rewrite (N 240 240 a), (N 241 243 a), (Y 244 244 a), (Y 128 143 b) by inr. done.
Qed.
Lemma from_utf8_spec s : from_utf8 s = true <-> utf8 s.
Proof.
  split.
  - remember (length s) as n eqn:Hn. revert s Hn. induction (lt_wf n) as [n _ IH]. intros s -> H.
    assert (forall g t, s = g ++ t -> g ≠ [] -> utf8_char g -> utf8 s) as Hgo.
    { intros g t -> Hne Hg. apply utf8_glue; [done|]. rewrite from_utf8_char in H by done. refine (IH (length t) _ t eq_refl H).
      rewrite app_length. destruct g; [done|]. cbn. lia. }
    destruct s as [|a s]; [apply utf8_nil|]. cbn [from_utf8] in H.
    destruct (within 0 127 a) eqn:A1; [apply (Hgo [a] s); [done..|]; by apply within_spec|].
    destruct s as [|b s]; [done|]. destruct (within 194 223 a) eqn:A2.
    { apply andb_true_iff in H as [H1 H2]. apply (Hgo [a; b] s); [done..|]. split; by apply within_spec. }
    destruct s as [|c s]; [done|]. destruct (within 224 239 a) eqn:A3.
    { rewrite !andb_true_iff in H. destruct H as [[H1 H2] H3]. apply (Hgo [a; b; c] s); [done..|]. split; [|by apply within_spec].
      apply within_spec in A3. destruct (within 224 224 a) eqn:A4; [left; split; by apply within_spec|].
      destruct (within 237 237 a) eqn:A5; [right; right; left; split; by apply within_spec|].
      apply within_false in A4, A5. apply within_spec in H1. destruct (decide (nat_of_ascii a <= 236)); [right; left|right; right; right]; (split; [unfold ReportSpec.in_range, ReportSpec.byte in *; lia|done]). }
    destruct s as [|d s]; [done|]. rewrite !andb_true_iff in H. destruct H as [[[H1 H2] H3] H4]. apply (Hgo [a; b; c; d] s); [done..|].
    split; [|split; by apply within_spec]. destruct (within 240 240 a) eqn:A4; [left; split; by apply within_spec|].
    destruct (within 241 243 a) eqn:A5; [right; left; split; by apply within_spec|]. apply andb_true_iff in H1 as [? ?]. right. right. split; by apply within_spec.
  - intros (gs & Hgs & ->). induction Hgs as [|g gs Hg Hgs IH]; [done|]. cbn [concat]. by rewrite from_utf8_char.
Qed.
Lemma to_str_push d n : to_str_ok d = true -> utf8 (txt n) -> to_str_ok (push d n) = true.
Proof.
  unfold to_str_ok. change T with txt. rewrite !from_utf8_spec. intros Hd Hn. unfold push. destruct (has_root n); [done|].
  destruct (decide _); rewrite !txt_app; [by apply utf8_append|]. apply utf8_append; [done|]. apply utf8_append; [|done].
  apply from_utf8_spec. by vm_compute.
Qed.

(** ** Trees *)
Lemma removelast_rev {A} (l : list A) : removelast (rev l) = rev (tail l).
Proof. destruct l as [|a l]; [done|]. cbn. by rewrite removelast_last. Qed.
Lemma elem_of_children f l n : n ∈ children f l <-> is_Some (f !! (l ++ [n])).
Proof.
  unfold children. rewrite elem_of_list_omap. split.
  - intros (p & Hp & H). destruct (rev p) as [|m r] eqn:R; [done|]. destruct (decide _) as [Hl|]; [|done]. injection H as ->.
    apply elem_of_list_fmap in Hp as ([q e] & -> & Hq%elem_of_map_to_list). cbn in R. exists e. rewrite <- Hl.
    rewrite <- (rev_involutive q), R in Hq. done.
  - intros [e He]. exists (l ++ [n]). split; [apply elem_of_list_fmap; exists (l ++ [n], e); by rewrite elem_of_map_to_list|].
    rewrite rev_app_distr. cbn. by rewrite rev_involutive, decide_True.
Qed.
Lemma children_nodup f l : NoDup (children f l).
Proof.
  unfold children. pose proof (NoDup_fst_map_to_list f) as H. induction H as [|p ps Hp Hps IH]; [constructor|]. cbn.
  destruct (rev p) as [|n r] eqn:R; [done|]. destruct (decide _) as [Hl|]; [|done]. apply NoDup_cons. split; [|done].
  intros (q & Hq & H)%elem_of_list_omap. destruct (rev q) as [|m r'] eqn:R'; [done|]. destruct (decide _) as [Hl'|]; [|done]. injection H as ->.
  assert (p = q) as ->; [|done]. rewrite <- (rev_involutive p), <- (rev_involutive q), R, R'. cbn. by rewrite Hl, Hl'.
Qed.
Lemma entry_some f l e : entry_at f l = Some e -> l = [] /\ e = Dir \/ f !! l = Some e.
Proof. destruct l; cbn; naive_solver. Qed.
Lemma entry_ne f l n : entry_at f (l ++ [n]) = f !! (l ++ [n]).
Proof. by destruct l. Qed.
Lemma entry_ne' f l : l ≠ [] -> entry_at f l = f !! l.
Proof. by destruct l. Qed.
Lemma entry_lookup f l e : f !! [] = None -> f !! l = Some e -> entry_at f l = Some e.
Proof. destruct l; naive_solver. Qed.
(** everything stands in directories *)
Lemma tree_up f l r e : tree f -> r ≠ [] -> entry_at f (l ++ r) = Some e -> entry_at f l = Some Dir.
Proof.
  intros Ht. revert e. induction r as [|n r IH] using rev_ind; [done|]. intros e _. rewrite app_assoc, entry_ne. intros H.
  pose proof (tree_parent f Ht _ _ _ H) as Hp. destruct r as [|m r]; [by rewrite app_nil_r in Hp|]. by eapply IH.
Qed.
Lemma depth_spec f l e : f !! l = Some e -> length l < depth f.
Proof.
  intros H%elem_of_map_to_list. unfold depth. generalize dependent (map_to_list f). intros xs H.
  remember (l, e) as x eqn:Hx. induction H as [x xs|x y xs H IH]; cbn [foldr]; [rewrite Hx; cbn [fst]; lia|]. specialize (IH Hx). lia.
Qed.
Lemma depth_pos f : 0 < depth f.
Proof. unfold depth. induction (map_to_list f); cbn; lia. Qed.

(** ** Walking *)
Lemma walk_app f l ps qs : follow f l (ps ++ qs) = follow f l ps ≫= (fun m => follow f m qs).
Proof. revert l. induction ps as [|p ps IH]; intros l; [done|]. cbn. destruct (entry_at f l) as [[]|]; [done|apply IH|done]. Qed.
Lemma walk_lex f l ps m : follow f l ps = Some m -> m = foldl descend l ps.
Proof. revert l. induction ps as [|p ps IH]; intros l; cbn; [naive_solver|]. destruct (entry_at f l) as [[]|]; [done|apply IH|done]. Qed.
Lemma descend_proper l n : proper_name n -> descend l n = l ++ [n].
Proof. intros Hn. unfold descend. destruct (proper_good n Hn) as [_ ->]. destruct Hn as (_ & _ & ? & _). by rewrite decide_False. Qed.
Lemma resolve_push E f d n l : d ≠ "" -> proper_name n -> resolve E f d = Some l -> entry_at f l = Some Dir -> resolve E f (push d n) = Some (l ++ [n]).
Proof.
  intros Hd Hn. pose proof Hn as (Hn1 & _ & _ & Hn2). unfold resolve. rewrite !decide_False by (done || by apply push_ne). rewrite root_push by done.
  intros Hw Hl. destruct (pieces_push d n Hn2) as (pre & E1 & H). rewrite E1, walk_app.
  destruct H as [[? _]|[[_ H]|(_ & _ & H)]]; [done|..]; rewrite H in Hw.
  - rewrite Hw. cbn. rewrite Hl. by rewrite descend_proper.
  - rewrite walk_app in Hw. destruct (follow _ _ pre) as [m|]; [|done]. cbn in Hw |- *. destruct (entry_at f m) as [[]|] eqn:Em; [done| |done].
    injection Hw as <-. rewrite descend_proper by done. done.
Qed.

(** ** Reading *)
Definition schema_loc (f : fs) (l rel : location) : Prop := exists dirs s c, rel = dirs ++ [s +:+ ".pkt"] /\ schema_at f l dirs s c.
Section read.
  Context (E : env) (f : fs) (Hs : sane E f).
  Lemma inspect_eq n s l e : resolve E f s = Some l -> entry_at f l = Some e -> inspect E n f s = if fault E n l then Err "I/O error" else Ok (l, e).
  Proof. intros H1 H2. unfold inspect. by rewrite H1, H2. Qed.
  Lemma compile_io_spec c op w r : utf8 c -> compile_io E c (World f op) = (w, r) ->
    w = World f (S op) /\ (forall t, r = Ok t -> code_for E c t) /\ returns r /\ (compiles c <-> is_ok r).
  Proof.
    intros Hc. unfold compile_io, tick. cbn. intros [= <- <-]. split; [done|].
    destruct (compile_total (hash1 E op) (version E) (clock E op) (hash2 E op) (sane_hash1 E f Hs op) c Hc) as [x Hx].
    pose proof (compile_code (hash1 E op) (version E) (clock E op) (hash2 E op) (sane_hash1 E f Hs op) c Hc) as Hv. rewrite Hx in *. split; [|split].
    - intros t Ht. destruct x; [|done..]. injection Ht as ->. by exists op.
    - destruct x; [left|right..]; by eexists.
    - split.
      + intros [_ Ha]. apply Hv in Ha as [t Ht]. injection Ht as ->. by eexists.
      + intros [t Ht]. split; [done|]. apply Hv. destruct x; [by eexists|done..].
  Qed.
  Lemma run_one_spec p l e op w r : resolve E f p = Some l -> entry_at f l = Some e -> run_one E p (World f op) = (w, r) ->
    w_fs w = f /\ op <= w_op w /\ returns r /\
    (forall s, r = Ok s -> s_path s = p /\ fault E op l = false /\ exists c, e = File c /\ compiles c /\ code_for E c (s_generated s)) /\
    (no_fault E -> forall c, e = File c -> compiles c -> is_ok r).
  Proof.
    intros H1 H2. unfold run_one, ibind, read_to_string, tick. cbn [w_op w_fs]. rewrite (inspect_eq op p l e H1 H2).
    destruct (fault E op l) eqn:Ff; cbn [rbind].
    { intros [= <- <-]. split; [done|]. split; [cbn; lia|]. split; [right; by eexists|]. split; [done|]. intros Hn. by rewrite Hn in Ff. }
    cbn [snd]. destruct e as [c|].
    2:{ intros [= <- <-]. split; [done|]. split; [cbn; lia|]. split; [right; by eexists|]. by split. }
    destruct (from_utf8 c) eqn:U.
    2:{ intros [= <- <-]. split; [done|]. split; [cbn; lia|]. split; [right; by eexists|]. split; [done|]. intros _ c' [= <-] [Hc _]. apply from_utf8_spec in Hc. by rewrite U in Hc. }
    apply from_utf8_spec in U. destruct (compile_io E c (World f (S op))) as [w' r'] eqn:C. apply compile_io_spec in C as (-> & C1 & C2 & C3); [|done].
    destruct C2 as [[t ->]|[m ->]]; intros [= <- <-]; (split; [done|]); (split; [cbn; lia|]).
    - split; [left; by eexists|]. split; [|intros _ c' _ _; by eexists].
      intros s [= <-]. split; [done|]. split; [done|]. exists c. split; [done|]. split; [|by apply C1]. apply C3. by eexists.
    - split; [right; by eexists|]. split; [done|]. intros _ c' [= <-] Hc. apply C3 in Hc. by destruct Hc.
  Qed.

  Definition item (dir : string) (l : location) (op : nat) (rel : location) (s : schema) : Prop :=
    exists dirs n c, rel = dirs ++ [n +:+ ".pkt"] /\ schema_at f l dirs n c /\ compiles c /\ code_for E c (s_generated s) /\
      s_path s = foldl push dir rel /\ exists m, op <= m /\ fault E m (l ++ rel) = false.
  Definition readable (op : nat) (l : location) : Prop := exists m, op <= m /\ fault E m l = false.
  Definition all_compile (l : location) : Prop := forall dirs s c, schema_at f l dirs s c -> compiles c.
  Record outcome (fuel : nat) (dir : string) (l : location) (heads : string -> Prop) (op : nat) (w : world) (r : res (list schema)) : Prop := {
    o_fs : w_fs w = f;
    o_op : op <= w_op w;
    o_found : forall found, r = Ok found -> exists rels, Forall2 (item dir l op) rels found /\ NoDup rels /\
      (forall rel, rel ∈ rels -> exists n rel', rel = n :: rel' /\ heads n) /\
      (no_blind E -> forall n rel', heads n -> schema_loc f l (n :: rel') -> n :: rel' ∈ rels) /\
      (no_blind E -> forall n rel', heads n -> entry_at f (l ++ n :: rel') = Some Dir -> readable op (l ++ n :: rel'));
    o_total : depth f < fuel + length l -> r ≠ Diverge;
    o_panic : dirs_named f l -> to_str_ok dir = true -> forall m, r ≠ Panic m;
    o_ok : no_fault E -> no_blind E -> dirs_named f l -> files_named f l -> to_str_ok dir = true -> all_compile l -> depth f < fuel + length l -> is_ok r }.

  Lemma item_mono dir l op op' rel s : op' <= op -> item dir l op rel s -> item dir l op' rel s.
  Proof. intros H (dirs & n & c & H1 & H2 & H3 & H4 & H5 & m & H6 & H7). exists dirs, n, c. do 5 (split; [done|]). exists m. split; [lia|done]. Qed.
  Lemma readable_mono l op op' : op' <= op -> readable op l -> readable op' l.
  Proof. intros H (m & H1 & H2). exists m. split; [lia|done]. Qed.
  Lemma item_under dir l op n rel s : item (push dir n) (l ++ [n]) op rel s -> item dir l op (n :: rel) s.
  Proof.
    intros (dirs & m & c & -> & [H1 H2] & H3 & H4 & H5 & H6). exists (n :: dirs), m, c. split; [done|]. split; [split; [done|]|].
    - cbn [app]. by rewrite <- app_assoc in H2.
    - do 3 (split; [done|]). by rewrite <- app_assoc in H6.
  Qed.
  Lemma schema_under l n rel : rel ≠ [] -> schema_loc f l (n :: rel) <-> schema_loc f (l ++ [n]) rel.
  Proof.
    intros Hne. split.
    - intros (dirs & s & c & H1 & H2 & H3). destruct dirs as [|m dirs]; cbn [app] in H1; [by injection H1 as -> ->|]. injection H1 as -> ->.
      exists dirs, s, c. split; [done|]. split; [done|]. by rewrite <- app_assoc.
    - intros (dirs & s & c & -> & H2 & H3). exists (n :: dirs), s, c. split; [done|]. split; [done|]. by rewrite <- app_assoc in H3.
  Qed.
  Lemma schema_entry l rel : schema_loc f l rel -> exists c, entry_at f (l ++ rel) = Some (File c).
  Proof. intros (dirs & s & c & -> & _ & H). exists c. rewrite app_assoc, entry_ne. by rewrite <- app_assoc. Qed.
  Lemma all_compile_under l n : all_compile l -> all_compile (l ++ [n]).
  Proof. intros H dirs s c [H1 H2]. apply (H (n :: dirs) s c). split; [done|]. by rewrite <- app_assoc in H2. Qed.
  Lemma dirs_named_under l n : dirs_named f l -> dirs_named f (l ++ [n]).
  Proof. intros H dirs Hd. rewrite <- app_assoc in Hd. apply H in Hd. by apply Forall_cons in Hd as [_ Hd]. Qed.
  Lemma files_named_under l n : files_named f l -> files_named f (l ++ [n]).
  Proof. intros H dirs s c [H1 H2]. apply (H (n :: dirs) s c). split; [done|]. by rewrite <- app_assoc in H2. Qed.
  Lemma child_proper l n e : entry_at f (l ++ [n]) = Some e -> proper_name n.
  Proof. rewrite entry_ne. intros H. apply (tree_names f (sane_tree E f Hs)) in H. apply Forall_app in H as [_ H]. by apply Forall_cons in H as [H _]. Qed.

  Lemma visit_one_spec p l c op w r : resolve E f p = Some l -> entry_at f l = Some (File c) -> visit_one E p (World f op) = (w, r) ->
    w_fs w = f /\ op <= w_op w /\ returns r /\
    (forall s, r = Ok s -> s_path s = p /\ fault E op l = false /\ compiles c /\ code_for E c (s_generated s)) /\
    (no_fault E -> to_str_ok p = true -> compiles c -> is_ok r).
  Proof.
    intros H1 H2. unfold visit_one. destruct (to_str_ok p).
    - intros H. eapply run_one_spec in H as (A & B & C & D & F); [|done..]. do 3 (split; [done|]). split.
      + intros s Hr. destruct (D s Hr) as (? & ? & c' & [= <-] & ? & ?). done.
      + intros Hn _ Hc. by eapply F.
    - intros [= <- <-]. split; [done|]. split; [cbn; lia|]. split; [right; by eexists|]. done.
  Qed.

  Lemma visit_entries_spec fuel dir l op w r names :
    (forall d m op w r, d ≠ "" -> resolve E f d = Some m -> entry_at f m = Some Dir -> visit_files E fuel d (World f op) = (w, r) ->
       outcome fuel d m (fun _ => True) op w r /\ (forall found, r = Ok found -> readable op m)) ->
    dir ≠ "" -> resolve E f dir = Some l -> entry_at f l = Some Dir -> NoDup names -> (forall n, n ∈ names -> is_Some (entry_at f (l ++ [n]))) ->
    visit_entries E (visit_files E fuel) dir names (World f op) = (w, r) -> outcome (S fuel) dir l (fun n => n ∈ names) op w r.
  Proof.
    intros IHf Hd Hl Hdir. revert op w r. induction names as [|n names IH]; intros op w r Hnd Hex.
    { cbn. intros [= <- <-]. split; [done|cbn; lia| |done|done|intros; by eexists]. intros found [= <-]. exists []. split; [constructor|]. split; [constructor|].
      split; [by intros rel ?%elem_of_nil|]. split; intros _ n rel' ?%elem_of_nil; done. }
    apply NoDup_cons in Hnd as [Hn Hnd].
    destruct (Hex n (elem_of_list_here _ _)) as [e He]. pose proof (child_proper l n e He) as Hp.
    pose proof (resolve_push E f dir n l Hd Hp Hl Hdir) as Hpush.
    cbn [visit_entries]. unfold ibind at 1. unfold next_entry, tick. cbn [w_op w_fs]. rewrite (inspect_eq op dir l Dir Hl Hdir).
    destruct (fault E op l) eqn:Ff; cbn [rbind].
    { intros [= <- <-]. split; [done|cbn; lia|done|done|done|]. intros Hnf. by rewrite Hnf in Ff. }
    unfold ibind at 1. unfold is_dir, tick. cbn [w_op w_fs]. rewrite Hpush, He.
    (* what one entry gives *)
    assert (forall found, found = (match e with Dir => negb (blind E (S op) (l ++ [n])) | File _ => false end) ->
      forall w1 r1, (if found then if to_str_ok (push dir n) then visit_files E fuel (push dir n) else fun w => (w, Panic "called `Option::unwrap()` on a `None` value")
           else if decide (extension_of (push dir n) = Some "pkt") then ibind (visit_one E (push dir n)) (fun s => iret [s]) else iret []) (World f (S (S op))) = (w1, r1) ->
      outcome (S fuel) dir l (fun m => m = n) op w1 r1) as Hentry.
    { intros b Hb w1 r1 H1. destruct b.
      - destruct e; [done|]. destruct (to_str_ok (push dir n)) eqn:U.
        2:{ injection H1 as <- <-. split; [done|cbn; lia|done|done| |].
            - intros Hw Hu. exfalso. rewrite (to_str_push dir n) in U; [done|done|]. rewrite entry_ne in He. apply Hw in He. by apply Forall_cons in He as [He _].
            - intros _ _ Hw _ Hu. exfalso. rewrite (to_str_push dir n) in U; [done|done|]. rewrite entry_ne in He. apply Hw in He. by apply Forall_cons in He as [He _]. }
        destruct (IHf (push dir n) (l ++ [n]) (S (S op)) w1 r1) as [[O1 O2 O3 O4 O5 O6] Hr]; [apply push_ne, Hp|done..|].
        assert (forall k, depth f < S k + length l -> depth f < k + length (l ++ [n])) as Hlen by (intros k; rewrite app_length; cbn; lia).
        split; [done|lia| |intros Hf; apply O4; by apply Hlen|intros Hw _; apply O5; [by apply dirs_named_under|done]|].
        + intros found Hfound. destruct (O3 found Hfound) as (rels & F1 & F2 & F3 & F4 & F5). exists (List.map (cons n) rels).
          split; [|split; [|split; [|split]]].
          * clear -F1. induction F1 as [|rel s rels found Hi F1 IH]; cbn; [constructor|]. constructor; [|done]. apply item_under. eapply item_mono; [|done]. lia.
          * apply NoDup_fmap_2; [|done]. by intros ? ? [= ?].
          * intros rel (rel' & <- & _)%elem_of_list_In%in_map_iff. by eexists _, _.
          * intros Hb' m rel' -> Hsl. destruct rel' as [|k rel'].
            { apply schema_entry in Hsl as [c Hc]. by rewrite He in Hc. }
            apply elem_of_list_In, in_map_iff. exists (k :: rel'). split; [done|]. apply elem_of_list_In. apply F4; [done..|]. by apply schema_under in Hsl.
          * intros Hb' m rel' -> Hdr. destruct rel' as [|k rel'].
            { apply (readable_mono _ (S (S op))); [lia|]. by apply (Hr found). }
            assert (l ++ n :: k :: rel' = (l ++ [n]) ++ k :: rel') as Eq by by rewrite <- app_assoc. rewrite Eq in *.
            apply (readable_mono _ (S (S op))); [lia|]. by apply F5.
        + intros Hnf Hnb Hw Hw' Hu Hc Hf. apply O6; [done|done|by apply dirs_named_under|by apply files_named_under|done|by apply all_compile_under|by apply Hlen].
      - destruct (decide (extension_of (push dir n) = Some "pkt")) as [Hx|Hx].
        + rewrite extension_push in Hx by done. apply name_ext_spec in Hx as (s & Hs1 & ->); [|by vm_compute].
          unfold ibind in H1. destruct e as [c|].
          2:{ (* a directory that is not recognised *)
              unfold visit_one in H1. destruct (to_str_ok _) eqn:U.
              - destruct (run_one E _ _) as [w2 r2] eqn:R. eapply run_one_spec in R as (A & B & C & D & _); [|done..]. destruct r2 as [x|x|x|].
                + destruct (D x eq_refl) as (_ & _ & c & ? & _). done.
                + injection H1 as <- <-. split; [done|lia|done|done|done|]. intros _ Hnb. rewrite Hnb in Hb. done.
                + by destruct C as [[? ?]|[? ?]].
                + by destruct C as [[? ?]|[? ?]].
              - injection H1 as <- <-. split; [done|cbn; lia|done|done|done|]. intros _ Hnb. rewrite Hnb in Hb. done. }
          destruct (visit_one E _ _) as [w2 r2] eqn:V. eapply visit_one_spec in V as (A & B & C & D & F); [|done..]. destruct r2 as [x|x|x|].
          * injection H1 as <- <-. destruct (D x eq_refl) as (D1 & D2 & D3 & D4). split; [done|lia| |done|done|by eexists].
            intros found [= <-]. exists [[s +:+ ".pkt"]]. split; [|split; [|split; [|split]]].
            -- constructor; [|constructor]. exists [], s, c. split; [done|]. split; [split; [done|]; by rewrite entry_ne in He|]. do 3 (split; [done|]). by exists (S (S op)); split; [lia|].
            -- apply NoDup_singleton.
            -- intros rel ->%elem_of_list_singleton. by eexists _, _.
            -- intros _ m rel' -> Hsl. destruct rel' as [|k rel']; [apply elem_of_list_here|].
               apply schema_under in Hsl; [|done]. apply schema_entry in Hsl as [c' Hc']. apply tree_up in Hc'; [|apply Hs|done]. by rewrite He in Hc'.
            -- intros _ m rel' -> Hdr. destruct rel' as [|k rel']; [by rewrite He in Hdr|].
               assert (forall x, l ++ x :: k :: rel' = (l ++ [x]) ++ k :: rel') as Eq by (intros; by rewrite <- app_assoc). rewrite Eq in Hdr. apply tree_up in Hdr; [|apply Hs|done]. by rewrite He in Hdr.
          * injection H1 as <- <-. split; [done|lia|done|done|done|]. intros Hnf Hnb _ Hw Hu Hc _. assert (schema_at f l [] s c) as Hsc by (split; [done|]; by rewrite entry_ne in He).
            destruct F as [? ?]; [done| |by apply (Hc [] s)|done].
            apply to_str_push; [done|]. rewrite txt_app. apply utf8_append; [by eapply Hw|]. apply from_utf8_spec. by vm_compute.
          * by destruct C as [[? ?]|[? ?]].
          * by destruct C as [[? ?]|[? ?]].
        + injection H1 as <- <-. split; [done|cbn; lia| |done|done|by eexists]. intros found [= <-]. exists []. split; [constructor|]. split; [constructor|].
          split; [by intros rel ?%elem_of_nil|]. split.
          * intros Hnb m rel' -> Hsl. destruct rel' as [|k rel'].
            { destruct Hsl as (dirs & s & c & E1 & H2 & H3). destruct dirs as [|? [|]]; [|done..]. injection E1 as ->. exfalso. apply Hx. rewrite extension_push by done.
              apply name_ext_spec; [by vm_compute|]. by exists s. }
            apply schema_under in Hsl; [|done]. apply schema_entry in Hsl as [c' Hc']. apply tree_up in Hc'; [|apply Hs|done]. rewrite He in Hc'. injection Hc' as ->. by rewrite Hnb in Hb.
          * intros Hnb m rel' -> Hdr. assert (e = Dir) as ->; [|by rewrite Hnb in Hb]. destruct rel' as [|k rel']; [rewrite He in Hdr; by injection Hdr|].
            assert (l ++ n :: k :: rel' = (l ++ [n]) ++ k :: rel') as Eq by by rewrite <- app_assoc. rewrite Eq in Hdr.
            apply tree_up in Hdr; [|apply Hs|done]. rewrite He in Hdr. by injection Hdr. }
    (* and all of them *)
    unfold ibind at 1. 
    lazymatch goal with |- context [(if ?b then ?x else ?y) (World f (S (S op)))] => destruct ((if b then x else y) (World f (S (S op)))) as [w1 r1] eqn:H1 end.
    eapply Hentry in H1 as [O1 O2 O3 O4 O5 O6]; [|by destruct e].
    assert (forall (r : res (list schema)) (h h' : string -> Prop) op' w, op <= op' -> outcome (S fuel) dir l h op' w r -> (forall x, r ≠ Ok x) -> outcome (S fuel) dir l h' op w r) as Hbad.
    { clear. intros r h h' op' w Hle [Q1 Q2 Q3 Q4 Q5 Q6] Hr. split; [done|lia| |done|done|done]. intros x Hx. by apply Hr in Hx. }
    pose proof (Build_outcome _ _ _ _ _ _ _ O1 O2 O3 O4 O5 O6) as O.
    destruct r1 as [found1|x|x|]; [|intros [= <- <-]; eapply Hbad; [|exact O|]; done..].
    unfold ibind. destruct w1 as [f1 op1]. cbn in O1. subst f1. cbn in O2.
    destruct (visit_entries E (visit_files E fuel) dir names (World f op1)) as [w2 r2] eqn:H2.
    apply IH in H2 as [P1 P2 P3 P4 P5 P6]; [|done|intros m Hm; apply Hex; by right].
    pose proof (Build_outcome _ _ _ _ _ _ _ P1 P2 P3 P4 P5 P6) as P.
    destruct r2 as [found2|x|x|]; [|intros [= <- <-]; eapply Hbad; [exact O2|exact P|]; done..].
    intros [= <- <-]. split; [done|lia| |done|done|by eexists].
    intros found [= <-]. destruct (O3 _ eq_refl) as (rels1 & A1 & A2 & A3 & A4 & A5). destruct (P3 _ eq_refl) as (rels2 & B1 & B2 & B3 & B4 & B5).
    exists (rels1 ++ rels2). split; [|split; [|split; [|split]]].
    - apply Forall2_app; [done|]. eapply Forall2_impl; [done|]. intros ? ? Hi. eapply item_mono; [|done]. lia.
    - apply NoDup_app. split; [done|]. split; [|done]. intros rel Hr1 Hr2. apply A3 in Hr1 as (m & rel' & -> & ->). apply B3 in Hr2 as (m & rel2 & [= <- <-] & Hm). done.
    - intros rel [Hr|Hr]%elem_of_app; [apply A3 in Hr as (m & rel' & -> & ->)|apply B3 in Hr as (m & rel' & -> & Hm)]; eexists _, _; (split; [done|]); [left|by right].
    - intros Hnb m rel' [->|Hm]%elem_of_cons Hsl; apply elem_of_app; [left; by apply A4|right; by apply B4].
    - intros Hnb m rel' [->|Hm]%elem_of_cons Hdr; [by apply A5|]. apply (readable_mono _ op1); [lia|]. by apply B5.
  Qed.

  Lemma visit_files_spec fuel dir l op w r : dir ≠ "" -> resolve E f dir = Some l -> entry_at f l = Some Dir ->
    visit_files E fuel dir (World f op) = (w, r) ->
    outcome fuel dir l (fun _ => True) op w r /\ (forall found, r = Ok found -> readable op l).
  Proof.
    revert dir l op w r. induction fuel as [|fuel IH]; intros dir l op w r Hd Hl Hdir.
    { cbn. intros [= <- <-]. assert (length l < depth f).
      { apply entry_some in Hdir as [[-> _]|H]; [apply depth_pos|by eapply depth_spec]. }
      split; [|done]. split; [done|cbn; lia|done|lia|done|lia]. }
    cbn [visit_files]. unfold ibind at 1. unfold metadata, tick. cbn [w_op w_fs]. rewrite (inspect_eq op dir l Dir Hl Hdir).
    destruct (fault E op l) eqn:F1; cbn [rbind snd].
    { intros [= <- <-]. split; [|done]. split; [done|cbn; lia|done|done|done|]. intros Hn. by rewrite Hn in F1. }
    unfold ibind, read_dir, tick. cbn [w_op w_fs]. rewrite (inspect_eq (S op) dir l Dir Hl Hdir).
    destruct (fault E (S op) l) eqn:F2; cbn [rbind fst snd].
    { intros [= <- <-]. split; [|done]. split; [done|cbn; lia|done|done|done|]. intros Hn. by rewrite Hn in F2. }
    pose proof (sane_order E f Hs (S op) (children f l)) as Hperm. intros H.
    assert (forall n, n ∈ listing E (S op) (children f l) <-> is_Some (entry_at f (l ++ [n]))) as Hch.
    { intros n. by rewrite Hperm, elem_of_children, entry_ne. }
    eapply visit_entries_spec in H as [O1 O2 O3 O4 O5 O6]; [|exact IH|done|done|done|rewrite Hperm; apply children_nodup|intros n; apply Hch].
    split; [|intros _ _; exists op; split; [lia|done]]. split; [done|lia| |done|done|done].
    intros found Hf. destruct (O3 found Hf) as (rels & A1 & A2 & A3 & A4 & A5). exists rels. split.
    { eapply Forall2_impl; [exact A1|]. intros ? ? Hi. eapply item_mono; [|exact Hi]. lia. }
    split; [done|]. split; [intros rel Hr; destruct (A3 rel Hr) as (n & rel' & -> & _); by eexists _, _|].
    assert (forall n rel' e, entry_at f (l ++ n :: rel') = Some e -> is_Some (entry_at f (l ++ [n]))) as Hup.
    { intros n rel' e He. destruct rel' as [|k rel']; [by eexists|].
      assert (l ++ n :: k :: rel' = (l ++ [n]) ++ k :: rel') as Eq by by rewrite <- app_assoc. rewrite Eq in He.
      apply tree_up in He; [by eexists|apply Hs|done]. }
    split.
    - intros Hnb n rel' _ Hsl. apply A4; [done|apply Hch|done]. apply schema_entry in Hsl as [c Hc]. by eapply Hup.
    - intros Hnb n rel' _ Hdr. apply (readable_mono _ (S (S op))); [lia|]. apply A5; [done|apply Hch|done]. by eapply Hup.
  Qed.
  (** What reading the whole input gives. *)
  Record reading (dir : string) (l : location) (op : nat) (w : world) (r : res (list schema)) : Prop := {
    r_fs : w_fs w = f;
    r_op : op <= w_op w;
    r_found : forall found, r = Ok found -> exists rels, Forall2 (item dir l op) rels found /\ NoDup rels /\
      (no_blind E -> (forall rel, schema_loc f l rel -> rel ∈ rels) /\ forall rel, entry_at f (l ++ rel) = Some Dir -> readable op (l ++ rel));
    r_total : r ≠ Diverge;
    r_panic : dirs_named f l -> to_str_ok dir = true -> forall m, r ≠ Panic m;
    r_ok : no_fault E -> no_blind E -> dirs_named f l -> files_named f l -> to_str_ok dir = true -> all_compile l -> is_ok r }.
  Lemma run_all_spec dir l op w r : resolve E f dir = Some l -> entry_at f l = Some Dir ->
    run_all E dir (World f op) = (w, r) -> reading dir l op w r.
  Proof.
    intros Hl Hdir. unfold run_all. cbn [w_fs]. intros H. assert (dir ≠ "") as Hd by by (intros ->).
    destruct (visit_files_spec _ dir l op w r Hd Hl Hdir H) as [[O1 O2 O3 O4 O5 O6] Hr]. split; [done|done| |apply O4; lia|done|intros; apply O6; [done..|lia]].
    intros found Hf. destruct (O3 found Hf) as (rels & A1 & A2 & A3 & A4 & A5). exists rels. split; [done|]. split; [done|]. intros Hnb. split.
    - intros rel Hsl. destruct rel as [|n rel]; [|by apply A4]. destruct Hsl as (dirs & ? & ? & ? & _). by destruct dirs.
    - intros [|n rel] Hdr; [rewrite app_nil_r; by apply (Hr found)|by apply A5].
  Qed.
End read.
