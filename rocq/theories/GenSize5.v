(** The degree in the bound for bounded nesting is the smallest one: structs nested [d + 1] deep, each with 2 to the [n] fields. *)
From Verif Require Export GenSize4.

(** "x"; "ax", "bx"; "aax", "abx", "bax", "bbx"; ... *)
Fixpoint words (n : nat) : list string :=
  match n with 0 => ["x"] | S n => List.map (String "a") (words n) ++ List.map (String "b") (words n) end.
Definition level_type (i : nat) : string := match i with 0 => "uint8" | S i => nm i end.
Definition level (n i : nat) : list (string * unresolved) := List.map (fun w => (w, Unresolved (level_type i) false false)) (words n).
Fixpoint grid_decls (n d : nat) : ast :=
  NDecl (nm d) (AStruct (level n d)) :: match d with 0 => [] | S d => grid_decls n d end.
Definition grid (n d : nat) : ast := grid_decls n d ++ [NExport (nm d)].

Lemma words_count n : length (words n) = 2 ^ n.
Proof. induction n as [|n IH]; [done|]. cbn [words]. rewrite app_length, !map_length, IH. cbn [Nat.pow]. lia. Qed.
Lemma words_length n w : w ∈ words n -> sl w = S n.
Proof.
  revert w. induction n as [|n IH]; intros w; cbn [words]; [by intros ->%elem_of_list_singleton|].
  rewrite elem_of_app, !elem_of_list_In, !in_map_iff. intros [(v & <- & Hv)|(v & <- & Hv)]; cbn [sl]; f_equal; by apply IH, elem_of_list_In.
Qed.
Lemma words_chars n w : w ∈ words n -> (exists c r, txt w = c :: r /\ (c = "a" \/ c = "b" \/ c = "x")%char) /\ Forall (fun c => c = "a" \/ c = "b" \/ c = "x")%char (txt w).
Proof.
  revert w. induction n as [|n IH]; intros w; cbn [words].
  - intros ->%elem_of_list_singleton. split; [eexists _, _; split; [reflexivity|auto]|]. apply Forall_cons; auto.
  - rewrite elem_of_app, !elem_of_list_In, !in_map_iff. intros [(v & <- & [_ H]%elem_of_list_In%IH)|(v & <- & [_ H]%elem_of_list_In%IH)];
      (split; [eexists _, _; split; [reflexivity|auto]|constructor; auto]).
Qed.
Lemma words_nodup n : NoDup (words n).
Proof.
  induction n as [|n IH]; [apply NoDup_singleton|]. cbn [words]. apply NoDup_app. split; [|split].
  - apply NoDup_fmap_2; [|done]. by intros ? ? [= ->].
  - intros w. rewrite !elem_of_list_In, !in_map_iff. intros (v & <- & _) (u & [=] & _).
  - apply NoDup_fmap_2; [|done]. by intros ? ? [= ->].
Qed.
Lemma words_legal n w : w ∈ words n -> legal_name (txt w).
Proof.
  intros ((c & r & E & Hc) & HA)%words_chars. split; [|split].
  - eapply Forall_impl; [exact HA|]. intros x [->|[->| ->]]; left; by apply (bool_decide_unpack _); vm_compute.
  - exists c, r. split; [done|]. destruct Hc as [->|[->| ->]]; by apply (bool_decide_unpack _); vm_compute.
  - intros k Hk [l Hl]. rewrite E in Hl. unfold reserved_list in Hk.
    repeat (apply elem_of_cons in Hk as [->|Hk]; [cbn in Hl; injection Hl; intros _ ->; by destruct Hc as [?|[?|?]]|]). by apply elem_of_nil in Hk.
Qed.
Lemma level_in n i f u : (f, u) ∈ level n i <-> f ∈ words n /\ u = Unresolved (level_type i) false false.
Proof.
  unfold level. rewrite elem_of_list_In, in_map_iff. split.
  - intros (w & [= <- <-] & H%elem_of_list_In). done.
  - intros [H%elem_of_list_In ->]. eauto.
Qed.
Lemma level_names n i : (level n i).*1 = words n.
Proof. unfold level. generalize (words n). intros l. induction l; cbn; congruence. Qed.
Lemma grid_decls_in n d m t : NDecl m t ∈ grid_decls n d <-> exists i, i <= d /\ m = nm i /\ t = AStruct (level n i).
Proof.
  induction d as [|d IH]; cbn [grid_decls].
  - rewrite elem_of_list_singleton. split; [intros [= -> ->]; by exists 0|]. intros (i & Hi & -> & ->). by replace i with 0 by lia.
  - rewrite elem_of_cons, IH. split.
    + intros [[= -> ->]|(i & ? & ? & ?)]; [by exists (S d)|]. exists i. split; [lia|done].
    + intros (i & Hi & -> & ->). destruct (decide (i = S d)) as [->|]; [by left|right]. exists i. split; [lia|done].
Qed.
Lemma grid_in n d m t : NDecl m t ∈ grid n d <-> exists i, i <= d /\ m = nm i /\ t = AStruct (level n i).
Proof. unfold grid. rewrite elem_of_app, elem_of_list_singleton, grid_decls_in. naive_solver. Qed.
Lemma grid_exports n d : exports (grid n d) = [nm d].
Proof.
  unfold grid. assert (forall k l, exports (grid_decls n k ++ l) = exports l) as ->; [|done].
  intros k l. induction k; cbn [grid_decls app exports]; auto.
Qed.
Lemma grid_decl_names n d : decl_names (grid n d) = List.map nm (rev (seq 0 (S d))).
Proof.
  unfold grid. assert (forall k, decl_names (grid_decls n k ++ [NExport (nm d)]) = List.map nm (rev (seq 0 (S k)))) as H; [|apply H].
  induction k as [|k IH]; [done|]. rewrite seq_S, rev_app_distr. cbn [rev app List.map]. rewrite <- IH. done.
Qed.
Lemma grid_refers n d s m : refers (grid n d) s m -> rk m < rk s.
Proof.
  intros (fs & f & u & (i & _ & -> & [= ->])%grid_in & [_ ->]%level_in & <-). cbn [u_name]. rewrite rk_nm.
  destruct i as [|i]; cbn [level_type]; [unfold rk; rewrite decide_True by done; lia|rewrite rk_nm; lia].
Qed.
Lemma grid_names n d : no_builtin_decl (grid n d).
Proof. intros m. rewrite grid_decl_names. intros (i & <- & _)%elem_of_list_In%in_map_iff. apply nm_not_builtin. Qed.
Lemma grid_valid n d : valid_schema (grid n d).
Proof.
  split.
  - exists (nm d). eexists. split; [apply grid_exports|]. apply grid_in. by exists d.
  - rewrite grid_decl_names. apply NoDup_fmap_2_strong; [intros; by apply nm_inj|]. rewrite NoDup_ListNoDup. apply NoDup_rev, seq_NoDup.
  - intros m vs (i & _ & _ & [=])%grid_in.
  - intros m fs f u (i & Hi & -> & [= ->])%grid_in [_ ->]%level_in. destruct i as [|i]; [left; set_solver|right].
    eapply decl_names_elem. apply grid_in. exists i. split; [lia|done].
  - intros m fs f u (i & Hi & -> & [= ->])%grid_in [_ ->]%level_in. naive_solver.
  - intros m Hm. assert (forall x y, tc (refers (grid n d)) x y -> rk y < rk x) as H.
    { induction 1 as [x y Hxy|x y z Hxy _ IH]; apply grid_refers in Hxy; lia. }
    apply H in Hm. lia.
  - intros m fs (i & Hi & -> & [= ->])%grid_in. assert (forall l, NoDup l.*1 -> NoDup (compared_names l)) as H; [|apply H; rewrite level_names; apply words_nodup].
    assert (forall l f, f ∈ compared_names l -> f ∈ l.*1) as Hsub.
    { induction l as [|[f u] l IH]; [done|]. intros g. cbn. rewrite !elem_of_cons. case_decide; [naive_solver|]. rewrite elem_of_nil. naive_solver. }
    induction l as [|[f u] l IH]; [done|]. cbn. intros [H1 H2]%NoDup_cons. apply NoDup_cons. split; [|case_decide; [auto|constructor]].
    case_decide; [|by intros ?%elem_of_nil]. by intros ?%Hsub.
Qed.
Lemma grid_distinct n d m fs : declares_struct (grid n d) m fs -> NoDup fs.*1.
Proof. intros (i & Hi & -> & [= ->])%grid_in. rewrite level_names. apply words_nodup. Qed.
Lemma grid_legal n d : legal_ast (grid n d).
Proof.
  apply Forall_forall. intros [m t|e] Hin.
  - apply grid_in in Hin as (i & _ & -> & ->). split; [apply legal_nm|]. split; [apply not_export_nm|]. apply Forall_forall. intros [f u] [Hw ->]%level_in.
    split; [by eapply words_legal|]. cbn [snd u_name]. destruct i as [|i]; [apply (bool_decide_unpack _); vm_compute; exact I|apply legal_nm].
  - cbn. assert (nm d = e) as <-; [|apply legal_nm]. unfold grid in Hin. apply elem_of_app in Hin as [Hin|Hin]; [|apply elem_of_list_singleton in Hin; congruence].
    exfalso. induction d; cbn [grid_decls] in Hin; apply elem_of_cons in Hin as [[=]|Hin]; [by apply elem_of_nil in Hin|auto].
Qed.
Lemma grid_nested n d : nested (grid n d) (S d) (nm d).
Proof.
  assert (forall i, i <= d -> nested (grid n d) (S i) (nm i)) as H; [|by apply H]. induction i as [|i IH]; intros Hi.
  - eapply nested_struct; [apply grid_in; by exists 0|]. intros [f u] [_ ->]%level_in. left. left. set_solver.
  - eapply nested_struct; [apply grid_in; by exists (S i)|]. intros [f u] [_ ->]%level_in. apply IH. lia.
Qed.
Lemma level_length n i : length (concat (map show_field (level n i))) <= 2 ^ n * (n + i + 10).
Proof.
  rewrite <- (words_count n). unfold level. pose proof (words_length n) as H. induction (words n) as [|w ws IH]; [cbn; lia|]. cbn [List.map map concat length]. rewrite app_length.
  specialize (IH ltac:(intros; apply H; by right)). assert (length (show_field (w, Unresolved (level_type i) false false)) <= n + i + 10); [|lia].
  unfold show_field. cbn [fst snd u_name u_opt u_array]. rewrite !app_length, !txt_length, (H w) by (by left). cbn [sl length].
  assert (sl (level_type i) <= i + 5) by (destruct i; cbn [level_type]; [cbn; lia|rewrite nm_length; lia]). lia.
Qed.
Lemma grid_short n d : length (show_ast (grid n d)) <= 60 * (d + 1) * (d + 1) * (n + 1) * 2 ^ n.
Proof.
  assert (1 <= 2 ^ n) as H1 by (assert (0 < 2 ^ n); [|lia]; apply Nat.neq_0_lt_0, Nat.pow_nonzero; lia).
  assert (forall k, length (show_ast (grid_decls n k)) <= (k + 1) * (2 ^ n * (n + k + 10) + k + 20)) as HD.
  { assert (forall i, length (show_node (NDecl (nm i) (AStruct (level n i)))) <= 2 ^ n * (n + i + 10) + i + 20) as HN.
    { intros i. cbn [show_node show_type]. rewrite !app_length, !txt_length, nm_length. pose proof (level_length n i). cbn [sl length]. lia. }
    induction k as [|k IH]; cbn [grid_decls]; unfold show_ast in *; cbn [map concat]; rewrite app_length.
    - pose proof (HN 0). cbn [map concat length]. lia.
    - pose proof (HN (S k)). assert (2 ^ n * (n + k + 10) <= 2 ^ n * (n + S k + 10)) by (apply Nat.mul_le_mono_l; lia). nia. }
  unfold grid, show_ast. rewrite map_app, concat_app, app_length. fold (show_ast (grid_decls n d)). specialize (HD d).
  cbn [map concat show_node]. rewrite !app_length, !txt_length, nm_length. cbn [sl length].
  set (W := 2 ^ n) in *. clearbody W. assert (n + d + 10 <= 12 * ((d + 1) * (n + 1))) by nia.
  assert (W * (n + d + 10) <= 12 * ((d + 1) * (n + 1) * W)) by nia. assert (d + 20 <= 20 * ((d + 1) * (n + 1) * W)) by nia.
  set (V := (d + 1) * (n + 1) * W) in *. assert (1 <= V) by nia. assert (d + 1 <= V) by nia.
  replace (60 * (d + 1) * (d + 1) * (n + 1) * W) with (60 * ((d + 1) * V)) by (subst V; lia).
  assert ((d + 1) * (W * (n + d + 10) + d + 20) <= (d + 1) * (32 * V)) by (apply Nat.mul_le_mono_l; lia). nia.
Qed.
Lemma grid_leaves iter n d r : fair_order iter -> type_check iter (grid n d) = Ok r ->
  forall i t, r_types r !! nm i = Some (nm i, t) -> (2 ^ n) ^ S i <= leaves t.
Proof.
  intros Hf Hr. destruct (type_check_result _ _ _ Hf (grid_names n d) Hr) as (_ & _ & _ & Hent).
  assert (forall i t, r_types r !! level_type i = Some (level_type i, t) -> (2 ^ n) ^ i <= leaves t) as H; [|intros i; apply (H (S i))].
  induction i as [|i IH]; intros t Ht; destruct (Hent _ _ _ Ht) as [_ [(b & Hb & ->)|[(vs & rp & Hd & _)|(fs & ds & rs & Hd & Hp & Hm & ->)]]].
  - done.
  - by apply grid_in in Hd as (? & _ & _ & [=]).
  - apply grid_in in Hd as (k & _ & E & _). exfalso. apply (nm_not_builtin k). rewrite <- E. cbn. set_solver.
  - apply builtin_of_name_in in Hb. by apply nm_not_builtin in Hb.
  - by apply grid_in in Hd as (? & _ & _ & [=]).
  - apply grid_in in Hd as (k & _ & <-%nm_inj & [= ->]). cbn [leaves].
    assert (length ds * (2 ^ n) ^ i <= fold_right (fun f m => leaves (f_ty f) + m) 0 rs) as HL.
    { assert (forall x, x ∈ ds -> u_name x.2 = level_type i) as Hu. { intros [f u]. rewrite Hp. by intros [_ ->]%level_in. }
      clear Hp Ht. induction Hm as [|x f ds rs (_ & _ & _ & _ & He) _ IHm]; [cbn; lia|]. cbn [length fold_right].
      specialize (IHm ltac:(intros; apply Hu; by right)). rewrite (Hu x) in He by (by left). specialize (IH _ He). lia. }
    assert (length ds = 2 ^ n) as El. { rewrite (Permutation_length Hp). unfold level. by rewrite map_length, words_count. }
    rewrite El in HL. rewrite Nat.pow_succ_r'. exact HL.
Qed.
Lemma exp_beats_power M d : exists n, M * (n + 1) ^ d < 2 ^ n.
Proof.
  set (m := M + 2 * d + 1). exists (2 ^ (2 * m)). set (n := 2 ^ (2 * m)).
  assert (m + 1 <= 2 ^ m) as Hm by (pose proof (Nat.pow_gt_lin_r 2 m); lia).
  assert ((m + 1) * (m + 1) <= n) as Hn. { subst n. replace (2 * m) with (m + m) by lia. rewrite Nat.pow_add_r. nia. }
  assert (M + (2 * m + 1) * d <= n) as Hle by (subst m; nia).
  assert (n + 1 <= 2 ^ (2 * m + 1)) as H1. { rewrite Nat.pow_add_r, Nat.pow_1_r. fold n. assert (1 <= n) by nia. lia. }
  assert ((n + 1) ^ d <= 2 ^ ((2 * m + 1) * d)) as H2. { rewrite Nat.pow_mul_r. by apply Nat.pow_le_mono_l. }
  assert (M < 2 ^ M) as H3 by (apply Nat.pow_gt_lin_r; lia).
  apply (Nat.lt_le_trans _ (2 ^ (M + (2 * m + 1) * d))); [|apply Nat.pow_le_mono_r; lia].
  rewrite Nat.pow_add_r. assert (0 < 2 ^ ((2 * m + 1) * d)) by (apply Nat.neq_0_lt_0, Nat.pow_nonzero; lia). nia.
Qed.
Lemma grid_long K d : exists n, K * length (show_ast (grid n d)) ^ d < (2 ^ n) ^ S d.
Proof.
  destruct (exp_beats_power (K * (60 * (d + 1) * (d + 1)) ^ d) d) as [n Hn]. exists n. pose proof (grid_short n d) as HS.
  assert (length (show_ast (grid n d)) ^ d <= (60 * (d + 1) * (d + 1)) ^ d * (n + 1) ^ d * (2 ^ n) ^ d) as HL.
  { rewrite <- !Nat.pow_mul_l. apply Nat.pow_le_mono_l. exact HS. }
  rewrite Nat.pow_succ_r'. set (X := (2 ^ n) ^ d) in *. assert (0 < X) by (apply Nat.neq_0_lt_0, Nat.pow_nonzero, Nat.pow_nonzero; lia). nia.
Qed.
Lemma degree_refuted d K version now titer : exists s a e iter r t, parse_schema s = POk a /\ exports a = [e] /\ nested a (S d) e /\ (forall n fs, declares_struct a n fs -> NoDup fs.*1) /\ fair_order iter /\ type_check iter a = Ok r /\ generate version now titer r = Ok t /\ K * length s ^ d < sl t.
Proof.
  destruct (grid_long K d) as [n Hn].
  assert (is_ok (type_check iter_fwd (grid n d))) as [r Hr].
  { apply type_check_valid; [apply fair_fwd|apply grid_names|apply grid_valid]. }
  pose proof (generate_ok _ _ _ version now titer fair_fwd (grid_names n d) Hr) as Hg.
  eexists (show_ast (grid n d)), (grid n d), (nm d), iter_fwd, r, _. split; [apply parse_show, grid_legal|]. split; [apply grid_exports|]. split; [apply grid_nested|].
  split; [apply grid_distinct|]. split; [apply fair_fwd|]. split; [done|]. split; [exact Hg|].
  pose proof (generated_length _ _ _ _ _ _ _ fair_fwd (grid_names n d) Hr Hg) as HL.
  pose proof (export_entry _ _ _ fair_fwd (grid_names n d) Hr) as He.
  destruct (type_check_result _ _ _ fair_fwd (grid_names n d) Hr) as (Hx & _). rewrite grid_exports in Hx. injection Hx as Hx.
  rewrite <- Hx in He. pose proof (grid_leaves _ _ _ _ fair_fwd Hr _ _ He). lia.
Qed.
