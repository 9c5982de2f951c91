(** Refutation of C22: a family of schemas of quadratic length whose code is exponential. *)
From Verif Require Export GenProofs2.

(** "A", "AA", "AAA", ... *)
Fixpoint nm (i : nat) : string := match i with 0 => "A" | S i => String "A" (nm i) end.
Fixpoint tower_decls (n : nat) : ast :=
  match n with
  | 0 => [NDecl (nm 0) (AStruct [("x", Unresolved "uint8" false false)])]
  | S k => NDecl (nm (S k)) (AStruct [("a", Unresolved (nm k) false false); ("b", Unresolved (nm k) false false)]) :: tower_decls k
  end.
Definition tower (n : nat) : ast := tower_decls n ++ [NExport (nm n)].

Lemma nm_length i : String.length (nm i) = S i.
Proof. induction i; cbn; congruence. Qed.
Lemma nm_inj i j : nm i = nm j -> i = j.
Proof. intros H%(f_equal String.length). rewrite !nm_length in H. lia. Qed.
Lemma nm_not_builtin i : nm i ∉ builtin_names.
Proof.
  assert (forall s, s ∈ builtin_names -> exists c s', s = String c s' /\ c ≠ "A"%char) as H.
  { intros s Hs. unfold builtin_names in Hs. repeat (apply elem_of_cons in Hs as [->|Hs]; [by eexists _, _|]). by apply elem_of_nil in Hs. }
  intros (c & s & E & Hc)%H. destruct i; injection E as <- _; done.
Qed.
Lemma legal_nm i : legal_name (txt (nm i)).
Proof.
  assert (Forall (fun c => c = "A"%char) (txt (nm i))) as HA by (induction i; repeat constructor; done).
  assert (exists w, txt (nm i) = "A"%char :: w) as [w E] by (destruct i; eexists; reflexivity).
  split; [|split].
  - eapply Forall_impl; [exact HA|]. intros c ->. left. by apply (bool_decide_unpack _); vm_compute.
  - exists "A"%char, w. split; [done|]. by apply (bool_decide_unpack _); vm_compute.
  - intros k Hk [l Hl]. rewrite E in Hl. unfold reserved_list in Hk.
    repeat (apply elem_of_cons in Hk as [->|Hk]; [by vm_compute in Hl|]). by apply elem_of_nil in Hk.
Qed.
Lemma not_export_nm i : ~ txt "export" `prefix_of` txt (nm i).
Proof. intros [l Hl]. destruct i; done. Qed.

Lemma tower_decls_in n m t : NDecl m t ∈ tower_decls n <->
  (m = nm 0 /\ t = AStruct [("x", Unresolved "uint8" false false)]) \/
  (exists k, k < n /\ m = nm (S k) /\ t = AStruct [("a", Unresolved (nm k) false false); ("b", Unresolved (nm k) false false)]).
Proof.
  induction n as [|n IH].
  - cbn [tower_decls]. rewrite elem_of_list_singleton. split.
    + intros [= -> ->]. by left.
    + intros [[-> ->]|(k & ? & _)]; [done|lia].
  - cbn [tower_decls]. rewrite elem_of_cons, IH. split.
    + intros [[= -> ->]|[H|(k & ? & ? & ?)]]; [right; exists n; auto|by left|right; exists k; split; [lia|done]].
    + intros [H|(k & Hk & -> & ->)]; [by right; left|].
      destruct (decide (k = n)) as [->|]; [by left|]. right; right. exists k. split; [lia|done].
Qed.
Lemma tower_in n m t : NDecl m t ∈ tower n <-> NDecl m t ∈ tower_decls n.
Proof. unfold tower. rewrite elem_of_app, elem_of_list_singleton. naive_solver. Qed.
Lemma tower_exports n : exports (tower n) = [nm n].
Proof.
  unfold tower. assert (forall l, exports (tower_decls n ++ l) = exports l) as ->; [|done].
  intros l. induction n; cbn [tower_decls app exports]; auto.
Qed.
Lemma tower_decl_names n : decl_names (tower n) = List.map nm (rev (seq 0 (S n))).
Proof.
  unfold tower. assert (forall k, decl_names (tower_decls k ++ [NExport (nm n)]) = List.map nm (rev (seq 0 (S k)))) as H; [|apply H].
  induction k as [|k IH]; [done|]. rewrite seq_S. rewrite rev_app_distr. cbn [rev app List.map]. rewrite <- IH. done.
Qed.
Lemma tower_declared n k : k <= n -> nm k ∈ decl_names (tower n).
Proof.
  intros H. rewrite tower_decl_names. apply elem_of_list_In, in_map. apply in_rev. rewrite rev_involutive. apply in_seq. lia.
Qed.

Definition rk (s : string) : nat := if decide (s = "uint8") then 0 else String.length s.
Lemma rk_nm i : rk (nm i) = S i.
Proof.
  unfold rk. rewrite decide_False; [apply nm_length|]. intros E. apply (nm_not_builtin i). rewrite E. set_solver.
Qed.
Lemma tower_refers n s m : refers (tower n) s m -> rk m < rk s.
Proof.
  intros (fs & f & u & Hd & Hf & <-). unfold declares_struct in Hd. rewrite tower_in, tower_decls_in in Hd.
  destruct Hd as [[-> [= ->]]|(k & _ & -> & [= ->])].
  - apply elem_of_list_singleton in Hf as [= -> ->]. cbn [u_name]; rewrite rk_nm. unfold rk. rewrite decide_True by done. lia.
  - rewrite !elem_of_cons in Hf. destruct Hf as [[= -> ->]|[[= -> ->]|Hf]]; [..|by apply elem_of_nil in Hf]; cbn [u_name]; rewrite !rk_nm; lia.
Qed.
Lemma tower_valid n : valid_schema (tower n).
Proof.
  split.
  - exists (nm n). rewrite tower_exports. destruct n.
    + eexists. split; [done|]. unfold declares_struct. rewrite tower_in, tower_decls_in. left. done.
    + eexists. split; [done|]. unfold declares_struct. rewrite tower_in, tower_decls_in. right. exists n. split; [lia|done].
  - rewrite tower_decl_names. apply NoDup_fmap_2_strong; [intros; by apply nm_inj|]. 
    rewrite NoDup_ListNoDup. apply NoDup_rev, seq_NoDup.
  - intros m vs. unfold declares_enum. rewrite tower_in, tower_decls_in. naive_solver.
  - intros m fs f u Hd Hf. unfold declares_struct in Hd. rewrite tower_in, tower_decls_in in Hd.
    destruct Hd as [[-> [= ->]]|(k & Hk & -> & [= ->])].
    + apply elem_of_list_singleton in Hf as [= -> ->]. left. cbn [u_name]. set_solver.
    + right. assert (u_name u = nm k) as -> by (rewrite !elem_of_cons in Hf; destruct Hf as [[= -> ->]|[[= -> ->]|Hf]]; [done..|by apply elem_of_nil in Hf]).
      apply tower_declared. lia.
  - intros m fs f u Hd Hf. unfold declares_struct in Hd. rewrite tower_in, tower_decls_in in Hd.
    destruct Hd as [[-> [= ->]]|(k & Hk & -> & [= ->])].
    + apply elem_of_list_singleton in Hf as [= -> ->]. cbn. naive_solver.
    + rewrite !elem_of_cons in Hf; destruct Hf as [[= -> ->]|[[= -> ->]|Hf]]; [cbn; naive_solver..|by apply elem_of_nil in Hf].
  - intros m Hm. assert (forall x y, tc (refers (tower n)) x y -> rk y < rk x) as H.
    { induction 1 as [x y Hxy|x y z Hxy _ IH]; apply tower_refers in Hxy; lia. }
    apply H in Hm. lia.
  - intros m fs Hd. unfold declares_struct in Hd. rewrite tower_in, tower_decls_in in Hd.
    destruct Hd as [[-> [= ->]]|(k & Hk & -> & [= ->])].
    + apply (bool_decide_unpack _). vm_compute. exact I.
    + cbn [compared_names u_name]. destruct (decide (nm k ∈ builtin_names)) as [H|_]; [by apply nm_not_builtin in H|]. apply NoDup_singleton.
Qed.
Lemma tower_names n : no_builtin_decl (tower n).
Proof.
  intros m. rewrite tower_decl_names. intros (i & <- & _)%elem_of_list_In%in_map_iff. apply nm_not_builtin.
Qed.
Lemma tower_legal n : legal_ast (tower n).
Proof.
  apply Forall_forall. intros [m t|e] Hin.
  - rewrite tower_in, tower_decls_in in Hin. destruct Hin as [[-> ->]|(k & Hk & -> & ->)]; (split; [apply legal_nm|split; [apply not_export_nm|]]).
    + cbn. apply Forall_singleton. split; [|apply (bool_decide_unpack _); vm_compute; exact I].
      split; [|split]; [apply (bool_decide_unpack _); vm_compute; exact I|eexists _, _; split; [reflexivity|apply (bool_decide_unpack _); vm_compute; exact I]|].
      intros k Hk [l Hl]. unfold reserved_list in Hk. repeat (apply elem_of_cons in Hk as [->|Hk]; [by vm_compute in Hl|]). by apply elem_of_nil in Hk.
    + assert (forall s, s = "a" \/ s = "b" -> legal_name (txt s)) as Hs.
      { intros s [-> | ->]; (split; [|split]; [apply (bool_decide_unpack _); vm_compute; exact I|eexists _, _; split; [reflexivity|apply (bool_decide_unpack _); vm_compute; exact I]|];
        intros k0 Hk0 [l Hl]; unfold reserved_list in Hk0; repeat (apply elem_of_cons in Hk0 as [->|Hk0]; [by vm_compute in Hl|]); by apply elem_of_nil in Hk0). }
      apply Forall_cons. split; [split; [apply Hs; by left|apply legal_nm]|].
      apply Forall_singleton. split; [apply Hs; by right|apply legal_nm].
  - cbn. assert (nm n = e) as <-; [|apply legal_nm].
    unfold tower in Hin. apply elem_of_app in Hin as [Hin|Hin]; [|apply elem_of_list_singleton in Hin; congruence].
    exfalso. induction n; cbn [tower_decls] in Hin; apply elem_of_cons in Hin as [[=]|Hin]; [by apply elem_of_nil in Hin|auto].
Qed.

(** ** the text is short *)
Lemma txt_length s : length (txt s) = String.length s.
Proof. induction s as [|c s IH]; [done|]. cbn. f_equal. apply IH. Qed.
Lemma show_decls_length n : length (show_ast (tower_decls n)) <= 40 * (n + 1) * (n + 1).
Proof.
  induction n as [|n IH]; [vm_compute; lia|].
  cbn [tower_decls]. unfold show_ast in *. cbn [map concat]. rewrite app_length.
  assert (length (show_node (NDecl (nm (S n)) (AStruct [("a", Unresolved (nm n) false false); ("b", Unresolved (nm n) false false)]))) <= 40 + 3 * n) as H.
  { cbn [show_node show_type map concat]. unfold show_field. cbn [fst snd u_name u_opt u_array]. rewrite !app_length, !txt_length, !nm_length.
    change (String.length "a") with 1. change (String.length "b") with 1. change (String.length ": ") with 2. change (String.length ", ") with 2. change (String.length ":") with 1.
    change (String.length "struct { ") with 9. change (String.length "}") with 1. cbn [length]. lia. }
  nia.
Qed.
Lemma tower_short n : length (show_ast (tower n)) <= 50 * (n + 1) * (n + 1).
Proof.
  unfold tower, show_ast. rewrite map_app, concat_app, app_length. fold (show_ast (tower_decls n)).
  pose proof (show_decls_length n). cbn [map concat show_node]. rewrite !app_length, !txt_length, nm_length. cbn. nia.
Qed.

(** ** the code is long *)
Fixpoint leaves (t : rtype) : nat :=
  match t with TStruct fs => fold_right (fun f n => leaves (f_ty f) + n) 0 fs | _ => 1 end.

Lemma tower_leaves iter n r : fair_order iter -> type_check iter (tower n) = Ok r ->
  forall i t, r_types r !! nm i = Some (nm i, t) -> 2 ^ i <= leaves t.
Proof.
  intros Hf Hr. destruct (type_check_result _ _ _ Hf (tower_names n) Hr) as (_ & _ & _ & Hent).
  induction i as [|i IH]; intros t Ht; destruct (Hent _ _ _ Ht) as [_ [(b & Hb & ->)|[(vs & rp & Hd & _)|(fs & ds & rs & Hd & Hp & Hm & ->)]]].
  - apply builtin_of_name_in in Hb. by apply nm_not_builtin in Hb.
  - unfold declares_enum in Hd. rewrite tower_in, tower_decls_in in Hd. naive_solver.
  - unfold declares_struct in Hd. rewrite tower_in, tower_decls_in in Hd.
    destruct Hd as [[_ [= ->]]|(k & _ & E & _)]; [|by apply nm_inj in E].
    apply Permutation_singleton_r in Hp as ->. inversion Hm as [|d f ds' rs' (_ & Hn & _ & _ & He) Hm' E1 E2]; subst. inversion Hm'; subst.
    cbn [leaves fold_right]. cbn in He. assert (leaves (f_ty f) = 1) as ->; [|done].
    destruct (Hent _ _ _ He) as [_ [(b & Hb & ->)|[(vs & rp & Hd & _)|(fs & ds & rs & Hd & _)]]]; [done|..].
    + unfold declares_enum in Hd. rewrite tower_in, tower_decls_in in Hd. naive_solver.
    + unfold declares_struct in Hd. rewrite tower_in, tower_decls_in in Hd. destruct Hd as [[E _]|(k & _ & E & _)]; [|]; by destruct (nm_not_builtin _ (eq_ind _ (fun x => x ∈ builtin_names) ltac:(set_solver) _ E)).
  - apply builtin_of_name_in in Hb. by apply nm_not_builtin in Hb.
  - unfold declares_enum in Hd. rewrite tower_in, tower_decls_in in Hd. naive_solver.
  - unfold declares_struct in Hd. rewrite tower_in, tower_decls_in in Hd.
    destruct Hd as [[E _]|(k & _ & E & [= ->])]; [by apply nm_inj in E|]. apply nm_inj in E. injection E as <-.
    assert (exists d1 d2, ds = [d1; d2]) as (d1 & d2 & ->).
    { apply Permutation_length in Hp. destruct ds as [|d1 [|d2 [|? ?]]]; try done. eauto. }
    assert (forall d, d ∈ [d1; d2] -> u_name d.2 = nm i) as Hu.
    { intros d Hd. rewrite Hp in Hd. rewrite !elem_of_cons in Hd. destruct Hd as [->|[->|Hd]]; [done..|by apply elem_of_nil in Hd]. }
    inversion Hm as [|? f1 ? ? (_ & _ & _ & _ & He1) Hm1]; subst. inversion Hm1 as [|? f2 ? ? (_ & _ & _ & _ & He2) Hm2]; subst. inversion Hm2; subst.
    rewrite Hu in He1 by (by left). rewrite Hu in He2 by (by right; left).
    pose proof (IH _ He1). pose proof (IH _ He2). cbn [leaves fold_right Nat.pow]. lia.
Qed.

Lemma print_block_length_app ind a b :
  String.length (print_block ind (a ++ b)) = String.length (print_block ind a) + String.length (print_block ind b).
Proof. by rewrite print_block_app, slength_app. Qed.
Lemma print_stmt_pos ind s : 1 <= String.length (print_stmt ind s).
Proof. destruct s; cbn [print_stmt]; unfold line; rewrite !slength_app; cbn; lia. Qed.
Lemma print_block_cons_ge ind s b : String.length (print_block ind b) + 1 <= String.length (print_block ind (s :: b)).
Proof. rewrite print_block_cons, slength_app. pose proof (print_stmt_pos ind s). lia. Qed.

Lemma w_wrap_length ar op p n : (forall ind st, n <= String.length (print_block ind (p st))) ->
  forall ind st, n <= String.length (print_block ind (w_wrap ar op p st)).
Proof.
  intros Hp. unfold w_wrap.
  assert (forall ind st, n <= String.length (print_block ind ((if ar then w_arr p else p) st))) as H.
  { destruct ar; [|done]. intros ind st. unfold w_arr. rewrite !print_block_cons, print_block_nil. cbn [print_stmt]. fold_block.
    rewrite print_block_cons, !slength_app. specialize (Hp (ind +:+ tab) [varname st "item"]). lia. }
  destruct op; [|done]. intros ind st. unfold w_opt. rewrite !print_block_cons, print_block_nil. cbn [print_stmt]. fold_block.
  rewrite print_block_cons, !slength_app. specialize (H (ind +:+ tab +:+ tab) [bindname st]). lia.
Qed.
Lemma w_ty_length t : forall tn ind st, leaves t <= String.length (print_block ind (w_ty t tn st)).
Proof.
  induction t as [b|e|fs IH] using rtype_ind'; intros tn ind st.
  - cbn [w_ty leaves]. destruct b; cbn [w_builtin]; (etransitivity; [|apply print_block_cons_ge]); lia.
  - cbn [w_ty leaves w_enum]. (etransitivity; [|apply print_block_cons_ge]); lia.
  - cbn [w_ty leaves]. induction IH as [|f fs Hf _ IHfs]; [cbn; lia|]. cbn [List.map List.concat fold_right].
    rewrite print_block_length_app. pose proof (w_wrap_length (f_array f) (f_opt f) _ _ (Hf (f_tname f)) ind (st ++ [f_name f])). lia.
Qed.

Lemma generated_length iter a r version now titer t :
  fair_order iter -> no_builtin_decl a -> type_check iter a = Ok r -> generate version now titer r = Ok t ->
  leaves (TStruct (x_fields (r_export r))) <= String.length t.
Proof.
  intros Hf Hnb Hr Hg. rewrite (generate_ok _ _ _ _ _ _ Hf Hnb Hr) in Hg. injection Hg as <-.
  unfold print_module. cbn [m_class module_of]. rewrite !slength_app. unfold print_class. rewrite !slength_app.
  cbn [class_of k_write].
  pose proof (w_ty_length (TStruct (x_fields (r_export r))) "" (tab +:+ tab) ["this"]) as H.
  change (w_ty (TStruct (x_fields (r_export r))) "" ["this"]) with (w_fields (x_fields (r_export r)) ["this"]) in H. lia.
Qed.

Lemma exp_beats_square K : exists n, K * ((n + 1) * (n + 1)) < 2 ^ n.
Proof.
  exists (4 * (16 * K)). set (m := 16 * K).
  assert (m + 1 <= 2 ^ m) as Hm by (pose proof (Nat.pow_gt_lin_r 2 m); lia).
  replace (2 ^ (4 * m)) with (2 ^ m * 2 ^ m * (2 ^ m * 2 ^ m)) by (rewrite <- !Nat.pow_add_r; f_equal; lia).
  assert ((m + 1) * (m + 1) <= 2 ^ m * 2 ^ m) by nia.
  assert ((4 * m + 1) * (4 * m + 1) <= 16 * ((m + 1) * (m + 1))) by nia.
  assert (K * 16 < (m + 1) * (m + 1)) by (subst m; nia).
  set (x := (m + 1) * (m + 1)) in *. set (y := 2 ^ m * 2 ^ m) in *.
  assert (K * ((4 * m + 1) * (4 * m + 1)) <= K * 16 * x) by nia.
  assert (K * 16 * x < x * x) by nia. nia.
Qed.

Lemma size_refuted K version now titer : exists s a iter r t, parse_schema s = POk a /\ fair_order iter /\
  type_check iter a = Ok r /\ generate version now titer r = Ok t /\ K * length s < String.length t.
Proof.
  destruct (exp_beats_square (K * 50)) as [n Hn].
  assert (is_ok (type_check iter_fwd (tower n))) as [r Hr].
  { apply type_check_valid; [apply fair_fwd|apply tower_names|apply tower_valid]. }
  exists (show_ast (tower n)), (tower n), iter_fwd, r. 
  pose proof (generate_ok _ _ _ version now titer fair_fwd (tower_names n) Hr) as Hg.
  eexists. split; [apply parse_show, tower_legal|]. split; [apply fair_fwd|]. split; [done|]. split; [exact Hg|].
  pose proof (generated_length _ _ _ _ _ _ _ fair_fwd (tower_names n) Hr Hg) as HL.
  pose proof (export_entry _ _ _ fair_fwd (tower_names n) Hr) as He.
  destruct (type_check_result _ _ _ fair_fwd (tower_names n) Hr) as (Hx & _). rewrite tower_exports in Hx. injection Hx as Hx.
  rewrite <- Hx in He. pose proof (tower_leaves _ _ _ fair_fwd Hr _ _ He). pose proof (tower_short n). nia.
Qed.
