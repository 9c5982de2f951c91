(** Schemas for which the checker takes long or recurses deeply, and the bounds in terms of the text. *)
From Verif Require Export CostProofs CheckCostProofs GenSize3.

Definition above {A B} (w : work A) (v : work B) : Prop := v.2.1 <= w.2.1 /\ v.2.2 <= w.2.2.
Lemma above_trans {A B C} (w : work A) (v : work B) (u : work C) : above w v -> above v u -> above w u.
Proof. unfold above. lia. Qed.
Lemma bind_above {A B} (w : work A) (k : A -> work B) a : w.1 = Ok a -> above (wbind w k) (k a).
Proof. intros E. unfold wbind. rewrite E. split; cbn; lia. Qed.
Lemma bind_above_1 {A B} (w : work A) (k : A -> work B) : above (wbind w k) w.
Proof. unfold wbind. destruct w.1; split; cbn; lia. Qed.
Lemma ticks_above {A} n (w : work A) : above (ticks n w) w.
Proof. split; cbn; lia. Qed.
Lemma export_above iter a r : fair_order iter -> type_check iter a = Ok r -> exists e C0 D c, exports a = [e] /\ front_facts a e C0 D /\ second_result D C0 c /\
  above (w_type_check iter a) (w_resolve_export e c).
Proof.
  intros Hf Hr. destruct (type_check_inv _ _ _ Hf Hr) as (e & C0 & D & c & H1 & F & H2 & S & H3). exists e, C0, D, c.
  split; [apply (ff_export _ _ _ _ F)|]. split; [done|]. split; [done|]. unfold front in H1. apply rbind_ok in H1 as (e' & He & H1). apply rbind_ok in H1 as (un & Hu & H1).
  apply rbind_ok in H1 as ([fp un'] & Hp & [= <- <- <-]). unfold w_type_check.
  eapply above_trans; [apply (bind_above _ _ e'); rewrite e_get_export; exact He|]. eapply above_trans; [apply (bind_above _ _ un); rewrite e_collect_types; exact Hu|].
  eapply above_trans; [apply (bind_above _ _ (fp, un')); rewrite e_first_pass; exact Hp|]. eapply above_trans; [apply ticks_above|].
  eapply above_trans; [apply (bind_above _ _ c); rewrite e_second_pass; exact H2|]. apply bind_above_1.
Qed.

(** ** Depth *)
Lemma tower_entry n iter C0 D c k : front_facts (tower n) (nm n) C0 D -> second_result D C0 c -> fair_order iter -> k < n ->
  exists f fs, c !! nm (S k) = Some (nm (S k), TStruct (f :: fs)) /\ f_tname f = nm k /\ c !! nm k = Some (nm k, f_ty f).
Proof.
  intros F S _ Hk. destruct (c_declared (tower n) (tower_names n) _ _ _ F c S (nm (Datatypes.S k)) [("a", Unresolved (nm k) false false); ("b", Unresolved (nm k) false false)])
    as (ds & rs & Hc & Hp & Hrs).
  { unfold declares_struct. rewrite tower_in, tower_decls_in. right. by exists k. }
  destruct Hrs as [|d f ds rs (_ & E & _ & _ & Hl) _]; [by apply Permutation_nil in Hp|]. exists f, rs. split; [done|].
  assert (d ∈ [("a", Unresolved (nm k) false false); ("b", Unresolved (nm k) false false)]) as Hd by (rewrite <- Hp; by left).
  assert (u_name d.2 = nm k) as Ed by (rewrite !elem_of_cons in Hd; destruct Hd as [->|[->|Hd]]; [done..|by apply elem_of_nil in Hd]). rewrite <- Ed. done.
Qed.
Lemma collect_first f fs n v : f_tname f ∉ {[n]} ∪ v -> S (w_collect_used (f_ty f) (f_tname f) ({[n]} ∪ v)).2.2 <= (w_collect_used (TStruct (f :: fs)) n v).2.2.
Proof. intros H. cbn [w_collect_used fst snd and_then]. rewrite decide_False by done. lia. Qed.
Lemma tower_collect n iter C0 D c k : front_facts (tower n) (nm n) C0 D -> second_result D C0 c -> fair_order iter -> forall t v, k <= n ->
  c !! nm k = Some (nm k, t) -> (forall i, i < k -> nm i ∉ v) -> S k <= (w_collect_used t (nm k) v).2.2.
Proof.
  intros F S Hf. induction k as [|k IH]; intros t v Hk Ht Hv; [destruct t; cbn; lia|].
  destruct (tower_entry n iter C0 D c k F S Hf Hk) as (f & fs & Hc & Ef & Hl). rewrite Ht in Hc. injection Hc as ->.
  assert (forall i, i < Datatypes.S k -> nm i ∉ {[nm (Datatypes.S k)]} ∪ v) as Hv'.
  { intros i Hi [E%elem_of_singleton|H]%elem_of_union; [apply nm_inj in E; lia|by apply (Hv i)]. }
  etrans; [|apply collect_first; rewrite Ef; apply Hv'; lia]. apply le_n_S. rewrite Ef. apply IH; [lia|done|]. intros i Hi. apply Hv'. lia.
Qed.
Lemma tower_depth n iter : fair_order iter -> is_ok (type_check iter (tower n)) /\ n <= (w_type_check iter (tower n)).2.2.
Proof.
  intros Hf. assert (is_ok (type_check iter (tower n))) as Hok by (apply type_check_valid; [done|apply tower_names|apply tower_valid]). split; [done|].
  destruct Hok as [r Hr]. destruct (export_above _ _ _ Hf Hr) as (e & C0 & D & c & He & F & S & [_ Hab]). rewrite tower_exports in He. injection He as <-.
  etrans; [|exact Hab]. destruct n as [|n]; [lia|]. destruct (tower_entry (Datatypes.S n) iter C0 D c n F S Hf ltac:(lia)) as (f & fs & Hc & Ef & Hl).
  unfold w_resolve_export. rewrite Hc. cbn [ticks w_used fst snd and_then]. rewrite Ef.
  pose proof (tower_collect (Datatypes.S n) iter C0 D c n F S Hf (f_ty f) {[nm (Datatypes.S n)]} ltac:(lia) Hl) as H. etrans; [apply H|lia].
  intros i Hi E%elem_of_singleton. apply nm_inj in E. lia.
Qed.
Lemma tower_lines n : length (tower n) = n + 2.
Proof. unfold tower. rewrite app_length. assert (length (tower_decls n) = S n) as ->; [induction n; cbn; lia|cbn; lia]. Qed.

(** ** Steps: one struct with many fields, used many times *)
Definition narrow_fields (m : nat) : list (string * unresolved) := List.map (fun i => (nm i, Unresolved "uint8" false false)) (seq 0 m).
Definition square (m : nat) : ast := [NDecl "E" (AStruct (narrow_fields m)); NDecl "F" (AStruct (wide_fields m)); NExport "F"].
Lemma square_in m n t : NDecl n t ∈ square m <-> (n = "E" /\ t = AStruct (narrow_fields m)) \/ (n = "F" /\ t = AStruct (wide_fields m)).
Proof. unfold square. rewrite !elem_of_cons, elem_of_nil. naive_solver. Qed.
Lemma narrow_field m f u : (f, u) ∈ narrow_fields m <-> exists i, i < m /\ f = nm i /\ u = Unresolved "uint8" false false.
Proof.
  unfold narrow_fields. rewrite elem_of_list_In, in_map_iff. split.
  - intros (i & [= <- <-] & Hi%in_seq). exists i. split; [lia|done].
  - intros (i & Hi & -> & ->). exists i. split; [done|]. apply in_seq. lia.
Qed.
Lemma narrow_names m : (narrow_fields m).*1 = List.map nm (seq 0 m).
Proof. unfold narrow_fields. generalize 0. induction m as [|m IH]; intros k; [done|]. cbn. by rewrite IH. Qed.
Lemma nms_NoDup k m : NoDup (List.map nm (seq k m)).
Proof. apply NoDup_fmap_2_strong; [intros; by apply nm_inj|]. rewrite NoDup_ListNoDup. apply seq_NoDup. Qed.
Lemma narrow_compared m : compared_names (narrow_fields m) = List.map nm (seq 0 m).
Proof.
  unfold narrow_fields. generalize 0. induction m as [|m IH]; intros k; [done|]. cbn [seq List.map compared_names u_name].
  rewrite decide_True by (by apply (bool_decide_unpack _); vm_compute). by rewrite IH.
Qed.
Lemma square_valid m : valid_schema (square m).
Proof.
  split.
  - exists "F", (wide_fields m). split; [done|]. apply square_in. by right.
  - apply (bool_decide_unpack _). vm_compute. exact I.
  - intros n vs [[_ [=]]|[_ [=]]]%square_in.
  - intros n fs f u [[-> [= ->]]|[-> [= ->]]]%square_in; [intros (i & _ & -> & ->)%narrow_field; left; cbn; set_solver|intros (i & _ & -> & ->)%wide_field; right; cbn; by left].
  - intros n fs f u [[-> [= ->]]|[-> [= ->]]]%square_in; [intros (i & _ & -> & ->)%narrow_field; naive_solver|intros (i & _ & -> & ->)%wide_field; naive_solver].
  - set (h s := if decide (s = "F") then 2 else if decide (s = "E") then 1 else 0). assert (forall x y, refers (square m) x y -> h y < h x) as Hr.
    { intros x y (fs & f & u & [[-> [= ->]]|[-> [= ->]]]%square_in & Hf & <-); [apply narrow_field in Hf as (i & _ & -> & ->)|apply wide_field in Hf as (i & _ & -> & ->)]; vm_compute; lia. }
    intros n Hn. assert (forall x y, tc (refers (square m)) x y -> h y < h x) as H by (induction 1 as [x y Hxy|x y z Hxy _ IH]; apply Hr in Hxy; lia). apply H in Hn. lia.
  - intros n fs [[-> [= ->]]|[-> [= ->]]]%square_in; [rewrite narrow_compared; apply nms_NoDup|]. unfold wide_fields. destruct m as [|m]; [constructor|]. cbn [seq List.map compared_names u_name].
    rewrite decide_False by (by apply (bool_decide_unpack _); vm_compute). apply NoDup_singleton.
Qed.
Lemma square_names m : no_builtin_decl (square m).
Proof. intros n. cbn. rewrite !elem_of_cons, elem_of_nil. intros [->|[->|[]]]; by apply (bool_decide_unpack _); vm_compute. Qed.
Lemma square_items m : items (square m) = 2 * m + 3.
Proof. unfold items, square. cbn. unfold narrow_fields, wide_fields. rewrite !map_length, !seq_length. lia. Qed.
Lemma square_distinct m n fs : declares_struct (square m) n fs -> NoDup fs.*1.
Proof.
  intros [[-> [= ->]]|[-> [= ->]]]%square_in; [rewrite narrow_names; apply nms_NoDup|]. assert ((wide_fields m).*1 = List.map nm (seq 0 m)) as ->; [|apply nms_NoDup].
  unfold wide_fields. generalize 0. induction m as [|m IH]; intros k; [done|]. cbn. by rewrite IH.
Qed.
Lemma collect_fields t n v : fields_of t <= (w_collect_used t n v).2.1.
Proof. destruct t as [b|e|fs]; cbn [fields_of w_collect_used fst snd]; lia. Qed.
Lemma used_fields fs v K : (forall f, f ∈ fs -> K <= fields_of (f_ty f)) -> length fs * K <= (w_used fs v).2.1.
Proof.
  revert v. induction fs as [|f fs IH]; intros v H; [done|]. cbn [w_used fst snd and_then length]. pose proof (collect_fields (f_ty f) (f_tname f) v).
  assert (K <= fields_of (f_ty f)) by (apply H; by left). assert (length fs * K <= (w_used fs (w_collect_used (f_ty f) (f_tname f) v).1).2.1) by (apply IH; intros; apply H; by right). lia.
Qed.
Lemma square_steps m iter : fair_order iter -> is_ok (type_check iter (square m)) /\ m * m <= (w_type_check iter (square m)).2.1.
Proof.
  intros Hf. assert (is_ok (type_check iter (square m))) as Hok by (apply type_check_valid; [done|apply square_names|apply square_valid]). split; [done|].
  destruct Hok as [r Hr]. destruct (export_above _ _ _ Hf Hr) as (e & C0 & D & c & He & F & S & [Hab _]). injection He as <-. etrans; [|exact Hab].
  destruct (c_declared (square m) (square_names m) _ _ _ F c S "E" (narrow_fields m)) as (ds & rs & Hc & Hp & Hrs); [apply square_in; by left|].
  destruct (c_declared (square m) (square_names m) _ _ _ F c S "F" (wide_fields m)) as (ds' & rs' & Hc' & Hp' & Hrs'); [apply square_in; by right|].
  unfold w_resolve_export. rewrite Hc'. cbn [ticks fst snd]. pose proof (used_fields rs' {["F"]} m) as H.
  assert (length rs' = m) as E'. { apply Forall2_length in Hrs'. apply Permutation_length in Hp'. unfold wide_fields in Hp'. rewrite map_length, seq_length in Hp'. lia. }
  rewrite E' in H. etrans; [apply H|lia]. intros f Hin. destruct (Forall2_elem_r _ _ _ _ Hrs' Hin) as ([g u] & Hd & (_ & _ & _ & _ & Hl)).
  rewrite Hp' in Hd. apply wide_field in Hd as (i & _ & -> & ->). cbn [snd u_name] in Hl. rewrite Hc in Hl. injection Hl as <-. cbn [fields_of].
  apply Forall2_length in Hrs. apply Permutation_length in Hp. unfold narrow_fields in Hp. rewrite map_length, seq_length in Hp. lia.
Qed.
Lemma steps_not_linear K : exists a, no_builtin_decl a /\ (forall n fs, declares_struct a n fs -> NoDup fs.*1) /\
  forall iter, fair_order iter -> is_ok (type_check iter a) /\ K * items a < (w_type_check iter a).2.1.
Proof.
  exists (square (2 * K + 3 * K + 1)). split; [apply square_names|]. split; [apply square_distinct|]. intros iter Hf.
  destruct (square_steps (2 * K + 3 * K + 1) iter Hf) as [H1 H2]. split; [done|]. rewrite square_items. nia.
Qed.
Lemma depth_unbounded d : exists a, no_builtin_decl a /\ length a = d + 2 /\ forall iter, fair_order iter -> is_ok (type_check iter a) /\ d <= (w_type_check iter a).2.2.
Proof. exists (tower d). split; [apply tower_names|]. split; [apply tower_lines|]. intros iter. apply tower_depth. Qed.

(** ** In terms of the text *)
Lemma items_asize a : items a <= asize a.
Proof.
  induction a as [|[n t|n] a IH]; [done|..]; rewrite items_cons; unfold asize; cbn [List.map]; rewrite sum_cons; fold (asize a); cbn [nsize]; [|lia].
  assert (type_size t <= tsize t); [|lia]. destruct t as [vs|fs]; cbn [type_size tsize].
  - clear. induction vs as [|v vs IH]; [done|]. cbn [List.map length]. rewrite sum_cons. lia.
  - clear. induction fs as [|f fs IH]; [done|]. cbn [List.map length]. rewrite sum_cons. unfold fsize at 1. lia.
Qed.
Lemma check_text s a iter : parse_schema s = POk a -> fair_order iter ->
  (w_type_check iter a).2.1 <= 80 * (length s + 4) * (length s + 4).
Proof.
  intros Hp Hf. assert (no_builtin_decl a) as Hnb by (by eapply legal_no_builtin, parse_legal). destruct (check_bound a iter Hf Hnb) as [H _].
  apply parse_schema_ok, layout_size in Hp. pose proof (items_asize a). nia.
Qed.
