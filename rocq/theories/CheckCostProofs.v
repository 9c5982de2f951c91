(** Proofs about the work of the checker. *)
From Verif Require Export CheckCost CheckProofs3.

(** ** The counted functions are the ones of Check.v *)
Lemma wbind_1 {A B} (w : work A) (k : A -> work B) : (wbind w k).1 = rbind w.1 (fun a => (k a).1).
Proof. unfold wbind. by destruct w.1. Qed.
Lemma rbind_ext {A B} (r : res A) (k k' : A -> res B) : (forall a, k a = k' a) -> rbind r k = rbind r k'.
Proof. intros H. destruct r; cbn; auto. Qed.
Lemma e_get_export a o : (w_get_export a o).1 = get_export_loop a o.
Proof. revert o. induction a as [|[n t|n] a IH]; intros o; cbn; [done|apply IH|]. destruct o; [done|apply IH]. Qed.
Lemma e_collect_types a c : (w_collect_types a c).1 = collect_types_loop a c.
Proof. revert c. induction a as [|[n t|n] a IH]; intros c; cbn; [done| |apply IH]. destruct (c !! n); [done|apply IH]. Qed.
Lemma e_number n vs seen k acc : (w_number_variants n vs seen k acc).1 = number_variants n vs seen k acc.
Proof. revert seen k acc. induction vs as [|v vs IH]; intros; cbn; [done|]. case_decide; [done|apply IH]. Qed.
Lemma e_enum n vs : (w_resolve_enum n vs).1 = resolve_enum n vs.
Proof. unfold w_resolve_enum, resolve_enum. rewrite wbind_1. apply rbind_ext. intros r. rewrite wbind_1, e_number. done. Qed.
Lemma e_fpf n b fs seen acc : (w_first_pass_fields n b fs seen acc).1 = first_pass_fields n b fs seen acc.
Proof.
  revert seen acc. induction fs as [|[f u] fs IH]; intros; cbn; [done|]. case_decide; [done|]. cbn. rewrite wbind_1. cbn.
  apply rbind_ext. intros [x|]; [apply IH|done].
Qed.
Lemma e_one n t b st : (w_one_first_pass n t b st).1 = resolve_one_first_pass n t b st.
Proof.
  unfold w_one_first_pass, resolve_one_first_pass. destruct st as [fp un], t as [vs|fs]; rewrite wbind_1, ?e_enum, ?e_fpf; apply rbind_ext; [done|].
  intros l. by destruct (length l =? length fs)%nat.
Qed.
Lemma e_first_pass a b st : (w_first_pass a b st).1 = resolve_first_pass a b st.
Proof. revert st. induction a as [|[n t|n] a IH]; intros st; cbn; [done| |apply IH]. rewrite wbind_1, e_one. by apply rbind_ext. Qed.
Lemma e_split n c fs F N : (w_split_fields n c fs F N).1 = split_fields n c fs F N.
Proof. revert F N. induction fs as [|[f u] fs IH]; intros; cbn; [done|]. rewrite wbind_1. cbn. apply rbind_ext. intros [x|]; apply IH. Qed.
Lemma e_field_types rec rec' nr s : (forall n t s, (rec n t s).1 = rec' n t s) -> (w_field_types rec nr s).1 = resolve_field_types rec' nr s.
Proof.
  intros H. revert s. induction nr as [|[f u] nr IH]; intros s; cbn; [done|]. destruct (unres s !! u_name u).
  - rewrite wbind_1, H. apply rbind_ext, IH.
  - destruct (cache s !! u_name u); [apply IH|done].
Qed.
Lemma e_finish n c nr acc : (w_finish_fields n c nr acc).1 = finish_fields n c nr acc.
Proof. revert acc. induction nr as [|[f u] nr IH]; intros; cbn; [done|]. rewrite wbind_1. cbn. apply rbind_ext. intros [x|]; [apply IH|done]. Qed.
Lemma e_second fuel n t s : (w_one_second_pass fuel n t s).1 = resolve_one_second_pass fuel n t s.
Proof.
  revert n t s. induction fuel as [|fuel IH]; intros n t s; cbn [w_one_second_pass resolve_one_second_pass call fst]; [done|].
  destruct (cache s !! n); [done|]. destruct t as [vs|fs]; [done|]. case_decide; [done|]. rewrite wbind_1, e_split. apply rbind_ext.
  intros [F N]. destruct N as [|d N]; [done|]. rewrite wbind_1, (e_field_types _ (resolve_one_second_pass fuel)) by done.
  apply rbind_ext. intros s2. rewrite wbind_1, e_finish. by apply rbind_ext.
Qed.
Lemma e_loop fuel l s : (w_second_pass_loop fuel l s).1 = second_pass_loop fuel l s.
Proof. revert s. induction l as [|[n t] l IH]; intros s; cbn [w_second_pass_loop second_pass_loop ticks fst]; [done|]. rewrite wbind_1, e_second. by apply rbind_ext. Qed.
Lemma e_second_pass iter c un : (w_second_pass iter c un).1 = resolve_second_pass iter c un.
Proof. unfold w_second_pass, resolve_second_pass. cbn [ticks fst]. rewrite wbind_1, e_loop. done. Qed.
Lemma e_collect t : forall n v, (w_collect_used t n v).1 = collect_used_types t n v.
Proof.
  induction t as [b|e|fs IH] using rtype_ind'; intros n v; [done..|]. cbn [w_collect_used collect_used_types fst]. generalize ({[n]} ∪ v).
  induction IH as [|f fs Hf _ IHl]; intros v'; [done|]. cbn [fst]. rewrite IHl. f_equal. case_decide; [done|apply Hf].
Qed.
Lemma e_used fs v : (w_used fs v).1 = foldl (fun vis f => collect_used_types (f_ty f) (f_tname f) vis) v fs.
Proof. revert v. induction fs as [|f fs IH]; intros v; [done|]. cbn [w_used fst foldl]. by rewrite IH, e_collect. Qed.
Lemma e_export n c : (w_resolve_export n c).1 = resolve_export n c.
Proof. unfold w_resolve_export, resolve_export. destruct (c !! n) as [[m [b|e|fs]]|]; [done..| |done]. cbn [ticks fst]. by rewrite e_used. Qed.
Lemma e_type_check iter a : (w_type_check iter a).1 = type_check iter a.
Proof.
  unfold w_type_check, type_check. rewrite wbind_1, e_get_export. apply rbind_ext. intros e. rewrite wbind_1, e_collect_types. apply rbind_ext. intros un.
  rewrite wbind_1, e_first_pass. apply rbind_ext. intros [fp un']. cbn [ticks fst]. rewrite wbind_1, e_second_pass. apply rbind_ext. intros c.
  rewrite wbind_1, e_export. done.
Qed.

(** ** Bounds. [within w n d]: at most [n] steps and depth [d]. *)
Definition within {A} (w : work A) (n d : nat) : Prop := w.2.1 <= n /\ w.2.2 <= d.
Lemma in_ret {A} (r : res A) n d : within (wret r) n d.
Proof. split; cbn; lia. Qed.
Lemma in_ticks {A} k (w : work A) n d : within w n d -> within (ticks k w) (k + n) d.
Proof. intros [? ?]. split; cbn; lia. Qed.
Lemma in_bind {A B} (w : work A) (k : A -> work B) n1 n2 d : within w n1 d -> (forall a, w.1 = Ok a -> within (k a) n2 d) -> within (wbind w k) (n1 + n2) d.
Proof.
  intros [H1 H2] Hk. unfold wbind. destruct w.1 as [a| | |] eqn:E; [|split; cbn; lia..]. destruct (Hk a eq_refl) as [H3 H4]. split; cbn; lia.
Qed.
Lemma in_le {A} (w : work A) n d n' d' : within w n d -> n <= n' -> d <= d' -> within w n' d'.
Proof. intros [? ?] ? ?. split; lia. Qed.

Lemma in_get_export a o : within (w_get_export a o) (length a) 0.
Proof.
  revert o. induction a as [|[n t|n] a IH]; intros o; cbn; [apply in_ret|apply (in_ticks 1), IH|].
  destruct o; [|apply (in_ticks 1), IH]. eapply in_le; [apply in_ticks, (in_ret _ 0 0)|lia..].
Qed.
Lemma items_cons n a : items (n :: a) = match n with NDecl _ t => 1 + type_size t | NExport _ => 1 end + items a.
Proof. done. Qed.
Lemma items_length a : length a <= items a.
Proof. induction a as [|[n t|n] a IH]; [done|..]; rewrite items_cons; cbn; lia. Qed.
Lemma in_collect_types a c : within (w_collect_types a c) (items a) 0.
Proof.
  revert c. induction a as [|[n t|n] a IH]; intros c; cbn [w_collect_types]; [apply in_ret| |].
  - rewrite items_cons. destruct (c !! n); [|apply in_ticks, IH]. eapply in_le; [apply in_ticks, (in_ret _ 0 0)|lia..].
  - rewrite items_cons. apply in_ticks, IH.
Qed.
Lemma in_number n vs seen k acc : within (w_number_variants n vs seen k acc) (length vs) 0.
Proof.
  revert seen k acc. induction vs as [|v vs IH]; intros; cbn; [apply in_ret|]. case_decide; [|apply (in_ticks 1), IH].
  eapply in_le; [apply in_ticks, (in_ret _ 0 0)|lia..].
Qed.
Lemma in_fpf n b fs seen acc : within (w_first_pass_fields n b fs seen acc) (length fs) 0.
Proof.
  revert seen acc. induction fs as [|[f u] fs IH]; intros; cbn; [apply in_ret|]. case_decide.
  - eapply in_le; [apply in_ticks, (in_ret _ 0 0)|lia..].
  - eapply in_le; [apply in_ticks, (in_bind _ _ 0 (length fs) 0); [apply in_ret|]|lia..]. intros [x|] _; [apply IH|apply in_ret].
Qed.
Lemma in_one n t b st : within (w_one_first_pass n t b st) (2 * type_size t) 0.
Proof.
  unfold w_one_first_pass. destruct st as [fp un], t as [vs|fs]; cbn [type_size].
  - eapply in_le; [apply (in_bind _ _ (length vs) (length vs + 0) 0)|lia..].
    + unfold w_resolve_enum. apply (in_bind _ _ 0 (length vs) 0); [apply in_ret|]. intros r _. eapply in_le; [apply (in_bind _ _ (length vs) 0 0)|lia..]; [apply in_number|].
      intros; apply in_ret.
    + intros rv _. apply in_ticks, in_ret.
  - eapply in_le; [apply (in_bind _ _ (length fs) (length fs + 0) 0); [apply in_fpf|]|lia..]. intros l _.
    destruct (length l =? length fs)%nat; [apply in_ticks, in_ret|apply in_ret].
Qed.
Lemma in_first_pass a b st : within (w_first_pass a b st) (2 * items a) 0.
Proof.
  revert st. induction a as [|[n t|n] a IH]; intros st; cbn [w_first_pass]; [apply in_ret| |].
  - rewrite items_cons. eapply in_le; [apply in_ticks, in_bind; [apply in_one|intros; apply IH]|lia..].
  - rewrite items_cons. eapply in_le; [apply in_ticks, IH|lia..].
Qed.
Lemma in_split n c fs F N : within (w_split_fields n c fs F N) (length fs) 0.
Proof.
  revert F N. induction fs as [|[f u] fs IH]; intros; cbn; [apply in_ret|].
  eapply in_le; [apply in_ticks, (in_bind _ _ 0 (length fs) 0); [apply in_ret|]|lia..]. intros [x|] _; apply IH.
Qed.
Lemma split_length n c fs F N F' N' : split_fields n c fs F N = Ok (F', N') -> length N' <= length N + length fs.
Proof.
  revert F N. induction fs as [|[f u] fs IH]; intros F N; cbn; [intros [= <- <-]; lia|]. intros ([x|] & _ & H)%rbind_ok; apply IH in H; [lia|].
  rewrite app_length in H. cbn in H. lia.
Qed.
Lemma in_finish n c nr acc : within (w_finish_fields n c nr acc) (length nr) 0.
Proof.
  revert acc. induction nr as [|[f u] nr IH]; intros; cbn; [apply in_ret|].
  eapply in_le; [apply in_ticks, (in_bind _ _ 0 (length nr) 0); [apply in_ret|]|lia..]. intros [x|] _; [apply IH|apply in_ret].
Qed.

(** *** Potential: the total weight of the entries of a map that have not been visited *)
Definition left {X} (w : X -> nat) (m : gmap string X) (vis : gset string) : nat :=
  sum_list (map (fun kv => if decide (kv.1 ∈ vis) then 0 else w kv.2) (map_to_list m)).
Lemma sum_app l k : sum_list (l ++ k) = sum_list l + sum_list k.
Proof. induction l as [|x l IH]; [done|]. cbn. rewrite IH. lia. Qed.
Lemma sum_permut l k : l ≡ₚ k -> sum_list l = sum_list k.
Proof. induction 1; cbn; lia. Qed.
Lemma sum_mono {A} (f g : A -> nat) l : (forall x, x ∈ l -> f x <= g x) -> sum_list (map f l) <= sum_list (map g l).
Proof.
  induction l as [|x l IH]; intros H; [done|]. cbn. assert (f x <= g x) by (apply H; by left).
  assert (sum_list (map f l) <= sum_list (map g l)) by (apply IH; intros; apply H; by right). lia.
Qed.
Lemma left_mono {X} (w : X -> nat) m v v' : v ⊆ v' -> left w m v' <= left w m v.
Proof. intros H. apply sum_mono. intros x _. repeat case_decide; [lia..| |lia]. set_solver. Qed.
Lemma left_visit {X} (w : X -> nat) m v n x : m !! n = Some x -> n ∉ v -> left w m v = w x + left w m ({[n]} ∪ v).
Proof.
  intros Hm Hn. unfold left. assert (map_to_list m ≡ₚ (n, x) :: map_to_list (delete n m)) as Hp.
  { rewrite <- map_to_list_insert by apply lookup_delete. by rewrite insert_delete. }
  rewrite !(sum_permut _ _ (Permutation_map _ Hp)). cbn. rewrite decide_False by done. rewrite decide_True by set_solver.
  cbn. f_equal. f_equal. apply map_ext_in. intros [k y] Hk%elem_of_list_In%elem_of_map_to_list. cbn.
  assert (k ≠ n) by (intros ->; by rewrite lookup_delete in Hk). destruct (decide (k ∈ v)); [by rewrite decide_True by set_solver|by rewrite decide_False by set_solver].
Qed.
Lemma left_bound {X} (w : X -> nat) m v K : (forall n x, m !! n = Some x -> w x <= K) -> left w m v <= size m * K.
Proof.
  intros H. unfold left, size, map_size. cut (forall l, (forall kv, kv ∈ l -> w kv.2 <= K) ->
    sum_list (map (fun kv => if decide (kv.1 ∈ v) then 0 else w kv.2) l) <= length l * K).
  { intros Hl. apply Hl. intros [n x] Hx%elem_of_map_to_list. by eapply H. }
  induction l as [|[n x] l IH]; intros Hl; [done|]. cbn. assert (w x <= K) by (apply (Hl (n, x)); by left).
  assert (sum_list (map (fun kv => if decide (kv.1 ∈ v) then 0 else w kv.2) l) <= length l * K) by (apply IH; intros; apply Hl; by right).
  case_decide; lia.
Qed.

(** *** The second pass *)
Section second.
  Context (D : gmap string atype).
  Definition todo (s : sp) : nat := left (fun t => 5 * type_size t) D (visited s).
  Definition spends (w : work sp) (n d : nat) : Prop :=
    w.2.2 <= d /\ match w.1 with Ok s' => w.2.1 + todo s' <= n /\ unres s' ⊆ D | _ => w.2.1 <= n end.
  Lemma spends_le w n n' d d' : spends w n d -> n <= n' -> d <= d' -> spends w n' d'.
  Proof. intros [H1 H2] ? ?. split; [lia|]. destruct w.1; [|lia..]. destruct H2. split; [lia|done]. Qed.
  Lemma spends_ok s d : unres s ⊆ D -> spends (wret (Ok s)) (todo s) d.
  Proof. intros H. split; cbn; [lia|]. split; [lia|done]. Qed.
  Lemma spends_fails (r : res sp) n d : (forall s, r ≠ Ok s) -> spends (wret r) n d.
  Proof. intros H. split; cbn; [lia|]. destruct r; [by edestruct H|lia..]. Qed.
  Lemma spends_ticks k w n d : spends w n d -> spends (ticks k w) (k + n) d.
  Proof. intros [H1 H2]. split; [done|]. cbn. destruct w.1; [|lia..]. destruct H2. split; [lia|done]. Qed.
  Lemma spends_call w n d : spends w n d -> spends (call w) (S n) (S d).
  Proof. intros [H1 H2]. split; [cbn; lia|]. cbn. destruct w.1; [|lia..]. destruct H2. split; [lia|done]. Qed.
  Lemma spends_after {A} (w : work A) k n m d : within w n d -> (forall a, w.1 = Ok a -> spends (k a) m d) -> spends (wbind w k) (n + m) d.
  Proof.
    intros [H1 H2] Hk. unfold wbind. destruct w.1 as [a| | |]; [|split; cbn; lia..]. destruct (Hk a eq_refl) as [K1 K2].
    split; [cbn; lia|]. cbn. destruct (k a).1; [|lia..]. destruct K2. split; [lia|done].
  Qed.
  Lemma spends_then w k n m d : spends w n d -> (forall s, unres s ⊆ D -> spends (k s) (m + todo s) d) -> spends (wbind w k) (n + m) d.
  Proof.
    intros [H1 H2] Hk. unfold wbind. destruct w.1 as [s| | |]; [|split; cbn; lia..]. destruct H2 as [H2 H3]. destruct (Hk s H3) as [K1 K2].
    split; [cbn; lia|]. cbn. destruct (k s).1; [|lia..]. destruct K2. split; [lia|done].
  Qed.
  Lemma spends_field_types rec nr s d : (forall n t s, D !! n = Some t -> unres s ⊆ D -> spends (rec n t s) (1 + todo s) d) ->
    unres s ⊆ D -> spends (w_field_types rec nr s) (2 * length nr + todo s) d.
  Proof.
    intros Hrec. revert s. induction nr as [|[f u] nr IH]; intros s Hs; [by apply spends_ok|].
    cbn [w_field_types]. eapply spends_le; [apply (spends_ticks 1 _ (1 + todo s + 2 * length nr) d)|cbn; lia|done]. destruct (unres s !! u_name u) as [t|] eqn:E.
    - apply spends_then; [|intros; by apply IH].
      apply (Hrec (u_name u) t (Sp (cache s) (visited s) (delete (u_name u) (unres s)))); [by eapply lookup_weaken|cbn; etrans; [apply delete_subseteq|done]].
    - destruct (cache s !! u_name u); [|by apply spends_fails]. eapply spends_le; [by apply IH|lia..].
  Qed.
  Lemma spends_one fuel : forall n t s, D !! n = Some t -> unres s ⊆ D -> spends (w_one_second_pass fuel n t s) (1 + todo s) fuel.
  Proof.
    induction fuel as [|fuel IH]; intros n t s Hn Hs; [by apply spends_fails|]. cbn [w_one_second_pass]. apply (spends_call _ (todo s)).
    destruct (cache s !! n); [by apply spends_ok|]. destruct t as [vs|fs]; [by apply spends_fails|]. case_decide as Hv; [by apply spends_fails|].
    set (s1 := Sp (cache s) ({[n]} ∪ visited s) (unres s)). assert (todo s = 5 * length fs + todo s1) as -> by (unfold todo; by rewrite (left_visit _ _ _ n (AStruct fs))).
    eapply spends_le; [apply (spends_after _ _ (length fs) (4 * length fs + todo s1))|lia|reflexivity]; [eapply in_le; [apply in_split|lia..]|].
    intros [F N]. rewrite e_split. intros HN%split_length. cbn [length] in HN. destruct N as [|d0 N]; [eapply spends_le; [by apply (spends_ok (Sp _ (visited s1) _))| |reflexivity]|].
    { change (todo (Sp _ (visited s1) _)) with (todo s1). lia. }
    set (nr := d0 :: N) in *. eapply spends_le; [apply (spends_then _ _ (2 * length nr + todo s1) (length nr + length fs)); [by apply spends_field_types|]|lia|reflexivity].
    intros s2 H2. eapply spends_le; [apply (spends_after _ _ (length nr) (length fs + todo s2)); [eapply in_le; [apply in_finish|lia..]|]|lia|reflexivity].
    intros l _. apply spends_ticks. by apply (spends_ok (Sp _ (visited s2) (unres s2))).
  Qed.
  Lemma spends_loop fuel l s : (forall n t, (n, t) ∈ l -> D !! n = Some t) -> unres s ⊆ D ->
    spends (w_second_pass_loop fuel l s) (sum_list (map (fun d => 2 + type_size d.2) l) + todo s) fuel.
  Proof.
    revert s. induction l as [|[n t] l IH]; intros s Hl Hs; [by apply spends_ok|]. cbn [w_second_pass_loop map snd].
    change (sum_list (2 + type_size t :: ?y)) with (2 + type_size t + sum_list y).
    eapply spends_le; [apply spends_ticks, (spends_then _ _ (1 + todo s) (sum_list (map (fun d => 2 + type_size d.2) l)))|lia|reflexivity].
    - apply spends_one; [apply Hl; by left|done].
    - intros s' H'. apply IH; [|done]. intros. apply Hl. by right.
  Qed.
  Lemma in_loop fuel l s : (forall n t, (n, t) ∈ l -> D !! n = Some t) -> unres s ⊆ D ->
    within (w_second_pass_loop fuel l s) (sum_list (map (fun d => 2 + type_size d.2) l) + todo s) fuel.
  Proof. intros Hl Hs. destruct (spends_loop fuel l s Hl Hs) as [H1 H2]. split; [|done]. destruct (w_second_pass_loop fuel l s).1; [|done..]. lia. Qed.
End second.
Lemma in_second_pass iter c D K : fair_order iter -> (forall n t, D !! n = Some t -> type_size t <= K) ->
  within (w_second_pass iter c D) (size D * (7 * K + 3)) (S (size D)).
Proof.
  intros Hf HK. unfold w_second_pass. assert (forall j, j = 1 \/ j = 2 -> sum_list (map (fun d => j + type_size d.2) (map_to_list D)) <= size D * (K + j)) as Hs.
  { intros j _. pose proof (left_bound (fun t => j + type_size t) D ∅ (K + j)) as H. unfold left in H.
    etrans; [|apply H; intros n t Hn%HK; lia]. apply sum_mono. intros x _. rewrite decide_False by set_solver. done. }
  assert (sum_list (map (fun d => 2 + type_size d.2) (iter D)) = sum_list (map (fun d => 2 + type_size d.2) (map_to_list D))) as Hi by (by apply sum_permut, Permutation_map, Hf).
  eapply in_le; [apply in_ticks; eapply (in_bind _ _ _ 0); [|intros; apply in_ret]|..]; [apply (in_loop D)|..]; [|done| |done].
  - intros n t. rewrite (Hf D), elem_of_map_to_list. done.
  - rewrite Hi. pose proof (Hs 1 (or_introl eq_refl)). pose proof (Hs 2 (or_intror eq_refl)).
    assert (todo D (Sp c ∅ D) <= size D * (5 * K)) by (apply left_bound; intros n t Hn%HK; lia). lia.
Qed.

(** *** The export pass *)
Definition weight (x : string * rtype) : nat := 1 + 2 * fields_of x.2.
Definition one (x : string * rtype) : nat := 1.
Lemma collect_cost c t : wf_map c -> forall n vis, c !! n = Some (n, t) ->
  {[n]} ∪ vis ⊆ (w_collect_used t n vis).1 /\
  (w_collect_used t n vis).2.1 + left weight c (w_collect_used t n vis).1 <= 1 + 2 * fields_of t + left weight c ({[n]} ∪ vis) /\
  (w_collect_used t n vis).2.2 <= S (left one c ({[n]} ∪ vis)).
Proof.
  intros [Hnm Hwf]. induction t as [b|e|fs IH] using rtype_ind'; intros n vis Hn; [cbn; split; [done|lia]..|].
  cbn [w_collect_used]. generalize ({[n]} ∪ vis). intros v0.
  set (loop := fix loop (fs : list sfield) (vis : gset string) : gset string * cost := match fs with [] => (vis, (0, 0)) | f :: fs' => _ end).
  assert (forall l v, (forall f, f ∈ l -> f ∈ fs) -> v ⊆ (loop l v).1 /\ (loop l v).2.1 + left weight c (loop l v).1 <= length l + left weight c v /\
    (loop l v).2.2 <= left one c v) as H.
  { induction l as [|f l IHl]; intros v Hl; [cbn; split; [done|lia]|]. cbn [loop]. assert (f ∈ fs) as Hf by (apply Hl; by left).
    assert (c !! f_tname f = Some (f_tname f, f_ty f)) as Hc by (by eapply Hwf).
    set (y := if decide (f_tname f ∈ v) then (v, (0, 0)) else w_collect_used (f_ty f) (f_tname f) v).
    assert (v ⊆ y.1 /\ y.2.1 + left weight c y.1 <= left weight c v /\ y.2.2 <= left one c v) as (Y1 & Y2 & Y3).
    { unfold y. case_decide as Hd; [cbn; split; [done|lia]|]. rewrite Forall_forall in IH. destruct (IH f Hf (f_tname f) v Hc) as (A1 & A2 & A3).
      rewrite (left_visit weight c v _ _ Hc Hd), (left_visit one c v _ _ Hc Hd). split; [set_solver|]. change (weight (f_tname f, f_ty f)) with (1 + 2 * fields_of (f_ty f)). change (one (f_tname f, f_ty f)) with 1. lia. }
    destruct (IHl y.1) as (I1 & I2 & I3); [intros; apply Hl; by right|]. fold (loop l y.1). pose proof (left_mono one c _ _ Y1).
    cbn [fst snd and_then]. split; [set_solver|]. cbn [length]. lia. }
  destruct (H fs v0 ltac:(done)) as (H1 & H2 & H3). cbn [fst snd fields_of]. split; [done|]. lia.
Qed.
Lemma used_cost c fs v K : wf_map c -> (forall f, f ∈ fs -> c !! f_tname f = Some (f_tname f, f_ty f)) -> (forall n m t, c !! n = Some (m, t) -> fields_of t <= K) ->
  (w_used fs v).2.1 + left weight c (w_used fs v).1 <= length fs * (2 + 2 * K) + left weight c v /\ (w_used fs v).2.2 <= S (size c).
Proof.
  intros Hwf Hfs HK. revert v. induction fs as [|f fs IH]; intros v; [cbn; lia|]. cbn [w_used fst snd and_then].
  assert (c !! f_tname f = Some (f_tname f, f_ty f)) as Hc by (apply Hfs; by left).
  destruct (collect_cost c (f_ty f) Hwf (f_tname f) v Hc) as (A1 & A2 & A3). apply HK in Hc.
  destruct (IH (fun g Hg => Hfs g (elem_of_list_further _ _ _ Hg)) (w_collect_used (f_ty f) (f_tname f) v).1) as [I1 I2].
  pose proof (left_mono weight c v ({[f_tname f]} ∪ v)) as Hm. specialize (Hm ltac:(set_solver)).
  assert (left one c ({[f_tname f]} ∪ v) <= size c * 1) by (by apply left_bound). cbn [length]. lia.
Qed.

(** *** Sizes *)
Lemma node_items a n t : NDecl n t ∈ a -> 1 + type_size t <= items a.
Proof. induction a as [|x a IH]; [by intros ?%elem_of_nil|]. intros [<-|H]%elem_of_cons; rewrite items_cons; [lia|]. specialize (IH H). lia. Qed.
Lemma decl_length a : length (decl_names a) <= length a.
Proof. induction a as [|[n t|n] a IH]; cbn; lia. Qed.
Lemma size_le {X} (m : gmap string X) l : (forall n, is_Some (m !! n) -> n ∈ l) -> size m <= length l.
Proof.
  intros H. rewrite <- size_dom. etrans; [apply (subseteq_size (dom m) (list_to_set l))|].
  - intros n Hn. apply elem_of_list_to_set, H. by apply elem_of_dom.
  - clear H. induction l as [|x l IH]; [done|]. cbn [list_to_set length]. rewrite size_union_alt, size_singleton. pose proof (subseteq_size ((list_to_set l : gset string) ∖ {[x]}) (list_to_set l) ltac:(set_solver)). lia.
Qed.
Lemma in_type_check_front a iter n d : (forall exp un fp un', get_export a = Ok exp -> collect_types a = Ok un -> resolve_first_pass a get_builtins (∅, un) = Ok (fp, un') ->
    within (ticks (size get_builtins + size fp) (wdo c <- w_second_pass iter (fp ∪ get_builtins) un'; wdo et <- w_resolve_export exp c; wret (Ok (Resolved et.1 et.2)))) n d) ->
  within (w_type_check iter a) (4 * items a + n) d.
Proof.
  intros H. unfold w_type_check. pose proof (items_length a). eapply in_le; [apply (in_bind _ _ (items a) (3 * items a + n) d); [eapply in_le; [apply in_get_export|lia..]|]|lia..].
  intros exp He. eapply in_le; [apply (in_bind _ _ (items a) (2 * items a + n) d); [eapply in_le; [apply in_collect_types|lia..]|]|lia..].
  intros un Hu. apply in_bind; [eapply in_le; [apply in_first_pass|lia..]|]. intros [fp un'] Hf.
  apply (H exp un fp un'); [by rewrite <- He; unfold get_export; rewrite e_get_export|by rewrite <- Hu; unfold collect_types; rewrite e_collect_types|by rewrite <- Hf, e_first_pass].
Qed.
Lemma check_bound a iter : fair_order iter -> no_builtin_decl a ->
  (w_type_check iter a).2.1 <= 20 * (items a + 8) * (items a + 8) /\ (w_type_check iter a).2.2 <= length a + 9.
Proof.
  intros Hf Hnb. set (N := items a). pose proof (items_length a) as HN. fold N in HN.
  assert (within (w_type_check iter a) (4 * N + ((N + 8) + ((N * (7 * N + 3)) + (N + (N + 8) + (N * (2 + 2 * N) + (N + 8) * (1 + 2 * N)))))) (length a + 9)) as [H1 H2]; [|split; [nia|done]].
  apply in_type_check_front. intros exp un fp un' He Hu Hfp.
  assert (front a = Ok (exp, fp ∪ get_builtins, un')) as Hfront.
  { unfold front. rewrite He. cbn [rbind]. rewrite Hu. cbn [rbind]. by rewrite Hfp. }
  pose proof (front_ok _ _ _ _ Hfront) as F.
  assert (forall n, is_Some (fp !! n) -> n ∈ decl_names a) as Hfpn.
  { intros n [[m t] Hn]. assert ((fp ∪ get_builtins) !! n = Some (m, t)) as Hn' by (by apply lookup_union_Some_l).
    apply (ff_C _ _ _ _ F) in Hn' as [_ [(u & Hd & _)|(Hall & b & Hb & ->)]]; [by eapply decl_names_elem|].
    destruct (decide (n ∈ decl_names a)) as [|Hnd]; [done|exfalso]. apply collect_types_loop_ok in Hu as (Hnd' & _ & _). destruct (first_pass_ok _ _ _ _ _ Hfp Hnd') as [_ Hnot].
    destruct (Hnot n Hnd) as [E _]. rewrite Hn, lookup_empty in E. done. }
  assert (size fp <= length a) as Hs1 by (etrans; [by apply size_le|apply decl_length]).
  assert (forall n t, un' !! n = Some t -> NDecl n t ∈ a) as HD by (intros n t Hn; by apply (ff_D _ _ _ _ F) in Hn as [? _]).
  assert (size un' <= length a) as Hs2 by (etrans; [apply (size_le _ (decl_names a)); intros n [t Ht%HD]; by eapply decl_names_elem|apply decl_length]).
  assert (size get_builtins = 8) as Hs3 by (vm_compute; reflexivity).
  eapply in_le; [apply in_ticks, (in_bind _ _ (N * (7 * N + 3)) (N + (N + 8) + (N * (2 + 2 * N) + (N + 8) * (1 + 2 * N))) (length a + 9))|lia..].
  { eapply in_le; [apply (in_second_pass _ _ _ N); [done|]|nia|lia]. intros n t Hn%HD%node_items. unfold N. lia. }
  intros c Hc. eapply in_le; [apply (in_bind _ _ (N + (N + 8) + (N * (2 + 2 * N) + (N + 8) * (1 + 2 * N))) 0 (length a + 9)); [|intros; apply in_ret]|rewrite Nat.add_0_r; reflexivity|reflexivity].
  rewrite e_second_pass in Hc. destruct (second_pass_spec un' (fp ∪ get_builtins) (ff_struct _ _ _ _ F) (ff_named _ _ _ _ F) iter Hf) as [(c' & Hc' & S)|(m & Hc' & _)]; [|congruence].
  assert (c' = c) as -> by congruence. pose proof (c_wf a Hnb _ _ _ F c S) as Hwf.
  assert (forall n m t, c !! n = Some (m, t) -> fields_of t <= N) as HK.
  { intros n m t Hn. destruct (c_entries a Hnb _ _ _ F c S _ _ _ Hn) as [(b & _ & ->)|[(vs & r & _ & _ & ->)|(fs & ds & rs & Hd & Hp & Hrs & ->)]]; cbn; [lia..|].
    apply Forall2_length in Hrs. apply Permutation_length in Hp. apply node_items in Hd. cbn in Hd. unfold N. lia. }
  assert (size c <= length a + 8) as Hs4.
  { etrans; [apply (size_le _ (decl_names a ++ builtin_names))|rewrite app_length; pose proof (decl_length a); cbn; lia].
    intros n [[m t] Hn]. apply elem_of_app. destruct (c_entries a Hnb _ _ _ F c S _ _ _ Hn) as [(b & Hb & ->)|[(vs & r & Hd & _)|(fs & ds & rs & Hd & _)]].
    - right. apply builtin_names_spec. eauto.
    - left. by eapply decl_names_elem.
    - left. by eapply decl_names_elem. }
  unfold w_resolve_export. destruct (c !! exp) as [[m [b|e|fs]]|] eqn:Ee; [apply in_ret..| |apply in_ret].
  assert (forall f, f ∈ fs -> c !! f_tname f = Some (f_tname f, f_ty f)) as Hfs by (destruct Hwf as [_ Hw]; intros; by eapply Hw).
  destruct (used_cost c fs {[exp]} N Hwf Hfs HK) as [U1 U2]. assert (left weight c {[exp]} <= size c * (1 + 2 * N)) as U3.
  { apply left_bound. intros n [k t] Hn%HK. unfold weight. cbn. lia. }
  apply HK in Ee. cbn [fields_of] in Ee. eapply in_le; [apply in_ticks; split; cbn [fst snd]; reflexivity|..]; [|lia].
  assert (size c * (1 + 2 * N) <= (N + 8) * (1 + 2 * N)) by (apply Nat.mul_le_mono_r; lia).
  assert (length fs * (2 + 2 * N) <= N * (2 + 2 * N)) by (apply Nat.mul_le_mono_r; lia). lia.
Qed.
