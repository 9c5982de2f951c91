(** The messages of the stages before the second pass. *)
From Verif Require Export MessageSpec CheckErrorProofs.
Local Arguments get_builtins : simpl never.

Lemma get_export_err_iff a o m : get_export_loop a o = Err m <->
  match o with
  | None => (exports a = [] /\ m = "Schema has no export") \/ (exists e e' es, exports a = e :: e' :: es /\ m = "Schema has more than one export")
  | Some _ => exists e es, exports a = e :: es /\ m = "Schema has more than one export"
  end.
Proof.
  revert o. induction a as [|[n t|n] a IH]; intros o; cbn.
  - destruct o; [|split; [intros [= <-]; by left|]].
    + split; [done|]. by intros (? & ? & ? & _).
    + intros [[_ ->]|(? & ? & ? & ? & _)]; done.
  - apply IH.
  - destruct o as [e|].
    + split; [intros [= <-]; by eexists _, _|]. by intros (? & ? & _ & ->).
    + rewrite IH. split.
      * intros (e & es & -> & ->). right. by eexists _, _, _.
      * intros [[? _]|(e & e' & es & [= -> E] & ->)]; [done|]. rewrite E. by eexists _, _.
Qed.
Lemma collect_types_err_iff a c m : collect_types_loop a c = Err m <->
  exists l1 n l2, decl_names a = l1 ++ n :: l2 /\ NoDup l1 /\ (forall k, k ∈ l1 -> c !! k = None) /\ (n ∈ l1 \/ is_Some (c !! n)) /\ m = "Schema has duplicate declaration: " +:+ n.
Proof.
  revert c. induction a as [|[n t|n] a IH]; intros c; cbn.
  - split; [done|]. by intros (l1 & n & l2 & E%eq_sym%app_nil & _); destruct E.
  - destruct (c !! n) as [x|] eqn:E.
    + split.
      * intros [= <-]. exists [], n, (decl_names a). split; [done|]. split; [constructor|]. split; [by intros ? ?%elem_of_nil|]. rewrite E. eauto.
      * intros ([|y l1] & k & l2 & [= -> El] & _ & H1 & _ & ->); [done|]. by rewrite (H1 y ltac:(left)) in E.
    + rewrite IH. split.
      * intros (l1 & k & l2 & -> & Hnd & Hfree & Hk & ->). exists (n :: l1), k, l2. split; [done|].
        assert (n ∉ l1) as Hn by (intros H%Hfree; by rewrite lookup_insert in H).
        split; [by constructor|]. split.
        -- intros j [->|Hj]%elem_of_cons; [done|]. specialize (Hfree j Hj). rewrite lookup_insert_ne in Hfree by (intros ->; done). done.
        -- split; [|done]. destruct Hk as [?|[y Hy]]; [left; by right|]. apply lookup_insert_Some in Hy as [[-> _]|[_ ?]]; [left; by left|eauto].
      * intros ([|y l1] & k & l2 & [= -> El] & Hnd & H1 & Hk & ->).
        { destruct Hk as [?%elem_of_nil|[y Hy]]; [done|congruence]. }
        apply NoDup_cons in Hnd as [Hy Hnd]. exists l1, k, l2. split; [done|]. split; [done|]. split.
        -- intros j Hj. rewrite lookup_insert_ne by (intros ->; done). apply H1. by right.
        -- split; [|done]. destruct Hk as [[->|?]%elem_of_cons|[x Hx]]; [right; rewrite lookup_insert; eauto|by left|].
           right. destruct (decide (y = k)) as [->|Hne]; [rewrite lookup_insert; eauto|]. rewrite lookup_insert_ne by done. eauto.
  - apply IH.
Qed.
Lemma number_variants_err_iff name vs seen k acc m : number_variants name vs seen k acc = Err m <->
  exists l1 v l2, vs = l1 ++ v :: l2 /\ NoDup l1 /\ (forall x, x ∈ l1 -> x ∉ seen) /\ (v ∈ l1 \/ v ∈ seen) /\ m = "Duplicate variant '" +:+ v +:+ "' on enum '" +:+ name +:+ "'".
Proof.
  revert seen k acc. induction vs as [|v vs IH]; intros seen k acc; cbn.
  - split; [done|]. by intros ([|] & ? & ? & ? & _).
  - destruct (decide (v ∈ seen)) as [Hv|Hv].
    + split.
      * intros [= <-]. exists [], v, vs. split; [done|]. split; [constructor|]. split; [by intros ? ?%elem_of_nil|]. auto.
      * intros ([|y l1] & w & l2 & [= -> El] & _ & H1 & _ & ->); [done|]. by destruct (H1 y ltac:(left)).
    + rewrite IH. split.
      * intros (l1 & w & l2 & -> & Hnd & Hfree & Hw & ->). exists (v :: l1), w, l2. split; [done|].
        split; [constructor; [|done]; intros H%Hfree; set_solver|]. split; [set_solver|]. split; [set_solver|done].
      * intros ([|y l1] & w & l2 & [= -> El] & Hnd & H1 & Hw & ->); [set_solver|].
        apply NoDup_cons in Hnd as [Hy Hnd]. exists l1, w, l2. split; [done|]. split; [done|]. split; [|split; [set_solver|done]].
        intros x Hx. specialize (H1 x ltac:(by right)). assert (x ≠ y) by (intros ->; done). set_solver.
Qed.
Lemma choose_repr_err_iff name n m : choose_repr name n = Err m <->
  (n = 0 /\ m = "Enum '" +:+ name +:+ "' must have at least one variant") \/ (32 < n /\ m = "Enum '" +:+ name +:+ "' has too many variants (" +:+ string_of_nat n +:+ "/32)").
Proof.
  split; [apply choose_repr_err|]. unfold choose_repr. intros [[-> ->]|[Hn ->]]; [done|].
  destruct (Nat.eqb_spec n 0); [lia|]. destruct (Nat.leb_spec n 8); [lia|]. destruct (Nat.leb_spec n 16); [lia|]. destruct (Nat.leb_spec n 32); [lia|done].
Qed.
Lemma first_fields_err_iff name fs seen acc m : first_pass_fields name get_builtins fs seen acc = Err m <->
  exists pre f u post, fs = pre ++ (f, u) :: post /\ faultless pre /\ (forall x, x ∈ pre.*1 -> x ∉ seen) /\
    (((f ∈ pre.*1 \/ f ∈ seen) /\ m = "Duplicate field '" +:+ f +:+ "' on struct '" +:+ name +:+ "'") \/
     (f ∉ pre.*1 /\ f ∉ seen /\ u_name u ∈ builtin_names /\ clash u /\ m = "Field '" +:+ f +:+ "' in struct '" +:+ name +:+ "' cannot be optional and array at once")).
Proof.
  revert seen acc. induction fs as [|[f u] fs IH]; intros seen acc; cbn.
  - split; [done|]. by intros ([|] & ? & ? & ? & ? & _).
  - assert (faultless []) as Hnil by (split; [constructor|by intros ?? ?%elem_of_nil]).
    destruct (decide (f ∈ seen)) as [Hf|Hf].
    + split.
      * intros [= <-]. exists [], f, u, fs. split; [done|]. split; [done|]. split; [by intros ? ?%elem_of_nil|]. auto.
      * intros ([|[g v] pre] & h & w & post & [= -> -> El] & Hfl & H1 & [[_ ->]|(_ & ? & _)]); [done..| |]; by destruct (H1 g ltac:(left)).
    + destruct (resolve_struct_field f u get_builtins name) as [[fld|]|m'|m'|] eqn:E; cbn.
      * pose proof (rsf_some _ _ _ _ _ E) as (Hno & _).
        assert (u_name u ∈ builtin_names) as Hb.
        { destruct (decide (u_name u ∈ builtin_names)) as [|Hb]; [done|]. apply builtins_none in Hb. apply (rsf_none name f) in Hb. congruence. }
        rewrite IH. split.
        -- intros (pre & g & v & post & -> & [Hnd Hb'] & Hfree & Hg). exists ((f, u) :: pre), g, v, post. split; [done|]. split; [split|split].
           ++ cbn. constructor; [|done]. intros H%Hfree. apply H, elem_of_union. left. by apply elem_of_singleton.
           ++ intros g' v' [[= -> ->]|H]%elem_of_cons; [done|by apply (Hb' g')].
           ++ cbn. intros x [->|Hx]%elem_of_cons; [done|]. specialize (Hfree x Hx). intros H. apply Hfree, elem_of_union. by right.
           ++ cbn. rewrite elem_of_cons. rewrite elem_of_union, elem_of_singleton in Hg. destruct Hg as [[Hg ->]|(H1 & H2 & Hg)]; [left; split; [tauto|done]|right]. split; [tauto|]. split; [tauto|done].
        -- intros ([|[h w] pre] & g & v & post & [= -> -> El] & [Hnd Hb'] & Hfree & Hg).
           { exfalso. cbn in Hg. destruct Hg as [[[?%elem_of_nil|?] _]|(_ & _ & _ & Hc & _)]; [done..|by apply Hno]. }
           cbn in Hnd, Hfree, Hg. apply NoDup_cons in Hnd as [Hh Hnd]. exists pre, g, v, post. split; [done|]. split; [split; [done|]; intros f' u' Hin; apply (Hb' f'); by right|]. split.
           ++ intros x Hx. specialize (Hfree x ltac:(by right)). assert (x ≠ h) by (intros ->; done). rewrite elem_of_union, elem_of_singleton. tauto.
           ++ rewrite elem_of_union, elem_of_singleton. rewrite elem_of_cons in Hg. destruct Hg as [[Hg ->]|(H1 & H2 & Hg)]; [left; split; [tauto|done]|right]. split; [tauto|]. split; [tauto|done].
      * apply rsf_none, builtins_none in E. split; [done|].
        intros ([|[h w] pre] & g & v & post & [= -> -> El] & [Hnd Hb'] & Hfree & Hg).
        -- cbn in Hg. destruct Hg as [[[?%elem_of_nil|?] _]|(_ & _ & ? & _)]; done.
        -- by destruct (Hb' h w ltac:(left)).
      * pose proof E as E'. apply rsf_message in E' as (H1 & H2 & ->).
        assert (u_name u ∈ builtin_names) as Hb.
        { destruct (decide (u_name u ∈ builtin_names)) as [|Hb]; [done|]. apply builtins_none in Hb. apply (rsf_none name f) in Hb. congruence. }
        split.
        -- intros [= <-]. exists [], f, u, fs. split; [done|]. split; [done|]. split; [by intros ? ?%elem_of_nil|]. right. split; [by intros ?%elem_of_nil|]. done.
        -- intros ([|[h w] pre] & g & v & post & [= -> -> El] & [Hnd Hb'] & Hfree & Hg).
           ++ cbn in Hg. destruct Hg as [[[?%elem_of_nil|?] _]|(_ & _ & _ & _ & ->)]; done.
           ++ exfalso. destruct (Hb' h w ltac:(left)) as [_ Hc]. by apply Hc.
      * by destruct (rsf_returns name f u get_builtins) as [[? E']|[? E']]; rewrite E in E'.
      * by destruct (rsf_returns name f u get_builtins) as [[? E']|[? E']]; rewrite E in E'.
Qed.
Lemma own_fault_iff n t m : fp_one n t = Err m <-> own_fault n t m.
Proof.
  destruct t as [vs|fs]; cbn.
  - split.
    + unfold resolve_enum. destruct (choose_repr n (length vs)) as [r|m'|m'|] eqn:E; cbn; [| |done|done].
      * destruct (number_variants n vs ∅ 0 []) as [l|m'|m'|] eqn:E2; cbn; [done| |done|done]. intros [= <-].
        apply number_variants_err_iff in E2 as (l1 & v & l2 & -> & Hnd & _ & [Hv|Hv] & ->); [|set_solver].
        constructor; [|by exists l1, l2]. destruct (decide (length (l1 ++ v :: l2) <= 32)) as [|Hn]; [done|]. exfalso.
        assert (choose_repr n (length (l1 ++ v :: l2)) = Err ("Enum '" +:+ n +:+ "' has too many variants (" +:+ string_of_nat (length (l1 ++ v :: l2)) +:+ "/32)")) as E'; [|congruence].
        apply choose_repr_err_iff. right. split; [lia|done].
      * intros [= <-]. apply choose_repr_err in E as [[E ->]|[E ->]]; [|by constructor]. apply nil_length_inv in E as ->. constructor.
    + unfold resolve_enum. inversion 1 as [?|? ? Hl|? ? v Hl (l1 & l2 & -> & Hnd & Hv)| |]; subst.
      * done.
      * assert (choose_repr n (length vs) = Err ("Enum '" +:+ n +:+ "' has too many variants (" +:+ string_of_nat (length vs) +:+ "/32)")) as E; [|by rewrite E].
        apply choose_repr_err_iff. by right.
      * destruct (choose_repr_returns n (length (l1 ++ v :: l2))) as [[r E]|[m E]].
        -- rewrite E. cbn [rbind]. assert (number_variants n (l1 ++ v :: l2) ∅ 0 [] = Err ("Duplicate variant '" +:+ v +:+ "' on enum '" +:+ n +:+ "'")) as E2; [|by rewrite E2].
           apply number_variants_err_iff. exists l1, v, l2. split; [done|]. split; [done|]. split; [set_solver|]. auto.
        -- apply choose_repr_err in E as [[E _]|[E _]]; [rewrite app_length in E; cbn in E; lia|lia].
  - split.
    + destruct (first_pass_fields n get_builtins fs ∅ []) as [l|m'|m'|] eqn:E; cbn; [done| |done|done]. intros [= <-].
      apply first_fields_err_iff in E as (pre & f & u & post & -> & Hfl & _ & [[[Hf|Hf] ->]|(Hf & _ & Hb & Hc & ->)]); [by constructor|set_solver|by constructor].
    + intros H. assert (first_pass_fields n get_builtins fs ∅ [] = Err m) as E; [|by rewrite E]. apply first_fields_err_iff.
      inversion H as [| | |? pre f u post Hfl Hf|? pre f u post Hfl Hf Hb Hc]; subst; exists pre, f, u, post; (split; [done|]; split; [done|]; split; [set_solver|]); [left; auto|right].
      split; [done|]. split; [set_solver|done].
Qed.
Lemma own_faults_ok a : ~ own_faults a <-> forall n t, NDecl n t ∈ a -> is_ok (fp_one n t).
Proof.
  split.
  - intros H n t Hin. destruct (fp_one_returns n t) as [?|[m E]]; [done|]. exfalso. apply H. exists n, t, m. split; [done|]. by apply own_fault_iff.
  - intros H (n & t & m & Hin & Hf). destruct (H n t Hin) as [o E]. apply own_fault_iff in Hf. congruence.
Qed.
Lemma first_pass_err_iff a st m : resolve_first_pass a get_builtins st = Err m <->
  exists pre n t post, a = pre ++ NDecl n t :: post /\ ~ own_faults pre /\ own_fault n t m.
Proof.
  revert st. induction a as [|[n t|n] a IH]; intros st; cbn.
  - split; [done|]. by intros ([|] & ? & ? & ? & ? & _).
  - assert (~ own_faults []) as Hnil by by intros (? & ? & ? & ?%elem_of_nil & _).
    rewrite rofp_eq. destruct (fp_one_returns n t) as [[o E]|[m' E]]; rewrite E; cbn [rbind].
    + assert (forall st', resolve_first_pass a get_builtins st' = Err m <-> exists pre n0 t0 post, NDecl n t :: a = pre ++ NDecl n0 t0 :: post /\ ~ own_faults pre /\ own_fault n0 t0 m) as H.
      { intros st'. rewrite IH. split.
        - intros (pre & k & u & post & -> & Hp & Hf). exists (NDecl n t :: pre), k, u, post. split; [done|]. split; [|done].
          intros (k' & u' & m' & [[= -> ->]|Hin]%elem_of_cons & Hf'); [apply own_fault_iff in Hf'; congruence|]. apply Hp. by exists k', u', m'.
        - intros ([|d pre] & k & u & post & [= <- El] & Hp & Hf); [subst; apply own_fault_iff in Hf; congruence|]. exists pre, k, u, post. split; [done|]. split; [|done].
          intros (k' & u' & m' & Hin & Hf'). apply Hp. exists k', u', m'. split; [by right|done]. }
      destruct o; cbn; apply H.
    + split.
      * intros [= <-]. exists [], n, t, a. split; [done|]. split; [done|]. by apply own_fault_iff.
      * intros ([|d pre] & k & u & post & [= <- El] & Hp & Hf); subst; [apply own_fault_iff in Hf; congruence|]. exfalso. apply Hp. exists n, t, m'. split; [by left|]. by apply own_fault_iff.
  - rewrite IH. split.
    + intros (pre & k & u & post & -> & Hp & Hf). exists (NExport n :: pre), k, u, post. split; [done|]. split; [|done].
      intros (k' & u' & m' & [[=]|Hin]%elem_of_cons & Hf'). apply Hp. by exists k', u', m'.
    + intros ([|d pre] & k & u & post & [= <- El] & Hp & Hf). exists pre, k, u, post. split; [done|]. split; [|done].
      intros (k' & u' & m' & Hin & Hf'). apply Hp. exists k', u', m'. split; [by right|done].
Qed.
Lemma front_err_iff a m : front a = Err m <->
  (exports a = [] /\ m = "Schema has no export") \/ (exists e e' es, exports a = e :: e' :: es /\ m = "Schema has more than one export") \/
  (exists e, exports a = [e] /\ ((exists n, first_twice (decl_names a) n /\ m = "Schema has duplicate declaration: " +:+ n) \/
     (NoDup (decl_names a) /\ exists pre n t post, a = pre ++ NDecl n t :: post /\ ~ own_faults pre /\ own_fault n t m))).
Proof.
  assert (forall n, first_twice (decl_names a) n <-> collect_types_loop a ∅ = Err ("Schema has duplicate declaration: " +:+ n)) as Hct.
  { intros n. rewrite collect_types_err_iff. split.
    - intros (l1 & l2 & E & Hnd & Hn). exists l1, n, l2. split; [done|]. split; [done|]. split; [intros; apply lookup_empty|]. auto.
    - intros (l1 & k & l2 & E & Hnd & _ & [Hk|[? Hk]] & Em); [|by rewrite lookup_empty in Hk]. injection Em as <-. by exists l1, l2. }
  unfold front, get_export, collect_types. destruct (get_export_loop_returns a None) as [[e He]|[m' He]].
  - rewrite He. cbn [rbind]. pose proof (proj1 (get_export_ok a e) He) as Hex. destruct (collect_types_loop_returns a ∅) as [[un Hun]|[m' Hun]]; rewrite Hun; cbn [rbind].
    + pose proof Hun as Hun'. apply collect_types_loop_ok in Hun' as (Hnd & _ & _).
      assert (forall m, resolve_first_pass a get_builtins (∅, un) = Err m <-> rbind (resolve_first_pass a get_builtins (∅, un)) (fun fpun => Ok (e, fpun.1 ∪ get_builtins, fpun.2)) = Err m) as H.
      { intros m0. destruct (resolve_first_pass a get_builtins (∅, un)); cbn; split; congruence. }
      rewrite <- H, first_pass_err_iff. split.
      * intros Hx. right; right. exists e. split; [done|]. by right.
      * intros [[E _]|[(? & ? & ? & E & _)|(e' & _ & [(n & Hn & _)|[_ Hx]])]]; [congruence..| |done]. apply Hct in Hn. congruence.
    + split.
      * intros [= <-]. right; right. exists e. split; [done|]. left. pose proof Hun as H. apply collect_types_err_iff in H as (l1 & n & l2 & E & Hnd & _ & [Hn|[? Hn]] & ->); [|by rewrite lookup_empty in Hn].
        exists n. split; [by exists l1, l2|done].
      * intros [[E _]|[(? & ? & ? & E & _)|(e' & _ & [(n & Hn & ->)|[Hnd _]])]]; [congruence..| |].
        -- apply Hct in Hn. congruence.
        -- exfalso. destruct (collect_types_loop_complete a ∅ Hnd) as [un Hun']; [intros; apply lookup_empty|congruence].
  - rewrite He. cbn [rbind]. pose proof (proj1 (get_export_err_iff _ _ _) He) as H. cbn in H. split.
    + intros [= <-]. tauto.
    + destruct H as [[E ->]|(e0 & e1 & es & E & ->)]; (intros [[E' ->]|[(? & ? & ? & E' & ->)|(e' & E' & _)]]; [try done; congruence..|congruence]).
Qed.
