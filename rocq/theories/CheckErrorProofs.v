(** The messages of the checker describe defects that the schema has, but for one. *)
From Verif Require Export CheckErrors CheckProofs4.

Lemma twice_seen x (l : list string) (pre : list string) : x ∈ pre -> twice x (pre ++ x :: l).
Proof. intros (l1 & l2 & ->)%elem_of_list_split. exists l1, l2, l. by rewrite <- app_assoc. Qed.
Lemma get_export_err a o m : get_export_loop a o = Err m ->
  (o = None /\ exports a = [] /\ m = "Schema has no export") \/
  (m = "Schema has more than one export" /\ match o with None => exists e e' es, exports a = e :: e' :: es | Some _ => exists e es, exports a = e :: es end).
Proof.
  revert o. induction a as [|[n t|n] a IH]; intros o; cbn.
  - destruct o; [done|]. intros [= <-]. by left.
  - apply IH.
  - destruct o as [e|].
    + intros [= <-]. right. split; [done|]. by eexists _, _.
    + intros H. apply IH in H as [(? & _)|[-> (e & es & ->)]]; [done|]. right. split; [done|]. by eexists _, _, _.
Qed.
Lemma collect_types_err a c m pre : (forall n, is_Some (c !! n) -> n ∈ pre) -> collect_types_loop a c = Err m ->
  exists n, twice n (pre ++ decl_names a) /\ m = "Schema has duplicate declaration: " +:+ n.
Proof.
  revert c pre. induction a as [|[n t|n] a IH]; intros c pre Hc; cbn; [done| |by apply IH].
  destruct (c !! n) as [x|] eqn:E.
  - intros [= <-]. exists n. split; [|done]. apply twice_seen, Hc. by rewrite E.
  - intros H. apply (IH _ (pre ++ [n])) in H as (k & Hk & ->).
    + exists k. split; [|done]. by rewrite <- app_assoc in Hk.
    + intros k. rewrite elem_of_app, elem_of_list_singleton. destruct (decide (n = k)) as [->|Hne]; [auto|]. rewrite lookup_insert_ne by done. auto.
Qed.
Lemma number_variants_err name vs seen k acc m pre : (forall v, v ∈ seen -> v ∈ pre) -> number_variants name vs seen k acc = Err m ->
  exists v, twice v (pre ++ vs) /\ m = "Duplicate variant '" +:+ v +:+ "' on enum '" +:+ name +:+ "'".
Proof.
  revert seen k acc pre. induction vs as [|v vs IH]; intros seen k acc pre Hs; cbn; [done|]. destruct (decide (v ∈ seen)) as [Hv|Hv].
  - intros [= <-]. exists v. split; [|done]. by apply twice_seen, Hs.
  - intros H. apply (IH _ _ _ (pre ++ [v])) in H as (w & Hw & ->); [|set_solver]. exists w. split; [|done]. by rewrite <- app_assoc in Hw.
Qed.
Lemma choose_repr_err name n m : choose_repr name n = Err m ->
  (n = 0 /\ m = "Enum '" +:+ name +:+ "' must have at least one variant") \/ (32 < n /\ m = "Enum '" +:+ name +:+ "' has too many variants (" +:+ string_of_nat n +:+ "/32)").
Proof.
  unfold choose_repr. destruct (Nat.eqb_spec n 0); [intros [= <-]; by left|]. destruct (Nat.leb_spec n 8); [done|]. destruct (Nat.leb_spec n 16); [done|].
  destruct (Nat.leb_spec n 32); [done|]. intros [= <-]. by right.
Qed.
Lemma rsf_message n f u c m : resolve_struct_field f u c n = Err m ->
  u_array u = true /\ u_opt u = true /\ m = "Field '" +:+ f +:+ "' in struct '" +:+ n +:+ "' cannot be optional and array at once".
Proof.
  unfold resolve_struct_field. destruct (c !! u_name u) as [[tn t]|]; [|done]. destruct (u_array u && u_opt u) eqn:E; [|done].
  apply andb_true_iff in E as [-> ->]. by intros [= <-].
Qed.
Lemma first_fields_err name c fs seen acc m pre : (forall f, f ∈ seen -> f ∈ pre) -> first_pass_fields name c fs seen acc = Err m ->
  (exists f, twice f (pre ++ fs.*1) /\ m = "Duplicate field '" +:+ f +:+ "' on struct '" +:+ name +:+ "'") \/
  (exists f u, (f, u) ∈ fs /\ u_array u = true /\ u_opt u = true /\ m = "Field '" +:+ f +:+ "' in struct '" +:+ name +:+ "' cannot be optional and array at once").
Proof.
  revert seen acc pre. induction fs as [|[f u] fs IH]; intros seen acc pre Hs; cbn; [done|]. destruct (decide (f ∈ seen)) as [Hf|Hf].
  - intros [= <-]. left. exists f. split; [|done]. by apply twice_seen, Hs.
  - destruct (resolve_struct_field f u c name) as [[fld|]|m'|m'|] eqn:E; cbn; [|done| |done|done].
    + intros H. apply (IH _ _ (pre ++ [f])) in H as [(g & Hg & ->)|(g & v & Hg & H)]; [| |set_solver].
      * left. exists g. split; [|done]. by rewrite <- app_assoc in Hg.
      * right. exists g, v. split; [by right|done].
    + intros [= <-]. apply rsf_message in E as (H1 & H2 & ->). right. exists f, u. split; [by left|done].
Qed.
Local Arguments get_builtins : simpl never.
Lemma fp_one_err a n t m : NDecl n t ∈ a -> fp_one n t = Err m -> defect a m.
Proof.
  intros Hin. destruct t as [vs|fs]; cbn.
  - unfold resolve_enum. destruct (choose_repr n (length vs)) as [r|m'|m'|] eqn:E; cbn; [| |done|done].
    + destruct (number_variants n vs ∅ 0 []) as [l|m'|m'|] eqn:E2; cbn; [done| |done|done]. intros [= <-].
      apply (number_variants_err _ _ _ _ _ _ []) in E2 as (v & Hv & ->); [|set_solver]. by eapply twice_variant.
    + intros [= <-]. apply choose_repr_err in E as [[E ->]|[E ->]]; [|by eapply many_variants].
      apply nil_length_inv in E as ->. by apply no_variants.
  - destruct (first_pass_fields n get_builtins fs ∅ []) as [l|m'|m'|] eqn:E; cbn; [done| |done|done]. intros [= <-].
    apply (first_fields_err _ _ _ _ _ _ []) in E as [(f & Hf & ->)|(f & u & Hf & H1 & H2 & ->)]; [| |set_solver].
    + by eapply twice_field.
    + by eapply optional_array.
Qed.
Lemma first_pass_err a a' st m : (forall n t, NDecl n t ∈ a' -> NDecl n t ∈ a) -> resolve_first_pass a' get_builtins st = Err m -> defect a m.
Proof.
  revert st. induction a' as [|[n t|n] a' IH]; intros st Hin; cbn; [done| |apply IH; set_solver].
  rewrite rofp_eq. destruct (fp_one n t) as [o|m'|m'|] eqn:E; cbn; [| |done|done].
  - destruct o; cbn; apply IH; set_solver.
  - intros [= <-]. eapply fp_one_err; [|exact E]. apply Hin. by left.
Qed.
Lemma front_err a m : front a = Err m -> defect a m.
Proof.
  unfold front. destruct (get_export a) as [e|m'|m'|] eqn:E; cbn; [| |done|done].
  - unfold collect_types. destruct (collect_types_loop a ∅) as [un|m'|m'|] eqn:E2; cbn; [| |done|done].
    + destruct (resolve_first_pass a get_builtins (∅, un)) as [x|m'|m'|] eqn:E3; cbn; [done| |done|done]. intros [= <-]. by eapply first_pass_err.
    + intros [= <-]. apply (collect_types_err _ _ _ []) in E2 as (n & Hn & ->); [by apply twice_declared|]. intros n [x Hx]. by rewrite lookup_empty in Hx.
  - intros [= <-]. apply get_export_err in E as [(_ & E & ->)|[-> (e & e' & es & E)]]; [by apply no_export|by eapply many_exports].
Qed.

Section second.
  Context (D : gmap string atype) (C0 : tymap).
  Hypothesis (HD : forall n t, D !! n = Some t -> exists fs, t = AStruct fs).
  Hypothesis (HC0 : named C0).
  Notation active := (active D C0). Notation refD := (refD D C0). Notation inv := (inv D C0).
  Definition reported (m : string) : Prop :=
    (exists n fs f u, active n fs /\ (f, u) ∈ fs /\ u_array u = true /\ u_opt u = true /\
       m = "Field '" +:+ f +:+ "' in struct '" +:+ n +:+ "' cannot be optional and array at once") \/
    (exists n, tc refD n n /\ m = "Found a cycle between two or more top level definitions in type '" +:+ n +:+ "'") \/
    (exists n t, refD n t /\ m = "Declaration for type '" +:+ t +:+ "' does not exist" /\ ((C0 !! t = None /\ D !! t = None) \/ tc refD t t)).
  Lemma split_fields_err name c fs F N m : split_fields name c fs F N = Err m ->
    exists f u, (f, u) ∈ fs /\ u_array u = true /\ u_opt u = true /\ m = "Field '" +:+ f +:+ "' in struct '" +:+ name +:+ "' cannot be optional and array at once".
  Proof.
    revert F N. induction fs as [|[f u] fs IH]; intros F N; cbn; [done|].
    destruct (resolve_struct_field f u c name) as [[fld|]|m'|m'|] eqn:E; cbn; [| | |done|done].
    - intros (g & v & Hg & H)%IH. exists g, v. split; [by right|done].
    - intros (g & v & Hg & H)%IH. exists g, v. split; [by right|done].
    - intros [= <-]. apply rsf_message in E as (H1 & H2 & ->). exists f, u. split; [by left|done].
  Qed.
  Lemma finish_fields_err name c fs acc m : finish_fields name c fs acc = Err m ->
    exists f u, (f, u) ∈ fs /\ u_array u = true /\ u_opt u = true /\ m = "Field '" +:+ f +:+ "' in struct '" +:+ name +:+ "' cannot be optional and array at once".
  Proof.
    revert acc. induction fs as [|[f u] fs IH]; intros acc; cbn; [done|].
    destruct (resolve_struct_field f u c name) as [[fld|]|m'|m'|] eqn:E; cbn; [|done| |done|done].
    - intros (g & v & Hg & H)%IH. exists g, v. split; [by right|done].
    - intros [= <-]. apply rsf_message in E as (H1 & H2 & ->). exists f, u. split; [by left|done].
  Qed.
  Definition rec_err (fuel : nat) (rec : string -> atype -> sp -> res sp) : Prop := forall name ty stk s m,
    D !! name = Some ty -> inv ({[name]} ∪ stk) stk s -> size (unres s) < fuel -> (forall k, k ∈ stk -> tc refD k name) -> rec name ty s = Err m -> reported m.
  Lemma field_types_err fuel rec name stk nr s m : rec_spec D C0 fuel rec -> rec_err fuel rec -> inv stk stk s -> name ∈ stk ->
    (forall f u, (f, u) ∈ nr -> refD name (u_name u)) -> size (unres s) <= fuel -> (forall k, k ∈ stk -> k = name \/ tc refD k name) ->
    resolve_field_types rec nr s = Err m -> reported m.
  Proof.
    intros Hrec Herr. revert s. induction nr as [|[f u] nr IH]; intros s Hinv Hname Hnr Hsz Hstk; cbn; [done|].
    assert (refD name (u_name u)) as Href by (apply (Hnr f); by left).
    assert (forall k, k ∈ stk -> tc refD k (u_name u)) as Htc.
    { intros k [->|Ht]%Hstk; [by apply tc_once|]. by eapply tc_r. }
    assert (forall f u, (f, u) ∈ nr -> refD name (u_name u)) as Hnr' by (intros f0 u0 H0; apply (Hnr f0); by right).
    destruct (unres s !! u_name u) as [ut|] eqn:Hu.
    - assert (D !! u_name u = Some ut) as HDu by (eapply lookup_weaken; [done|apply (i_unres _ _ _ _ _ Hinv)]).
      set (s0 := Sp (cache s) (visited s) (delete (u_name u) (unres s))).
      assert (inv ({[u_name u]} ∪ stk) stk s0) as Hinv0.
      { destruct Hinv as [? ? Hun Hall ? ? ?]. constructor; cbn; try done.
        - etrans; [apply delete_subseteq|done].
        - intros n Hn. destruct (Hall n Hn) as [?|[?|?]]; [auto| |set_solver]. destruct (decide (n = u_name u)) as [->|Hne]; [set_solver|]. rewrite lookup_delete_ne by done. auto. }
      assert (size (unres s0) < fuel) as Hsz0.
      { cbn. pose proof (map_size_delete_Some _ (unres s) (mk_is_Some _ _ Hu)) as E.
        assert (size (unres s) ≠ 0) by (intros E0%map_size_empty_inv; rewrite E0 in Hu; done). lia. }
      destruct (Hrec _ _ _ _ HDu Hinv0 Hsz0) as [(s1 & E1 & (Hi & Hc & Hun) & _)|(m1 & E1 & _)]; rewrite E1; cbn.
      + apply IH; [done..| |done]. assert (unres s1 ⊆ unres s) as Hun1 by (etrans; [exact Hun|apply delete_subseteq]). apply map_subseteq_size in Hun1. lia.
      + intros [= <-]. eapply Herr; [exact HDu|exact Hinv0|exact Hsz0|exact Htc|exact E1].
    - destruct (cache s !! u_name u) as [x|] eqn:Hc; [by apply IH|]. intros [= <-]. right; right. exists name, (u_name u). split; [done|]. split; [done|].
      destruct (D !! u_name u) as [t|] eqn:HDu.
      + right. destruct (i_all _ _ _ _ _ Hinv (u_name u)) as [[? E]|[[? E]|Hin]]; [by rewrite HDu|congruence..|]. by apply Htc.
      + left. split; [|done]. destruct (C0 !! u_name u) as [y|] eqn:E; [|done]. rewrite (lookup_weaken _ _ _ _ E (i_sub _ _ _ _ _ Hinv)) in Hc. done.
  Qed.
  Local Arguments finish_fields : simpl never.
  Local Arguments resolve_field_types : simpl never.
  Local Arguments split_fields : simpl never.
  Lemma second_pass_one_err fuel : rec_err fuel (resolve_one_second_pass fuel).
  Proof.
    induction fuel as [|fuel IH]; intros name ty stk s m HDn Hinv Hsz Hstk; [lia|]. simpl. destruct (cache s !! name) as [x|] eqn:Hc; [done|].
    destruct (HD _ _ HDn) as [fs ->].
    assert (active name fs) as Hact.
    { split; [done|]. destruct (C0 !! name) eqn:E; [|done]. rewrite (lookup_weaken _ _ _ _ E (i_sub _ _ _ _ _ Hinv)) in Hc. done. }
    case_decide as Hvis.
    { intros [= <-]. right; left. exists name. split; [|done]. destruct (i_vis _ _ _ _ _ Hinv _ Hvis) as [[? ?]|Hin]; [congruence|]. by apply Hstk. }
    pose proof (inv_named _ _ HC0 _ _ _ Hinv) as Hnm.
    destruct (split_fields_spec name (cache s) fs [] [] Hnm) as [(rs & E & Hrs & Hok)|(m' & E & _)]; rewrite E; simpl.
    2:{ intros [= <-]. apply split_fields_err in E as (f & u & Hf & H1 & H2 & ->). left. by exists name, fs, f, u. }
    destruct (filter (fun d => ~ known (cache s) d) fs) as [|nr1 nr] eqn:Enr; [done|].
    set (s1 := Sp (cache s) ({[name]} ∪ visited s) (unres s)).
    assert (inv ({[name]} ∪ stk) ({[name]} ∪ stk) s1) as Hinv1.
    { destruct Hinv as [? ? ? ? Hv Hst Hsv]. constructor; simpl; try done.
      - intros n [->%elem_of_singleton|Hn]%elem_of_union; [set_solver|]. destruct (Hv n Hn); [auto|set_solver].
      - intros n [->%elem_of_singleton|Hn]%elem_of_union; auto.
      - set_solver. }
    assert (forall f u, (f, u) ∈ nr1 :: nr -> (f, u) ∈ fs) as Hsub by (intros f u Hin; rewrite <- Enr in Hin; by apply elem_of_list_filter in Hin as [_ ?]).
    destruct (resolve_field_types (resolve_one_second_pass fuel) (nr1 :: nr) s1) as [s2|m'|m'|] eqn:E2; simpl; [| |done|done].
    - destruct (finish_fields name (cache s2) (nr1 :: nr) []) as [l|m'|m'|] eqn:E3; simpl; [done| |done|done].
      intros [= <-]. apply finish_fields_err in E3 as (f & u & Hf & H1 & H2 & ->). left. exists name, fs, f, u. auto.
    - intros [= <-]. eapply (field_types_err fuel _ name ({[name]} ∪ stk)); [by apply second_pass_one|exact IH|exact Hinv1|set_solver| | | |exact E2].
      + intros f u Hin. exists fs, f, u. auto.
      + simpl. lia.
      + intros k [->%elem_of_singleton|Hk]%elem_of_union; auto.
  Qed.
  Lemma second_loop_err fuel order s m : (forall n t, (n, t) ∈ order -> D !! n = Some t) -> inv ∅ ∅ s -> size D < fuel -> second_pass_loop fuel order s = Err m -> reported m.
  Proof.
    revert s. induction order as [|[n t] order IH]; intros s Hord Hinv Hf; simpl; [done|].
    assert (D !! n = Some t) as HDn by (apply Hord; by left).
    assert (inv ({[n]} ∪ ∅) ∅ s) as Hinv1 by (eapply inv_weaken; [done|done| |exact Hinv]; set_solver).
    assert (size (unres s) < fuel) as Hsz by (pose proof (map_subseteq_size _ _ (i_unres _ _ _ _ _ Hinv)); lia).
    destruct (second_pass_one D C0 HD HC0 fuel n t ∅ s HDn Hinv1 Hsz) as [(s1 & E & (Hi & _) & _)|(m1 & E & _)]; rewrite E; simpl.
    - apply IH; [|done|done]. intros. apply Hord. by right.
    - intros [= <-]. eapply second_pass_one_err; [exact HDn|exact Hinv1|exact Hsz|set_solver|exact E].
  Qed.
  Lemma second_pass_err iter m : fair_order iter -> resolve_second_pass iter C0 D = Err m -> reported m.
  Proof.
    intros Hfair. unfold resolve_second_pass. destruct (second_pass_loop (S (size D)) (iter D) (Sp C0 ∅ D)) as [s|m'|m'|] eqn:E; simpl; [done| |done|done].
    intros [= <-]. eapply second_loop_err; [| | |exact E].
    - intros n t. rewrite (Hfair D), elem_of_map_to_list. done.
    - constructor; simpl; try done; set_solver.
    - lia.
  Qed.
End second.

Lemma refD_refers a e C0 D n m : front_facts a e C0 D -> refD D C0 n m -> refers a n m.
Proof. intros F (fs & f & u & [HD _] & Hin & <-). exists fs, f, u. split; [|done]. by apply (ff_D _ _ _ _ F) in HD as [? _]. Qed.
Lemma front_unknown a e C0 D t : front_facts a e C0 D -> C0 !! t = None -> D !! t = None -> t ∉ builtin_names /\ t ∉ decl_names a.
Proof.
  intros F HC HD. assert (forall u, NDecl t u ∉ a) as Hnot.
  { intros u Hu. destruct (ff_ok _ _ _ _ F t u Hu) as [[x|] Ho].
    - assert (C0 !! t = Some (t, x)) as E by (apply (ff_C _ _ _ _ F); eauto). congruence.
    - assert (D !! t = Some u) as E by by apply (ff_D _ _ _ _ F). congruence. }
  split.
  - intros [b Hb]%builtin_names_spec. assert (C0 !! t = Some (t, TBuiltin b)) as E; [|congruence]. apply (ff_C _ _ _ _ F). split; [done|]. right. split; [|eauto]. intros u Hu. by apply Hnot in Hu.
  - intros [u Hu]%decl_names_inv. by apply Hnot in Hu.
Qed.
Lemma check_errors_true iter a m : fair_order iter -> type_check iter a = Err m ->
  defect a m \/ exists n, tc (refers a) n n /\ m = "Declaration for type '" +:+ n +:+ "' does not exist".
Proof.
  intros Hfair. rewrite type_check_front. destruct (front a) as [[[e C0] D]|m'|m'|] eqn:HF; simpl; [| |done|done].
  2:{ intros [= <-]. left. by apply front_err. }
  pose proof (front_ok _ _ _ _ HF) as F. destruct (second_pass_spec D C0 (ff_struct _ _ _ _ F) (ff_named _ _ _ _ F) iter Hfair) as [(c & E & Hsr)|(m' & E & _)]; rewrite E; simpl.
  - destruct (resolve_export e c) as [x|m'|m'|] eqn:E2; simpl; [done| |done|done]. intros [= <-]. left. unfold resolve_export in E2. destruct (c !! e) as [[n t]|] eqn:Hc.
    + assert ((exists fs, t = TStruct fs) \/ C0 !! e = Some (n, t)) as Ht.
      { destruct (sr_new _ _ _ Hsr _ _ _ Hc) as [?|(fs & c0 & rs & _ & _ & _ & _ & _ & _ & ->)]; eauto. }
      assert (m' = "Attempted to export '" +:+ e +:+ "', which is not a struct" /\ forall fs, t ≠ TStruct fs) as [-> Hns] by (destruct t; [by injection E2 as <-|by injection E2 as <-|done]).
      destruct Ht as [[fs ->]|Ht]; [by destruct (Hns fs)|]. apply no_struct; [by apply (ff_export _ _ _ _ F)|].
      apply (ff_C _ _ _ _ F) in Ht as [-> [(u & Hu & Ho)|(_ & b & Hb & _)]]; [right|left; by apply builtin_names_spec].
      destruct u as [vs|fs]; [by exists vs|]. apply fp_one_struct in Ho as (_ & _ & [(_ & rs & _ & [= ->])|(_ & [=])]). by destruct (Hns rs).
    + injection E2 as <-. destruct (front_unknown a e C0 D e F) as [H1 H2].
      * destruct (C0 !! e) as [x|] eqn:E2; [|done]. rewrite (lookup_weaken _ _ _ _ E2 (sr_sub _ _ _ Hsr)) in Hc. done.
      * destruct (D !! e) as [x|] eqn:E2; [|done]. destruct (sr_all _ _ _ Hsr e) as [y Hy]; [by rewrite E2|congruence].
      * apply missing_export; [by apply (ff_export _ _ _ _ F)|done..].
  - intros [= <-]. apply (second_pass_err D C0 (ff_struct _ _ _ _ F) (ff_named _ _ _ _ F)) in E as [(n & fs & f & u & [HD _] & Hin & H1 & H2 & ->)|[(n & Hn & ->)|(n & t & Hr & -> & Ht)]]; [| | |done].
    + left. eapply optional_array; [|exact Hin|done|done]. by apply (ff_D _ _ _ _ F) in HD as [? _].
    + left. apply recursive. eapply (tc_congruence id); [|exact Hn]. intros x y. by apply (refD_refers _ _ _ _ _ _ F).
    + destruct Ht as [[H1 H2]|Ht].
      * left. destruct (front_unknown a e C0 D t F H1 H2) as [H3 H4]. apply (refD_refers _ _ _ _ _ _ F) in Hr as (fs & f & u & Hs & Hin & <-). by eapply missing_type.
      * right. exists t. split; [|done]. eapply (tc_congruence id); [|exact Ht]. intros x y. by apply (refD_refers _ _ _ _ _ _ F).
Qed.
Lemma single_defect iter a m : fair_order iter -> no_builtin_decl a -> ~ valid_schema a -> (forall n, ~ tc (refers a) n n) ->
  (forall m', defect a m' -> m' = m) -> type_check iter a = Err m.
Proof.
  intros Hf Hnb Hv Hac Hone. destruct (type_check_returns iter a Hf) as [Hok|[m' E]]; [by apply type_check_valid in Hok|].
  rewrite E. f_equal. destruct (check_errors_true iter a m' Hf E) as [H|(n & Hn & _)]; [auto|by apply Hac in Hn].
Qed.
