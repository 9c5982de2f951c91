(** Proofs about the checker model, part 1: the passes before the second one. *)
From Verif Require Export CheckSpec.

Lemma rbind_ok {A B} (r : res A) (k : A -> res B) b :
  rbind r k = Ok b <-> exists a, r = Ok a /\ k a = Ok b.
Proof. destruct r; simpl; naive_solver. Qed.

(** ** Builtins *)
Lemma builtins_lookup n :
  get_builtins !! n = (fun b => (n, TBuiltin b)) <$> builtin_of_name n.
Proof.
  unfold get_builtins, builtin_of_name. simpl.
  repeat (case_decide; [subst; simpl; by rewrite ?lookup_insert|
          rewrite lookup_insert_ne by done]).
  simpl. by rewrite lookup_empty.
Qed.

Lemma builtin_names_spec n : n ∈ builtin_names <-> is_Some (builtin_of_name n).
Proof.
  unfold builtin_of_name, builtin_names.
  repeat setoid_rewrite elem_of_cons. rewrite elem_of_nil.
  split.
  - intros H. repeat (case_decide; [eauto|]). naive_solver.
  - repeat (case_decide; [tauto|]). by intros [? ?].
Qed.

Lemma builtins_some n : n ∈ builtin_names <-> is_Some (get_builtins !! n).
Proof.
  rewrite builtin_names_spec, builtins_lookup.
  destruct (builtin_of_name n); simpl; split; intros [? ?]; eauto; done.
Qed.
Lemma builtins_none n : n ∉ builtin_names <-> get_builtins !! n = None.
Proof.
  rewrite builtins_some. rewrite <-eq_None_not_Some. done.
Qed.

(** ** get_export *)
Lemma get_export_loop_ok a o e :
  get_export_loop a o = Ok e <->
  match o with None => exports a = [e] | Some x => exports a = [] /\ x = e end.
Proof.
  revert o. induction a as [|[n t|n] a IH]; intros o; simpl.
  - destruct o; naive_solver.
  - rewrite IH. done.
  - destruct o as [x|]; [split; [done|intros [[=] _]]|]. rewrite IH. split; [intros [-> ->]; done|].
    intros [= -> ->]. done.
Qed.
Lemma get_export_ok a e : get_export a = Ok e <-> exports a = [e].
Proof. apply (get_export_loop_ok a None). Qed.
Lemma get_export_loop_returns a o : returns (get_export_loop a o).
Proof.
  unfold returns. revert o. induction a as [|[n t|n] a IH]; intros o; simpl; eauto.
  - destruct o; eauto.
  - destruct o; eauto.
Qed.

(** ** collect_types *)
Lemma collect_types_loop_ok a c m :
  collect_types_loop a c = Ok m ->
  NoDup (decl_names a) /\ (forall n, n ∈ decl_names a -> c !! n = None) /\
  (forall n t, m !! n = Some t <-> c !! n = Some t \/ NDecl n t ∈ a).
Proof.
  revert c. induction a as [|[n t|n] a IH]; intros c; simpl.
  - intros [= <-]. split; [constructor|]. split; [by intros ? ?%elem_of_nil|].
    intros n t. rewrite elem_of_nil. tauto.
  - destruct (c !! n) eqn:Hn; [done|]. intros (Hnd & Hc & Hm)%IH.
    assert (n ∉ decl_names a) as Hni.
    { intros Hin. specialize (Hc n Hin). by rewrite lookup_insert in Hc. }
    split; [by constructor|]. split.
    + intros x [->|Hx]%elem_of_cons; [done|]. specialize (Hc x Hx).
      rewrite lookup_insert_None in Hc. tauto.
    + intros x t'. rewrite Hm, elem_of_cons, lookup_insert_Some.
      assert (NDecl x t' ∈ a -> x ∈ decl_names a) as Hda.
      { clear. induction a as [|[]]; simpl; [by intros ?%elem_of_nil|..];
          intros [?|?]%elem_of_cons; set_solver. }
      destruct (decide (n = x)) as [->|Hne]; split; naive_solver.
  - intros (Hnd & Hc & Hm)%IH. split; [done|]. split; [done|].
    intros x t. rewrite Hm, elem_of_cons. naive_solver.
Qed.

Lemma collect_types_loop_complete a c :
  NoDup (decl_names a) -> (forall n, n ∈ decl_names a -> c !! n = None) ->
  is_ok (collect_types_loop a c).
Proof.
  revert c. induction a as [|[n t|n] a IH]; intros c; simpl; intros Hnd Hc.
  - eexists; done.
  - apply NoDup_cons in Hnd as [Hni Hnd]. rewrite (Hc n) by set_solver.
    apply IH; [done|]. intros x Hx. rewrite lookup_insert_ne by set_solver. apply Hc. set_solver.
  - by apply IH.
Qed.
Lemma collect_types_loop_returns a c : returns (collect_types_loop a c).
Proof.
  unfold returns. revert c. induction a as [|[n t|n] a IH]; intros c; simpl; eauto.
  destruct (c !! n); eauto.
Qed.

Lemma decl_names_elem a n t : NDecl n t ∈ a -> n ∈ decl_names a.
Proof. induction a as [|[]]; simpl; [by intros ?%elem_of_nil|..]; intros [?|?]%elem_of_cons; set_solver. Qed.
Lemma decl_names_inv a n : n ∈ decl_names a -> exists t, NDecl n t ∈ a.
Proof.
  induction a as [|[]]; simpl; [by intros ?%elem_of_nil|..]; [|set_solver].
  intros [->|?]%elem_of_cons; set_solver.
Qed.
Lemma decl_unique a n t t' : NoDup (decl_names a) -> NDecl n t ∈ a -> NDecl n t' ∈ a -> t = t'.
Proof.
  induction a as [|[m u|m] a IH]; simpl; [by intros _ ?%elem_of_nil|..].
  - intros [Hni Hnd]%NoDup_cons [[=]|H]%elem_of_cons [[=]|H']%elem_of_cons; subst; eauto;
      by apply decl_names_elem in H || by apply decl_names_elem in H'.
  - intros Hnd [[=]|H]%elem_of_cons [[=]|H']%elem_of_cons; eauto.
Qed.

(** ** resolve_struct_field *)
Lemma rsf_some n f u c o :
  resolve_struct_field f u c n = Ok (Some o) ->
  ~ (u_array u = true /\ u_opt u = true) /\
  f_name o = f /\ f_array o = u_array u /\ f_opt o = u_opt u /\
  c !! u_name u = Some (f_tname o, f_ty o).
Proof.
  unfold resolve_struct_field. destruct (c !! u_name u) as [[tn t]|]; [|done].
  destruct (u_array u) eqn:?, (u_opt u) eqn:?; simpl; try done; intros [= <-]; simpl;
    (split; [by intros [? ?]|done]).
Qed.
Lemma rsf_none n f u c : resolve_struct_field f u c n = Ok None <-> c !! u_name u = None.
Proof.
  unfold resolve_struct_field. destruct (c !! u_name u) as [[tn t]|]; [|done].
  destruct (u_array u && u_opt u); done.
Qed.
Lemma rsf_returns n f u c : returns (resolve_struct_field f u c n).
Proof.
  unfold returns, resolve_struct_field. destruct (c !! u_name u) as [[tn t]|]; [|eauto].
  destruct (u_array u && u_opt u); eauto.
Qed.
Lemma rsf_ok n f u c : ~ (u_array u = true /\ u_opt u = true) -> is_ok (resolve_struct_field f u c n).
Proof.
  unfold is_ok, resolve_struct_field. intros H. destruct (c !! u_name u) as [[tn t]|]; [|eauto].
  destruct (u_array u), (u_opt u); simpl; eauto. by destruct H.
Qed.
Lemma rsf_err n f u c m :
  resolve_struct_field f u c n = Err m -> u_array u = true /\ u_opt u = true.
Proof.
  unfold resolve_struct_field. destruct (c !! u_name u) as [[tn t]|]; [|done].
  by destruct (u_array u), (u_opt u).
Qed.

(** Every entry of a type map carries its own name: [c !! n = Some (n, _)]. *)
Definition named (c : tymap) : Prop := forall n m t, c !! n = Some (m, t) -> m = n.
Lemma named_builtins : named get_builtins.
Proof. intros n m t. rewrite builtins_lookup. destruct (builtin_of_name n); simpl; naive_solver. Qed.

Lemma rsf_matches n f u c o : named c ->
  resolve_struct_field f u c n = Ok (Some o) -> field_matches c (f, u) o.
Proof.
  intros Hn (_ & Hf & Ha & Ho & Hc)%rsf_some. unfold field_matches. simpl.
  pose proof (Hn _ _ _ Hc) as E. split_and!; try done. by rewrite Hc, E.
Qed.

(** ** Enums *)
Lemma number_variants_ok name vs seen k acc out :
  number_variants name vs seen k acc = Ok out <->
  NoDup vs /\ (forall v, v ∈ vs -> v ∉ seen) /\
  out = acc ++ imap (fun i v => EnumVariant v (k + i)) vs.
Proof.
  revert seen k acc. induction vs as [|v vs IH]; intros seen k acc; simpl.
  - rewrite app_nil_r. split; [intros [= <-]|intros (_ & _ & ->); done].
    split; [constructor|]. split; [by intros ? ?%elem_of_nil|done].
  - case_decide as Hin.
    + split; [done|]. intros (_ & H & _). exfalso. apply (H v); set_solver.
    + rewrite IH. rewrite NoDup_cons. rewrite <-app_assoc. simpl.
      rewrite (imap_ext ((fun i v0 => EnumVariant v0 (k + i)) ∘ S) (fun i v0 => EnumVariant v0 (S k + i)))
        by (intros; simpl; f_equal; lia).
      rewrite Nat.add_0_r.
      split.
      * intros (Hnd & Hs & ->). split_and!; try done.
        -- intros Hv. specialize (Hs v Hv). set_solver.
        -- intros x [->|Hx]%elem_of_cons; [done|]. specialize (Hs x Hx). set_solver.
      * intros ((Hv & Hnd) & Hs & ->). split_and!; try done.
        intros x Hx. assert (x ∉ seen) by (apply Hs; set_solver).
        assert (x ≠ v) by naive_solver. set_solver.
Qed.
Lemma number_variants_returns name vs seen k acc : returns (number_variants name vs seen k acc).
Proof.
  unfold returns. revert seen k acc. induction vs as [|v vs IH]; intros seen k acc; simpl; eauto.
  case_decide; eauto.
Qed.
Lemma choose_repr_ok name n r :
  choose_repr name n = Ok r <-> 1 <= n <= 32 /\ smallest_repr n r.
Proof.
  unfold choose_repr, smallest_repr.
  destruct (Nat.eqb_spec n 0); [split; [done|lia]|].
  destruct (Nat.leb_spec n 8); [|destruct (Nat.leb_spec n 16); [|destruct (Nat.leb_spec n 32)]].
  - split; [intros [= <-]|]. { split; [lia|]. split; [simpl; lia|]. intros []; simpl; lia. }
    intros [_ [Ha Hb]]. specialize (Hb U8). simpl in Hb. destruct r; simpl in *; try done; lia.
  - split; [intros [= <-]|]. { split; [lia|]. split; [simpl; lia|]. intros []; simpl; lia. }
    intros [_ [Ha Hb]]. specialize (Hb U16). simpl in Hb. destruct r; simpl in *; try done; lia.
  - split; [intros [= <-]|]. { split; [lia|]. split; [simpl; lia|]. intros []; simpl; lia. }
    intros [_ [Ha Hb]]. specialize (Hb U32). simpl in Hb. destruct r; simpl in *; try done; lia.
  - split; [done|lia].
Qed.
Lemma choose_repr_returns name n : returns (choose_repr name n).
Proof. unfold returns, choose_repr. repeat case_match; eauto. Qed.

Lemma resolve_enum_ok name vs r vars :
  resolve_enum name vs = Ok (r, vars) <->
  1 <= length vs <= 32 /\ NoDup vs /\ smallest_repr (length vs) r /\
  vars = imap (fun i v => EnumVariant v i) vs.
Proof.
  unfold resolve_enum. rewrite rbind_ok. setoid_rewrite rbind_ok.
  setoid_rewrite choose_repr_ok. setoid_rewrite number_variants_ok.
  simpl. split.
  - intros (r' & [? ?] & vars' & (? & ? & ->) & [= <- <-]). done.
  - intros (? & ? & ? & ->). eexists; split; [done|]. eexists; split; [|done].
    split_and!; done || set_solver.
Qed.
Lemma resolve_enum_returns name vs : returns (resolve_enum name vs).
Proof.
  unfold resolve_enum. destruct (choose_repr_returns name (length vs)) as [[r ->]|[m ->]]; simpl;
    [|right; eauto].
  destruct (number_variants_returns name vs ∅ 0 []) as [[r' ->]|[m ->]]; simpl;
    [left; eauto|right; eauto].
Qed.

(** ** First pass, one struct *)
Definition fld_builtin (d : string * unresolved) : Prop := u_name d.2 ∈ builtin_names.
#[export] Instance fld_builtin_dec d : Decision (fld_builtin d).
Proof. unfold fld_builtin. apply _. Defined.
Definition fld_ok (d : string * unresolved) : Prop := ~ (u_array d.2 = true /\ u_opt d.2 = true).

Fixpoint builtin_prefix (fs : list (string * unresolved)) : list (string * unresolved) :=
  match fs with
  | [] => []
  | d :: fs' => if decide (fld_builtin d) then d :: builtin_prefix fs' else []
  end.

Lemma builtin_prefix_all fs : length (builtin_prefix fs) = length fs <-> Forall fld_builtin fs.
Proof.
  induction fs as [|d fs IH]; simpl; [split; done|].
  case_decide; simpl; rewrite Forall_cons; [rewrite <-IH; naive_solver lia|naive_solver lia].
Qed.
Lemma builtin_prefix_id fs : Forall fld_builtin fs -> builtin_prefix fs = fs.
Proof. induction 1; simpl; [done|]. rewrite decide_True by done. by f_equal. Qed.

Lemma fpf_ok name fs seen acc out :
  first_pass_fields name get_builtins fs seen acc = Ok out <->
  NoDup (compared_names fs) /\ (forall x, x ∈ compared_names fs -> x ∉ seen) /\
  Forall fld_ok (builtin_prefix fs) /\
  exists rs, out = acc ++ rs /\ Forall2 (field_matches get_builtins) (builtin_prefix fs) rs.
Proof.
  revert seen acc. induction fs as [|[f u] fs IH]; intros seen acc; simpl.
  - split.
    + intros [= <-]. split; [constructor|]. split; [by intros ? ?%elem_of_nil|].
      split; [done|]. exists []. by rewrite app_nil_r.
    + intros (_ & _ & _ & rs & -> & H%Forall2_nil_inv_l). subst. by rewrite app_nil_r.
  - case_decide as Hin.
    + split; [done|]. intros (_ & H & _). exfalso. apply (H f); set_solver.
    + unfold fld_builtin. simpl.
      destruct (decide (u_name u ∈ builtin_names)) as [Hb|Hb].
      * rewrite rbind_ok. split.
        -- intros ([o|] & Ho & Hr).
           2:{ apply rsf_none, builtins_none in Ho. done. }
           apply IH in Hr as (Hnd & Hs & Hok & rs & -> & Hrs).
           pose proof (rsf_some _ _ _ _ _ Ho) as (Hno & _).
           apply rsf_matches in Ho; [|apply named_builtins].
           split; [constructor; [intros Hf; specialize (Hs f Hf); set_solver|done]|].
           split; [intros x [->|Hx]%elem_of_cons; [done|]; specialize (Hs x Hx); set_solver|].
           split; [by constructor|]. exists (o :: rs). rewrite <-app_assoc. split; [done|].
           by constructor.
        -- intros ([Hf Hnd]%NoDup_cons & Hs & [Hok1 Hok]%Forall_cons & rs0 & -> & Hrs).
           apply Forall2_cons_inv_l in Hrs as (r & rs & Hr & Hrs & ->).
           destruct Hr as (H1 & H2 & H3 & H4 & H5). simpl in *.
           exists (Some r). split.
           { unfold resolve_struct_field. rewrite H5.
             unfold fld_ok in Hok1. simpl in Hok1.
             destruct r as [? ? ? ? ?]; simpl in *; subst.
             destruct (u_array u) eqn:?, (u_opt u) eqn:?; simpl; try done. naive_solver. }
           apply IH. split; [done|]. split.
           { intros x Hx. assert (x ∉ seen) by (apply Hs; set_solver).
             assert (x ≠ f) by naive_solver. set_solver. }
           split; [done|]. exists rs. by rewrite <-app_assoc.
      * assert (resolve_struct_field f u get_builtins name = Ok None) as ->
          by by apply rsf_none, builtins_none.
        simpl. split.
        -- intros [= <-]. split; [apply NoDup_singleton|].
           split; [by intros x ->%elem_of_list_singleton|]. split; [done|].
           exists []. by rewrite app_nil_r.
        -- intros (_ & _ & _ & rs & -> & H%Forall2_nil_inv_l). subst. by rewrite app_nil_r.
Qed.
Lemma fpf_returns name c fs seen acc : returns (first_pass_fields name c fs seen acc).
Proof.
  revert seen acc. induction fs as [|[f u] fs IH]; intros seen acc; simpl; [left; eauto|].
  case_decide; [right; eauto|].
  destruct (rsf_returns name f u c) as [[[o|] ->]|[m ->]]; simpl; [apply IH|left; eauto|right; eauto].
Qed.

Lemma Forall2_builtin_exists fs :
  Forall fld_builtin fs -> exists rs, Forall2 (field_matches get_builtins) fs rs.
Proof.
  induction 1 as [|[f u] fs H _ [rs IH]]; [by exists []|].
  apply builtin_names_spec in H as [b Hb]. simpl in Hb.
  exists (SField f (u_name u) (TBuiltin b) (u_array u) (u_opt u) :: rs).
  constructor; [|done]. unfold field_matches; simpl. rewrite builtins_lookup, Hb. done.
Qed.

Lemma builtin_prefix_builtin fs : Forall fld_builtin (builtin_prefix fs).
Proof. induction fs; simpl; [done|]. case_decide; [by constructor|done]. Qed.
Lemma builtin_prefix_sub fs d : d ∈ builtin_prefix fs -> d ∈ fs.
Proof. induction fs as [|x fs IH]; simpl; [done|]. case_decide; set_solver. Qed.

(** What the first pass does with one declaration: resolved now, deferred, or an error. *)
Definition fp_one (n : string) (t : atype) : res (option rtype) :=
  match t with
  | AEnum vs => do rv <- resolve_enum n vs; Ok (Some (TEnum (Enum rv.1 rv.2)))
  | AStruct fs =>
      do fields <- first_pass_fields n get_builtins fs ∅ [];
      Ok (if (length fields =? length fs)%nat then Some (TStruct fields) else None)
  end.
Lemma fp_one_returns n t : returns (fp_one n t).
Proof.
  destruct t as [vs|fs]; simpl.
  - destruct (resolve_enum_returns n vs) as [[r ->]|[m ->]]; simpl; [left|right]; eauto.
  - destruct (fpf_returns n get_builtins fs ∅ []) as [[r ->]|[m ->]]; simpl; [left|right]; eauto.
Qed.

Lemma rofp_eq n t st :
  resolve_one_first_pass n t get_builtins st =
  rbind (fp_one n t) (fun o => match o with
    | Some rt => Ok (<[n := (n, rt)]> st.1, delete n st.2)
    | None => Ok st end).
Proof.
  destruct st as [fp un]. destruct t as [vs|fs]; simpl.
  - by destruct (resolve_enum n vs).
  - destruct (first_pass_fields n get_builtins fs ∅ []); simpl; try done.
    by destruct (_ =? _)%nat.
Qed.

Local Arguments resolve_one_first_pass : simpl never.
Local Arguments fp_one : simpl never.
Lemma first_pass_returns a st : returns (resolve_first_pass a get_builtins st).
Proof.
  revert st. induction a as [|[n t|n] a IH]; intros st; simpl; [left; eauto| |apply IH].
  rewrite rofp_eq. destruct (fp_one_returns n t) as [[[rt|] ->]|[m ->]]; simpl; try apply IH.
  right; eauto.
Qed.

Lemma first_pass_ok a fp un fp' un' :
  resolve_first_pass a get_builtins (fp, un) = Ok (fp', un') ->
  NoDup (decl_names a) ->
  (forall n t, NDecl n t ∈ a -> exists o, fp_one n t = Ok o /\
     match o with
     | Some rt => fp' !! n = Some (n, rt) /\ un' !! n = None
     | None => fp' !! n = fp !! n /\ un' !! n = un !! n
     end) /\
  (forall n, n ∉ decl_names a -> fp' !! n = fp !! n /\ un' !! n = un !! n).
Proof.
  revert fp un. induction a as [|[n t|n] a IH]; intros fp un; simpl.
  - intros [= <- <-] _. split; [by intros ? ? ?%elem_of_nil|done].
  - rewrite rofp_eq. intros (st' & (o & Ho & Hst)%rbind_ok & Hr)%rbind_ok [Hni Hnd]%NoDup_cons.
    assert (exists fp1 un1, st' = (fp1, un1) /\
      (forall m, m ≠ n -> fp1 !! m = fp !! m /\ un1 !! m = un !! m) /\
      match o with Some rt => fp1 !! n = Some (n, rt) /\ un1 !! n = None
                 | None => fp1 = fp /\ un1 = un end) as (fp1 & un1 & -> & Hother & Hself).
    { destruct o as [rt|]; simpl in Hst.
      - injection Hst as <-. eexists _, _; split; [done|]. split.
        + intros m Hm. rewrite lookup_insert_ne, lookup_delete_ne by done. done.
        + by rewrite lookup_insert, lookup_delete.
      - injection Hst as <-. eexists _, _; split; [done|]. done. }
    apply IH in Hr as [Hd Hnot]; [|done]. split.
    + intros m u [[= -> ->]|Hin]%elem_of_cons.
      * exists o. split; [done|]. destruct (Hnot n Hni) as [E1 E2].
        destruct o as [rt|]; [rewrite E1, E2; done|]. destruct Hself as [-> ->]. done.
      * destruct (Hd m u Hin) as (o' & Ho' & Hm). exists o'. split; [done|].
        assert (m ≠ n) as Hne by (intros ->; by apply decl_names_elem in Hin).
        destruct (Hother m Hne) as [E1 E2].
        destruct o'; [done|]. rewrite <-E1, <-E2. done.
    + intros m [Hne Hm]%not_elem_of_cons. destruct (Hnot m Hm) as [-> ->]. by apply Hother.
  - intros Hr Hnd. apply IH in Hr as [Hd Hnot]; [|done]. split; [|done].
    intros m u [[=]|Hin]%elem_of_cons; eauto.
Qed.

Lemma first_pass_complete a st :
  (forall n t, NDecl n t ∈ a -> is_ok (fp_one n t)) ->
  is_ok (resolve_first_pass a get_builtins st).
Proof.
  revert st. induction a as [|[n t|n] a IH]; intros st; simpl; intros H.
  - eexists; done.
  - rewrite rofp_eq. destruct (H n t) as [o ->]; [set_solver|]. simpl.
    destruct o; simpl; apply IH; intros; apply H; set_solver.
  - apply IH. intros; apply H; set_solver.
Qed.
Lemma first_pass_sound a st st' n t :
  resolve_first_pass a get_builtins st = Ok st' -> NDecl n t ∈ a -> is_ok (fp_one n t).
Proof.
  revert st. induction a as [|[m u|m] a IH]; intros st; simpl.
  - by intros _ ?%elem_of_nil.
  - rewrite rofp_eq. intros (s1 & (o & Ho & _)%rbind_ok & Hr)%rbind_ok [[= -> ->]|Hin]%elem_of_cons.
    + eexists; done.
    + eauto.
  - intros Hr [[=]|Hin]%elem_of_cons; eauto.
Qed.

(** The first pass on a struct: accepted iff the compared names are distinct and the builtin
    prefix has no optional arrays; resolved at once iff all fields are builtins. *)
Lemma fp_one_struct n fs o :
  fp_one n (AStruct fs) = Ok o <->
  NoDup (compared_names fs) /\ Forall fld_ok (builtin_prefix fs) /\
  ((Forall fld_builtin fs /\ exists rs, Forall2 (field_matches get_builtins) fs rs /\ o = Some (TStruct rs)) \/
   (~ Forall fld_builtin fs /\ o = None)).
Proof.
  unfold fp_one. rewrite rbind_ok. setoid_rewrite fpf_ok. simpl. split.
  - intros (out & (Hnd & _ & Hok & rs & -> & Hrs) & [= <-]). split; [done|]. split; [done|].
    pose proof (Forall2_length _ _ _ Hrs) as Hlen.
    destruct (Nat.eqb_spec (length rs) (length fs)) as [E|E].
    + left. assert (Forall fld_builtin fs) as Hall by (apply builtin_prefix_all; congruence).
      split; [done|]. exists rs. rewrite builtin_prefix_id in Hrs by done. done.
    + right. split; [|done]. intros Hall%builtin_prefix_all. congruence.
  - intros (Hnd & Hok & Ho).
    destruct Ho as [(Hall & rs & Hrs & ->)|(Hnall & ->)].
    + exists rs. split.
      * split_and!; try done. exists rs. by rewrite builtin_prefix_id.
      * rewrite (Forall2_length _ _ _ Hrs), Nat.eqb_refl. done.
    + destruct (Forall2_builtin_exists _ (builtin_prefix_builtin fs)) as [rs Hrs].
      exists rs. split; [split_and!; try done; eauto|].
      rewrite <-(Forall2_length _ _ _ Hrs).
      destruct (Nat.eqb_spec (length (builtin_prefix fs)) (length fs)) as [E|E]; [|done].
      by apply builtin_prefix_all in E.
Qed.
Lemma fp_one_enum n vs o :
  fp_one n (AEnum vs) = Ok o <->
  1 <= length vs <= 32 /\ NoDup vs /\ exists r, smallest_repr (length vs) r /\
  o = Some (TEnum (Enum r (imap (fun i v => EnumVariant v i) vs))).
Proof.
  unfold fp_one. rewrite rbind_ok. split.
  - intros ([r vars] & H%resolve_enum_ok & [= <-]). simpl. naive_solver.
  - intros (H1 & H2 & r & H3 & ->). exists (r, imap (fun i v => EnumVariant v i) vs).
    split; [by apply resolve_enum_ok|done].
Qed.
