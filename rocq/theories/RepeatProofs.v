(** Exactly the repeated field names that the checker passes over (C12). *)
From Verif Require Import CheckErrorProofs CheckWitness.
From Verif Require Export RepeatSpec.

Lemma compared_late fs : forall seen, (NoDup (compared_names fs) /\ forall x, x ∈ compared_names fs -> x ∉ seen) <->
  (forall pre d post, fs = pre ++ d :: post -> d.1 ∈ seen ++ pre.*1 -> exists g, g ∈ pre /\ u_name g.2 ∉ builtin_names).
Proof.
  induction fs as [|[f u] fs IH]; intros seen; [split; [intros _ [|? ?] d post [=]|intros _; split; [constructor|intros x Hx; by apply elem_of_nil in Hx]]|].
  cbn [compared_names]. destruct (decide (u_name u ∈ builtin_names)) as [Hb|Hb].
  - specialize (IH (seen ++ [f])). split.
    + intros [Hnd Hs]. apply NoDup_cons in Hnd as [Hf Hnd]. destruct IH as [IH _].
      assert (forall x, x ∈ compared_names fs -> x ∉ seen ++ [f]) as Hx.
      { intros x Hx [Hx'|Hx']%elem_of_app; [by apply (Hs x); [right|]|]. apply elem_of_list_singleton in Hx' as ->. done. }
      specialize (IH (conj Hnd Hx)). intros [|g pre] d post E Hd.
      * injection E as <- <-. cbn in Hd. rewrite app_nil_r in Hd. destruct (Hs f); [by left|done].
      * injection E as <- ->. destruct (IH pre d post eq_refl) as (g & Hg & Hg'); [|exists g; split; [by right|done]].
        cbn in Hd. rewrite <- app_assoc. exact Hd.
    + intros H. destruct IH as [_ IH]. destruct IH as [Hnd Hs].
      { intros pre d post -> Hd. destruct (H ((f, u) :: pre) d post eq_refl) as (g & Hg & Hg'); [by rewrite <- app_assoc in Hd|].
        apply elem_of_cons in Hg as [-> |Hg]; [done|]. by exists g. }
      split.
      * constructor; [|done]. intros Hf. apply (Hs f Hf). apply elem_of_app. right. by left.
      * intros x [-> |Hx]%elem_of_cons Hseen; [|apply (Hs x Hx), elem_of_app; by left].
        destruct (H [] (f, u) fs eq_refl) as (g & Hg & _); [cbn; by rewrite app_nil_r|by apply elem_of_nil in Hg].
  - split.
    + intros [_ Hs] [|g pre] d post E Hd.
      * injection E as <- <-. cbn in Hd. rewrite app_nil_r in Hd. destruct (Hs f); [by left|done].
      * injection E as <- ->. exists (f, u). split; [by left|done].
    + intros H. split; [apply NoDup_singleton|]. intros x ->%elem_of_list_singleton Hseen.
      destruct (H [] (f, u) fs eq_refl) as (g & Hg & _); [cbn; by rewrite app_nil_r|by apply elem_of_nil in Hg].
Qed.
Lemma repeats_criterion iter a : fair_order iter -> no_builtin_decl a -> valid_but_fields a -> is_ok (type_check iter a) <-> repeats_late a.
Proof.
  intros Hf Hn (H1 & H2 & H3 & H4 & H5 & H6). rewrite (type_check_valid _ _ Hf Hn). split.
  - intros [_ _ _ _ _ _ Hc] n pre d post Hd Hin. destruct (proj1 (compared_late (pre ++ d :: post) [])) with (pre := pre) (d := d) (post := post) as (g & Hg); [|done..|by exists g].
    split; [by eapply Hc|]. intros x _. apply not_elem_of_nil.
  - intros HL. constructor; try done. intros n fs Hd. apply (compared_late fs []). intros pre d post -> Hin. by eapply HL.
Qed.
(** a repeated name after a field of a declared type, and one before *)
Definition repeat_schema (t1 t2 : string) : ast := [NDecl "F" (AEnum ["A"]); NDecl "P" (AStruct [("x", plain t1); ("x", plain t2)]); NExport "P"].
Lemma repeat_struct t1 t2 n fs : declares_struct (repeat_schema t1 t2) n fs -> n = "P" /\ fs = [("x", plain t1); ("x", plain t2)].
Proof.
  intros H. repeat (apply elem_of_cons in H as [H|H]; [first [discriminate H|injection H as -> ->]|]); [done|by apply elem_of_nil in H].
Qed.
Lemma repeat_valid t1 t2 : t1 ∈ ["uint8"; "F"] -> t2 ∈ ["uint8"; "F"] -> valid_but_fields (repeat_schema t1 t2).
Proof.
  intros H1 H2. assert (forall n m, refers (repeat_schema t1 t2) n m -> n = "P" /\ m ∈ ["uint8"; "F"]) as Hr.
  { intros n m (fs & f & u & [-> ->]%repeat_struct & Hin & <-). split; [done|].
    apply elem_of_cons in Hin as [[= -> ->]|Hin]; [done|]. apply elem_of_list_singleton in Hin as [= -> ->]. done. }
  assert ("P" ∉ ["uint8"; "F"]) as HP by (apply (bool_decide_unpack _); by vm_compute).
  split; [eexists _, _; split; [done|right; by left]|]. split; [apply (bool_decide_unpack _); by vm_compute|]. split; [|split; [|split]].
  - intros n vs H. repeat (apply elem_of_cons in H as [H|H]; [first [discriminate H|injection H as -> ->]|]); [|by apply elem_of_nil in H].
    split; [cbn; lia|apply NoDup_singleton].
  - intros n fs f u [-> ->]%repeat_struct Hin. assert (u_name u ∈ ["uint8"; "F"]) as Hu.
    { apply elem_of_cons in Hin as [[= -> ->]|Hin]; [done|]. by apply elem_of_list_singleton in Hin as [= -> ->]. }
    apply elem_of_cons in Hu as [-> |Hu]; [left; apply (bool_decide_unpack _); by vm_compute|]. apply elem_of_list_singleton in Hu as ->. right. by left.
  - intros n fs f u [-> ->]%repeat_struct Hin [Hu _]. apply elem_of_cons in Hin as [[= -> ->]|Hin]; [done|]. by apply elem_of_list_singleton in Hin as [= -> ->].
  - assert (forall n m, tc (refers (repeat_schema t1 t2)) n m -> n = "P") as Ht by (intros n m H; destruct H as [? ? H|? ? ? H _]; by apply Hr in H as [? _]).
    intros n H. pose proof (Ht _ _ H) as E. inversion H as [? ? H0 E1 E2|? m ? H0 H3 E1 E2].
    + apply Hr in H0 as [_ Hm]. rewrite E in Hm. done.
    + apply Hr in H0 as [_ Hm]. apply Ht in H3. rewrite H3 in Hm. done.
Qed.
Lemma repeat_witness : (valid_but_fields (repeat_schema "F" "uint8") /\ no_builtin_decl (repeat_schema "F" "uint8") /\ repeats_late (repeat_schema "F" "uint8") /\
    is_ok (type_check iter_fwd (repeat_schema "F" "uint8"))) /\
  (valid_but_fields (repeat_schema "uint8" "F") /\ no_builtin_decl (repeat_schema "uint8" "F") /\ ~ repeats_late (repeat_schema "uint8" "F")).
Proof.
  assert (forall t1 t2, no_builtin_decl (repeat_schema t1 t2)) as Hn by (intros t1 t2; apply (bool_decide_unpack _); by vm_compute).
  assert (is_ok (type_check iter_fwd (repeat_schema "F" "uint8"))) as Hok by (apply okb_ok; by vm_compute).
  assert (forall x, x ∈ ["uint8"; "F"] -> forall y, y ∈ ["uint8"; "F"] -> valid_but_fields (repeat_schema x y)) as Hv by (intros; by apply repeat_valid).
  split.
  - split; [apply Hv; apply (bool_decide_unpack _); by vm_compute|]. split; [done|]. split; [|done].
    eapply (repeats_criterion iter_fwd); [apply fair_fwd|done| |done]. apply Hv; apply (bool_decide_unpack _); by vm_compute.
  - split; [apply Hv; apply (bool_decide_unpack _); by vm_compute|]. split; [done|].
    intros HL. destruct (HL "P" [("x", plain "uint8")] ("x", plain "F") []) as (g & ->%elem_of_list_singleton & Hg); [right; by left|by left|].
    apply Hg. apply (bool_decide_unpack _). by vm_compute.
Qed.
