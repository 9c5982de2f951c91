(** Concrete schemas and orders used as witnesses and as examples for the checker theorems. *)
From Verif Require Export CheckProofs4.
From Verif Require Import CheckErrorProofs.

Definition iter_fwd : gmap string atype -> list (string * atype) := map_to_list.
Definition iter_rev (m : gmap string atype) : list (string * atype) := reverse (map_to_list m).
Lemma fair_fwd : fair_order iter_fwd.
Proof. intros m. done. Qed.
Lemma fair_rev : fair_order iter_rev.
Proof. intros m. apply reverse_Permutation. Qed.

Definition plain (n : string) : unresolved := Unresolved n false false.
Definition arr (n : string) : unresolved := Unresolved n true false.
Definition opt (n : string) : unresolved := Unresolved n false true.

(** The schema of the README's "complex" example, with an optional field added and one type that
    the export does not use. *)
Definition demo_schema : ast :=
  [ NDecl "Flag" (AEnum ["A"; "B"]);
    NDecl "Position" (AStruct [("x", plain "float"); ("y", plain "float")]);
    NDecl "Value" (AStruct [("a", plain "uint32"); ("b", plain "int32"); ("c", plain "uint8"); ("d", plain "uint8")]);
    NDecl "Complex" (AStruct [("flag", plain "Flag"); ("pos", opt "Position"); ("names", arr "string");
                              ("values", arr "Value")]);
    NDecl "Outer" (AStruct [("id", plain "uint16"); ("inner", plain "Complex")]);
    NDecl "Unused" (AStruct [("o", plain "Outer")]);
    NExport "Outer" ].

(** Field order depends on the hash order. *)
Definition order_schema : ast :=
  [ NDecl "A" (AStruct [("b", plain "B"); ("x", plain "uint8")]);
    NDecl "B" (AStruct [("c", plain "C")]);
    NDecl "C" (AStruct [("v", plain "uint8")]);
    NExport "A" ].

(** The error message depends on the hash order. *)
Definition message_schema : ast :=
  [ NDecl "A" (AStruct [("b", plain "B")]);
    NDecl "B" (AStruct [("b", plain "B")]);
    NExport "A" ].

(** Two fields with one name. *)
Definition dup_schema : ast :=
  [ NDecl "Flag" (AEnum ["F"]);
    NDecl "P" (AStruct [("a", plain "Flag"); ("x", plain "uint8"); ("x", plain "uint8")]);
    NExport "P" ].

(** A cycle of length three through an optional and an array, not used by the export. *)
Definition cycle_schema : ast :=
  [ NDecl "P" (AStruct [("a", plain "uint8")]);
    NDecl "X" (AStruct [("y", opt "Y")]);
    NDecl "Y" (AStruct [("z", arr "Z")]);
    NDecl "Z" (AStruct [("k", plain "uint8"); ("x", plain "X")]);
    NExport "P" ].

Definition names_of (r : res resolved) : res (list string) :=
  do x <- r; Ok (f_name <$> x_fields (r_export x)).
(** Entry [n] of an accepted result. *)
Definition type_of (r : res resolved) (n : string) : option rtype :=
  match r with Ok x => snd <$> r_types x !! n | _ => None end.
Definition okb {A} (r : res A) : bool := match r with Ok _ => true | _ => false end.
Lemma okb_ok {A} (r : res A) : okb r = true -> is_ok r.
Proof. destruct r; try done. eexists; done. Qed.

#[export] Instance no_builtin_decl_dec a : Decision (no_builtin_decl a).
Proof.
  refine (cast_if (decide (Forall (fun n => n ∉ builtin_names) (decl_names a))));
    unfold no_builtin_decl; [by apply Forall_forall|by rewrite <-Forall_forall].
Defined.

Lemma demo_names : no_builtin_decl demo_schema.
Proof. by apply (bool_decide_unpack _); vm_compute. Qed.
Lemma demo_accepted : is_ok (type_check iter_fwd demo_schema).
Proof. apply okb_ok. vm_compute. done. Qed.
Lemma demo_valid : valid_schema demo_schema.
Proof. apply (type_check_valid iter_fwd); [apply fair_fwd|apply demo_names|apply demo_accepted]. Qed.

Lemma order_names : no_builtin_decl order_schema.
Proof. by apply (bool_decide_unpack _); vm_compute. Qed.
Lemma order_fwd : names_of (type_check iter_fwd order_schema) = Ok ["b"; "x"] \/
                  names_of (type_check iter_fwd order_schema) = Ok ["x"; "b"].
Proof. vm_compute. auto. Qed.

Lemma two_orders : exists i1 i2, fair_order i1 /\ fair_order i2 /\
  names_of (type_check i1 order_schema) = Ok ["b"; "x"] /\
  names_of (type_check i2 order_schema) = Ok ["x"; "b"].
Proof.
  first [ exists iter_fwd, iter_rev; split; [apply fair_fwd|]; split; [apply fair_rev|]; by vm_compute
        | exists iter_rev, iter_fwd; split; [apply fair_rev|]; split; [apply fair_fwd|]; by vm_compute ].
Qed.

Lemma field_order_refuted : exists a iter r n fs,
  no_builtin_decl a /\ fair_order iter /\ type_check iter a = Ok r /\
  needed a (x_name (r_export r)) n /\ declares_struct a n fs /\ ~ keeps_order (r_types r) n fs.
Proof.
  destruct two_orders as (_ & iter & _ & Hf & _ & H).
  exists order_schema, iter. unfold names_of in H. apply rbind_ok in H as (r & Hr & [= Hn]).
  exists r, "A", [("b", plain "B"); ("x", plain "uint8")].
  pose proof (type_check_result _ _ _ Hf order_names Hr) as (He & Hx & _).
  assert (x_name (r_export r) = "A") as E by by injection He.
  split; [apply order_names|]. split; [done|]. split; [done|]. rewrite E. split; [apply rtc_refl|].
  split; [by left|]. intros (rs & Hrs & Hf2). rewrite E in Hx. rewrite Hx in Hrs. injection Hrs as Hrs. rewrite Hrs in Hn.
  apply Forall2_cons_inv_l in Hf2 as (r1 & rs1 & (E1 & _) & _ & ->). simpl in *. congruence.
Qed.

Lemma message_refuted : exists a i1 i2 m1 m2, no_builtin_decl a /\ fair_order i1 /\ fair_order i2 /\
  type_check i1 a = Err m1 /\ type_check i2 a = Err m2 /\ m1 ≠ m2.
Proof.
  exists message_schema, iter_fwd, iter_rev.
  eexists _, _. split; [by apply (bool_decide_unpack _); vm_compute|].
  split; [apply fair_fwd|]. split; [apply fair_rev|].
  split; [vm_compute; reflexivity|]. split; [vm_compute; reflexivity|]. done.
Qed.

Lemma duplicate_field_refuted : exists a iter n fs, no_builtin_decl a /\ fair_order iter /\
  declares_struct a n fs /\ ~ NoDup fs.*1 /\ is_ok (type_check iter a).
Proof.
  exists dup_schema, iter_fwd, "P", [("a", plain "Flag"); ("x", plain "uint8"); ("x", plain "uint8")].
  split; [by apply (bool_decide_unpack _); vm_compute|]. split; [apply fair_fwd|].
  split; [right; by left|]. split.
  - intros H. apply (bool_decide_pack _) in H. vm_compute in H. done.
  - apply okb_ok. by vm_compute.
Qed.

(** The stages before the second pass do not see the order; their messages are functions of the schema. *)
Lemma front_message a m i1 i2 : front a = Err m -> type_check i1 a = type_check i2 a.
Proof. intros H. rewrite !type_check_front, H. done. Qed.
Lemma early_defect_message a i1 i2 : early_defect a -> type_check i1 a = type_check i2 a.
Proof.
  intros Hbad. destruct (front_returns a) as [[[[e C0] D] HF]|[m HF]]; [|by eapply front_message].
  pose proof (front_ok _ _ _ _ HF) as F. exfalso.
  destruct Hbad as [Hb|[Hb|[(n & vs & Hd & Hb)|(n & fs & Hd & Hb)]]].
  - apply (Hb e). apply (ff_export _ _ _ _ F).
  - apply Hb, (ff_nodup _ _ _ _ F).
  - destruct (ff_ok _ _ _ _ F _ _ Hd) as [o Ho]. apply fp_one_enum in Ho as (? & ? & _). by apply Hb.
  - destruct (ff_ok _ _ _ _ F _ _ Hd) as [o Ho]. apply fp_one_struct in Ho as (? & _). by apply Hb.
Qed.

Lemma message_false : exists a iter n, no_builtin_decl a /\ fair_order iter /\ n ∈ decl_names a /\
  type_check iter a = Err ("Declaration for type '" +:+ n +:+ "' does not exist").
Proof.
  first [ exists message_schema, iter_fwd, "B";
          (split; [by apply (bool_decide_unpack _); vm_compute|]); (split; [apply fair_fwd|]);
          split; [right; by left|vm_compute; reflexivity]
        | exists message_schema, iter_rev, "B";
          (split; [by apply (bool_decide_unpack _); vm_compute|]); (split; [apply fair_rev|]);
          split; [right; by left|vm_compute; reflexivity] ].
Qed.

Lemma rejects_invalid iter a : fair_order iter -> no_builtin_decl a -> ~ valid_schema a ->
  exists m, type_check iter a = Err m.
Proof.
  intros Hf Hnb Hv. destruct (type_check_returns iter a Hf) as [Hok|?]; [|done].
  exfalso. apply Hv. by apply (type_check_valid iter).
Qed.
Lemma rejects_cycles iter a n : fair_order iter -> no_builtin_decl a -> tc (refers a) n n ->
  exists m, type_check iter a = Err m.
Proof. intros Hf Hnb Hc. apply rejects_invalid; [done..|]. intros V. by apply (vs_acyclic _ V n). Qed.
Lemma rejects_optional_arrays iter a n fs f u : fair_order iter -> no_builtin_decl a ->
  declares_struct a n fs -> (f, u) ∈ fs -> u_array u = true -> u_opt u = true ->
  exists m, type_check iter a = Err m.
Proof. intros Hf Hnb Hd Hin H1 H2. apply rejects_invalid; [done..|]. intros V. by apply (vs_optarr _ V n fs f u). Qed.
Lemma rejects_unknown iter a n fs f u : fair_order iter -> no_builtin_decl a ->
  declares_struct a n fs -> (f, u) ∈ fs -> u_name u ∉ builtin_names -> u_name u ∉ decl_names a ->
  exists m, type_check iter a = Err m.
Proof.
  intros Hf Hnb Hd Hin H1 H2. apply rejects_invalid; [done..|]. intros V.
  by destruct (vs_types _ V n fs f u).
Qed.
Lemma rejects_compared_duplicates iter a n fs : fair_order iter -> no_builtin_decl a ->
  declares_struct a n fs -> ~ NoDup (compared_names fs) -> exists m, type_check iter a = Err m.
Proof. intros Hf Hnb Hd H. apply rejects_invalid; [done..|]. intros V. by apply H, (vs_fields _ V n). Qed.

(** If all fields are builtins, all names are compared. *)
Lemma compared_all fs : (forall d, d ∈ fs -> u_name d.2 ∈ builtin_names) -> compared_names fs = fs.*1.
Proof.
  induction fs as [|[f u] fs IH]; intros H; [done|]. simpl.
  rewrite decide_True by (apply (H (f, u)); by left). f_equal. apply IH. intros. apply H. by right.
Qed.
Lemma rejects_duplicates_builtin iter a n fs d pre post : fair_order iter -> no_builtin_decl a ->
  declares_struct a n fs -> fs = pre ++ d :: post -> d.1 ∈ pre.*1 ->
  (forall d, d ∈ pre -> u_name d.2 ∈ builtin_names) -> exists m, type_check iter a = Err m.
Proof.
  intros Hf Hnb Hd -> Hin Hpre. eapply rejects_compared_duplicates; [done..|].
  assert (compared_names (pre ++ d :: post) = pre.*1 ++ compared_names (d :: post)) as ->.
  { clear -Hpre. induction pre as [|[f u] pre IH]; [done|]. cbn [app compared_names fmap list_fmap].
    rewrite decide_True by (apply (Hpre (f, u)); by left). simpl. f_equal. apply IH. intros. apply Hpre. by right. }
  rewrite NoDup_app. intros (_ & H & _). apply (H _ Hin). destruct d as [f u]. by left.
Qed.

Lemma enum_numbers iter a r n m en : fair_order iter -> no_builtin_decl a -> type_check iter a = Ok r ->
  r_types r !! n = Some (m, TEnum en) ->
  exists vs, declares_enum a n vs /\ 1 <= length vs <= 32 /\
    (ev_name <$> e_variants en) = vs /\
    smallest_repr (length vs) (e_repr en) /\
    forall i v, e_variants en !! i = Some v -> ev_value v = i /\ 2 ^ i < 2 ^ repr_bits (e_repr en).
Proof.
  intros Hf Hnb Hr Hn. pose proof (type_check_result _ _ _ Hf Hnb Hr) as (_ & _ & _ & Hent).
  assert (valid_schema a) as V by (apply (type_check_valid iter); [done..|eexists; done]).
  destruct (Hent _ _ _ Hn) as [_ [(? & _ & [=])|[(vs & rp & Hd & Hrp & [= ->])|(? & ? & ? & _ & _ & _ & [=])]]].
  exists vs. split; [done|]. destruct (vs_enums _ V _ _ Hd) as [Hl Hnd]. split; [done|]. simpl.
  split; [|split; [done|]].
  - clear. rewrite <-(list_fmap_id vs) at 2. apply list_eq. intros i.
    rewrite !list_lookup_fmap, list_lookup_imap. by destruct (vs !! i).
  - intros i v. rewrite list_lookup_imap. destruct (vs !! i) eqn:E; [|done]. simpl. intros [= <-]. simpl.
    split; [done|]. apply Nat.pow_lt_mono_r; [lia|]. apply lookup_lt_Some in E. destruct Hrp. lia.
Qed.

(** ** The messages describe defects of the schema, with one exception *)
Lemma message_not_defect : exists a iter m, no_builtin_decl a /\ fair_order iter /\ type_check iter a = Err m /\ ~ defect a m.
Proof.
  exists message_schema.
  assert (~ defect message_schema "Declaration for type 'B' does not exist") as Hn.
  { intros H. inversion H; try discriminate. match goal with Hs : declares_struct _ _ _, Hi : _ ∈ _, Hm : _ ∉ decl_names _ |- _ => unfold declares_struct, message_schema in Hs; revert Hs Hi Hm end.
    rewrite !elem_of_cons, elem_of_nil. intros [[= -> ->]|[[= -> ->]|[[=]|[]]]] [[= -> ->]|[]%elem_of_nil]%elem_of_cons Hm; apply Hm; right; by left. }
  first [ exists iter_fwd, "Declaration for type 'B' does not exist"; split; [by apply (bool_decide_unpack _); vm_compute|]; (split; [apply fair_fwd|]); split; [vm_compute; reflexivity|exact Hn]
        | exists iter_rev, "Declaration for type 'B' does not exist"; split; [by apply (bool_decide_unpack _); vm_compute|]; (split; [apply fair_rev|]); split; [vm_compute; reflexivity|exact Hn] ].
Qed.

(** One defect, found in the second pass. *)
Definition late_schema : ast :=
  [ NDecl "P" (AStruct [("q", plain "Q")]); NDecl "Q" (AStruct [("q", plain "Nope"); ("k", arr "Nope")]); NExport "P" ].
Lemma late_structs n fs : declares_struct late_schema n fs -> (n = "P" /\ fs = [("q", plain "Q")]) \/ (n = "Q" /\ fs = [("q", plain "Nope"); ("k", arr "Nope")]).
Proof. unfold declares_struct, late_schema. rewrite !elem_of_cons, elem_of_nil. intros [[= -> ->]|[[= -> ->]|[[=]|[]]]]; auto. Qed.
Lemma late_refers n k : refers late_schema n k -> (n = "P" /\ k = "Q") \/ (n = "Q" /\ k = "Nope").
Proof. intros (fs & f & u & [[-> ->]|[-> ->]]%late_structs & Hin & <-); rewrite !elem_of_cons, elem_of_nil in Hin; naive_solver. Qed.
Lemma twice_dup x l : twice x l -> ~ NoDup l.
Proof. intros (l1 & l2 & l3 & ->) (_ & _ & [Hx _]%NoDup_cons)%NoDup_app. set_solver. Qed.
Lemma late_single : no_builtin_decl late_schema /\ ~ valid_schema late_schema /\ (forall n, ~ tc (refers late_schema) n n) /\
  (forall m', defect late_schema m' -> m' = "Declaration for type 'Nope' does not exist").
Proof.
  assert (forall n, ~ tc (refers late_schema) n n) as Hac.
  { assert (forall x y, tc (refers late_schema) x y -> (x = "P" /\ y ≠ "P") \/ (x = "Q" /\ y = "Nope")) as H.
    { intros x y. induction 1 as [x y Hr|x y z Hr Ht IH]; apply late_refers in Hr as [[-> ->]|[-> ->]]; naive_solver. }
    intros n [[-> ?]|[-> ?]]%H; done. }
  split; [by apply (bool_decide_unpack _); vm_compute|]. split; [|split; [done|]].
  - intros V. destruct (vs_types _ V "Q" _ "q" (plain "Nope") (elem_of_list_further _ _ _ (elem_of_list_here _ _)) (elem_of_list_here _ _)) as [H|H];
      revert H; apply (bool_decide_unpack _); vm_compute; exact I.
  - destruct 1 as [H|e e' es H|n H|n H|n vs H|n vs v H|n fs f H H'|n fs f u H H' H1 H2|n fs f u H H' H1 H2|n H|e H H'|e H H1 H2]; try discriminate.
    + apply twice_dup in H. destruct H. apply (bool_decide_unpack _). vm_compute. exact I.
    + unfold declares_enum, late_schema in H. rewrite !elem_of_cons, elem_of_nil in H. naive_solver.
    + unfold declares_enum, late_schema in H. rewrite !elem_of_cons, elem_of_nil in H. naive_solver.
    + unfold declares_enum, late_schema in H. rewrite !elem_of_cons, elem_of_nil in H. naive_solver.
    + apply twice_dup in H'. destruct H'. apply late_structs in H as [[-> ->]|[-> ->]]; apply (bool_decide_unpack _); vm_compute; exact I.
    + apply late_structs in H as [[-> ->]|[-> ->]]; rewrite !elem_of_cons, elem_of_nil in H'; naive_solver.
    + apply late_structs in H as [[-> ->]|[-> ->]]; rewrite !elem_of_cons, elem_of_nil in H'; [|naive_solver]. destruct H' as [[= -> ->]|[]]. destruct H2. right. by left.
    + by apply Hac in H.
    + injection H as <-. exfalso. destruct H' as [H'|[vs H']].
      * revert H'. apply (bool_decide_unpack _). vm_compute. exact I.
      * unfold declares_enum, late_schema in H'. rewrite !elem_of_cons, elem_of_nil in H'. naive_solver.
    + injection H as <-. destruct H2. by left.
Qed.
