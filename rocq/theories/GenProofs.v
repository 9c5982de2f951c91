(** What the checker guarantees about the types it hands to the generator, and C18-C21. *)
From Verif Require Export TsPlan CheckProofs4 CheckWitness.

Definition good_enum (e : enum) : Prop :=
  exists vs r, 1 <= length vs <= 32 /\ NoDup vs /\ smallest_repr (length vs) r /\
    e = Enum r (imap (fun i v => EnumVariant v i) vs).

(** [P] holds of every field at every depth *)
Fixpoint all_fields (P : sfield -> Prop) (t : rtype) : Prop :=
  match t with
  | TStruct fs => fold_right (fun f Q => P f /\ all_fields P (f_ty f) /\ Q) True fs
  | _ => True
  end.
Definition leaf_ok (t : rtype) (tn : string) : Prop :=
  match t with TBuiltin b => builtin_of_name tn = Some b | TEnum e => good_enum e | TStruct _ => True end.
(** the shape of a checked type *)
Definition field_ok (f : sfield) : Prop := f_array f && f_opt f = false /\ leaf_ok (f_ty f) (f_tname f).
Definition checked (fs : list sfield) : Prop := all_fields field_ok (TStruct fs).

Lemma all_fields_struct P fs : all_fields P (TStruct fs) <-> forall f, f ∈ fs -> P f /\ all_fields P (f_ty f).
Proof.
  cbn [all_fields]. induction fs as [|f fs IH]; cbn [fold_right].
  - split; [|done]. intros _ f Hf. by apply elem_of_nil in Hf.
  - rewrite IH. split.
    + intros (H1 & H2 & H3) g [->|Hg]%elem_of_cons; [done|by apply H3].
    + intros H. split; [|split]; [apply H; left..|]. intros g Hg. apply H. by right.
Qed.
Lemma all_fields_impl (P Q : sfield -> Prop) t : (forall f, P f -> Q f) -> all_fields P t -> all_fields Q t.
Proof.
  intros HPQ. induction t as [b|e|fs IH] using rtype_ind'; [done..|].
  rewrite !all_fields_struct. intros H f Hf. destruct (H f Hf). split; [auto|].
  rewrite Forall_forall in IH. by apply IH.
Qed.
Lemma all_fields_and (P Q : sfield -> Prop) t : all_fields P t -> all_fields Q t -> all_fields (fun f => P f /\ Q f) t.
Proof.
  induction t as [b|e|fs IH] using rtype_ind'; [done..|].
  rewrite !all_fields_struct. intros H1 H2 f Hf. destruct (H1 f Hf), (H2 f Hf). split; [auto|].
  rewrite Forall_forall in IH. by apply IH.
Qed.

Section result.
  Context iter a r (Hfair : fair_order iter) (Hnb : no_builtin_decl a) (Hr : type_check iter a = Ok r).

  Lemma result_valid : valid_schema a.
  Proof. apply (type_check_valid iter); [done..|eexists; done]. Qed.

  Lemma entry_struct n rs f : r_types r !! n = Some (n, TStruct rs) -> f ∈ rs ->
    exists fs u, declares_struct a n fs /\ (f_name f, u) ∈ fs /\ f_tname f = u_name u /\
      f_array f = u_array u /\ f_opt f = u_opt u /\ r_types r !! f_tname f = Some (f_tname f, f_ty f).
  Proof.
    intros Hn Hf. destruct (type_check_result _ _ _ Hfair Hnb Hr) as (_ & _ & _ & Hent).
    destruct (Hent _ _ _ Hn) as [_ [(? & _ & [=])|[(? & ? & _ & _ & [=])|(fs & ds & rs' & Hd & Hp & Hm & [= ->])]]].
    apply elem_of_list_lookup in Hf as [i Hi].
    destruct (Forall2_lookup_r _ _ _ _ _ Hm Hi) as ([fn u] & Hdi & H1 & H2 & H3 & H4 & H5). simpl in *.
    exists fs, u. split; [done|]. split; [|rewrite H2; done].
    rewrite H1. rewrite <- Hp. by eapply elem_of_list_lookup_2.
  Qed.

  Lemma entry_leaf n t : r_types r !! n = Some (n, t) -> leaf_ok t n.
  Proof.
    intros Hn. destruct (type_check_result _ _ _ Hfair Hnb Hr) as (_ & _ & _ & Hent).
    destruct (Hent _ _ _ Hn) as [_ [(b & Hb & ->)|[(vs & rp & Hd & Hrp & ->)|(? & ? & ? & _ & _ & _ & ->)]]]; [done| |done].
    destruct (vs_enums _ result_valid _ _ Hd). exists vs, rp. done.
  Qed.

  Lemma entry_checked (P : sfield -> Prop) :
    (forall n rs f, r_types r !! n = Some (n, TStruct rs) -> f ∈ rs -> P f) ->
    forall t n, r_types r !! n = Some (n, t) -> all_fields P t.
  Proof.
    intros HP. induction t as [b|e|fs IH] using rtype_ind'; [done..|]. intros n Hn.
    apply all_fields_struct. intros f Hf. split; [by eapply HP|].
    rewrite Forall_forall in IH. eapply IH; [done|].
    destruct (entry_struct _ _ _ Hn Hf) as (? & ? & _ & _ & _ & _ & _ & H). exact H.
  Qed.

  Lemma export_entry : r_types r !! x_name (r_export r) = Some (x_name (r_export r), TStruct (x_fields (r_export r))).
  Proof. by destruct (type_check_result _ _ _ Hfair Hnb Hr) as (_ & ? & _). Qed.

  Lemma field_is_ok n rs f : r_types r !! n = Some (n, TStruct rs) -> f ∈ rs -> field_ok f.
  Proof.
    intros Hn Hf. destruct (entry_struct _ _ _ Hn Hf) as (fs & u & Hd & Hu & E1 & E2 & E3 & E4).
    split; [|by apply entry_leaf]. rewrite E2, E3.
    pose proof (vs_optarr _ result_valid _ _ _ _ Hd Hu). destruct (u_array u), (u_opt u); naive_solver.
  Qed.

  Lemma export_checked : checked (x_fields (r_export r)).
  Proof. eapply entry_checked; [exact field_is_ok|exact export_entry]. Qed.
End result.

Lemma last_elem {A} (l : list A) d : l ≠ [] -> List.last l d ∈ l.
Proof.
  induction l as [|x [|y l] IH]; intros H; [done|by left|]. right. by apply IH.
Qed.

Lemma good_enum_shiftable e : good_enum e -> enum_shiftable e.
Proof.
  intros (vs & r & [H1 H2] & _ & _ & ->). unfold enum_shiftable. cbn [e_variants].
  assert (forall x, x ∈ imap (fun i v => EnumVariant v i) vs -> ev_value x < 32) as Hx.
  { intros x [i Hi]%elem_of_list_lookup. rewrite list_lookup_imap in Hi.
    destruct (vs !! i) eqn:E; [|done]. injection Hi as <-. apply lookup_lt_Some in E. simpl. lia. }
  assert (imap (fun i v => EnumVariant v i) vs ≠ []) as Hne by (destruct vs; [simpl in H1; lia|done]).
  destruct (imap _ vs) as [|y l]; [done|]. split; apply Hx; [by left|by apply last_elem].
Qed.

Lemma checked_shiftable fs : checked fs -> shiftable (TStruct fs).
Proof.
  unfold checked.
  assert (forall t tn, leaf_ok t tn -> all_fields field_ok t -> shiftable t) as H.
  { induction t as [b|e|fs' IH] using rtype_ind'; intros tn Hl Ha; [done|by apply good_enum_shiftable|].
    rewrite all_fields_struct in Ha. cbn [shiftable]. rewrite Forall_forall in IH.
    clear Hl tn. induction fs' as [|f fs' IHfs]; [done|]. cbn [fold_right]. split.
    - destruct (Ha f) as [[_ Hl] Hf]; [by left|]. by eapply IH; [left|..].
    - apply IHfs; intros g Hg; [apply IH; by right|apply Ha; by right]. }
  intros Ha. by eapply (H _ "").
Qed.

(** C18, and the tree behind the text *)
Lemma generate_ok iter a r version now titer :
  fair_order iter -> no_builtin_decl a -> type_check iter a = Ok r ->
  generate version now titer r = Ok (print_module (module_of version now titer r)).
Proof. intros Hf Hn Hr. apply generate_print, checked_shiftable. by eapply export_checked. Qed.
