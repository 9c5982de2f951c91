(** The simulations applied to the generated class, and what the checker contributes. *)
From Verif Require Export TsRead3 Codec2 GenWitness.

(** ** calls *)
Lemma writes_of rt x h this v : write_ready (class_of x) -> checked (x_fields x) ->
  writable (TStruct (x_fields x)) v -> rep h this v ->
  exists M, writes rt (class_of x) h this (Done (wire (rt_enc rt) (rt_encs rt) (TStruct (x_fields x)) v, M)) /\ m_heap M = h.
Proof.
  intros [Hl Hu] Hc Hv Hr. set (k := class_of x).
  destruct (w_ty_emits rt (TStruct (x_fields x)) "" [] v I Hc Hv "this" (Mach h [<["this" := Some this]> (hoist (k_write k))] (RState [] false 0) [])
    (<["this" := Some this]> (hoist (k_write k))) [] this this) as (fr & _ & [n0 Hrun]); [done| |done|done|].
  { cbn [lookup_var]. by rewrite lookup_insert. }
  cbn [m_heap m_rd m_out app] in Hrun. eexists (Mach h [fr] (RState [] false 0) _). split; [|done].
  exists n0. intros n Hn. unfold call_write. rewrite decide_True, decide_False by done. fold k.
  specialize (Hrun n Hn). change (w_ty (TStruct (x_fields x)) "" ["this"]) with (k_write k) in Hrun. rewrite Hrun. reflexivity.
Qed.

Lemma reads_of rt str_ok x h data : rt_ok rt str_ok -> loads (class_of x) -> prologue (class_of x) = Done () -> checked (x_fields x) ->
  all_fields no_proto (TStruct (x_fields x)) -> (forall f, f ∈ x_fields x -> f_name f ∉ readonly_names) ->
  exists M props, let res := dec rt (TStruct (x_fields x)) (RState data false 0) in
    reads rt (class_of x) h data (Done (if r_failed res.2 then JNull else JLoc (length h), M)) /\
    m_rd M = res.2 /\ (forall p, p < length h -> m_heap M !! p = h !! p) /\
    m_heap M !! length h = Some (OPlain PCtor props) /\ (forall n, n ∉ List.map f_name (x_fields x) -> own n props = None) /\
    (distinct (TStruct (x_fields x)) -> r_failed res.2 = false -> rep_in (length h) (length (m_heap M)) (m_heap M) (JLoc (length h)) res.1).
Proof.
  intros Hrt Hl Hp Hc Hn Hro. set (k := class_of x). set (fs := x_fields x) in *.
  set (M0 := Mach (h ++ [OPlain PCtor []]) [<["output" := Some (JLoc (length h))]> (hoist (k_read k))] (RState data false 0) []).
  destruct (all_fill rt str_ok Hrt fs Hc Hn "output" M0 (<["output" := Some (JLoc (length h))]> (hoist (k_read k))) [] (length h) PCtor [])
    as (fr & h' & props & _ & [n0 Hrun] & [HL HG] & Ho & Hown & Hrep).
  { done. } { cbn [lookup_var]. by rewrite lookup_insert. } { cbn [M0 m_heap]. by rewrite list_lookup_middle. }
  { intros g Hg. split; [|intros _; by apply Hro]. rewrite all_fields_struct in Hn. by apply Hn. }
  cbn [M0 m_heap m_rd m_out] in *. rewrite app_length in HL, HG. cbn [length] in HL, HG.
  rewrite (dec_struct rt). cbn [fst snd]. eexists _, props. split; [|split; [|split; [|split; [|split]]]].
  - exists n0. intros n Hn'. unfold call_read. rewrite decide_True by done. fold k in Hp. fold k. rewrite Hp. fold M0. specialize (Hrun n Hn').
    change (r_fields fs ["output"]) with (k_read k) in Hrun. rewrite Hrun. cbn [m_rd]. reflexivity.
  - done.
  - cbn [m_heap]. intros p Hp'. rewrite HG by lia. by rewrite lookup_app_l.
  - done.
  - intros n Hnn. by rewrite Hown.
  - intros HD Hnf. apply rep_in_rec. exists (length h), PCtor, props. split; [done|]. split; [cbn [m_heap]; lia|]. split; [done|].
    split; [intros n Hnn; rewrite dec_fields_names in Hnn; by rewrite Hown|]. rewrite app_length in Hrep. cbn [length] in Hrep.
    rewrite <- Nat.add_1_r. exact (Hrep HD Hnf).
Qed.
Lemma reads_det rt k h data r1 r2 : reads rt k h data r1 -> reads rt k h data r2 -> r1 = r2.
Proof. intros [n1 H1] [n2 H2]. specialize (H1 (n1 + n2) ltac:(lia)). specialize (H2 (n1 + n2) ltac:(lia)). congruence. Qed.
Lemma writes_det rt k h this r1 r2 : writes rt k h this r1 -> writes rt k h this r2 -> r1 = r2.
Proof. intros [n1 H1] [n2 H2]. specialize (H1 (n1 + n2) ltac:(lia)). specialize (H2 (n1 + n2) ltac:(lia)). congruence. Qed.

(** ** enums *)
Lemma last_imap {A B} (f : nat -> A -> B) (l : list A) (d : A) (d' : B) : l ≠ [] -> List.last (imap f l) d' = f (length l - 1) (List.last l d).
Proof.
  revert f. induction l as [|x l IH]; intros f Hne; [done|]. destruct l as [|y l]; [done|].
  specialize (IH (f ∘ S) ltac:(done)). cbn [imap] in *. cbn [List.last] in *.
  change (match imap ((f ∘ S) ∘ S) l with [] => (f ∘ S) 0 y | _ :: _ => List.last (imap ((f ∘ S) ∘ S) l) d' end) with
    (List.last ((f ∘ S) 0 y :: imap ((f ∘ S) ∘ S) l) d') in *.
  rewrite IH. cbn [length]. unfold compose. by replace (S (S (length l)) - 1) with (S (S (length l) - 1)) by lia.
Qed.
Lemma good_enum_bounds e : good_enum e -> exists n, 1 <= n <= 32 /\ length (e_variants e) = n /\ n <= repr_bits (e_repr e) /\
  enum_lo e = shl1 0 /\ enum_hi e = shl1 (n - 1) /\ forall x, x ∈ e_variants e <-> exists i v, x = EnumVariant v i /\ i < n /\ e_variants e !! i = Some x.
Proof.
  intros (vs & r & Hlen & _ & Hsm & ->). exists (length vs). split; [done|]. unfold enum_lo, enum_hi. cbn [e_variants e_repr].
  split; [by rewrite imap_length|]. split; [apply Hsm|].
  destruct vs as [|v vs]; [cbn in Hlen; lia|]. split; [done|]. split.
  - change (match imap (fun j w => EnumVariant w j) (v :: vs) with [] => 0%Z | v0 :: _ => shl1 (ev_value (List.last (imap (fun j w => EnumVariant w j) (v :: vs)) v0)) end)
      with (shl1 (ev_value (List.last (imap (fun j w => EnumVariant w j) (v :: vs)) (EnumVariant v 0)))).
    rewrite (last_imap _ _ v) by done. done.
  - intros x. split.
    + intros [i Hi]%elem_of_list_lookup. pose proof Hi as Hi'. rewrite list_lookup_imap in Hi. destruct ((v :: vs) !! i) as [y|] eqn:E; [|done]. injection Hi as <-.
      exists i, y. split; [done|]. split; [|exact Hi']. by eapply lookup_lt_Some.
    + intros (i & y & -> & _ & Hi). by eapply elem_of_list_lookup_2.
Qed.
Lemma shl1_pow n : n < 31 -> shl1 n = (2 ^ Z.of_nat n)%Z.
Proof. intros H. unfold shl1. by destruct (Nat.ltb_spec n 31); [|lia]. Qed.
Lemma good_enum_readable e : good_enum e -> length (e_variants e) <= 31 -> readable e.
Proof.
  intros (n & Hn & HL & Hb & Hlo & Hhi & Hx)%good_enum_bounds Hs m (x & Hin & ->).
  apply Hx in Hin as (i & v & -> & Hi & _). cbn [ev_value]. unfold variant_value. rewrite decide_False by lia.
  exists (2 ^ Z.of_nat i)%Z. split; [done|]. rewrite Hlo, Hhi, !shl1_pow by lia.
  assert (2 ^ Z.of_nat i <= 2 ^ Z.of_nat (n - 1))%Z by (apply Z.pow_le_mono_r; lia).
  assert (0 < 2 ^ Z.of_nat i)%Z by (apply Z.pow_pos_nonneg; lia). split; [change (2 ^ Z.of_nat 0)%Z with 1%Z; lia|].
  assert (2 ^ Z.of_nat i < 2 ^ Z.of_nat (repr_bits (e_repr e)))%Z as HH by (apply Z.pow_lt_mono_r; lia).
  destruct (e_repr e); cbn [repr_kind repr_bits in_kind] in *; split; try lia; exact HH.
Qed.

(** ** what the checker contributes *)
Section result.
  Context iter a r (Hfair : fair_order iter) (Hnb : no_builtin_decl a) (Hr : type_check iter a = Ok r).
  Notation x := (r_export r).
  Notation fs := (x_fields (r_export r)).

  Lemma entry_enums (P : enum -> Prop) : (forall n e, r_types r !! n = Some (n, TEnum e) -> P e) ->
    forall t n, r_types r !! n = Some (n, t) -> all_enums P t.
  Proof.
    intros HP. induction t as [b|e|gs IH] using rtype_ind'; intros n Hn; [done|by eapply HP|].
    apply all_enums_struct. intros f Hf. rewrite Forall_forall in IH. eapply IH; [done|].
    by destruct (entry_struct _ _ _ Hfair Hnb Hr _ _ _ Hn Hf) as (? & ? & _ & _ & _ & _ & _ & H).
  Qed.
  Lemma entry_declared_enum n e : r_types r !! n = Some (n, TEnum e) -> exists vs, declares_enum a n vs /\ length (e_variants e) = length vs.
  Proof.
    intros Hn. destruct (type_check_result _ _ _ Hfair Hnb Hr) as (_ & _ & _ & Hent).
    destruct (Hent _ _ _ Hn) as [_ [(? & _ & [=])|[(vs & rr & Hd & _ & [= ->])|(? & ? & ? & _ & _ & _ & [=])]]].
    exists vs. split; [done|]. cbn. by rewrite imap_length.
  Qed.
  Lemma export_enums (P : enum -> Prop) : (forall n e, r_types r !! n = Some (n, TEnum e) -> P e) -> all_enums P (TStruct fs).
  Proof. intros HP. eapply entry_enums; [exact HP|by eapply export_entry]. Qed.
  Lemma export_readable : small_enums a -> all_enums readable (TStruct fs).
  Proof.
    intros Hs. apply export_enums. intros n e Hn. destruct (entry_declared_enum n e Hn) as (vs & Hd & HL).
    apply good_enum_readable; [exact (entry_leaf _ _ _ Hfair Hnb Hr _ _ Hn)|]. rewrite HL. by eapply Hs.
  Qed.
  Lemma export_distinct : (forall n gs, needed a (x_name x) n -> declares_struct a n gs -> NoDup gs.*1) -> distinct (TStruct fs).
  Proof.
    intros Hp. assert (forall t n, r_types r !! n = Some (n, t) -> distinct t) as H; [|by eapply H, export_entry].
    induction t as [b|e|gs IH] using rtype_ind'; intros n Hn; [done..|]. rewrite distinct_struct. split.
    - destruct (type_check_result _ _ _ Hfair Hnb Hr) as (_ & _ & _ & Hent).
      destruct (Hent _ _ _ Hn) as [_ [(? & _ & [=])|[(? & ? & _ & _ & [=])|(fs' & ds & rs & Hd & Hpm & Hm & [= ->])]]].
      assert (List.map f_name rs = ds.*1) as ->.
      { clear - Hm. induction Hm as [|d rf ds rs (E & _) _ IH]; [done|]. cbn. by rewrite E, IH. }
      rewrite Hpm. apply (Hp n); [|done]. destruct (type_check_result _ _ _ Hfair Hnb Hr) as (_ & _ & Hneed & _). apply Hneed. eauto.
    - intros f Hin. rewrite Forall_forall in IH. eapply IH; [done|].
      by destruct (entry_struct _ _ _ Hfair Hnb Hr _ _ _ Hn Hin) as (? & ? & _ & _ & _ & _ & _ & HH).
  Qed.
  Lemma export_fields (P : sfield -> Prop) : (forall n gs f u, needed a (x_name x) n -> declares_struct a n gs -> (f_name f, u) ∈ gs -> f_tname f = u_name u ->
      f_array f = u_array u -> f_opt f = u_opt u -> leaf_ok (f_ty f) (f_tname f) -> P f) -> all_fields P (TStruct fs).
  Proof.
    intros HP. eapply entry_checked; [exact Hfair|exact Hnb|exact Hr| |by eapply export_entry].
    intros n rs f Hn Hin. destruct (entry_struct _ _ _ Hfair Hnb Hr _ _ _ Hn Hin) as (gs & u & Hd & Hu & H1 & H2 & H3 & H4).
    destruct (type_check_result _ _ _ Hfair Hnb Hr) as (_ & _ & Hneed & _). assert (needed a (x_name x) n) as HN by (apply Hneed; eauto).
    eapply HP; [exact HN|exact Hd|exact Hu|done..|]. exact (entry_leaf _ _ _ Hfair Hnb Hr _ _ H4).
  Qed.
  Lemma params_names : (k_params (class_of x)).*1 = List.map f_name fs.
  Proof. cbn [class_of k_params]. induction fs as [|f l IH]; [done|]. cbn. by rewrite <- IH. Qed.

  Lemma fine_reads rt str_ok h data : rt_ok rt str_ok -> names_fine a (class_of x) ->
    exists M props, let res := dec rt (TStruct fs) (RState data false 0) in
      reads rt (class_of x) h data (Done (if r_failed res.2 then JNull else JLoc (length h), M)) /\
      m_rd M = res.2 /\ (forall p, p < length h -> m_heap M !! p = h !! p) /\
      m_heap M !! length h = Some (OPlain PCtor props) /\ (forall n, n ∉ List.map f_name fs -> own n props = None) /\
      (r_failed res.2 = false -> rep_in (length h) (length (m_heap M)) (m_heap M) (JLoc (length h)) res.1).
  Proof.
    intros Hrt [Hl Hp Hf Ht].
    destruct (reads_of rt str_ok x h data Hrt Hl Hp) as (M & props & H1 & H2 & H3 & H4 & H5 & H6).
    - by eapply export_checked.
    - apply export_fields. intros n gs f u HN Hd Hu _ _ _ _ Hname. destruct (Hf _ _ HN Hd) as [_ Hnp]. apply Hnp. apply elem_of_list_fmap.
      exists (f_name f, u). split; [|done]. by rewrite Hname.
    - intros f Hin. apply Ht. rewrite params_names. apply elem_of_list_In, in_map, elem_of_list_In. done.
    - exists M, props. split; [done|]. split; [done|]. split; [done|]. split; [done|]. split; [done|]. apply H6.
      apply export_distinct. intros n gs HN Hd. by apply (Hf n).
  Qed.
End result.
