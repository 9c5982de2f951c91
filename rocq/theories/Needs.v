(** Proofs for every schema whose export needs something: C29, C30, C32, C33, C34. *)
From Verif Require Export NeedsSpec Void AcceptProofs.

(** a field as in [Q], at any depth *)
Inductive inside (Q : sfield -> Prop) : rtype -> Prop :=
| inside_here fs f : f ∈ fs -> Q f -> inside Q (TStruct fs)
| inside_in fs f : f ∈ fs -> inside Q (f_ty f) -> inside Q (TStruct fs).

(** ** from the schema to its types *)
Section schema.
  Context iter a r (Hfair : fair_order iter) (Hnb : no_builtin_decl a) (Hr : type_check iter a = Ok r).
  Notation e := (x_name (r_export r)).
  Notation t := (TStruct (x_fields (r_export r))).
  Lemma entry_field n fs f u ty : declares_struct a n fs -> (f, u) ∈ fs -> r_types r !! n = Some (n, ty) ->
    exists rs f', ty = TStruct rs /\ f' ∈ rs /\ field_matches (r_types r) (f, u) f'.
  Proof.
    intros Hd Hin Hn. destruct (entry_of_struct _ _ _ Hfair Hnb Hr _ _ _ Hd Hn) as (ds & rs & Hp & Hm & ->). rewrite <- Hp in Hin. apply elem_of_list_lookup in Hin as [i Hi].
    destruct (Forall2_lookup_l _ _ _ _ _ Hm Hi) as (f' & Hi' & Hf'). exists rs, f'. split; [done|]. split; [by eapply elem_of_list_lookup_2|done].
  Qed.
  Lemma entry_inside (Q : sfield -> Prop) n m fs f u : needed a n m -> declares_struct a m fs -> (f, u) ∈ fs -> (forall f', field_matches (r_types r) (f, u) f' -> Q f') ->
    forall ty, r_types r !! n = Some (n, ty) -> inside Q ty.
  Proof.
    intros Hneed Hd Hin HQ. induction Hneed as [m|n n' m (gs & g & w & Hg & Hgw & <-) _ IH]; intros ty Hn.
    - destruct (entry_field _ _ _ _ _ Hd Hin Hn) as (rs & f' & -> & Hf' & Hm). eapply inside_here; [exact Hf'|by apply HQ].
    - destruct (entry_field _ _ _ _ _ Hg Hgw Hn) as (rs & f' & -> & Hf' & (_ & _ & _ & _ & E)). eapply inside_in; [exact Hf'|]. by apply IH.
  Qed.
  (** fields *)
  Lemma field_inside (P : unresolved -> Prop) (Q : sfield -> Prop) : (forall f u f', field_matches (r_types r) (f, u) f' -> P u -> Q f') -> needs_field P a e -> inside Q t.
  Proof.
    intros HQ (n & fs & f & u & Hneed & Hd & Hin & HP). eapply entry_inside; [exact Hneed|exact Hd|exact Hin| |by eapply export_entry].
    intros f' Hf'. by eapply HQ.
  Qed.
  Lemma fields_without (P : unresolved -> Prop) (Q : sfield -> Prop) : (forall f u f', field_matches (r_types r) (f, u) f' -> ~ Q f' -> P u) -> (forall f, Q f \/ ~ Q f) ->
    ~ needs_field P a e -> all_fields Q t.
  Proof.
    intros HQ Hdec Hno. destruct (type_check_result _ _ _ Hfair Hnb Hr) as (_ & _ & Hneed & _). eapply entry_checked; [done..| |by eapply export_entry]. intros n rs f Hn Hin.
    destruct (Hdec f) as [|Hq]; [done|]. destruct Hno. destruct (entry_struct _ _ _ Hfair Hnb Hr _ _ _ Hn Hin) as (fs & u & Hd & Hu & E1 & E2 & E3 & E4).
    exists n, fs, (f_name f), u. split; [apply Hneed; by eexists|]. split; [done|]. split; [done|]. apply (HQ (f_name f) u f); [|done].
    repeat split; [done..|]. cbn. by rewrite <- E1.
  Qed.
  (** enums *)
  Lemma entry_of_enum n vs ty : declares_enum a n vs -> r_types r !! n = Some (n, ty) -> exists en, ty = TEnum en /\ length (e_variants en) = length vs /\ good_enum en.
  Proof.
    intros Hd Hn. destruct (type_check_result _ _ _ Hfair Hnb Hr) as (_ & _ & _ & Hent). pose proof (entry_leaf _ _ _ Hfair Hnb Hr _ _ Hn) as Hl.
    destruct (Hent _ _ _ Hn) as [_ [(b & Hb & _)|[(vs' & rp & Hde & _ & ->)|(fs' & ds & rs & Hd' & _)]]].
    - by destruct (declared_not_builtin _ Hnb _ _ _ Hd Hb).
    - pose proof (decl_unique _ _ _ _ (vs_decls _ (result_valid _ _ _ Hfair Hnb Hr)) Hd Hde) as [= <-]. eexists. split; [done|]. split; [cbn; by rewrite imap_length|exact Hl].
    - pose proof (decl_unique _ _ _ _ (vs_decls _ (result_valid _ _ _ Hfair Hnb Hr)) Hd Hd') as [=].
  Qed.
  Lemma enum_inside k : needs_enum k a e -> inside (fun f => exists en, f_ty f = TEnum en /\ k <= length (e_variants en) /\ good_enum en) t.
  Proof.
    intros (m & vs & Hneed & Hd & Hk). pose proof (export_entry _ _ _ Hfair Hnb Hr) as He. remember (x_name (r_export r)) as n eqn:En. clear En.
    assert (forall ty, r_types r !! n = Some (n, ty) -> (exists en, ty = TEnum en) \/ inside (fun f => exists en, f_ty f = TEnum en /\ k <= length (e_variants en) /\ good_enum en) ty) as H; [|by destruct (H _ He) as [[? [=]]|]].
    clear He. induction Hneed as [m|n n' m (gs & g & w & Hg & Hgw & <-) Hn' IH]; intros ty Hn.
    - destruct (entry_of_enum _ _ _ Hd Hn) as (en & -> & _). left. by exists en.
    - right. destruct (entry_field _ _ _ _ _ Hg Hgw Hn) as (rs & f' & -> & Hf' & (_ & _ & _ & _ & E)). cbn [snd] in E.
      destruct (IH Hd _ E) as [[en Ee]|Hi]; [|by eapply inside_in]. eapply inside_here; [exact Hf'|]. rewrite Ee in E. exists en. split; [done|].
      inversion Hn' as [|x y z (gs' & g' & w' & Hg' & _)]; subst.
      + destruct (entry_of_enum _ _ _ Hd E) as (en' & [= <-] & H1 & H2). rewrite H1. done.
      + by destruct (entry_of_struct _ _ _ Hfair Hnb Hr _ _ _ Hg' E) as (? & ? & _ & _ & [=]).
  Qed.
  Lemma enums_without k : ~ needs_enum (S k) a e -> all_enums (fun en => length (e_variants en) <= k) t.
  Proof.
    intros Hno. destruct (type_check_result _ _ _ Hfair Hnb Hr) as (_ & _ & Hneed & _). apply (export_enums _ _ _ Hfair Hnb Hr). intros n en Hn.
    destruct (entry_declared_enum _ _ _ Hfair Hnb Hr n en Hn) as (vs & Hd & HL). destruct (decide (length (e_variants en) <= k)) as [|Hk]; [done|].
    destruct Hno. exists n, vs. split; [apply Hneed; by eexists|]. split; [done|]. rewrite <- HL. lia.
  Qed.
  Lemma export_good : all_enums good_enum t.
  Proof. apply (export_enums _ _ _ Hfair Hnb Hr). intros n en Hn. exact (entry_leaf _ _ _ Hfair Hnb Hr _ _ Hn). Qed.
End schema.
Lemma all_enums_mono (P Q : enum -> Prop) t : (forall e, P e -> Q e) -> all_enums P t -> all_enums Q t.
Proof.
  intros H. induction t as [b|e|fs IH] using rtype_ind'; [done|apply H|]. rewrite !all_enums_struct, Forall_forall in *. intros He f Hf. apply IH; [done|by apply He].
Qed.
Lemma all_enums_and (P Q : enum -> Prop) t : all_enums P t -> all_enums Q t -> all_enums (fun e => P e /\ Q e) t.
Proof.
  induction t as [b|e|fs IH] using rtype_ind'; [done|done|]. rewrite !all_enums_struct, Forall_forall in *. intros He1 He2 f Hf. apply IH; [done|by apply He1|by apply He2].
Qed.
Lemma all_enums_any (P : enum -> Prop) t : (forall e, P e) -> all_enums P t.
Proof. intros H. induction t as [b|e|fs IH] using rtype_ind'; [exact I|apply H|]. apply all_enums_struct. by apply Forall_forall. Qed.
Lemma good_variants e : good_enum e -> exists n, declared e n.
Proof. intros (vs & rp & Hg & _ & _ & ->). destruct vs as [|w vs]; [cbn in Hg; lia|]. eexists. exists (EnumVariant w 0). split; [left|done]. Qed.

(** ** calls of the reader *)
Section calls.
  Context (rt : runtime).
  Definition calls_at_least {A} (k : nat) (d : rstate -> A * rstate) : Prop := forall r, k + r_calls r <= r_calls (d r).2.
  Lemma at_least_times k n (d : decoder) : calls_at_least k d -> calls_at_least (n * k) (dec_times n d).
  Proof.
    intros Hd. induction n as [|n IH]; intros r; [cbn; lia|]. cbn [dec_times]. specialize (Hd r). destruct (d r) as [v r1]. specialize (IH r1).
    destruct (dec_times n d r1) as [vs r2]. cbn in *. lia.
  Qed.
  Lemma at_least_wrap k a o (d : decoder) : calls_at_least k d -> calls_at_least (if a || o then 1 else k) (dec_wrap rt a o d).
  Proof.
    intros Hd. unfold dec_wrap. assert (calls_at_least (if a then 1 else k) (if a then dec_arr rt d else d)) as Ha.
    { destruct a; [|done]. intros r. unfold dec_arr. pose proof (read_num_calls rt KU32 r) as H1. destruct (read_num rt KU32 r) as [n r1]. pose proof (at_least_times k (Z.to_nat (int_of n)) d Hd r1) as H2.
      destruct (dec_times _ d r1). cbn [snd] in *. lia. }
    destruct o; [|by rewrite orb_false_r]. rewrite orb_true_r. intros r. unfold dec_opt. pose proof (read_num_calls rt KU8 r) as H1. destruct (read_num rt KU8 r) as [n r1]. cbn [snd] in *.
    case_decide; [|cbn; lia]. specialize (Ha r1). lia.
  Qed.
  Lemma at_least_dec t : calls_at_least (if voidb t then 0 else 1) (dec rt t).
  Proof.
    induction t as [b|e|fs IH] using rtype_ind'; intros r.
    - cbn [dec voidb]. unfold dec_builtin. destruct (builtin_kind b) as [k|].
      + pose proof (read_num_calls rt k r) as H. destruct (read_num rt k r). cbn in *. lia.
      + pose proof (read_num_calls rt KU32 r) as H. destruct (read_num rt KU32 r) as [n r1]. pose proof (read_str_calls rt (int_of n) r1) as H2. destruct (read_str rt _ r1). cbn in *. lia.
    - cbn [dec voidb]. unfold dec_enum. pose proof (read_num_calls rt (repr_kind (e_repr e)) r) as H. destruct (read_num rt _ r). case_decide; cbn in *; lia.
    - rewrite dec_struct_eq. cbn [snd]. revert r. induction IH as [|f fs Hf _ IH]; intros r; [cbn; lia|]. rewrite dec_fields_cons. cbn [snd]. specialize (IH (dec_field rt f r).2).
      pose proof (at_least_wrap _ (f_array f) (f_opt f) _ Hf r) as H. change (dec_wrap rt (f_array f) (f_opt f) (dec rt (f_ty f))) with (dec_field rt f) in H.
      cbn [voidb forallb] in *. destruct (f_array f), (f_opt f), (voidb (f_ty f)); cbn [orb negb andb] in *; destruct (forallb _ fs); lia.
  Qed.
  Lemma dec_fields_grow fs r : r_calls r <= r_calls (dec_fields rt fs r).2.
  Proof. pose proof (at_least_dec (TStruct fs) r) as H. rewrite dec_struct_eq in H. cbn [snd] in H. lia. Qed.
  Lemma dec_field_grow f r : r_calls r <= r_calls (dec_field rt f r).2.
  Proof. pose proof (at_least_wrap _ (f_array f) (f_opt f) _ (at_least_dec (f_ty f)) r) as H. unfold dec_field. lia. Qed.
  (** items that take no bytes are read without a call *)
  Lemma void_dec t : voidb t = true -> forall r, (dec rt t r).2 = r.
  Proof.
    induction t as [b|e|fs IH] using rtype_ind'; [done..|]. intros Hv r. rewrite voidb_struct in Hv. rewrite Forall_forall in IH. rewrite dec_struct_eq. cbn [snd].
    induction fs as [|f fs IHf]; [done|]. rewrite dec_fields_cons. cbn [snd]. destruct (Hv f ltac:(by left)) as (Ha & Ho & Hf).
    unfold dec_field. rewrite Ha, Ho. cbn [dec_wrap]. rewrite (IH f ltac:(by left) Hf). apply IHf; [intros; apply IH; [by right|done]|intros; apply Hv; by right].
  Qed.
  Lemma void_times n (d : decoder) r : (forall r, (d r).2 = r) -> (dec_times n d r).2 = r.
  Proof. intros Hd. revert r. induction n as [|n IH]; intros r; [done|]. cbn [dec_times]. specialize (Hd r). destruct (d r) as [v r1]. specialize (IH r1). destruct (dec_times n d r1). cbn in *. congruence. Qed.
  Lemma few_calls t : all_fields (fun f => f_array f = true -> voidb (f_ty f) = true) t -> forall r, (Z.of_nat (r_calls (dec rt t r).2) <= read_places t + Z.of_nat (r_calls r))%Z.
  Proof.
    induction t as [b|e|fs IH] using rtype_ind'; intros Ha r.
    - cbn [dec]. unfold dec_builtin. destruct (builtin_kind b) as [k|] eqn:Hb.
      + pose proof (read_num_calls rt k r) as H. destruct (read_num rt k r). cbn [snd] in *. destruct b; try done; cbn [read_places]; lia.
      + pose proof (read_num_calls rt KU32 r) as H. destruct (read_num rt KU32 r) as [n r1]. pose proof (read_str_calls rt (int_of n) r1) as H2. destruct (read_str rt _ r1). cbn [snd] in *.
        destruct b; try done; cbn [read_places]; lia.
    - cbn [dec read_places]. unfold dec_enum. pose proof (read_num_calls rt (repr_kind (e_repr e)) r) as H. destruct (read_num rt _ r). case_decide; cbn in *; lia.
    - rewrite dec_struct_eq. cbn [snd]. rewrite all_fields_struct in Ha. rewrite Forall_forall in IH. revert r. induction fs as [|f fs IHf]; intros r; [cbn; lia|]. rewrite dec_fields_cons. cbn [snd].
      specialize (IHf ltac:(intros; apply IH; [by right|done]) ltac:(intros; apply Ha; by right) (dec_field rt f r).2).
      change (read_places (TStruct (f :: fs))) with ((if f_array f then 1 else 0) + (if f_opt f then 1 else 0) + read_places (f_ty f) + read_places (TStruct fs))%Z.
      destruct (Ha f ltac:(by left)) as [Hv Hin]. specialize (IH f ltac:(by left) Hin).
      assert (forall r, Z.of_nat (r_calls ((if f_array f then dec_arr rt (dec rt (f_ty f)) else dec rt (f_ty f)) r).2) <= (if f_array f then 1 else 0) + read_places (f_ty f) + Z.of_nat (r_calls r))%Z as Harr.
      { clear r IHf. intros r. destruct (f_array f); [|apply IH]. unfold dec_arr. pose proof (read_num_calls rt KU32 r) as H. destruct (read_num rt KU32 r) as [n r1].
        pose proof (void_times (Z.to_nat (int_of n)) (dec rt (f_ty f)) r1 (void_dec _ (Hv eq_refl))) as H2. destruct (dec_times _ _ r1) as [l r2]. cbn [snd] in *. subst r2.
        assert (0 <= read_places (f_ty f))%Z; [|lia]. specialize (IH r). pose proof (at_least_dec (f_ty f) r). lia. }
      assert (Z.of_nat (r_calls (dec_field rt f r).2) <= (if f_array f then 1 else 0) + (if f_opt f then 1 else 0) + read_places (f_ty f) + Z.of_nat (r_calls r))%Z; [|lia].
      unfold dec_field, dec_wrap. destruct (f_opt f); [|specialize (Harr r); lia]. unfold dec_opt. pose proof (read_num_calls rt KU8 r) as H. destruct (read_num rt KU8 r) as [n r1]. cbn [snd] in *.
      case_decide; [specialize (Harr r1); lia|]. cbn [snd]. specialize (Harr r). pose proof (at_least_dec (f_ty f) r) as H3.
      assert (0 <= read_places (f_ty f))%Z by (specialize (IH r); lia). destruct (f_array f); lia.
  Qed.
End calls.

(** ** one field decides *)
Section plug.
  Context (rt : runtime) (str_ok : jstr -> Prop) (Hrt : rt_ok rt str_ok) (Hs : str_ok []).
  Notation W := (wire (rt_enc rt) (rt_encs rt)).
  Notation FW := (fields_wire (rt_enc rt) (rt_encs rt)).
  Notation typed := (has_type str_ok).
  (** a single item, present *)
  Definition one (f : sfield) (v : value) : value := if f_array f then VArr [v] else v.
  Definition one_bytes (f : sfield) (data : list byte) : list byte :=
    (if f_opt f then rt_enc rt KU8 (NInt 1) else []) ++ (if f_array f then count (rt_enc rt) 1 else []) ++ data.
  Lemma one_wire f v : v ≠ VNone -> wire_wrapped (rt_enc rt) (f_array f) (f_opt f) (W (f_ty f)) (one f v) = one_bytes f (W (f_ty f) v).
  Proof.
    intros Hv. unfold wire_wrapped, one, one_bytes. destruct (f_opt f), (f_array f); cbn [map concat length app]; rewrite ?app_nil_r; try done; by destruct v.
  Qed.
  Lemma one_shape en sok f v : shape en sok (f_ty f) v -> wrapped (f_array f) (f_opt f) (shape en sok (f_ty f)) (one f v).
  Proof. intros Hv. right. unfold one. destruct (f_array f); [|done]. exists [v]. split; [done|]. split; [done|]. by constructor. Qed.
  Lemma shape_one en sok f v : v ≠ VNone -> wrapped (f_array f) (f_opt f) (shape en sok (f_ty f)) (one f v) -> shape en sok (f_ty f) v.
  Proof.
    intros Hn [[_ E]|H]; unfold one in *; destruct (f_array f); try done. destruct H as (l & [= <-] & _ & H). by apply Forall_cons in H as [H _].
  Qed.
  Lemma dec_one f data c : exists c', c <= c' /\ dec_field rt f (RState (one_bytes f data) false c) =
    (one f (dec rt (f_ty f) (RState data false c')).1, (dec rt (f_ty f) (RState data false c')).2).
  Proof.
    unfold dec_field, dec_wrap, one_bytes, one, dec_opt, dec_arr, count.
    assert (in_kind KU8 (NInt 1) /\ in_kind KU32 (NInt (Z.of_nat 1))) as [K1 K2] by (cbn; lia).
    destruct (f_opt f), (f_array f); cbn [app]; rewrite ?(read_enc rt str_ok Hrt) by done; cbn [int_of]; rewrite ?decide_True by lia; rewrite ?(read_enc rt str_ok Hrt) by done; cbn [int_of];
      rewrite ?Nat2Z.id; cbn [dec_times].
    - exists (S (S c)). split; [lia|]. by destruct (dec _ _ _).
    - exists (S c). split; [lia|]. by destruct (dec _ _ _).
    - exists (S c). split; [lia|]. by destruct (dec _ _ _).
    - exists c. split; [lia|]. by destruct (dec _ _ _).
  Qed.
  Lemma dec_fields_app fs gs r : dec_fields rt (fs ++ gs) r = ((dec_fields rt fs r).1 ++ (dec_fields rt gs (dec_fields rt fs r).2).1, (dec_fields rt gs (dec_fields rt fs r).2).2).
  Proof.
    revert r. induction fs as [|f fs IH]; intros r; [exact (surjective_pairing _)|]. cbn [app]. rewrite !dec_fields_cons. cbn [fst snd]. by rewrite IH.
  Qed.
  Definition usual (t : rtype) : Prop := all_enums (fun e => good_enum e /\ length (e_variants e) <= 31) t.
  Lemma usual_readable t : usual t -> all_enums readable t.
  Proof. apply all_enums_mono. intros e [H1 H2]. by apply good_enum_readable. Qed.
  Lemma usual_value t : all_enums good_enum t -> exists v, typed t v.
  Proof. intros Hu. apply some_value; [done|]. eapply all_enums_mono; [|exact Hu]. intros e H. by apply good_variants. Qed.
  Lemma usual_values fs : (forall f, f ∈ fs -> all_enums good_enum (f_ty f)) -> exists vs, fields_shape declared str_ok fs vs.
  Proof. intros Hu. apply shape_fields_intro. intros f Hf. by apply usual_value, Hu. Qed.
  Lemma dec_prefix fs vs data c : (forall f, f ∈ fs -> usual (f_ty f)) -> fields_shape declared str_ok fs vs -> exists c',
    c <= c' /\ dec_fields rt fs (RState (FW fs vs ++ data) false c) = (vs, RState data false c').
  Proof.
    intros Hu Hv. destruct (dec_inverts rt str_ok Hrt (TStruct fs)) with (VRec vs) data c as [c' E].
    { apply all_enums_struct. intros f Hf. by apply usual_readable, Hu. }
    { by exists vs. }
    rewrite dec_struct_eq, wire_struct in E. injection E as E1 E2. exists c'.
    pose proof (dec_fields_grow rt fs (RState (FW fs vs ++ data) false c)) as Hg. destruct (dec_fields rt fs _) as [us r']. cbn [fst snd] in *. by subst.
  Qed.
  Lemma one_bytes_app f d rest : one_bytes f d ++ rest = one_bytes f (d ++ rest).
  Proof. unfold one_bytes. by rewrite !(assoc_L (++)). Qed.
  (** packets that are read as a value, all of them *)
  Definition read_as (d : decoder) (v : value) (data : list byte) : Prop := forall rest c, exists c', d (RState (data ++ rest) false c) = (v, RState rest false c').
  Lemma read_as_one f v data : read_as (dec rt (f_ty f)) v data -> read_as (dec_field rt f) (one f v) (one_bytes f data).
  Proof.
    intros H rest c. rewrite one_bytes_app. destruct (dec_one f (data ++ rest) c) as (c1 & _ & ->). destruct (H rest c1) as [c2 ->]. by exists c2.
  Qed.
  Lemma wire_read_as t v : usual t -> typed t v -> read_as (dec rt t) v (W t v).
  Proof. intros Hu Hv rest c. apply (dec_inverts rt str_ok Hrt t (usual_readable _ Hu) v rest c Hv). Qed.
  Lemma usual_struct fs : usual (TStruct fs) <-> forall f, f ∈ fs -> usual (f_ty f).
  Proof. apply all_enums_struct. Qed.
  Lemma usual_good t : usual t -> all_enums good_enum t.
  Proof. apply all_enums_mono. by intros e [H _]. Qed.
  Lemma fields_shape_at en sok pre f post vs v ws : length vs = length pre -> fields_shape en sok (pre ++ f :: post) (vs ++ (f_name f, v) :: ws) ->
    wrapped (f_array f) (f_opt f) (shape en sok (f_ty f)) v.
  Proof. intros HL H. apply fields_shape_app in H as [_ H]. rewrite drop_app_alt in H by done. by destruct H as (_ & H & _). Qed.
  Lemma plug_exact (en : enum -> num -> Prop) (Q : sfield -> Prop) (B : rtype -> value -> list byte -> Prop) (BW : sfield -> value -> list byte -> Prop) :
    (forall e n, good_enum e -> length (e_variants e) <= 31 -> declared e n -> en e n) ->
    (forall pre f post vs v ws d, length vs = length pre -> (forall g, g ∈ pre -> usual (f_ty g)) -> fields_shape declared str_ok pre vs -> BW f v d -> B (TStruct (pre ++ f :: post)) (VRec (vs ++ (f_name f, v) :: ws)) (FW pre vs ++ d ++ FW post ws)) ->
    (forall f v d, v ≠ VNone -> B (f_ty f) v d -> BW f (one f v) (one_bytes f d)) ->
    (forall f, usual (f_ty f) -> Q f -> exists v d, wrapped (f_array f) (f_opt f) (shape en str_ok (f_ty f)) v /\ read_as (dec_field rt f) v d /\ BW f v d) ->
    forall t, inside Q t -> usual t -> exists v d, shape en str_ok t v /\ read_as (dec rt t) v d /\ B t v d.
  Proof.
    intros Hen H1 H2 HQ t Hin.
    assert (forall fs f, f ∈ fs -> usual (TStruct fs) -> (exists v d, wrapped (f_array f) (f_opt f) (shape en str_ok (f_ty f)) v /\ read_as (dec_field rt f) v d /\ BW f v d) ->
      exists v d, shape en str_ok (TStruct fs) v /\ read_as (dec rt (TStruct fs)) v d /\ B (TStruct fs) v d) as Hone.
    { clear t Hin. intros fs f (pre & post & ->)%elem_of_list_split Hu (v & d & Hv & Hd & HB). rewrite usual_struct in Hu.
      assert (forall g, g ∈ pre -> usual (f_ty g)) as Hpre by (intros g Hg; apply Hu, elem_of_app; by left).
      assert (forall g, g ∈ post -> usual (f_ty g)) as Hpost by (intros g Hg; apply Hu, elem_of_app; right; by right).
      destruct (usual_values pre) as [vs Hvs]; [intros g Hg; by apply usual_good, Hpre|]. destruct (usual_values post) as [ws Hws]; [intros g Hg; by apply usual_good, Hpost|].
      pose proof (fields_shape_length _ _ _ _ Hvs) as HL.
      exists (VRec (vs ++ (f_name f, v) :: ws)), (FW pre vs ++ d ++ FW post ws). split; [|split].
      - eexists. split; [done|]. apply fields_shape_app. rewrite <- HL, take_app, drop_app.
        assert (forall gs us, (forall g, g ∈ gs -> usual (f_ty g)) -> fields_shape declared str_ok gs us -> fields_shape en str_ok gs us) as Hm.
        { intros gs us Hg Hus. destruct (shape_mono declared en str_ok str_ok (TStruct gs)) with (VRec us) as (us' & [= <-] & Hus'); [|done|by exists us|done].
          eapply all_enums_mono; [|apply usual_struct, Hg]. intros e [G1 G2] n. by apply Hen. }
        split; [by apply Hm|]. split; [done|]. split; [done|by apply Hm].
      - intros rest c. rewrite dec_struct_eq, <- !(assoc_L (++)). destruct (dec_prefix pre vs (d ++ FW post ws ++ rest) c Hpre Hvs) as (c1 & _ & E1).
        destruct (Hd (FW post ws ++ rest) c1) as [c2 E2]. destruct (dec_prefix post ws rest c2 Hpost Hws) as (c3 & _ & E3).
        exists c3. rewrite dec_fields_app, E1. cbn [fst snd]. rewrite dec_fields_cons, E2. cbn [fst snd]. by rewrite E3.
      - by apply H1. }
    induction Hin as [fs f Hf Hq|fs f Hf Hin IH]; intros Hu; pose proof Hu as Hu'; rewrite usual_struct in Hu'.
    - apply (Hone fs f); [done..|]. apply HQ; [by apply Hu'|done].
    - apply (Hone fs f); [done..|]. destruct (IH (Hu' f Hf)) as (v & d & Hv & Hd & HB). exists (one f v), (one_bytes f d).
      split; [by apply one_shape|]. split; [by apply read_as_one|]. apply H2; [by eapply shape_not_none|done].
  Qed.

  (** ** C29 *)
  Lemma plug_undeclared t : inside (fun f => exists en, f_ty f = TEnum en /\ 3 <= length (e_variants en) /\ good_enum en) t -> usual t ->
    exists v d, shape from_first_to_last str_ok t v /\ read_as (dec rt t) v d /\ ~ has_type any_string t v.
  Proof.
    apply (plug_exact from_first_to_last _ (fun t v _ => ~ has_type any_string t v) (fun f v _ => ~ wrapped (f_array f) (f_opt f) (has_type any_string (f_ty f)) v)).
    - intros e n Hg Hs31 Hd. destruct (good_enum_readable e Hg Hs31 n Hd) as (z & -> & Hz & Hk). by apply (small_between e Hg Hs31).
    - intros pre f post vs v ws _ HL _ _ Hb (us & [= <-] & H). apply Hb. by eapply fields_shape_at.
    - intros f v _ Hn Hb H. apply Hb. by apply shape_one in H.
    - intros f Hu (en & Ef & H3 & Hg). rewrite Ef in Hu. destruct Hu as [_ Hs31]. pose proof Hg as (m & Hm & HL & Hb & Hlo & Hhi & Hx)%good_enum_bounds.
      assert (from_first_to_last en (NInt 3)) as Hr3.
      { exists 3%Z. split; [done|]. split; [lia|]. rewrite HL in *. change 3%Z with (4 - 1)%Z. change 4%Z with (2 ^ 2)%Z at 1. pose proof (Z.pow_le_mono_r 2 2 (Z.of_nat m - 1) ltac:(lia) ltac:(lia)). lia. }
      assert (in_kind (repr_kind (e_repr en)) (NInt 3)) as Hk3 by (destruct (e_repr en); cbn; lia).
      assert (shape from_first_to_last str_ok (TEnum en) (VNum (NInt 3))) as Hv by (by eexists).
      exists (one f (VNum (NInt 3))), (one_bytes f (rt_enc rt (repr_kind (e_repr en)) (NInt 3))). split; [|split].
      + apply one_shape. by rewrite Ef.
      + apply read_as_one. rewrite Ef. intros rest c. cbn [dec]. unfold dec_enum. rewrite (read_enc rt str_ok Hrt) by done. cbn [int_of]. rewrite decide_True; [by eexists|].
        by apply (small_between en Hg Hs31 (NInt 3) Hk3).
      + intros H. apply shape_one in H; [|done]. rewrite Ef in H. destruct H as (n & [= <-] & (y & Hy & E)). apply Hx in Hy as (i & w & -> & Hi & _). cbn [ev_value] in E.
        unfold variant_value in E. rewrite decide_False in E by lia. injection E as E. destruct i as [|[|i]]; [done|done|].
        replace (Z.of_nat (S (S i))) with (2 + Z.of_nat i)%Z in E by lia. rewrite Z.pow_add_r in E by lia. lia.
  Qed.
  (** ** C34 *)
  Lemma plug_two t : inside (fun f => f_opt f = true) t -> usual t -> exists v d, typed t v /\ read_as (dec rt t) v d /\ d ≠ W t v.
  Proof.
    apply (plug_exact declared _ (fun t v d => d ≠ W t v) (fun f v d => d ≠ wire_wrapped (rt_enc rt) (f_array f) (f_opt f) (W (f_ty f)) v)).
    - done.
    - intros pre f post vs v ws d HL _ _ Hd E. rewrite wire_struct, fields_wire_app in E by done. apply app_inv_head in E. cbn [fields_wire] in E. fold (fields_wire (rt_enc rt) (rt_encs rt)) in E.
      by apply app_inv_tail in E.
    - intros f v d Hn Hd E. rewrite one_wire in E by done. unfold one_bytes in E. do 2 apply app_inv_head in E. done.
    - intros f Hu Ho. destruct (usual_value (f_ty f) (usual_good _ Hu)) as [v Hv].
      set (d := (if f_array f then count (rt_enc rt) 1 else []) ++ W (f_ty f) v).
      assert (in_kind KU8 (NInt 1) /\ in_kind KU8 (NInt 2)) as [K1 K2] by (cbn; lia).
      exists (one f v), (rt_enc rt KU8 (NInt 2) ++ d). split; [by apply one_shape|]. split.
      + intros rest c. destruct (read_as_one f v _ (wire_read_as _ _ Hu Hv) rest c) as [c' E]. exists c'. revert E. rewrite one_bytes_app. unfold one_bytes, dec_field, dec_wrap, dec_opt.
        rewrite Ho. fold d. rewrite (read_enc rt str_ok Hrt) by done. rewrite <- (assoc_L (++) (rt_enc rt KU8 (NInt 2))), (read_enc rt str_ok Hrt) by done. cbn [int_of]. rewrite !decide_True by lia.
        subst d. by rewrite <- (assoc_L (++)).
      + rewrite one_wire by (by eapply shape_not_none). unfold one_bytes. rewrite Ho. fold d. intros E%app_inv_tail.
        pose proof (rd_enc _ _ Hrt KU8 (NInt 2) [] K2) as E2. rewrite E, (rd_enc _ _ Hrt) in E2 by done. done.
  Qed.

  (** ** C30 *)
  Fixpoint hugeb (t : rtype) : bool :=
    match t with TBuiltin _ => false | TEnum e => Nat.leb 32 (length (e_variants e)) | TStruct fs => existsb (fun f => hugeb (f_ty f)) fs end.
  Lemma hugeb_struct fs : hugeb (TStruct fs) = false <-> forall f, f ∈ fs -> hugeb (f_ty f) = false.
  Proof.
    cbn [hugeb]. induction fs as [|g fs IH]; cbn [existsb].
    - split; [|done]. intros _ f Hf. by apply elem_of_nil in Hf.
    - rewrite orb_false_iff, IH. split.
      + intros [H1 H2] f [->|Hf]%elem_of_cons; [done|by apply H2].
      + intros H. split; [apply H; left|]. intros f Hf. apply H. by right.
  Qed.
  Lemma not_huge t : all_enums good_enum t -> hugeb t = false -> usual t.
  Proof.
    induction t as [b|e|fs IH] using rtype_ind'; intros Hg Hh; [done| |].
    - cbn [hugeb] in Hh. apply Nat.leb_gt in Hh. split; [exact Hg|]. lia.
    - rewrite usual_struct. rewrite all_enums_struct in Hg. rewrite hugeb_struct in Hh. rewrite Forall_forall in IH. intros f Hf. apply IH; [done|by apply Hg|by apply Hh].
  Qed.
  Lemma inside_huge t : inside (fun f => exists en, f_ty f = TEnum en /\ 32 <= length (e_variants en) /\ good_enum en) t -> hugeb t = true.
  Proof.
    assert (forall fs f, f ∈ fs -> hugeb (f_ty f) = true -> hugeb (TStruct fs) = true) as H.
    { intros fs f Hf Hh. destruct (hugeb (TStruct fs)) eqn:E; [done|]. rewrite hugeb_struct in E. by rewrite (E f Hf) in Hh. }
    induction 1 as [fs f Hf (en & Ef & H1 & _)|fs f Hf _ IH]; (eapply H; [exact Hf|]); [|done]. rewrite Ef. cbn [hugeb]. by apply Nat.leb_le.
  Qed.
  Lemma first_huge fs : hugeb (TStruct fs) = true -> exists pre f post, fs = pre ++ f :: post /\ hugeb (f_ty f) = true /\ forall g, g ∈ pre -> hugeb (f_ty g) = false.
  Proof.
    induction fs as [|f fs IH]; [done|]. cbn [hugeb existsb]. destruct (hugeb (f_ty f)) eqn:E.
    - intros _. exists [], f, fs. split; [done|]. split; [done|]. intros g Hg. by apply elem_of_nil in Hg.
    - cbn [orb]. intros H. destruct (IH H) as (pre & g & post & -> & H1 & H2). exists (f :: pre), g, post. split; [done|]. split; [done|]. by intros h [->|Hh]%elem_of_cons; [|apply H2].
  Qed.
  Lemma plug_lost t : hugeb t = true -> all_enums good_enum t -> exists v, typed t v /\ forall rest c, r_failed (dec rt t (RState (W t v ++ rest) false c)).2 = true.
  Proof.
    induction t as [b|e|fs IH] using rtype_ind'; intros Hh Hg; [done| |].
    - cbn [hugeb all_enums] in *. apply Nat.leb_le in Hh. destruct (good_variants e Hg) as [n Hn]. exists (VNum n). split; [by exists n|]. intros rest c. cbn [dec]. unfold dec_enum.
      destruct (read_num rt _ _) as [m r1]. rewrite decide_False; [done|]. apply good_enum_bounds in Hg as (k & Hk & HL & _ & -> & -> & _). replace (k - 1) with 31 by lia. assert (shl1 31 = (- 2 ^ 31)%Z) as -> by reflexivity. assert (shl1 0 = 1%Z) as -> by reflexivity. lia.
    - destruct (first_huge fs Hh) as (pre & f & post & -> & Hf & Hpre). rewrite all_enums_struct in Hg. rewrite Forall_forall in IH.
      assert (forall g, g ∈ pre -> usual (f_ty g)) as Hup. { intros g Hp. apply not_huge; [apply Hg, elem_of_app; by left|by apply Hpre]. }
      assert (f ∈ pre ++ f :: post) as Hin by (apply elem_of_app; right; by left).
      destruct (IH f Hin Hf (Hg f Hin)) as (v & Hv & Hfail).
      destruct (usual_values pre) as [vs Hvs]; [intros g Hp; by apply usual_good, Hup|]. destruct (usual_values post) as [ws Hws]; [intros g Hp; apply Hg, elem_of_app; right; by right|].
      pose proof (fields_shape_length _ _ _ _ Hvs) as HL.
      exists (VRec (vs ++ (f_name f, one f v) :: ws)). split.
      + eexists. split; [done|]. apply fields_shape_app. rewrite <- HL, take_app, drop_app. split; [done|]. split; [done|]. split; [by apply one_shape|done].
      + intros rest c. rewrite wire_struct, fields_wire_app by done. cbn [fields_wire]. fold (fields_wire (rt_enc rt) (rt_encs rt)). rewrite one_wire by (by eapply shape_not_none).
        rewrite dec_struct_eq. cbn [snd]. rewrite <- !(assoc_L (++)), one_bytes_app, dec_fields_app. destruct (dec_prefix pre vs (one_bytes f (W (f_ty f) v ++ FW post ws ++ rest)) c Hup Hvs) as (c1 & _ & ->).
        cbn [fst snd]. rewrite dec_fields_cons. cbn [snd]. apply (dec_fields_sticky rt str_ok Hrt). destruct (dec_one f (W (f_ty f) v ++ FW post ws ++ rest) c1) as (c2 & _ & ->). apply Hfail.
  Qed.
  (** ** C32 *)
  Lemma plug_string t s : (Z.of_nat (length s) < 2 ^ 32)%Z -> (forall rest, (rt_rds rt (Z.of_nat (length s)) (rt_encs rt s ++ rest, false)).1 ≠ s) ->
    inside (fun f => f_ty f = TBuiltin BString) t -> usual t -> exists v, shape declared any_string t v /\ forall rest c, (dec rt t (RState (W t v ++ rest) false c)).1 ≠ v.
  Proof.
    intros Hl Hbad Hin.
    assert (forall fs f v, f ∈ fs -> usual (TStruct fs) -> shape declared any_string (f_ty f) v -> (forall rest c, (dec rt (f_ty f) (RState (W (f_ty f) v ++ rest) false c)).1 ≠ v) ->
      exists v, shape declared any_string (TStruct fs) v /\ forall rest c, (dec rt (TStruct fs) (RState (W (TStruct fs) v ++ rest) false c)).1 ≠ v) as Hone.
    { clear t Hin. intros fs f v (pre & post & ->)%elem_of_list_split Hu Hv Hlost. rewrite usual_struct in Hu.
      assert (forall g, g ∈ pre -> usual (f_ty g)) as Hpre by (intros g Hg; apply Hu, elem_of_app; by left).
      assert (forall g, g ∈ post -> usual (f_ty g)) as Hpost by (intros g Hg; apply Hu, elem_of_app; right; by right).
      destruct (usual_values pre) as [vs Hvs]; [intros g Hg; by apply usual_good, Hpre|]. destruct (usual_values post) as [ws Hws]; [intros g Hg; by apply usual_good, Hpost|].
      pose proof (fields_shape_length _ _ _ _ Hvs) as HL.
      assert (forall gs us, fields_shape declared str_ok gs us -> fields_shape declared any_string gs us) as Hm.
      { intros gs us Hus. destruct (shape_mono declared declared str_ok any_string (TStruct gs)) with (VRec us) as (us' & [= <-] & Hus'); [by apply all_enums_any|done|by exists us|done]. }
      exists (VRec (vs ++ (f_name f, one f v) :: ws)). split.
      - eexists. split; [done|]. apply fields_shape_app. rewrite <- HL, take_app, drop_app. split; [by apply Hm|]. split; [done|]. split; [by apply one_shape|by apply Hm].
      - intros rest c. rewrite wire_struct, fields_wire_app by done. cbn [fields_wire]. fold (fields_wire (rt_enc rt) (rt_encs rt)). rewrite one_wire by (by eapply shape_not_none).
        rewrite dec_struct_eq. cbn [fst]. rewrite <- !(assoc_L (++)), one_bytes_app, dec_fields_app. destruct (dec_prefix pre vs (one_bytes f (W (f_ty f) v ++ FW post ws ++ rest)) c Hpre Hvs) as (c1 & _ & ->).
        cbn [fst snd]. rewrite dec_fields_cons. cbn [fst]. destruct (dec_one f (W (f_ty f) v ++ FW post ws ++ rest) c1) as (c2 & _ & ->). cbn [fst snd].
        intros [= E]. apply app_inv_head in E. injection E as E _. apply (Hlost (FW post ws ++ rest) c2). revert E. unfold one. destruct (f_array f); [by intros [=]|done]. }
    induction Hin as [fs f Hf Hq|fs f Hf Hin IH]; intros Hu; pose proof Hu as Hu'; rewrite usual_struct in Hu'.
    - apply (Hone fs f (VStr s)); [done|done| |]; rewrite Hq; [by exists s|]. intros rest c. cbn [dec wire]. unfold dec_builtin. cbn [builtin_kind]. unfold count. rewrite <- (assoc_L (++)).
      rewrite (read_enc rt str_ok Hrt) by (by apply count_kind). cbn [int_of]. unfold read_str. cbn [r_rest r_failed]. specialize (Hbad rest). destruct (rt_rds rt _ _) as [s' [? ?]]. cbn in *. congruence.
    - destruct (IH (Hu' f Hf)) as (v & Hv & Hlost). by apply (Hone fs f v).
  Qed.
  (** ** C33 *)
  Lemma nothing_fails t c : voidb t = false -> r_failed (dec rt t (RState [] false c)).2 = true.
  Proof.
    intros Hv. destruct (r_failed _) eqn:E; [done|]. pose proof (cheap_dec rt str_ok Hrt t _ E) as H. pose proof (at_least_dec rt t (RState [] false c)) as H2. rewrite Hv in H2.
    cbn [r_rest r_calls length] in *. lia.
  Qed.
  Lemma plug_long t : inside (fun f => f_array f = true /\ voidb (f_ty f) = false) t -> usual t ->
    exists L, forall z, (0 < z < 2 ^ 32)%Z -> exists d, length d = L /\ forall c, r_failed (dec rt t (RState d false c)).2 = true /\ Z.to_nat z + c <= r_calls (dec rt t (RState d false c)).2.
  Proof.
    intros Hin.
    assert (forall fs f, f ∈ fs -> usual (TStruct fs) ->
      (exists L, forall z, (0 < z < 2 ^ 32)%Z -> exists d, length d = L /\ forall c, r_failed (dec_field rt f (RState d false c)).2 = true /\ Z.to_nat z + c <= r_calls (dec_field rt f (RState d false c)).2) ->
      exists L, forall z, (0 < z < 2 ^ 32)%Z -> exists d, length d = L /\ forall c, r_failed (dec rt (TStruct fs) (RState d false c)).2 = true /\ Z.to_nat z + c <= r_calls (dec rt (TStruct fs) (RState d false c)).2) as Hone.
    { clear t Hin. intros fs f (pre & post & ->)%elem_of_list_split Hu (L & HL). rewrite usual_struct in Hu.
      assert (forall g, g ∈ pre -> usual (f_ty g)) as Hpre by (intros g Hg; apply Hu, elem_of_app; by left).
      destruct (usual_values pre) as [vs Hvs]; [intros g Hg; by apply usual_good, Hpre|].
      exists (length (FW pre vs) + L). intros z Hz. destruct (HL z Hz) as (d & Hd & Hc). exists (FW pre vs ++ d). split; [rewrite app_length; by rewrite Hd|]. intros c. rewrite dec_struct_eq. cbn [snd].
      rewrite dec_fields_app. destruct (dec_prefix pre vs d c Hpre Hvs) as (c1 & Hc1 & ->). cbn [fst snd]. rewrite dec_fields_cons. cbn [snd]. destruct (Hc c1) as [F1 F2].
      split; [by apply (dec_fields_sticky rt str_ok Hrt)|]. pose proof (dec_fields_grow rt post (dec_field rt f (RState d false c1)).2). lia. }
    induction Hin as [fs f Hf [Ha Hv]|fs f Hf Hin IH]; intros Hu; pose proof Hu as Hu'; rewrite usual_struct in Hu'; apply (Hone fs f); try done.
    - exists (length (if f_opt f then rt_enc rt KU8 (NInt 1) else []) + 4). intros z Hz. exists ((if f_opt f then rt_enc rt KU8 (NInt 1) else []) ++ rt_enc rt KU32 (NInt z)).
      split; [rewrite app_length; by rewrite (enc_width _ _ Hrt)|]. intros c.
      assert (forall c, r_failed (dec_arr rt (dec rt (f_ty f)) (RState (rt_enc rt KU32 (NInt z)) false c)).2 = true /\
        Z.to_nat z + c <= r_calls (dec_arr rt (dec rt (f_ty f)) (RState (rt_enc rt KU32 (NInt z)) false c)).2) as Harr.
      { clear c. intros c. unfold dec_arr. rewrite <- (app_nil_r (rt_enc rt KU32 _)), (read_enc rt str_ok Hrt) by (cbn; lia). cbn [int_of].
        pose proof (at_least_times _ (Z.to_nat z) _ (at_least_dec rt (f_ty f)) (RState [] false (S c))) as H1. rewrite Hv in H1. cbn [r_calls] in H1.
        assert (r_failed (dec_times (Z.to_nat z) (dec rt (f_ty f)) (RState [] false (S c))).2 = true) as H2.
        { replace (Z.to_nat z) with (S (Z.to_nat (z - 1))) by lia. cbn [dec_times]. pose proof (nothing_fails (f_ty f) (S c) Hv) as H3. destruct (dec rt (f_ty f) _) as [v1 r1]. cbn [snd] in H3.
          pose proof (sticky_times (Z.to_nat (z - 1)) (dec rt (f_ty f)) (sticky_dec rt str_ok Hrt _) r1 H3) as H4. by destruct (dec_times _ _ r1). }
        destruct (dec_times (Z.to_nat z) _ _) as [l r2]. cbn [snd] in *. split; [done|lia]. }
      unfold dec_field, dec_wrap. rewrite Ha. destruct (f_opt f); [|apply Harr]. unfold dec_opt. rewrite (read_enc rt str_ok Hrt) by (cbn; lia). cbn [int_of]. rewrite decide_True by lia.
      specialize (Harr (S c)). split; [apply Harr|]. lia.
    - destruct (IH (Hu' f Hf)) as (L & HL). exists (length (one_bytes f []) + L). intros z Hz. destruct (HL z Hz) as (d & Hd & Hc). exists (one_bytes f d).
      split; [by rewrite <- (app_nil_l d), <- one_bytes_app, app_length, Hd|]. intros c. destruct (dec_one f d c) as (c1 & Hc1 & ->). cbn [snd]. destruct (Hc c1). split; [done|lia].
  Qed.
End plug.

(** ** an object stands for one value of its type *)
Lemma rep_unique en en' sok sok' t : forall h x v v', shape en sok t v -> shape en' sok' t v' -> rep h x v -> rep h x v' -> v = v'.
Proof.
  induction t as [b|e|fs IH] using rtype_ind'; intros h x v v' Hv Hv' H H'.
  - cbn [shape] in *. destruct (builtin_kind b).
    + destruct Hv as (n & -> & _), Hv' as (n' & -> & _). cbn in *. congruence.
    + destruct Hv as (n & -> & _), Hv' as (n' & -> & _). cbn in *. congruence.
  - destruct Hv as (n & -> & _), Hv' as (n' & -> & _). cbn in *. congruence.
  - destruct Hv as (vs & -> & Hv), Hv' as (vs' & -> & Hv'). destruct H as (p & pr & ps & -> & Hp & H), H' as (p' & pr' & ps' & [= <-] & Hp' & H'). f_equal. clear Hp Hp'.
    rewrite Forall_forall in IH. revert vs vs' Hv Hv' H H'. induction fs as [|f fs IHf]; intros [|[g v] vs] [|[g' v'] vs'] Hv Hv' H H'; try done.
    destruct Hv as (-> & Hw & Hv), Hv' as (-> & Hw' & Hv'), H as [(y & Hy & Hr) H], H' as [(y' & Hy' & Hr') H']. rewrite Hy in Hy'. injection Hy' as <-.
    f_equal; [f_equal|by apply (IHf ltac:(intros; eapply IH; [by right|done..])) with vs vs' in H'].
    specialize (IH f ltac:(by left) h). clear IHf Hv Hv' H H' Hy.
    assert (forall w, wrapped (f_array f) (f_opt f) (shape en sok (f_ty f)) w \/ wrapped (f_array f) (f_opt f) (shape en' sok' (f_ty f)) w -> rep h y w -> (w = VNone <-> y = JUndef \/ y = JNull)) as Hnone.
    { clear. intros w Hw Hr. split; [by intros ->|]. intros Hy. destruct w; try done; cbn in Hr; try (destruct Hy; congruence); destruct Hr as (? & Hr); naive_solver. }
    destruct Hw as [[_ ->]|Hw], Hw' as [[_ ->]|Hw']; [done| | |].
    + symmetry. apply (Hnone v'); [right; by right|done|]. exact Hr.
    + apply (Hnone v); [left; by right|done|]. exact Hr'.
    + destruct (f_array f); [|by eapply IH]. destruct Hw as (l & -> & _ & HF), Hw' as (l' & -> & _ & HF'). f_equal. destruct Hr as (q & its & -> & Hq & Hr), Hr' as (q' & its' & [= <-] & Hq' & Hr').
      rewrite Hq in Hq'. injection Hq' as <-. clear Hq Hnone. revert l' its HF' Hr Hr'. induction HF as [|v l Hv _ IHl]; intros [|v' l'] [|z its] HF' Hr Hr'; try done.
      apply Forall_cons in HF' as [Hv' HF']. destruct Hr as [Hr1 Hr2], Hr' as [Hr1' Hr2']. f_equal; [by eapply IH|by eapply IHl].
Qed.

(** types without strings *)
Lemma without_strings en sok sok' t : t ≠ TBuiltin BString -> all_fields (fun f => f_ty f ≠ TBuiltin BString) t -> forall v, shape en sok t v -> shape en sok' t v.
Proof.
  induction t as [b|e|fs IH] using rtype_ind'; intros Ht Ha v; [|done|].
  - cbn [shape]. destruct b; cbn [builtin_kind]; done.
  - rewrite all_fields_struct in Ha. rewrite Forall_forall in IH. intros (vs & -> & Hv). exists vs. split; [done|]. clear Ht. revert vs Hv.
    induction fs as [|f fs IHf]; intros [|[g v] vs] Hv; try done. destruct Hv as (-> & Hw & Hv). split; [done|]. destruct (Ha f ltac:(by left)) as [H1 H2]. split.
    + eapply wrapped_mono; [|exact Hw]. apply IH; [by left|done|done].
    + apply IHf; [intros; apply IH; [by right|done..]|intros; apply Ha; by right|done].
Qed.

(** ** TypeScript *)
Section claims.
  Context (a : ast) (rt : runtime) (str_ok : jstr -> Prop) (Hrt : rt_ok rt str_ok) (e : string) (He : exports a = [e]).
  Notation W := (wire (rt_enc rt) (rt_encs rt)).
  Lemma for_needs (P : cls -> rtype -> Prop) :
    (forall iter r, fair_order iter -> no_builtin_decl a -> type_check iter a = Ok r -> x_name (r_export r) = e -> P (class_of (r_export r)) (TStruct (x_fields (r_export r)))) -> for_code a P.
  Proof.
    intros H. apply for_code_intro. intros iter r Hf Hn Hr. apply (H iter r); [done..|]. destruct (type_check_result _ _ _ Hf Hn Hr) as (He' & _). rewrite He in He'. by injection He'.
  Qed.
  Lemma small_usual iter r : fair_order iter -> no_builtin_decl a -> type_check iter a = Ok r -> small_enums a -> usual (TStruct (x_fields (r_export r))).
  Proof.
    intros Hf Hn Hr Hs. apply all_enums_and; [by eapply export_good|]. apply (export_enums _ _ _ Hf Hn Hr). intros n en Hne.
    destruct (entry_declared_enum _ _ _ Hf Hn Hr n en Hne) as (vs & Hd & ->). by eapply Hs.
  Qed.
  Lemma code_undeclared : str_ok [] -> small_enums a -> needs_enum 3 a e -> for_code a (fun k t => names_fine a k ->
    forall h, exists data l M v, reads rt k h data (Done (JLoc l, M)) /\ r_rest (m_rd M) = [] /\ rep (m_heap M) (JLoc l) v /\ shape from_first_to_last str_ok t v /\ ~ has_type any_string t v).
  Proof.
    intros Hstr Hs Hneed. apply for_needs. intros iter r Hf Hn Hr E Hk h. rewrite <- E in Hneed.
    destruct (plug_undeclared rt str_ok Hrt Hstr _ (enum_inside _ _ _ Hf Hn Hr 3 Hneed) (small_usual _ _ Hf Hn Hr Hs)) as (v & d & Hv & Hd & Hbad).
    destruct (fine_reads _ _ _ Hf Hn Hr rt str_ok h d Hrt Hk) as (M & props & H1 & H2 & _ & _ & _ & H6). destruct (Hd [] 0) as [c' Ed]. rewrite app_nil_r in Ed. cbn zeta in *. rewrite Ed in *.
    cbn [fst snd r_failed] in *. exists d, (length h), M, v. split; [exact H1|]. split; [by rewrite H2|]. split; [by apply rep_in_rep in H6|done].
  Qed.
  Lemma code_declared : ~ needs_enum 3 a e -> for_code a (fun k t => names_fine a k ->
    forall h data l M, reads rt k h data (Done (JLoc l, M)) -> exists v, rep (m_heap M) (JLoc l) v /\ has_type any_string t v).
  Proof.
    intros Hneed. apply for_needs. intros iter r Hf Hn Hr E Hk h data l M Hrd. rewrite <- E in Hneed.
    destruct (reads_typed rt str_ok _ _ _ Hf Hn Hr Hrt Hk h data l M Hrd) as (v & H1 & H2 & _). exists v. split; [done|].
    eapply shape_mono; [|done|exact H2]. eapply all_enums_mono; [|exact (all_enums_and _ _ _ (export_good _ _ _ Hf Hn Hr) (enums_without _ _ _ Hf Hn Hr 2 Hneed))].
    intros en [G1 G2] n. by apply between_declared.
  Qed.
  Lemma code_lost : str_ok [] -> needs_enum 32 a e -> for_code a (fun k t => names_fine a k ->
    exists v, has_type str_ok t v /\ forall h this h', rep h this v -> exists bytes M M', writes rt k h this (Done (bytes, M)) /\ reads rt k h' bytes (Done (JNull, M'))).
  Proof.
    intros Hstr Hneed. apply for_needs. intros iter r Hf Hn Hr E Hk. rewrite <- E in Hneed.
    destruct (plug_lost rt str_ok Hrt Hstr _ (inside_huge _ (enum_inside _ _ _ Hf Hn Hr 32 Hneed)) (export_good _ _ _ Hf Hn Hr)) as (v & Hv & Hfail).
    exists v. split; [done|]. intros h this h' Hrep. destruct (writes_wire rt _ _ _ Hf Hn Hr (nf_ready _ _ Hk) v h this (any_typed _ _ _ _ Hv) Hrep) as (M & Hw & _).
    eexists _, M. set (data := W _ v) in *. destruct (fine_reads _ _ _ Hf Hn Hr rt str_ok h' data Hrt Hk) as (M' & props & H1 & _). exists M'. split; [exact Hw|].
    specialize (Hfail [] 0). rewrite app_nil_r in Hfail. cbn zeta in H1. by rewrite Hfail in H1.
  Qed.
  Lemma run_kept iter r : fair_order iter -> no_builtin_decl a -> type_check iter a = Ok r -> ~ needs_enum 32 a (x_name (r_export r)) -> let k := class_of (r_export r) in
    let t := TStruct (x_fields (r_export r)) in names_fine a k ->
    forall v h this h', has_type str_ok t v -> rep h this v -> exists bytes M, writes rt k h this (Done (bytes, M)) /\
      exists l M', reads rt k h' bytes (Done (JLoc l, M')) /\ rep (m_heap M') (JLoc l) v /\ r_rest (m_rd M') = [].
  Proof.
    intros Hf Hn Hr Hneed k t Hk v h this h' Hv Hrep.
    destruct (writes_wire rt _ _ _ Hf Hn Hr (nf_ready _ _ Hk) v h this (any_typed _ _ _ _ Hv) Hrep) as (M & Hw & _). eexists _, M. split; [exact Hw|].
    assert (usual (TStruct (x_fields (r_export r)))) as Hu by (apply all_enums_and; [by eapply export_good|by eapply enums_without]).
    destruct (wire_read_as rt str_ok Hrt _ v Hu Hv [] 0) as [c' Ed]. rewrite app_nil_r in Ed. set (data := W _ v) in *.
    destruct (fine_reads _ _ _ Hf Hn Hr rt str_ok h' data Hrt Hk) as (M' & props & H1 & H2 & _ & _ & _ & H6). cbn zeta in *. rewrite Ed in *. cbn [fst snd r_failed] in *.
    exists (length h'), M'. split; [exact H1|]. split; [by apply rep_in_rep in H6|by rewrite H2].
  Qed.
  Lemma code_kept : ~ needs_enum 32 a e -> for_code a (fun k t => names_fine a k ->
    forall v h this h', has_type str_ok t v -> rep h this v -> exists bytes M, writes rt k h this (Done (bytes, M)) /\
      exists l M', reads rt k h' bytes (Done (JLoc l, M')) /\ rep (m_heap M') (JLoc l) v /\ r_rest (m_rd M') = []).
  Proof. intros Hneed. apply for_needs. intros iter r Hf Hn Hr <- Hk. by eapply run_kept. Qed.
  Lemma code_lost_string s : str_ok [] -> small_enums a -> (Z.of_nat (length s) < 2 ^ 32)%Z -> (forall rest, (rt_rds rt (Z.of_nat (length s)) (rt_encs rt s ++ rest, false)).1 ≠ s) ->
    needs_string a e -> for_code a (fun k t => names_fine a k -> exists v, has_type any_string t v /\ forall h this h', rep h this v -> exists bytes M x M',
      writes rt k h this (Done (bytes, M)) /\ reads rt k h' bytes (Done (x, M')) /\ ~ rep (m_heap M') x v).
  Proof.
    intros Hstr Hs Hl Hbad Hneed. apply for_needs. intros iter r Hf Hn Hr E Hk. rewrite <- E in Hneed.
    destruct (plug_string rt str_ok Hrt Hstr (TStruct (x_fields (r_export r))) s Hl Hbad) as (v & Hv & Hlost).
    - eapply (field_inside _ _ _ Hf Hn Hr); [|exact Hneed]. intros f u f' (_ & _ & _ & _ & Hty) Hu. cbn [snd] in Hty. rewrite Hu in Hty.
      pose proof (entry_leaf _ _ _ Hf Hn Hr _ _ Hty) as Hleaf. destruct (type_check_result _ _ _ Hf Hn Hr) as (_ & _ & _ & Hent).
      destruct (Hent _ _ _ Hty) as [_ [(b & Hb & Hb')|[(vs & rp & Hde & _)|(fs' & ds & rs & Hd' & _)]]]; [by injection Hb as <-|..].
      + exfalso. by eapply (declared_not_builtin _ Hn _ _ BString).
      + exfalso. by eapply (declared_not_builtin _ Hn _ _ BString).
    - by apply (small_usual iter).
    - exists v. split; [done|]. intros h this h' Hrep. destruct (writes_wire rt _ _ _ Hf Hn Hr (nf_ready _ _ Hk) v h this (any_typed _ _ _ _ Hv) Hrep) as (M & Hw & _).
      eexists _, M. specialize (Hlost [] 0). rewrite app_nil_r in Hlost. set (data := W _ v) in *. destruct (fine_reads _ _ _ Hf Hn Hr rt str_ok h' data Hrt Hk) as (M' & props & H1 & H2 & _ & _ & _ & H6).
      cbn zeta in *. eexists _, M'. split; [exact Hw|]. split; [exact H1|]. destruct (r_failed _) eqn:Ef; [destruct Hv as (vs & -> & _); by intros (? & ? & ? & ? & _)|].
      specialize (H6 eq_refl). apply rep_in_rep in H6. intros Hrep'. apply Hlost.
      destruct (reads_typed rt str_ok _ _ _ Hf Hn Hr Hrt Hk h' data _ M' H1) as (v' & _ & Hv' & -> & _). by eapply rep_unique.
  Qed.
  Lemma code_any_string : ~ needs_string a e -> ~ needs_enum 32 a e -> for_code a (fun k t => names_fine a k ->
    forall v h this h', has_type any_string t v -> rep h this v -> exists bytes M, writes rt k h this (Done (bytes, M)) /\
      exists l M', reads rt k h' bytes (Done (JLoc l, M')) /\ rep (m_heap M') (JLoc l) v /\ r_rest (m_rd M') = []).
  Proof.
    intros Hneed Hneed32. apply for_needs. intros iter r Hf Hn Hr E Hk v h this h' Hv Hrep. apply (run_kept iter r); [done|done|done|by rewrite E|done| |done].
    apply (without_strings declared any_string str_ok (TStruct (x_fields (r_export r)))); [done| |exact Hv]. rewrite <- E in Hneed.
    apply (fields_without _ _ _ Hf Hn Hr (fun u => u_name u = "string")); [| |exact Hneed].
    - intros f u f' (_ & E2 & _ & _ & Hty) Hq. cbn [snd] in *. assert (f_ty f' = TBuiltin BString) as Eq by (destruct (f_ty f') as [[]| |]; try done; by destruct Hq). rewrite Eq in Hty.
      pose proof (entry_leaf _ _ _ Hf Hn Hr _ _ Hty) as Hl. cbn in Hl. revert Hl. unfold builtin_of_name. repeat case_decide; congruence.
    - intros f. destruct (f_ty f) as [[]| |]; auto.
  Qed.
  (** ** C33 *)
  Lemma code_long : str_ok [] -> small_enums a -> needs_heavy_array a e -> for_code a (fun k t => names_fine a k ->
    exists L, forall z h, (0 < z < 2 ^ 32)%Z -> exists data M, length data = L /\ reads rt k h data (Done (JNull, M)) /\ (z <= Z.of_nat (r_calls (m_rd M)))%Z).
  Proof.
    intros Hstr Hs Hneed. apply for_needs. intros iter r Hf Hn Hr E Hk. rewrite <- E in Hneed.
    destruct (plug_long rt str_ok Hrt Hstr (TStruct (x_fields (r_export r)))) as [L HL]; [|by apply (small_usual iter)|].
    - eapply (field_inside _ _ _ Hf Hn Hr); [|exact Hneed]. intros f u f' (_ & _ & E3 & _ & Hty) [Hu Hb]. cbn [snd] in *. split; [congruence|].
      destruct (voidb (f_ty f')) eqn:Ev; [|done]. destruct Hb. by apply (entry_void _ _ _ Hf Hn Hr (f_ty f')).
    - exists L. intros z h Hz. destruct (HL z Hz) as (d & Hd & Hc). specialize (Hc 0). exists d. destruct (fine_reads _ _ _ Hf Hn Hr rt str_ok h d Hrt Hk) as (M & props & H1 & H2 & _).
      cbn zeta in *. destruct Hc as [Hc1 Hc2]. rewrite Hc1 in H1. exists M. split; [done|]. split; [done|]. rewrite H2. lia.
  Qed.
  Lemma code_few : ~ needs_heavy_array a e -> for_code a (fun k t => names_fine a k ->
    forall h data x M, reads rt k h data (Done (x, M)) -> (Z.of_nat (r_calls (m_rd M)) <= read_places t)%Z).
  Proof.
    intros Hneed. apply for_needs. intros iter r Hf Hn Hr E Hk h data x M Hrd. rewrite <- E in Hneed.
    destruct (fine_reads _ _ _ Hf Hn Hr rt str_ok h data Hrt Hk) as (M' & props & H1 & H2 & _). cbn zeta in *. pose proof (reads_det _ _ _ _ _ _ Hrd H1) as [= -> ->]. rewrite H2.
    pose proof (few_calls rt (TStruct (x_fields (r_export r)))) as H. specialize (fun A => H A (RState data false 0)). cbn [r_calls] in H. rewrite Z.add_0_r in H. apply H. clear H.
    refine (fields_without _ _ _ Hf Hn Hr _ (fun f => f_array f = true -> voidb (f_ty f) = true) _ _ Hneed).
    - intros f u f' (_ & _ & E3 & _ & Hty) Hq. cbn [snd] in *. destruct (f_array f') eqn:Ea; [|destruct Hq; done]. split; [done|]. intros Hb. apply Hq. intros _.
      by apply (entry_void _ _ _ Hf Hn Hr (f_ty f') (u_name u)).
    - intros f. destruct (f_array f), (voidb (f_ty f)); auto. right. intros H. by specialize (H eq_refl).
  Qed.
  (** ** C34 *)
  Lemma code_two : str_ok [] -> small_enums a -> needs_optional a e -> for_code a (fun k t => names_fine a k ->
    forall h, exists data l M v, reads rt k h data (Done (JLoc l, M)) /\ r_rest (m_rd M) = [] /\ rep (m_heap M) (JLoc l) v /\ has_type str_ok t v /\
      forall h' this bytes M', rep h' this v -> writes rt k h' this (Done (bytes, M')) -> bytes ≠ data).
  Proof.
    intros Hstr Hs Hneed. apply for_needs. intros iter r Hf Hn Hr E Hk h. rewrite <- E in Hneed.
    destruct (plug_two rt str_ok Hrt Hstr (TStruct (x_fields (r_export r)))) as (v & d & Hv & Hd & Hne); [|by apply (small_usual iter)|].
    - eapply (field_inside _ _ _ Hf Hn Hr); [|exact Hneed]. intros f u f' (_ & _ & _ & E4 & _) Hu. cbn [snd] in *. congruence.
    - destruct (fine_reads _ _ _ Hf Hn Hr rt str_ok h d Hrt Hk) as (M & props & H1 & H2 & _ & _ & _ & H6). destruct (Hd [] 0) as [c' Ed]. rewrite app_nil_r in Ed. cbn zeta in *. rewrite Ed in *.
      cbn [fst snd r_failed] in *. exists d, (length h), M, v. split; [exact H1|]. split; [by rewrite H2|]. split; [by apply rep_in_rep in H6|]. split; [done|].
      intros h' this bytes M' Hrep Hw. destruct (writes_wire rt _ _ _ Hf Hn Hr (nf_ready _ _ Hk) v h' this (any_typed _ _ _ _ Hv) Hrep) as (M2 & Hw2 & _).
      pose proof (writes_det _ _ _ _ _ _ Hw Hw2) as [= -> _]. intros Ew. by apply Hne.
  Qed.
  Lemma code_one : exact_strings rt -> ~ needs_optional a e -> ~ needs_float a e -> for_code a (fun k t => names_fine a k ->
    forall h data l M, reads rt k h data (Done (JLoc l, M)) ->
      exists v, rep (m_heap M) (JLoc l) v /\ data = wire (rt_enc rt) (rt_encs rt) t v ++ r_rest (m_rd M)).
  Proof.
    intros Hex Ho Hfl. apply for_needs. intros iter r Hf Hn Hr E Hk h data l M Hrd. rewrite <- E in Ho, Hfl.
    destruct (reads_typed rt str_ok _ _ _ Hf Hn Hr Hrt Hk h data l M Hrd) as (v & H1 & _ & -> & H4 & H5). eexists. split; [exact H1|]. rewrite H5 in *.
    refine (dec_exact rt str_ok Hrt (TStruct (x_fields (r_export r))) Hex _ _ (RState data false 0) H4); [done|].
    refine (fields_without _ _ _ Hf Hn Hr (fun u => u_opt u = true \/ u_name u = "float") _ _ _ _).
    - intros f u f' (_ & E2 & _ & E4 & Hty) Hq. cbn [snd] in *. unfold exact_field in Hq. destruct (f_opt f') eqn:Eo; [by left|right].
      assert (f_ty f' = TBuiltin Float) as Eq by (destruct (f_ty f') as [[]| |]; try done; exfalso; apply Hq; by split). rewrite Eq in Hty.
      pose proof (entry_leaf _ _ _ Hf Hn Hr _ _ Hty) as Hl. cbn in Hl. revert Hl. unfold builtin_of_name. repeat case_decide; congruence.
    - intros f. unfold exact_field. destruct (f_opt f); [right; by intros []|]. destruct (f_ty f) as [[]| |]; auto; right; by intros [].
    - intros (n & fs & f & u & H6 & H7 & H8 & [H9|H9]); [apply Ho|apply Hfl]; by exists n, fs, f, u.
  Qed.
End claims.
