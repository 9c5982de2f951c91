(** Proofs about arrays whose items take no bytes: C52, C88. *)
From Verif Require Export VoidSpec WireResults.

Fixpoint voidb (t : rtype) : bool :=
  match t with TStruct fs => forallb (fun f => negb (f_array f) && negb (f_opt f) && voidb (f_ty f)) fs | _ => false end.
Lemma voidb_struct fs : voidb (TStruct fs) = true <-> forall f, f ∈ fs -> f_array f = false /\ f_opt f = false /\ voidb (f_ty f) = true.
Proof.
  cbn [voidb]. rewrite forallb_forall. split; intros H f Hf.
  - specialize (H f ltac:(by apply elem_of_list_In)). rewrite !andb_true_iff, !negb_true_iff in H. tauto.
  - apply elem_of_list_In in Hf. rewrite !andb_true_iff, !negb_true_iff. specialize (H f Hf). tauto.
Qed.
Definition solid (t : rtype) : Prop := all_fields (fun f => f_array f = true -> voidb (f_ty f) = false) t.
Inductive hosts : rtype -> Prop :=
| hosts_here fs f : f ∈ fs -> f_array f = true -> voidb (f_ty f) = true -> hosts (TStruct fs)
| hosts_in fs f : f ∈ fs -> hosts (f_ty f) -> hosts (TStruct fs).

(** ** from the schema to its types *)
Section schema.
  Context iter a r (Hfair : fair_order iter) (Hnb : no_builtin_decl a) (Hr : type_check iter a = Ok r).
  Notation e := (x_name (r_export r)).
  Lemma declared_not_builtin n d b : NDecl n d ∈ a -> builtin_of_name n = Some b -> False.
  Proof. intros Hd Hb. eapply (decl_not_builtin a Hnb n _ Hd). apply builtin_names_spec. eauto. Qed.
  Lemma entry_of_struct n fs t : declares_struct a n fs -> r_types r !! n = Some (n, t) ->
    exists ds rs, ds ≡ₚ fs /\ Forall2 (field_matches (r_types r)) ds rs /\ t = TStruct rs.
  Proof.
    intros Hd Hn. destruct (type_check_result _ _ _ Hfair Hnb Hr) as (_ & _ & _ & Hent).
    destruct (Hent _ _ _ Hn) as [_ [(b & Hb & _)|[(vs & rp & Hde & _)|(fs' & ds & rs & Hd' & Hp & Hm & ->)]]].
    - by destruct (declared_not_builtin _ _ _ Hd Hb).
    - pose proof (decl_unique _ _ _ _ (vs_decls _ (result_valid _ _ _ Hfair Hnb Hr)) Hd Hde) as [=].
    - pose proof (decl_unique _ _ _ _ (vs_decls _ (result_valid _ _ _ Hfair Hnb Hr)) Hd Hd') as [= <-]. by exists ds, rs.
  Qed.
  Lemma entry_void t : forall n, r_types r !! n = Some (n, t) -> voidb t = true <-> no_bytes a n.
  Proof.
    induction t as [b|en|rs IH] using rtype_ind'; intros n Hn.
    - split; [done|]. inversion 1 as [? fs Hd _]; subst. by destruct (entry_of_struct _ _ _ Hd Hn) as (? & ? & _ & _ & [=]).
    - split; [done|]. inversion 1 as [? fs Hd _]; subst. by destruct (entry_of_struct _ _ _ Hd Hn) as (? & ? & _ & _ & [=]).
    - destruct (type_check_result _ _ _ Hfair Hnb Hr) as (_ & _ & _ & Hent). rewrite Forall_forall in IH. rewrite voidb_struct.
      assert (forall fs, declares_struct a n fs -> (forall f, f ∈ rs -> f_array f = false /\ f_opt f = false /\ voidb (f_ty f) = true) <->
        Forall (fun d => u_array d.2 = false /\ u_opt d.2 = false /\ no_bytes a (u_name d.2)) fs) as H.
      { intros fs Hd. destruct (entry_of_struct _ _ _ Hd Hn) as (ds & rs' & Hp & Hm & [= <-]). rewrite <- Hp, <- Forall_forall. clear -Hm IH Hent.
        induction Hm as [|d f ds rs (E1 & E2 & E3 & E4 & E5) Hm IHm]; [done|]. rewrite !Forall_cons, IHm by (intros x Hx; apply IH; by right).
        rewrite E3, E4. rewrite (IH f ltac:(by left) (u_name d.2)) by done. done. }
      split.
      + destruct (Hent _ _ _ Hn) as [_ [(b & _ & [=])|[(vs & rp & _ & _ & [=])|(fs & ds & rs' & Hd & _)]]]. intros Hf. econstructor; [done|]. by apply H.
      + inversion 1 as [? fs Hd Hfs]; subst. by apply (H fs).
  Qed.
  Lemma entry_hosts t : forall n, r_types r !! n = Some (n, t) -> weightless_array a n -> hosts t.
  Proof.
    intros n Hn (m & fs & f & u & Hneed & Hd & Hin & Har & Hv). revert t Hn.
    induction Hneed as [m|n n' m (gs & g & w & Hg & Hgw & <-) _ IH]; intros t Hn.
    - destruct (entry_of_struct _ _ _ Hd Hn) as (ds & rs & Hp & Hm & ->). rewrite <- Hp in Hin. apply elem_of_list_lookup in Hin as [i Hi].
      destruct (Forall2_lookup_l _ _ _ _ _ Hm Hi) as (f' & Hi' & E1 & E2 & E3 & E4 & E5). cbn [snd] in *. apply (hosts_here _ f').
      + by eapply elem_of_list_lookup_2.
      + congruence.
      + by apply (entry_void _ (u_name u)).
    - destruct (entry_of_struct _ _ _ Hg Hn) as (ds & rs & Hp & Hm & ->). rewrite <- Hp in Hgw. apply elem_of_list_lookup in Hgw as [i Hi].
      destruct (Forall2_lookup_l _ _ _ _ _ Hm Hi) as (f' & Hi' & E1 & E2 & E3 & E4 & E5). cbn [snd] in *. apply (hosts_in _ f').
      + by eapply elem_of_list_lookup_2.
      + by apply IH.
  Qed.
  Lemma entry_solid : ~ weightless_array a e -> solid (TStruct (x_fields (r_export r))).
  Proof.
    intros Hno. destruct (type_check_result _ _ _ Hfair Hnb Hr) as (_ & _ & Hneed & Hent). eapply entry_checked; [done..| |by eapply export_entry]. intros n rs f Hn Hin Har.
    destruct (entry_struct _ _ _ Hfair Hnb Hr _ _ _ Hn Hin) as (fs & u & Hd & Hu & E1 & E2 & E3 & E4).
    destruct (voidb (f_ty f)) eqn:E; [|done]. exfalso. apply Hno. exists n, fs, (f_name f), u. split; [apply Hneed; by eexists|]. split; [done|]. split; [done|].
    split; [congruence|]. rewrite <- E1. by apply (entry_void (f_ty f)).
  Qed.
  Lemma export_variants : all_enums (fun e => exists n, declared e n) (TStruct (x_fields (r_export r))).
  Proof.
    apply (export_enums _ _ _ Hfair Hnb Hr). intros n e He. destruct (entry_leaf _ _ _ Hfair Hnb Hr _ _ He) as (vs & rp & Hg & _ & _ & ->).
    destruct vs as [|w vs]; [cbn in Hg; lia|]. eexists. exists (EnumVariant w 0). split; [left|done].
  Qed.
  (** the fields of the export, one by one *)
  Lemma field_void d g : g ∈ x_fields (r_export r) -> denotes_field eq a d g -> f_array g = false /\ f_opt g = false /\ voidb (f_ty g) = true <-> weightless a d.
  Proof.
    intros Hg Hd. destruct (entry_struct _ _ _ Hfair Hnb Hr _ _ _ (export_entry _ _ _ Hfair Hnb Hr) Hg) as (fs & u & _ & _ & E1 & E2 & E3 & E4).
    inversion Hd as [f w t Ht]; subst. cbn [f_array f_opt f_ty f_tname] in *. unfold weightless. cbn [snd]. rewrite (entry_void _ (u_name w)); [done|]. congruence.
  Qed.
  Lemma fields_void ds gs : (forall g, g ∈ gs -> g ∈ x_fields (r_export r)) -> Forall2 (denotes_field eq a) ds gs -> voidb (TStruct gs) = true <-> Forall (weightless a) ds.
  Proof.
    intros Hin H. rewrite voidb_struct, <- Forall_forall. induction H as [|d g ds gs Hd _ IH]; [done|].
    rewrite !Forall_cons, IH by (intros; apply Hin; by right). by rewrite (field_void d g (Hin g ltac:(by left)) Hd).
  Qed.
End schema.

(** ** fields in a row *)
Lemma fields_shape_app en sok fs gs vs : fields_shape en sok (fs ++ gs) vs <->
  fields_shape en sok fs (take (length fs) vs) /\ fields_shape en sok gs (drop (length fs) vs).
Proof.
  revert vs. induction fs as [|f fs IH]; intros vs; cbn [app length].
  - rewrite take_0, drop_0. cbn. tauto.
  - destruct vs as [|[g v] vs]; cbn; [tauto|]. rewrite IH. tauto.
Qed.
Lemma fields_wire_app enc encs fs gs vs ws : length vs = length fs -> fields_wire enc encs (fs ++ gs) (vs ++ ws) = fields_wire enc encs fs vs ++ fields_wire enc encs gs ws.
Proof.
  revert vs. induction fs as [|f fs IH]; intros [|[g v] vs] HL; try done. cbn in HL |- *. rewrite IH by lia. by rewrite app_assoc.
Qed.
Lemma fields_shape_length en sok fs vs : fields_shape en sok fs vs -> length vs = length fs.
Proof. revert vs. induction fs as [|f fs IH]; intros [|[g v] vs]; try done. intros (_ & _ & H). cbn. f_equal. by apply IH. Qed.

(** ** every type has a value *)
Lemma fields_shape_names en sok fs vs : fields_shape en sok fs vs -> vs.*1 = map f_name fs.
Proof. revert vs. induction fs as [|f fs IH]; intros [|[g v] vs]; try done. intros (-> & _ & H). cbn. f_equal. by apply IH. Qed.
Lemma enc_some rt str_ok : rt_ok rt str_ok -> forall k n, rt_enc rt k n ≠ [].
Proof. intros Hrt k n E%(f_equal length). rewrite (enc_width _ _ Hrt) in E. destruct k; done. Qed.
Lemma shape_fields_intro en sok fs : (forall f, f ∈ fs -> exists v, shape en sok (f_ty f) v) -> exists vs, fields_shape en sok fs vs.
Proof.
  induction fs as [|f fs IH]; intros H; [by exists []|]. destruct (H f) as [v Hv]; [left|]. destruct IH as [vs Hvs]; [intros g Hg; apply H; by right|].
  destruct (f_array f) eqn:Ea.
  - exists ((f_name f, VArr []) :: vs). cbn. split; [done|]. split; [|done]. right. rewrite Ea. exists []. split; [done|]. split; [done|]. by apply Forall_nil.
  - exists ((f_name f, v) :: vs). cbn. split; [done|]. split; [|done]. right. by rewrite Ea.
Qed.
Lemma some_value (str_ok : jstr -> Prop) t : str_ok [] -> all_enums (fun e => exists n, declared e n) t -> exists v, has_type str_ok t v.
Proof.
  intros Hs. induction t as [b|e|fs IH] using rtype_ind'; intros He; cbn [all_enums] in He.
  - unfold has_type. cbn [shape]. destruct (builtin_kind b) as [k|] eqn:E.
    + exists (VNum (match k with KF32 => NFloat 0 | _ => NInt 0 end)). eexists. split; [done|]. destruct k; cbn [in_kind]; try lia. split; [lia|left; by vm_compute].
    + exists (VStr []). exists []. done.
  - destruct He as [n Hn]. exists (VNum n). by exists n.
  - change (all_enums (fun e => exists n, declared e n) (TStruct fs)) in He. rewrite all_enums_struct in He. rewrite Forall_forall in IH.
    destruct (shape_fields_intro declared str_ok fs) as [vs Hvs]; [intros f Hf; apply IH; [done|by apply He]|].
    exists (VRec vs). by exists vs.
Qed.
(** ** values with many items *)
Section values.
  Context (str_ok : jstr -> Prop) (Hs : str_ok []).
  Context (enc : kind -> num -> list byte) (encs : jstr -> list byte) (k32 : forall n, length (enc KU32 n) = 4).
  Notation typed := (has_type str_ok).
  Notation W := (wire enc encs).
  Notation has_fields := (fields_shape declared str_ok).
  Lemma has_fields_app fs gs vs ws : has_fields fs vs -> has_fields gs ws -> has_fields (fs ++ gs) (vs ++ ws).
  Proof. intros H1 H2. apply fields_shape_app. rewrite <- (fields_shape_length _ _ _ _ H1). by rewrite take_app, drop_app. Qed.
  Lemma void_value t : voidb t = true -> exists v, typed t v /\ W t v = [].
  Proof.
    induction t as [b|e|fs IH] using rtype_ind'; [done..|]. rewrite voidb_struct, Forall_forall in *. intros Hv.
    assert (exists vs, has_fields fs vs /\ fields_wire enc encs fs vs = []) as (vs & H1 & H2); [|exists (VRec vs); split; [by exists vs|done]].
    induction fs as [|f fs IHfs]; [by exists []|]. destruct IHfs as (vs & H1 & H2); [intros; apply IH; [by right|done]|intros; apply Hv; by right|].
    destruct (Hv f ltac:(by left)) as (Ha & Ho & Hf). destruct (IH f ltac:(by left) Hf) as (v & H3 & H4). exists ((f_name f, v) :: vs). split.
    - split; [done|]. split; [|done]. right. by rewrite Ha.
    - cbn [fields_wire]. fold (fields_wire enc encs). rewrite H2. unfold wire_wrapped. rewrite Ha, Ho, H4. done.
  Qed.
  Lemma wire_void en sok t v : (forall k n, enc k n ≠ []) -> shape en sok t v -> W t v = [] -> voidb t = true.
  Proof.
    intros Henc. revert v. induction t as [b|e|fs IH] using rtype_ind'; intros v Hv E.
    - cbn [shape wire] in *. destruct (builtin_kind b) as [k|]; [destruct Hv as (n & -> & _); by apply Henc in E|]. destruct Hv as (s & -> & _). apply app_nil in E as [E _]. by apply Henc in E.
    - destruct Hv as (n & -> & _). by apply Henc in E.
    - destruct Hv as (vs & -> & Hv). rewrite wire_struct in E. rewrite voidb_struct, Forall_forall in *. intros f Hin. revert vs Hv E. induction fs as [|g fs IHfs]; [by apply elem_of_nil in Hin|].
      intros [|[h v] vs] Hv; [done|]. destruct Hv as (-> & Hw & Hv). cbn [fields_wire]. fold (fields_wire enc encs). intros [E1 E2]%app_nil.
      apply elem_of_cons in Hin as [->|Hin]; [|apply (IHfs ltac:(intros x Hx; apply IH; by right) Hin vs Hv E2)]. unfold wire_wrapped in E1.
      destruct (f_opt g); [destruct v; try (apply app_nil in E1 as [E1 _]); by apply Henc in E1|].
      destruct Hw as [[? _]|Hw]; [done|]. destruct (f_array g); [destruct Hw as (l & -> & _); apply app_nil in E1 as [E1 _]; by apply Henc in E1|].
      split; [done|]. split; [done|]. eapply IH; [by left|exact Hw|exact E1].
  Qed.
  Lemma items_rec_app vs g v ws : items v <= items (VRec (vs ++ (g, v) :: ws)).
  Proof. induction vs as [|[g' v'] vs IH]; cbn in *; lia. Qed.
  Lemma many_items t : hosts t -> all_enums (fun e => exists n, declared e n) t ->
    exists L, forall z, (Z.of_nat z < 2 ^ 32)%Z -> exists v, typed t v /\ length (W t v) = L /\ z <= items v.
  Proof.
    (* the value of one field decides *)
    assert (forall fs f, f ∈ fs -> all_enums (fun e => exists n, declared e n) (TStruct fs) ->
      (exists L, forall z, (Z.of_nat z < 2 ^ 32)%Z -> exists v, wrapped (f_array f) (f_opt f) (typed (f_ty f)) v /\
        length (wire_wrapped enc (f_array f) (f_opt f) (W (f_ty f)) v) = L /\ z <= items v) ->
      exists L, forall z, (Z.of_nat z < 2 ^ 32)%Z -> exists v, typed (TStruct fs) v /\ length (W (TStruct fs) v) = L /\ z <= items v) as Hone.
    { intros fs f Hin He (L & HL). apply elem_of_list_split in Hin as (pre & post & ->). rewrite all_enums_struct in He.
      destruct (shape_fields_intro declared str_ok pre) as [vs Hvs]; [intros g Hg; apply (some_value str_ok); [done|]; apply He, elem_of_app; by left|].
      destruct (shape_fields_intro declared str_ok post) as [ws Hws]; [intros g Hg; apply (some_value str_ok); [done|]; apply He, elem_of_app; right; by right|].
      exists (length (fields_wire enc encs pre vs) + (L + length (fields_wire enc encs post ws))). intros z Hz. destruct (HL z Hz) as (v & H1 & H2 & H3).
      exists (VRec (vs ++ (f_name f, v) :: ws)). split; [|split].
      - eexists. split; [done|]. apply has_fields_app; [done|]. by split.
      - rewrite wire_struct, fields_wire_app by (by eapply fields_shape_length). rewrite app_length. f_equal. cbn [fields_wire]. fold (fields_wire enc encs). rewrite app_length. by rewrite H2.
      - etransitivity; [exact H3|apply items_rec_app]. }
    induction 1 as [fs f Hin Ha Hv|fs f Hin Hh IH]; intros He; eapply Hone; try done.
    - destruct (void_value _ Hv) as (v & H1 & H2). exists (length (if f_opt f then enc KU8 (NInt 1) else []) + 4). intros z Hz. exists (VArr (repeat v z)). rewrite Ha. split; [|split].
      + right. exists (repeat v z). split; [done|]. rewrite repeat_length. split; [done|]. apply Forall_forall. intros x ->%elem_of_list_In%repeat_spec. done.
      + unfold wire_wrapped. assert (concat (map (W (f_ty f)) (repeat v z)) = []) as E.
        { clear Hz. induction z as [|z IHz]; [done|]. cbn [repeat map concat]. by rewrite H2, IHz. }
        destruct (f_opt f); rewrite ?app_length, E; unfold count; rewrite k32; cbn [length]; lia.
      + cbn [items]. clear Hz. induction z as [|z IHz]; [lia|]. cbn [repeat map sum_list foldr]. cbn in IHz |- *. lia.
    - rewrite all_enums_struct in He. destruct (IH (He f Hin)) as (L & HL). exists (length (if f_opt f then enc KU8 (NInt 1) else []) + (if f_array f then 4 + L else L)).
      intros z Hz. destruct (HL z Hz) as (v & H1 & H2 & H3).
      assert (v ≠ VNone) as Hnone by (by eapply shape_not_none). destruct (f_array f) eqn:Ea.
      + exists (VArr [v]). split; [|split].
        * right. exists [v]. split; [done|]. split; [done|]. by constructor.
        * unfold wire_wrapped. destruct (f_opt f); rewrite ?app_length; unfold count; rewrite k32; cbn [map concat length]; rewrite ?app_nil_r, H2; lia.
        * cbn. lia.
      + exists v. split; [|split]; [by right| |done]. unfold wire_wrapped. destruct (f_opt f); [|by rewrite H2]. destruct v; try done; by rewrite app_length, H2.
  Qed.
End values.

(** ** TypeScript *)
Section dense.
  Context (rt : runtime) (str_ok : jstr -> Prop) (Hrt : rt_ok rt str_ok).
  Definition denser (k : nat) (d : decoder) : Prop := forall r, r_failed (d r).2 = false -> k + items (d r).1 + length (r_rest (d r).2) <= length (r_rest r).
  Definition weight (t : rtype) : nat := if voidb t then 0 else 1.
  Lemma denser_wrap a o d k : denser k d -> (a = true -> denser 1 d) -> sticky d -> denser (if a || o then 1 else k) (dec_wrap rt a o d).
  Proof.
    intros Hd Hd1 Hs. unfold dec_wrap.
    assert (denser (if a then 1 else k) (if a then dec_arr rt d else d)) as Ha.
    { destruct a; [|done]. specialize (Hd1 eq_refl). intros r Hf. unfold dec_arr in *. pose proof (read_num_shorter rt str_ok Hrt KU32 r) as H1. destruct (read_num rt KU32 r) as [n r1].
      pose proof (dense_times (Z.to_nat (int_of n)) d Hd1 Hs r1) as H2. pose proof (sticky_times (Z.to_nat (int_of n)) d Hs r1) as H3.
      destruct (dec_times _ d r1) as [vs r2]. cbn [fst snd items] in *.
      assert (r_failed r1 = false) by (destruct (r_failed r1); naive_solver). specialize (H1 ltac:(done)). specialize (H2 ltac:(done)). lia. }
    destruct o; [|by rewrite orb_false_r]. rewrite orb_true_r. intros r Hf. unfold dec_opt in *. pose proof (read_num_shorter rt str_ok Hrt KU8 r) as H1. destruct (read_num rt KU8 r) as [n r1]. cbn [snd] in *.
    destruct (decide _); [|cbn [fst snd items] in *; specialize (H1 Hf); lia].
    pose proof (Ha r1 Hf) as H2. assert (r_failed r1 = false) as Hf1.
    { destruct (r_failed r1) eqn:E; [|done]. assert (sticky (if a then dec_arr rt d else d)) as Hs' by (destruct a; [by eapply sticky_arr|done]). by rewrite (Hs' r1 E) in Hf. }
    specialize (H1 Hf1). lia.
  Qed.
  Lemma denser_dec t : solid t -> denser (weight t) (dec rt t).
  Proof.
    induction t as [b|e|fs IH] using rtype_ind'; intros Hi r Hf.
    - change (weight (TBuiltin b)) with 1. cbn [dec] in *. unfold dec_builtin in *. destruct (builtin_kind b) as [k|].
      + pose proof (read_num_shorter rt str_ok Hrt k r) as H. destruct (read_num rt k r) as [n r1]. cbn in *. specialize (H Hf). lia.
      + pose proof (read_num_shorter rt str_ok Hrt KU32 r) as H. destruct (read_num rt KU32 r) as [n r1]. pose proof (read_str_ok rt str_ok Hrt (int_of n) r1) as H2.
        destruct (read_str rt (int_of n) r1) as [s r2]. cbn [fst snd items] in *. destruct (H2 Hf) as (Hf1 & _ & HL). specialize (H Hf1). lia.
    - change (weight (TEnum e)) with 1. cbn [dec] in *. unfold dec_enum in *. pose proof (read_num_shorter rt str_ok Hrt (repr_kind (e_repr e)) r) as H. destruct (read_num rt _ r) as [n r1].
      case_decide; cbn [fst snd items] in *; [specialize (H Hf); lia|done].
    - rewrite dec_struct_eq in *. cbn [fst snd] in *. unfold solid in Hi. rewrite all_fields_struct in Hi. rewrite Forall_forall in IH. unfold weight.
      revert r Hf. induction fs as [|f fs IHf]; intros r Hf; [cbn; lia|]. rewrite dec_fields_cons in *. cbn [fst snd] in *.
      assert (r_failed (dec_field rt f r).2 = false) as Hf1.
      { destruct (r_failed (dec_field rt f r).2) eqn:E; [|done]. by rewrite (dec_fields_sticky rt str_ok Hrt fs _ E) in Hf. }
      destruct (Hi f ltac:(by left)) as [Hsa Hsf]. pose proof (IH f ltac:(by left) Hsf) as Hd.
      assert (denser (if f_array f || f_opt f then 1 else weight (f_ty f)) (dec_field rt f)) as Hdf.
      { unfold dec_field. apply denser_wrap; [done| |by eapply sticky_dec]. intros Ha. unfold weight in Hd. by rewrite (Hsa Ha) in Hd. }
      specialize (Hdf r Hf1). specialize (IHf ltac:(intros; apply IH; [by right|done]) ltac:(intros; apply Hi; by right) _ Hf).
      cbn [items map sum_list foldr voidb forallb] in *. unfold weight in Hdf. destruct (f_array f), (f_opt f), (voidb (f_ty f)); cbn in *; destruct (forallb _ fs); cbn in *; lia.
  Qed.
End dense.
Lemma code_solid a rt str_ok e : rt_ok rt str_ok -> exports a = [e] -> ~ weightless_array a e -> for_code a (fun k t => names_fine a k ->
  forall h data l M, reads rt k h data (Done (JLoc l, M)) -> exists v, rep (m_heap M) (JLoc l) v /\ items v <= length data /\ (~ no_bytes a e -> items v < length data)).
Proof.
  intros Hrt He Hne. apply for_code_intro. intros iter r Hf Hn Hr Hk h data l M Hrd.
  destruct (type_check_result _ _ _ Hf Hn Hr) as (He' & Hen & _). rewrite He in He'. injection He' as ->.
  destruct (reads_typed rt str_ok _ _ _ Hf Hn Hr Hrt Hk h data l M Hrd) as (v & H1 & _ & -> & H4 & H5). eexists. split; [exact H1|]. rewrite H5 in H4.
  pose proof (denser_dec rt str_ok Hrt _ (entry_solid _ _ _ Hf Hn Hr Hne) _ H4) as H. cbn [r_rest] in H. split; [lia|].
  intros Hb. unfold weight in H. destruct (voidb _) eqn:E in H; [|lia]. destruct Hb. eapply entry_void; [done..|exact Hen|exact E].
Qed.
Lemma code_weightless a rt str_ok e : rt_ok rt str_ok -> str_ok [] -> small_enums a -> exports a = [e] -> weightless_array a e -> for_code a (fun k t => names_fine a k ->
  exists L, forall h z, (Z.of_nat z < 2 ^ 32)%Z -> exists data l M v, length data = L /\ reads rt k h data (Done (JLoc l, M)) /\ rep (m_heap M) (JLoc l) v /\ z <= items v).
Proof.
  intros Hrt Hstr Hs He Hw. apply for_code_intro. intros iter r Hf Hn Hr Hk.
  destruct (type_check_result _ _ _ Hf Hn Hr) as (He' & Hen & _). rewrite He in He'. injection He' as ->.
  destruct (many_items str_ok Hstr (rt_enc rt) (rt_encs rt) (fun n => enc_width _ _ Hrt KU32 n) _ (entry_hosts _ _ _ Hf Hn Hr _ _ Hen Hw) (export_variants _ _ _ Hf Hn Hr)) as (L & HL).
  exists L. intros h z Hz. destruct (HL z Hz) as (v & H1 & H2 & H3).
  destruct (reads_wire rt str_ok _ _ _ Hf Hn Hr Hrt Hs Hk v h [] H1) as (l & M & H4 & H5 & _). rewrite app_nil_r in H4. by exists (wire (rt_enc rt) (rt_encs rt) (TStruct (x_fields (r_export r))) v), l, M, v.
Qed.
