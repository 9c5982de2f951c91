(** The reference decoder against the wire format: inversion, truncation, cost, shape of the results, uniqueness. *)
From Verif Require Export TsRead.

(** ** enums of a type *)
Fixpoint all_enums (P : enum -> Prop) (t : rtype) : Prop :=
  match t with
  | TBuiltin _ => True
  | TEnum e => P e
  | TStruct fs => fold_right (fun f Q => all_enums P (f_ty f) /\ Q) True fs
  end.
Lemma all_enums_struct P fs : all_enums P (TStruct fs) <-> forall f, f ∈ fs -> all_enums P (f_ty f).
Proof.
  cbn [all_enums]. induction fs as [|f fs IH]; cbn [fold_right].
  - split; [|done]. intros _ f Hf. by apply elem_of_nil in Hf.
  - rewrite IH. split.
    + intros (H2 & H3) g [->|Hg]%elem_of_cons; [done|by apply H3].
    + intros H. split; [apply H; left|]. intros g Hg. apply H. by right.
Qed.
(** every declared number passes the range check and fits the representation *)
Definition readable (e : enum) : Prop := forall n, declared e n ->
  exists z, n = NInt z /\ (enum_lo e <= z <= enum_hi e)%Z /\ in_kind (repr_kind (e_repr e)) n.

Definition fields_shape (en : enum -> num -> Prop) (sok : jstr -> Prop) : list sfield -> list (string * value) -> Prop :=
  fix fields (fs : list sfield) (vs : list (string * value)) : Prop :=
    match fs, vs with
    | [], [] => True
    | f :: fs, (g, v) :: vs => g = f_name f /\ wrapped (f_array f) (f_opt f) (shape en sok (f_ty f)) v /\ fields fs vs
    | _, _ => False
    end.
Lemma shape_struct en sok fs v : shape en sok (TStruct fs) v <-> exists vs, v = VRec vs /\ fields_shape en sok fs vs.
Proof. done. Qed.
Definition fields_wire (enc : kind -> num -> list byte) (encs : jstr -> list byte) : list sfield -> list (string * value) -> list byte :=
  fix fields (fs : list sfield) (vs : list (string * value)) : list byte :=
    match fs, vs with
    | f :: fs, (_, v) :: vs => wire_wrapped enc (f_array f) (f_opt f) (wire enc encs (f_ty f)) v ++ fields fs vs
    | _, _ => []
    end.
Lemma wire_struct enc encs fs vs : wire enc encs (TStruct fs) (VRec vs) = fields_wire enc encs fs vs.
Proof. done. Qed.
Lemma wrapped_mono a o (P Q : value -> Prop) v : (forall v, P v -> Q v) -> wrapped a o P v -> wrapped a o Q v.
Proof.
  intros H [Hn|Hw]; [by left|right]. destruct a; [|by apply H]. destruct Hw as (l & -> & Hl & HF). exists l. split; [done|]. split; [done|].
  eapply Forall_impl; [exact HF|done].
Qed.
Lemma shape_mono (en en' : enum -> num -> Prop) (sok sok' : jstr -> Prop) t : all_enums (fun e => forall n, en e n -> en' e n) t -> (forall s, sok s -> sok' s) ->
  forall v, shape en sok t v -> shape en' sok' t v.
Proof.
  intros He Hs. induction t as [b|e|fs IH] using rtype_ind'; intros v.
  - cbn [shape]. destruct (builtin_kind b); [done|]. intros (s & -> & Hl & Hok). eauto.
  - cbn [shape all_enums] in *. intros (n & -> & Hn). eauto.
  - rewrite all_enums_struct in He. rewrite Forall_forall in IH. rewrite !shape_struct. intros (vs & -> & Hv). exists vs. split; [done|].
    revert vs Hv. induction fs as [|f fs IHfs]; intros [|[g v] vs] Hv; try done. destruct Hv as (-> & Hw & Hv). split; [done|].
    split.
    + eapply wrapped_mono; [|exact Hw]. apply IH; [by left|]. apply He. by left.
    + apply IHfs; [|intros h Hh; apply He; by right|done]. intros h Hh. apply IH. by right.
Qed.

Lemma prefix_split {A} (bs a b : list A) : bs `prefix_of` a ++ b -> bs ≠ a ++ b ->
  (bs `prefix_of` a /\ bs ≠ a) \/ exists b', bs = a ++ b' /\ b' `prefix_of` b /\ b' ≠ b.
Proof.
  revert bs. induction a as [|x a IH]; intros bs Hp Hne.
  - right. exists bs. done.
  - destruct bs as [|y bs]. { left. split; [apply prefix_nil|done]. }
    cbn in Hp. pose proof (prefix_cons_inv_1 _ _ _ _ Hp) as ->. apply prefix_cons_inv_2 in Hp.
    destruct (IH bs Hp) as [[H1 H2]|(b' & -> & H1 & H2)]; [intros ->; by apply Hne| |].
    + left. split; [by apply prefix_cons|intros [=]; by apply H2].
    + right. by exists b'.
Qed.

Section codec.
  Context (rt : runtime) (str_ok : jstr -> Prop) (Hrt : rt_ok rt str_ok).
  Notation wire := (wire (rt_enc rt) (rt_encs rt)).
  Notation wire_wrapped := (wire_wrapped (rt_enc rt)).
  Notation has_type := (has_type str_ok).

  (** ** inversion and truncation *)
  Definition inverts (d : decoder) (e : value -> list byte) (P : value -> Prop) : Prop :=
    forall v rest c, P v -> exists c', d (RState (e v ++ rest) false c) = (v, RState rest false c').
  Definition detects (d : decoder) (e : value -> list byte) (P : value -> Prop) : Prop :=
    forall v bs c, P v -> bs `prefix_of` e v -> bs ≠ e v -> r_failed (d (RState bs false c)).2 = true.

  Lemma read_enc k n rest c : in_kind k n -> read_num rt k (RState (rt_enc rt k n ++ rest) false c) = (n, RState rest false (S c)).
  Proof. intros H. unfold read_num. cbn [r_rest r_failed r_calls]. by rewrite (rd_enc _ _ Hrt). Qed.
  Lemma read_cut k n bs c : bs `prefix_of` rt_enc rt k n -> bs ≠ rt_enc rt k n -> r_failed (read_num rt k (RState bs false c)).2 = true.
  Proof.
    intros Hp Hne. unfold read_num. cbn [r_rest r_failed r_calls]. destruct (rd_short _ _ Hrt k bs) as (m & bs' & _ & E); [|by rewrite E].
    destruct Hp as [l Hl]. pose proof (enc_width _ _ Hrt k n) as HW. rewrite Hl, app_length in HW.
    destruct l; [|cbn in HW; lia]. by rewrite app_nil_r in Hl.
  Qed.
  Lemma count_kind n : (Z.of_nat n < 2 ^ 32)%Z -> in_kind KU32 (NInt (Z.of_nat n)).
  Proof. intros H. cbn. lia. Qed.

  Lemma times_inverts d e P l : inverts d e P -> Forall P l -> forall rest c, exists c',
    dec_times (length l) d (RState (concat (map e l) ++ rest) false c) = (l, RState rest false c').
  Proof.
    intros Hd. induction 1 as [|v l Hv _ IH]; intros rest c; [by exists c|].
    cbn [map concat length dec_times]. rewrite <- app_assoc. destruct (Hd v (concat (map e l) ++ rest) c Hv) as [c1 ->].
    destruct (IH rest c1) as [c2 ->]. by exists c2.
  Qed.
  Lemma times_detects d e P l : inverts d e P -> detects d e P -> sticky d -> Forall P l -> forall bs c,
    bs `prefix_of` concat (map e l) -> bs ≠ concat (map e l) -> r_failed (dec_times (length l) d (RState bs false c)).2 = true.
  Proof.
    intros Hd Hx Hs. induction 1 as [|v l Hv _ IH]; intros bs c Hp Hne.
    - cbn in *. by apply prefix_nil_inv in Hp.
    - cbn [map concat length dec_times] in *. apply prefix_split in Hp as [[Hp Hne']|(b' & -> & Hp & Hne')]; [| |done].
      + pose proof (Hx v bs c Hv Hp Hne') as Hf. destruct (d _) as [v1 r1]. cbn [snd] in Hf.
        pose proof (sticky_times (length l) d Hs r1 Hf) as Hf2. by destruct (dec_times (length l) d r1).
      + destruct (Hd v b' c Hv) as [c1 ->]. pose proof (IH b' c1 Hp Hne') as Hf. by destruct (dec_times (length l) d _).
  Qed.

  Lemma wrap_inverts a o d e P : inverts d e P -> (forall v, P v -> v ≠ VNone) -> inverts (dec_wrap rt a o d) (wire_wrapped a o e) (wrapped a o P).
  Proof.
    intros Hd HP v rest c Hw. unfold dec_wrap, Wire.wire_wrapped.
    assert (forall rest c, v ≠ VNone \/ o = false -> v ≠ VNone /\ exists c',
      (if a then dec_arr rt d else d) (RState ((if a then match v with VArr l => count (rt_enc rt) (length l) ++ concat (map e l) | _ => [] end else e v) ++ rest) false c) =
      (v, RState rest false c')) as Hin.
    { clear rest c. intros rest c Hv. destruct Hw as [[Ho Hw]|Hw]; [naive_solver|]. destruct a; [|split; [by apply HP|by apply Hd]].
      destruct Hw as (l & -> & Hl & HF). split; [done|]. unfold dec_arr, count. rewrite <- app_assoc, read_enc by by apply count_kind.
      cbn [int_of]. rewrite Nat2Z.id. destruct (times_inverts d e P l Hd HF rest (S c)) as [c' ->]. by exists c'. }
    destruct o; [|apply Hin; by right]. unfold dec_opt. assert (v = VNone \/ v ≠ VNone) as [->|Hne] by (destruct v; auto).
    { rewrite read_enc by (cbn; lia). cbn [int_of]. rewrite decide_False by lia. by eexists. }
    assert (match v with VNone => rt_enc rt KU8 (NInt 0) | _ => rt_enc rt KU8 (NInt 1) ++ (if a then match v with VArr l => count (rt_enc rt) (length l) ++ concat (map e l) | _ => [] end else e v) end =
      rt_enc rt KU8 (NInt 1) ++ (if a then match v with VArr l => count (rt_enc rt) (length l) ++ concat (map e l) | _ => [] end else e v)) as -> by by destruct v.
    rewrite <- app_assoc, read_enc by (cbn; lia). cbn [int_of]. rewrite decide_True by lia. apply Hin. by left.
  Qed.
  Lemma wrap_detects a o d e P : inverts d e P -> detects d e P -> sticky d -> (forall v, P v -> v ≠ VNone) ->
    detects (dec_wrap rt a o d) (wire_wrapped a o e) (wrapped a o P).
  Proof.
    intros Hd Hx Hs HP v bs c Hw Hp Hne. unfold dec_wrap, Wire.wire_wrapped in *.
    set (inner := if a then match v with VArr l => count (rt_enc rt) (length l) ++ concat (map e l) | _ => [] end else e v) in *.
    assert (sticky (if a then dec_arr rt d else d)) as Hs' by (destruct a; [by eapply sticky_arr|done]).
    assert (forall bs c, v ≠ VNone \/ o = false -> bs `prefix_of` inner -> bs ≠ inner ->
      r_failed ((if a then dec_arr rt d else d) (RState bs false c)).2 = true) as Hin.
    { clear bs c Hp Hne. intros bs c Hv Hp Hne. destruct Hw as [[Ho Hw]|Hw]; [naive_solver|]. destruct a; [|by eapply Hx].
      destruct Hw as (l & -> & Hl & HF). unfold inner in *. unfold dec_arr. apply prefix_split in Hp as [[Hp Hne']|(b' & -> & Hp & Hne')]; [| |done].
      - pose proof (read_cut KU32 _ bs c Hp Hne') as Hf. destruct (read_num rt KU32 _) as [n r1]. cbn [snd] in Hf.
        pose proof (sticky_times (Z.to_nat (int_of n)) d Hs r1 Hf) as Hf2. by destruct (dec_times _ d r1).
      - unfold count. rewrite read_enc by by apply count_kind. cbn [int_of]. rewrite Nat2Z.id.
        pose proof (times_detects d e P l Hd Hx Hs HF b' (S c) Hp Hne') as Hf. by destruct (dec_times _ d _). }
    destruct o; [|apply Hin; [by right|done..]]. unfold dec_opt. assert (v = VNone \/ v ≠ VNone) as [->|Hnv] by (destruct v; auto).
    { pose proof (read_cut KU8 _ bs c Hp Hne) as Hf. destruct (read_num rt KU8 _) as [n r1]. cbn [snd] in Hf. case_decide; [by apply Hs'|done]. }
    assert (match v with VNone => rt_enc rt KU8 (NInt 0) | _ => rt_enc rt KU8 (NInt 1) ++ inner end = rt_enc rt KU8 (NInt 1) ++ inner) as E by by destruct v.
    rewrite E in Hp, Hne. apply prefix_split in Hp as [[Hp Hne']|(b' & -> & Hp & Hne')]; [| |done].
    - pose proof (read_cut KU8 _ bs c Hp Hne') as Hf. destruct (read_num rt KU8 _) as [n r1]. cbn [snd] in Hf. case_decide; [by apply Hs'|done].
    - rewrite read_enc by (cbn; lia). cbn [int_of]. rewrite decide_True by lia. apply Hin; [by left|done..].
  Qed.

  Lemma shape_not_none en sok t v : shape en sok t v -> v ≠ VNone.
  Proof.
    destruct t as [b|e|fs]; cbn [shape].
    - destruct (builtin_kind b); [intros (n & -> & _)|intros (s & -> & _)]; done.
    - by intros (n & -> & _).
    - by intros (vs & -> & _).
  Qed.
  Lemma dec_struct_eq fs r : dec rt (TStruct fs) r = (VRec (dec_fields rt fs r).1, (dec_fields rt fs r).2).
  Proof. cbn [dec]. unfold dec_fields. change (fun f => (f_name f, dec_field rt f)) with (fun f => (f_name f, dec_wrap rt (f_array f) (f_opt f) (dec rt (f_ty f)))). by destruct (dec_list _ r). Qed.
  Lemma dec_fields_cons f fs r : dec_fields rt (f :: fs) r =
    ((f_name f, (dec_field rt f r).1) :: (dec_fields rt fs (dec_field rt f r).2).1, (dec_fields rt fs (dec_field rt f r).2).2).
  Proof. unfold dec_fields. cbn [List.map dec_list]. destruct (dec_field rt f r) as [v r1]. cbn [fst snd]. by destruct (dec_list _ r1). Qed.
  Lemma dec_fields_sticky fs r : r_failed r = true -> r_failed (dec_fields rt fs r).2 = true.
  Proof. intros Hr. unfold dec_fields. apply sticky_list; [|done]. apply Forall_forall. intros x (h & <- & Hh)%elem_of_list_In%in_map_iff. by eapply sticky_field. Qed.

  Lemma dec_inverts t : all_enums readable t -> inverts (dec rt t) (wire t) (has_type t).
  Proof.
    induction t as [b|e|fs IH] using rtype_ind'; intros He v rest c Hv; unfold Wire.has_type in Hv.
    - cbn [shape] in Hv. cbn [dec Wire.wire]. unfold dec_builtin. destruct (builtin_kind b) as [k|].
      + destruct Hv as (n & -> & Hn). rewrite read_enc by done. by eexists.
      + destruct Hv as (s & -> & Hl & Hs). unfold count. rewrite <- app_assoc, read_enc by by apply count_kind. cbn [int_of].
        unfold read_str. cbn [r_rest r_failed]. rewrite (rds_enc _ _ Hrt) by done. by eexists.
    - cbn [shape all_enums] in Hv, He. destruct Hv as (n & -> & Hn). destruct (He n Hn) as (z & -> & Hz & Hk). cbn [dec Wire.wire]. unfold dec_enum.
      rewrite read_enc by done. cbn [int_of]. rewrite decide_True by done. by eexists.
    - rewrite all_enums_struct in He. rewrite Forall_forall in IH. apply shape_struct in Hv as (vs & -> & Hv). rewrite wire_struct.
      assert (forall vs rest c, fields_shape declared str_ok fs vs -> exists c', dec_fields rt fs (RState (fields_wire (rt_enc rt) (rt_encs rt) fs vs ++ rest) false c) = (vs, RState rest false c')) as H.
      { clear vs Hv rest c. induction fs as [|f fs IHfs]; intros [|[g v] vs] rest c Hv; try done; [by exists c|].
        destruct Hv as (-> & Hw & Hv). rewrite dec_fields_cons. cbn [fields_wire]. fold (fields_wire (rt_enc rt) (rt_encs rt)). rewrite <- app_assoc.
        destruct (wrap_inverts (f_array f) (f_opt f) (dec rt (f_ty f)) (wire (f_ty f)) (has_type (f_ty f))) with (v := v) (rest := fields_wire (rt_enc rt) (rt_encs rt) fs vs ++ rest) (c := c) as [c1 E1]; [|by intros ? ?%shape_not_none|done|].
        { apply IH; [by left|apply He; by left]. }
        destruct (IHfs) with (vs := vs) (rest := rest) (c := c1) as [c2 E2]; [intros h Hh; apply IH; by right|intros h Hh; apply He; by right|done|].
        exists c2. unfold dec_field. rewrite E1. cbn [fst snd]. rewrite E2. done. }
      destruct (H vs rest c Hv) as [c' E]. exists c'. rewrite dec_struct_eq, E. done.
  Qed.
  Lemma dec_detects t : all_enums readable t -> detects (dec rt t) (wire t) (has_type t).
  Proof.
    induction t as [b|e|fs IH] using rtype_ind'; intros He v bs c Hv Hp Hne; unfold Wire.has_type in Hv.
    - cbn [shape] in Hv. cbn [dec Wire.wire] in *. unfold dec_builtin. destruct (builtin_kind b) as [k|].
      + destruct Hv as (n & -> & Hn). pose proof (read_cut k n bs c Hp Hne) as Hf. by destruct (read_num rt k _).
      + destruct Hv as (s & -> & Hl & Hs). apply prefix_split in Hp as [[Hp Hne']|(b' & -> & Hp & Hne')]; [| |done].
        * pose proof (read_cut KU32 _ bs c Hp Hne') as Hf. destruct (read_num rt KU32 _) as [n r1]. cbn [snd] in Hf.
          pose proof (read_str_sticky rt str_ok Hrt (int_of n) r1 Hf) as Hf2. by destruct (read_str rt _ r1).
        * unfold count. rewrite read_enc by by apply count_kind. cbn [int_of]. unfold read_str. cbn [r_rest r_failed].
          pose proof (rds_short _ _ Hrt s b' _ Hs Hp Hne' eq_refl) as Hf. destruct (rt_rds rt _ _) as [s' [bs' ?]]. done.
    - cbn [shape all_enums] in Hv, He. destruct Hv as (n & -> & Hn). cbn [dec Wire.wire] in *. unfold dec_enum.
      pose proof (read_cut (repr_kind (e_repr e)) n bs c Hp Hne) as Hf. destruct (read_num rt _ _) as [m r1]. by case_decide.
    - rewrite all_enums_struct in He. rewrite Forall_forall in IH. apply shape_struct in Hv as (vs & -> & Hv). rewrite wire_struct in Hp, Hne.
      rewrite dec_struct_eq. cbn [snd].
      revert vs bs c Hv Hp Hne. induction fs as [|f fs IHfs]; intros [|[g v] vs] bs c Hv Hp Hne; try done.
      { cbn in *. by apply prefix_nil_inv in Hp. }
      destruct Hv as (-> & Hw & Hv). rewrite dec_fields_cons. cbn [snd]. cbn [fields_wire] in Hp, Hne. fold (fields_wire (rt_enc rt) (rt_encs rt)) in *.
      assert (inverts (dec rt (f_ty f)) (wire (f_ty f)) (has_type (f_ty f))) as Hinv by (apply dec_inverts, He; by left).
      apply prefix_split in Hp as [[Hp Hne']|(b' & -> & Hp & Hne')]; [| |done].
      + apply dec_fields_sticky. eapply wrap_detects; [exact Hinv| |by eapply sticky_dec|by intros ? ?%shape_not_none|exact Hw|exact Hp|exact Hne'].
        apply IH; [by left|apply He; by left].
      + destruct (wrap_inverts (f_array f) (f_opt f) _ _ _ Hinv ltac:(by intros ? ?%shape_not_none) v b' c Hw) as [c1 E1].
        unfold dec_field. rewrite E1. cbn [snd]. eapply IHfs; [| |exact Hv|exact Hp|exact Hne'].
        * intros h Hh. apply IH. by right.
        * intros h Hh. apply He. by right.
  Qed.
End codec.
