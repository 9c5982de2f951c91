(** The decoder: which packets it accepts, what it leaves of the old value, how often it calls the reader. *)
From Verif Require Export RsRun2.
Export RsSem.

Section facts.
  Context (lib : rs_lib) (str_ok : rstr -> Prop).
  Notation into := (into lib). Notation into_field := (into_field lib). Notation into_fields := (into_fields lib).
  Notation dflt_field f := (dflt_wrapped (f_array f) (f_opt f) (dflt (f_ty f) (f_tname f))).
  Notation dflt_fields fs := (List.map (fun f => (f_name f, dflt_field f)) fs).

  (** ** Old values *)
  Fixpoint onto_fields (fs : list sfield) (xs ys : list (string * rval)) : list (string * rval) :=
    match fs, xs, ys with
    | f :: fs, (_, x) :: xs, (g, y) :: ys => (g, onto_wrapped (f_array f) (f_opt f) (onto (f_ty f)) x y) :: onto_fields fs xs ys
    | _, _, _ => []
    end.
  Lemma onto_struct fs xs ys : onto (TStruct fs) (RRec xs) (RRec ys) = RRec (onto_fields fs xs ys).
  Proof. reflexivity. Qed.
  Lemma many_onto k (P : rin -> rres rval) l i :
    many k (fun l i => rgo (P i) (fun y i => Good (l ++ [y]) i)) l i =
    rgo (many k (fun l i => rgo (P i) (fun y i => Good (l ++ [y]) i)) [] i) (fun l' i => Good (l ++ l') i).
  Proof.
    revert l i. induction k as [|k IH]; intros l i; cbn [many rgo]; [by rewrite app_nil_r|]. rewrite !rgo_rgo. destruct (P i) as [y j|j|]; cbn [rgo]; [|done|done].
    rewrite (IH (l ++ [y])), (IH [y]), rgo_rgo. apply rgo_ext. intros l' j'. cbn [rgo]. by rewrite (assoc_L (++)).
  Qed.
  Lemma into_onto t : forall tn cur i, fits t cur -> into t tn cur i = rgo (into t tn (dflt t tn) i) (fun y i => Good (onto t cur y) i).
  Proof.
    induction t as [b|e|fs IH] using rtype_ind'; intros tn cur i Hf.
    - cbn [RsRun2.into]. destruct (builtin_kind b); rewrite !rgo_rgo; [done|]. apply rgo_ext. intros n j. by rewrite rgo_rgo.
    - cbn [RsRun2.into]. rewrite !rgo_rgo. apply rgo_ext. intros n j. by destruct (variant_of e (as_int n)).
    - apply fits_struct in Hf as (xs & -> & Hf). cbn [dflt]. rewrite !into_struct, rgo_rgo. cbn [rgo].
      transitivity (rgo (rgo (into_fields fs (dflt_fields fs) i) (fun ys i => Good (onto_fields fs xs ys) i)) (fun xs i => Good (RRec xs) i));
        [|rewrite rgo_rgo; apply rgo_ext; intros ys j; reflexivity]. f_equal.
      revert i IH. induction Hf as [|f [g x] fs xs [Eg Hx] _ IH2]; intros i IH; [done|]. apply Forall_cons in IH as [IH1 IH]. cbn [fst snd] in Eg, Hx. subst g.
      cbn [List.map RsRun2.into_fields]. rewrite rgo_rgo.
      assert (into_field f x i = rgo (into_field f (dflt_field f) i) (fun y i => Good (onto_wrapped (f_array f) (f_opt f) (onto (f_ty f)) x y) i)) as ->.
      { unfold RsRun2.into_field, into_wrapped, onto_wrapped, dflt_wrapped, fits_wrapped in *. destruct (f_opt f).
        - rewrite !rgo_rgo. apply rgo_ext. intros n j. case_decide; [|done]. rewrite rgo_rgo. done.
        - destruct (f_array f); [|by apply IH1]. destruct Hx as [l ->]. rewrite !rgo_rgo. apply rgo_ext. intros n j. rewrite many_onto, !rgo_rgo. apply rgo_ext. done. }
      rewrite rgo_rgo. apply rgo_ext. intros y j. cbn [rgo]. rewrite IH2 by done. rewrite !rgo_rgo. apply rgo_ext. done.
  Qed.
  Lemma many_not_ill k (P : rin -> rres rval) l i : (forall i, P i ≠ Ill) -> many k (fun l i => rgo (P i) (fun y i => Good (l ++ [y]) i)) l i ≠ Ill.
  Proof.
    intros HP. revert l i. induction k as [|k IH]; intros l i; [done|]. cbn [many]. specialize (HP i). destruct (P i); cbn [rgo]; [apply IH|done|done].
  Qed.
  Lemma take_num_not_ill k i : take_num lib k i ≠ Ill.
  Proof. unfold take_num. by destruct (lb_rd lib k (ri_bytes i)) as [[]|]. Qed.
  Lemma take_str_not_ill k i : take_str lib k i ≠ Ill.
  Proof. unfold take_str. by destruct (lb_rds lib k (ri_bytes i)) as [[]|]. Qed.
  Lemma into_dflt_not_ill t : forall tn i, into t tn (dflt t tn) i ≠ Ill.
  Proof.
    induction t as [b|e|fs IH] using rtype_ind'; intros tn i.
    - cbn [RsRun2.into]. destruct (builtin_kind b) as [k|].
      + pose proof (take_num_not_ill k i). by destruct (take_num lib k i).
      + pose proof (take_num_not_ill KU32 i). destruct (take_num lib KU32 i) as [n j|j|]; cbn [rgo]; [|done|done].
        pose proof (take_str_not_ill (as_int n) j). by destruct (take_str lib (as_int n) j).
    - cbn [RsRun2.into]. pose proof (take_num_not_ill (repr_kind (e_repr e)) i). destruct (take_num lib (repr_kind (e_repr e)) i) as [n j|j|]; cbn [rgo]; [|done|done]. by destruct (variant_of e (as_int n)).
    - cbn [dflt]. rewrite into_struct. assert (into_fields fs (dflt_fields fs) i ≠ Ill) as H; [|by destruct (into_fields fs (dflt_fields fs) i)].
      revert i. induction IH as [|f fs Hf _ IH]; intros i; [done|]. cbn [List.map RsRun2.into_fields].
      assert (into_field f (dflt_field f) i ≠ Ill) as H1.
      { unfold RsRun2.into_field, into_wrapped, dflt_wrapped. destruct (f_opt f).
        - pose proof (take_num_not_ill KU8 i). destruct (take_num lib KU8 i) as [n j|j|]; cbn [rgo]; [|done|done]. case_decide; [|done].
          specialize (Hf (f_tname f) j). by destruct (into (f_ty f) (f_tname f) _ j).
        - destruct (f_array f); [|apply Hf]. pose proof (take_num_not_ill KU32 i). destruct (take_num lib KU32 i) as [n j|j|]; cbn [rgo]; [|done|done].
          pose proof (many_not_ill (Z.to_nat (as_int n)) (into (f_ty f) (f_tname f) (dflt (f_ty f) (f_tname f))) [] (reserve (as_int n) j) (Hf _)) as H1.
          by destruct (many _ _ _ _). }
      destruct (into_field f (dflt_field f) i) as [y j|j|]; cbn [rgo]; [|done|done]. specialize (IH j). by destruct (into_fields fs (dflt_fields fs) j).
  Qed.
  Lemma typed_fits t : forall tn x v, stands str_ok t tn x v -> fits t x.
  Proof.
    induction t as [b|e|fs IH] using rtype_ind'; intros tn x v Hs; [done|done|]. apply stands_struct in Hs as (xs & vs & -> & -> & Hs). apply fits_struct. eexists. split; [done|].
    revert xs vs Hs. induction IH as [|f fs Hf _ IH]; intros [|[g x] xs] [|[h v] vs] Hs; try done. destruct Hs as [(E1 & E2 & Hw) Hs]. cbn [fst snd] in *.
    constructor; [|by eapply IH]. split; [done|]. unfold fits_wrapped, stands_wrapped, stands_items in *. cbn [snd]. destruct (f_opt f); [done|]. destruct (f_array f); [|by eapply Hf].
    destruct Hw as (l & l' & -> & _). by eexists.
  Qed.

  (** ** Packets *)
  Context (Hlib : rs_lib_ok lib str_ok).
  Lemma take_num_good k i n i' : take_num lib k i = Good n i' -> rs_number lib k n (ri_bytes i) (ri_bytes i') /\ in_kind k n /\
    width k + length (ri_bytes i') = length (ri_bytes i) /\ ri_calls i' = S (ri_calls i) /\ ri_room i' = ri_room i.
  Proof.
    unfold take_num. destruct (lb_rd lib k (ri_bytes i)) as [[m bs]|] eqn:E; [|done]. intros [= <- <-]. cbn [ri_bytes ri_calls ri_room].
    assert (width k <= length (ri_bytes i)) as Hw.
    { destruct (decide (width k <= length (ri_bytes i))); [done|]. rewrite (lk_short _ _ Hlib) in E by lia. done. }
    destruct (lk_enough _ _ Hlib _ _ Hw) as (n' & Hk & E'). rewrite E in E'. injection E' as <- ->. split; [|split; [done|split; [rewrite drop_length; lia|done]]].
    split; [done|]. destruct k; try (eapply (lk_exact _ _ Hlib); [done|exact E]). exact E.
  Qed.
  Lemma number_take k n data rest i : rs_number lib k n data rest -> ri_bytes i = data -> take_num lib k i = Good n (RIn rest (S (ri_calls i)) (ri_room i)).
  Proof.
    intros [Hk H] E. unfold take_num. assert (lb_rd lib k (ri_bytes i) = Some (n, rest)) as ->; [|done]. rewrite E. clear E.
    destruct k; try (subst data; by apply (lk_enc _ _ Hlib)). exact H.
  Qed.
  Lemma as_int_in k n : in_kind k n -> k ≠ KF32 -> n = NInt (as_int n).
  Proof. by destruct k, n. Qed.

  Notation packet := (packet lib str_ok).
  Fixpoint packet_fields (fs : list sfield) (vs : list (string * value)) (data rest : list byte) : Prop :=
    match fs, vs with
    | [], [] => data = rest
    | f :: fs, (g, v) :: vs => g = f_name f /\ exists mid, packet_wrapped lib (f_array f) (f_opt f) (packet (f_ty f)) v data mid /\ packet_fields fs vs mid rest
    | _, _ => False
    end.
  Lemma packet_struct fs v data rest : packet (TStruct fs) v data rest <-> exists vs, v = VRec vs /\ packet_fields fs vs data rest.
  Proof.
    cbn [RsSpec.packet]. apply exist_proper. intros vs. apply and_iff_compat_l. revert vs data. induction fs as [|f fs IH]; intros [|[g w] vs] data; try done.
    cbn [packet_fields]. apply and_iff_compat_l. apply exist_proper. intros mid. apply and_iff_compat_l. apply IH.
  Qed.

  Lemma variant_of_some e z x : good_enum e -> (0 <= z)%Z -> variant_of e z = Some x -> x ∈ e_variants e /\ z = (2 ^ Z.of_nat (ev_value x))%Z.
  Proof.
    intros He Hz H. apply List.find_some in H as [Hin%elem_of_list_In H%Z.eqb_eq]. split; [done|]. subst z.
    unfold shl1 in *. destruct (ev_value x <? 31)%nat eqn:E; [done|]. lia.
  Qed.
  Lemma good_enum_same e x y : good_enum e -> x ∈ e_variants e -> y ∈ e_variants e -> ev_value x = ev_value y -> x = y.
  Proof.
    intros (n & Hn & HL & Hb & Hlo & Hhi & Hx)%good_enum_bounds Hi Hj E. apply Hx in Hi as (i & v & -> & Hi & H1). apply Hx in Hj as (j & w & -> & Hj & H2).
    cbn in E. subst j. congruence.
  Qed.
  Lemma variant_of_small e x : good_enum e -> length (e_variants e) <= 31 -> x ∈ e_variants e -> variant_of e (2 ^ Z.of_nat (ev_value x)) = Some x.
  Proof.
    intros He Hs Hin. assert (forall y, y ∈ e_variants e -> shl1 (ev_value y) = (2 ^ Z.of_nat (ev_value y))%Z) as Hsh.
    { intros y Hy. destruct (good_enum_bounds e He) as (n & Hn & HL & Hb & Hlo & Hhi & Hx). pose proof (proj1 (Hx y) Hy) as (i & v & E & Hi & Hv). rewrite E. cbn [ev_value]. apply shl1_pow. lia. }
    unfold variant_of. destruct (List.find _ (e_variants e)) as [y|] eqn:E.
    - apply List.find_some in E as [Hy%elem_of_list_In E%Z.eqb_eq]. f_equal. apply (good_enum_same e); [done..|]. rewrite Hsh in E by done.
      apply Z.pow_inj_r in E; lia.
    - apply (List.find_none _ _) with (x := x) in E; [|by apply elem_of_list_In]. rewrite Hsh in E by done. by rewrite Z.eqb_refl in E.
  Qed.

  Definition leaf_small (t : rtype) : Prop := match t with TEnum e => length (e_variants e) <= 31 | _ => True end.
  (** what the lemmas need of a type *)
  Definition fair_leaf (t : rtype) : Prop := match t with TEnum e => good_enum e | _ => True end.
  Definition fair_type (t : rtype) : Prop := fair_leaf t /\ all_fields (fun f => f_array f && f_opt f = false /\ fair_leaf (f_ty f)) t.
  Definition small_type (t : rtype) : Prop := leaf_small t /\ all_fields (fun f => leaf_small (f_ty f)) t.
  Lemma fair_field fs f : fair_type (TStruct fs) -> f ∈ fs -> fair_type (f_ty f) /\ f_array f && f_opt f = false.
  Proof. intros [_ H] Hf. rewrite all_fields_struct in H. destruct (H f Hf) as [[H1 H2] H3]. by repeat split. Qed.
  Lemma small_field fs f : small_type (TStruct fs) -> f ∈ fs -> small_type (f_ty f).
  Proof. intros [_ H] Hf. rewrite all_fields_struct in H. destruct (H f Hf) as [H1 H2]. by split. Qed.

  (** what is accepted is a packet *)
  Definition sound (t : rtype) (tn : string) : Prop := forall i y i', into t tn (dflt t tn) i = Good y i' ->
    exists v, stands str_ok t tn y v /\ packet t v (ri_bytes i) (ri_bytes i').
  Lemma many_sound k P (S : rval -> value -> Prop) (Q : value -> list byte -> list byte -> Prop) i l' i' :
    (forall i y i', P i = Good y i' -> exists v, S y v /\ Q v (ri_bytes i) (ri_bytes i')) ->
    many k (fun l i => rgo (P i) (fun y i => Good (l ++ [y]) i)) [] i = Good l' i' ->
    exists vs, length l' = k /\ Forall2 S l' vs /\ each Q vs (ri_bytes i) (ri_bytes i').
  Proof.
    intros HP. revert i l'. induction k as [|k IH]; intros i l'; cbn [many]; [intros [= <- <-]; by exists []|].
    destruct (P i) as [y j|j|] eqn:E; cbn [rgo]; [|done|done]. cbn [app]. rewrite many_onto.
    destruct (many k _ [] j) as [l j'|j'|] eqn:E2; cbn [rgo]; [|done|done]. intros [= <- <-]. destruct (HP _ _ _ E) as (v & Hv & Hq).
    destruct (IH _ _ E2) as (vs & <- & HF & HE). exists (v :: vs). split; [done|]. split; [by constructor|]. by exists (ri_bytes j).
  Qed.
  Lemma into_sound t : forall tn, fair_type t -> sound t tn.
  Proof.
    induction t as [b|e|fs IH] using rtype_ind'; intros tn Hk i y i' H.
    - cbn [RsRun2.into] in H. cbn [stands RsSpec.packet]. destruct (builtin_kind b) as [k|].
      + destruct (take_num lib k i) as [n j|j|] eqn:E; cbn [rgo] in H; [|done|done]. injection H as <- <-. destruct (take_num_good _ _ _ _ E) as (H1 & H2 & _).
        exists (VNum n). split; by exists n.
      + destruct (take_num lib KU32 i) as [n j|j|] eqn:E; cbn [rgo] in H; [|done|done]. destruct (take_num_good _ _ _ _ E) as (H1 & H2 & _).
        unfold take_str in H. destruct (lb_rds lib (as_int n) (ri_bytes j)) as [[s bs]|] eqn:Es; cbn [rgo] in H; [|done]. injection H as <- <-. cbn [ri_bytes].
        pose proof (as_int_in _ _ H2 ltac:(done)) as En. rewrite En in H2. cbn in H2. destruct (lk_str_exact _ _ Hlib _ _ _ _ (proj1 H2) Es) as (Hs & Hn & Hb).
        exists (VStr s). split; [exists s; repeat split; try done; lia|]. exists s, (ri_bytes j). rewrite <- Hn, <- En. done.
    - destruct Hk as [He _]. cbn [RsRun2.into] in H. destruct (take_num lib _ i) as [n j|j|] eqn:E; cbn [rgo] in H; [|done|done].
      destruct (take_num_good _ _ _ _ E) as (H1 & H2 & _). destruct (variant_of e (as_int n)) as [x|] eqn:Ev; [|done]. injection H as <- <-.
      assert (n = NInt (as_int n)) as En by (apply (as_int_in _ _ H2); by destruct (e_repr e)).
      assert (0 <= as_int n)%Z as Hz by (rewrite En in H2; destruct (e_repr e); cbn in H2; lia).
      destruct (variant_of_some _ _ _ He Hz Ev) as [Hx Hv]. exists (VNum n). cbn [stands RsSpec.packet]. split; [exists x; rewrite <- Hv, <- En; done|].
      exists n. split; [done|]. split; [|done]. exists x. by rewrite <- Hv, <- En.
    - pose proof (fun f Hf => fair_field fs f Hk Hf) as Hkf. cbn [dflt] in H. rewrite into_struct in H. clear Hk.
      destruct (into_fields fs (dflt_fields fs) i) as [ys j|j|] eqn:E; cbn [rgo] in H; [|done|done]. injection H as <- <-.
      assert (exists vs, stands_fields str_ok fs ys vs /\ packet_fields fs vs (ri_bytes i) (ri_bytes j)) as (vs & H1 & H2);
        [|exists (VRec vs); split; [apply stands_struct; by exists ys, vs|apply packet_struct; by exists vs]].
      revert i ys E. induction IH as [|f fs Hf _ IH]; intros i ys E; [injection E as <- <-; by exists []|]. cbn [List.map RsRun2.into_fields] in E.
      destruct (into_field f (dflt_field f) i) as [y i1|i1|] eqn:E1; cbn [rgo] in E; [|done|done].
      destruct (into_fields fs (dflt_fields fs) i1) as [ys1 i2|i2|] eqn:E2; cbn [rgo] in E; [|done|done]. injection E as <- <-.
      destruct (Hkf f ltac:(by left)) as [Hft Hao].
      destruct (IH ltac:(intros g Hg; apply Hkf; by right) i1 ys1 E2) as (vs & Hv & Hp).
      assert (exists v, stands_wrapped (f_array f) (f_opt f) (stands str_ok (f_ty f) (f_tname f)) y v /\ packet_wrapped lib (f_array f) (f_opt f) (packet (f_ty f)) v (ri_bytes i) (ri_bytes i1)) as (v & H1 & H2);
        [|exists ((f_name f, v) :: vs); split; [by repeat split|]; split; [done|by exists (ri_bytes i1)]].
      specialize (Hf (f_tname f) Hft). clear IH E2 Hv Hp. unfold RsRun2.into_field, into_wrapped, dflt_wrapped, stands_wrapped, packet_wrapped, stands_items, packet_items in *.
      destruct (f_opt f).
      + destruct (f_array f); [done|]. destruct (take_num lib KU8 i) as [n j1|j1|] eqn:E; cbn [rgo] in E1; [|done|done]. destruct (take_num_good _ _ _ _ E) as (H1 & H2 & _).
        pose proof (as_int_in _ _ H2 ltac:(done)) as En. rewrite En in H1. case_decide as Hd.
        * destruct (into (f_ty f) (f_tname f) _ j1) as [y1 j2|j2|] eqn:Ei; cbn [rgo] in E1; [|done|done]. injection E1 as <- <-.
          destruct (Hf _ _ _ Ei) as (v & Hv & Hp). exists v. split; [right; by exists y1|]. right. exists (as_int n), (ri_bytes j1). split; [lia|]. by split.
        * injection E1 as <- <-. exists VNone. split; [by left|]. left. split; [done|]. rewrite En in H2. cbn in H2. assert (as_int n = 0%Z) as Ez by lia. by rewrite Ez in H1.
      + destruct (f_array f); [|by apply Hf]. destruct (take_num lib KU32 i) as [n j1|j1|] eqn:E; cbn [rgo] in E1; [|done|done]. destruct (take_num_good _ _ _ _ E) as (H1 & H2 & _).
        pose proof (as_int_in _ _ H2 ltac:(done)) as En. rewrite En in H1, H2. cbn in H2.
        destruct (many _ _ _ _) as [l' j2|j2|] eqn:Em; cbn [rgo] in E1; [|done|done]. injection E1 as <- <-.
        destruct (many_sound _ (into (f_ty f) (f_tname f) (dflt (f_ty f) (f_tname f))) _ _ _ _ _ Hf Em) as (vs' & Hl & HF & HE). exists (VArr vs'). split; [exists l', vs'; repeat split; try done; lia|].
        exists vs', (ri_bytes j1). split; [done|]. rewrite <- (Forall2_length _ _ _ HF), Hl, Z2Nat.id by lia. by split.
  Qed.

  (** packets are accepted *)
  Definition complete (t : rtype) (tn : string) : Prop := forall v data rest, packet t v data rest -> forall i, ri_bytes i = data ->
    exists y i', into t tn (dflt t tn) i = Good y i' /\ ri_bytes i' = rest /\ stands str_ok t tn y v.
  Lemma many_complete P (S : rval -> value -> Prop) (Q : value -> list byte -> list byte -> Prop) vs data rest i :
    (forall v data rest, Q v data rest -> forall i, ri_bytes i = data -> exists y i', P i = Good y i' /\ ri_bytes i' = rest /\ S y v) ->
    each Q vs data rest -> ri_bytes i = data ->
    exists l' i', many (length vs) (fun l i => rgo (P i) (fun y i => Good (l ++ [y]) i)) [] i = Good l' i' /\ ri_bytes i' = rest /\ Forall2 S l' vs.
  Proof.
    intros HP. revert data i. induction vs as [|v vs IH]; intros data i HE Hi; [exists [], i; subst; by rewrite <- HE|].
    destruct HE as (mid & Hq & HE). destruct (HP _ _ _ Hq _ Hi) as (y & j & Ey & Ej & Hy). destruct (IH _ _ HE Ej) as (l' & j' & El & Ej' & HF).
    exists (y :: l'), j'. cbn [length many]. rewrite Ey. cbn [rgo app]. rewrite many_onto, El. cbn [rgo]. split; [done|]. split; [done|by constructor].
  Qed.
  Lemma into_complete t : forall tn, fair_type t -> small_type t -> complete t tn.
  Proof.
    induction t as [b|e|fs IH] using rtype_ind'; intros tn Hk Hsm v data rest Hp i Hi.
    - cbn [RsSpec.packet] in Hp. cbn [RsRun2.into stands]. destruct (builtin_kind b) as [k|].
      + destruct Hp as (n & -> & Hn). rewrite (number_take _ _ _ _ _ Hn Hi). cbn [rgo]. eexists _, _. split; [done|]. split; [done|]. exists n. repeat split; try done. apply Hn.
      + destruct Hp as (s & mid & -> & Hn & Hs & ->). rewrite (number_take _ _ _ _ _ Hn Hi). cbn [rgo as_int]. unfold take_str. cbn [ri_bytes].
        rewrite (lk_str _ _ Hlib) by done. cbn [rgo]. eexists _, _. split; [done|]. split; [done|]. exists s. repeat split; try done. destruct Hn as [Hn _]. cbn in Hn. lia.
    - destruct Hk as [He _], Hsm as [Hsm _]. cbn [RsSpec.packet] in Hp. destruct Hp as (n & -> & (x & Hx & ->) & Hn). cbn [RsRun2.into stands].
      rewrite (number_take _ _ _ _ _ Hn Hi). cbn [rgo as_int]. rewrite (variant_of_small _ _ He Hsm Hx). eexists _, _. split; [done|]. split; [done|]. by exists x.
    - pose proof (fun f Hf => fair_field fs f Hk Hf) as Hkf. pose proof (fun f Hf => small_field fs f Hsm Hf) as Hsf. apply packet_struct in Hp as (vs & -> & Hp). clear Hk Hsm.
      cbn [dflt]. rewrite into_struct.
      assert (exists ys i', into_fields fs (dflt_fields fs) i = Good ys i' /\ ri_bytes i' = rest /\ stands_fields str_ok fs ys vs) as (ys & i' & -> & H2 & H3);
        [|cbn [rgo]; eexists _, _; split; [done|]; split; [done|]; apply stands_struct; by exists ys, vs].
      revert vs data i Hi Hp. induction IH as [|f fs Hf _ IH]; intros [|[g v] vs] data i Hi Hp; try done; [exists [], i; cbn in Hp; by subst|].
      destruct Hp as (-> & mid & Hw & Hp). destruct (Hkf f ltac:(by left)) as [Hft Hao]. pose proof (Hsf f ltac:(by left)) as Hfs.
      assert (exists y i', into_field f (dflt_field f) i = Good y i' /\ ri_bytes i' = mid /\ stands_wrapped (f_array f) (f_opt f) (stands str_ok (f_ty f) (f_tname f)) y v) as (y & i1 & Ey & Ei & Hy).
      { specialize (Hf (f_tname f) Hft Hfs). clear IH Hp. unfold RsRun2.into_field, into_wrapped, dflt_wrapped, stands_wrapped, packet_wrapped, stands_items, packet_items in *.
        destruct (f_opt f).
        - destruct (f_array f); [done|]. destruct Hw as [[-> Hn]|(fl & mid' & Hfl & Hn & Hq)]; rewrite (number_take _ _ _ _ _ Hn Hi); cbn [rgo as_int].
          + rewrite decide_False by lia. eexists _, _. split; [done|]. split; [done|]. by left.
          + destruct Hn as [Hn _]. cbn in Hn. rewrite decide_True by lia. destruct (Hf _ _ _ Hq (RIn mid' (S (ri_calls i)) (ri_room i)) eq_refl) as (y & i' & -> & Hi' & Hy). cbn [rgo].
            eexists _, _. split; [done|]. split; [done|]. right. by exists y.
        - destruct (f_array f); [|by eapply Hf]. destruct Hw as (l & mid' & -> & Hn & HE). rewrite (number_take _ _ _ _ _ Hn Hi); cbn [rgo as_int]. rewrite Nat2Z.id.
          destruct (many_complete (into (f_ty f) (f_tname f) (dflt (f_ty f) (f_tname f))) _ _ l mid' mid (reserve (Z.of_nat (length l)) (RIn mid' (S (ri_calls i)) (ri_room i))) Hf HE eq_refl) as (l' & i' & -> & Hi' & HF).
          cbn [rgo]. eexists _, _. split; [done|]. split; [done|]. exists l', l. repeat split; try done. destruct Hn as [Hn _]. cbn in Hn. rewrite (Forall2_length _ _ _ HF). lia. }
      destruct (IH ltac:(intros; apply Hkf; by right) ltac:(intros; apply Hsf; by right) vs mid i1 Ei Hp) as (ys & i2 & Eys & Ei2 & Hys).
      cbn [List.map RsRun2.into_fields]. rewrite Ey. cbn [rgo]. rewrite Eys. cbn [rgo]. eexists _, _. split; [done|]. split; [done|]. by repeat split.
  Qed.

  (** ** Calls *)
  Definition spent (i i' : rin) (more : nat) : Prop := ri_calls i' + length (ri_bytes i') <= ri_calls i + length (ri_bytes i) + more.
  Definition thrifty {A} (i : rin) (r : rres A) : Prop := match r with Good _ i' => spent i i' 0 | Bad i' => spent i i' 1 | Ill => True end.
  Lemma thrifty_go {A B} i (r : rres A) (k : A -> rin -> rres B) : thrifty i r -> (forall a i, thrifty i (k a i)) -> thrifty i (rgo r k).
  Proof.
    unfold thrifty, spent. destruct r as [a i1|i1|]; cbn [rgo]; intros H1 H2; [|done|done]. specialize (H2 a i1). destruct (k a i1); lia.
  Qed.
  Lemma thrifty_num k i : thrifty i (take_num lib k i).
  Proof.
    destruct (take_num lib k i) as [n j|j|] eqn:E; [| |done].
    - destruct (take_num_good _ _ _ _ E) as (_ & _ & H & H2 & _). cbn. unfold spent. assert (1 <= width k) by (destruct k; cbn; lia). lia.
    - unfold take_num in E. destruct (lb_rd _ _ _) as [[]|]; [done|]. injection E as <-. cbn. unfold spent. cbn. lia.
  Qed.
  Lemma thrifty_many k (P : rin -> rres rval) l i : (forall i, thrifty i (P i)) -> thrifty i (many k (fun l i => rgo (P i) (fun y i => Good (l ++ [y]) i)) l i).
  Proof.
    intros HP. revert l i. induction k as [|k IH]; intros l i; cbn [many]; [cbn; unfold spent; lia|]. apply thrifty_go; [|intros; apply IH].
    apply thrifty_go; [done|]. intros. cbn. unfold spent. lia.
  Qed.
  Lemma thrifty_good {A} (a : A) i : thrifty i (Good a i).
  Proof. cbn. unfold spent. lia. Qed.
  Lemma into_thrifty t : forall tn cur i, thrifty i (into t tn cur i).
  Proof.
    induction t as [b|e|fs IH] using rtype_ind'; intros tn cur i.
    - cbn [RsRun2.into]. destruct (builtin_kind b) as [k|]; [apply thrifty_go; [apply thrifty_num|intros; apply thrifty_good]|].
      destruct (take_num lib KU32 i) as [n j|j|] eqn:E; cbn [rgo]; [|by pose proof (thrifty_num KU32 i) as H; rewrite E in H|done].
      destruct (take_num_good _ _ _ _ E) as (_ & H0 & H & H2 & _). cbn [width] in H. pose proof (as_int_in _ _ H0 ltac:(done)) as En. rewrite En in H0. cbn in H0.
      unfold take_str. destruct (lb_rds lib (as_int n) (ri_bytes j)) as [[s bs]|] eqn:Es; cbn [rgo]; cbn; unfold spent; cbn [ri_calls ri_bytes].
      + destruct (lk_str_exact _ _ Hlib _ _ _ _ (proj1 H0) Es) as (_ & _ & Hb). rewrite Hb, app_length in H. lia.
      + lia.
    - cbn [RsRun2.into]. apply thrifty_go; [apply thrifty_num|]. intros n j. destruct (variant_of e (as_int n)); cbn; unfold spent; lia.
    - destruct cur as [| | | |xs|]; try done. rewrite into_struct. apply thrifty_go; [|intros; apply thrifty_good].
      revert xs i. induction IH as [|f fs Hf _ IH]; intros [|[g x] xs] i; try done; [apply thrifty_good|]. cbn [RsRun2.into_fields].
      apply thrifty_go; [|intros; apply thrifty_go; [apply IH|intros; apply thrifty_good]]. unfold RsRun2.into_field, into_wrapped. destruct (f_opt f).
      + apply thrifty_go; [apply thrifty_num|]. intros n j. case_decide; [|apply thrifty_good]. apply thrifty_go; [apply Hf|intros; apply thrifty_good].
      + destruct (f_array f); [|apply Hf]. destruct x; try done. apply thrifty_go; [apply thrifty_num|]. intros n j.
        apply thrifty_go; [|intros; apply thrifty_good]. exact (thrifty_many (Z.to_nat (as_int n)) (into (f_ty f) (f_tname f) (dflt (f_ty f) (f_tname f))) l (reserve (as_int n) j) (Hf _ _)).
  Qed.
End facts.
