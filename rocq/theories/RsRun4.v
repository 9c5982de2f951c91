(** Values, written packets and packets with more behind. *)
From Verif Require Export RsRun3.
Export RsSem.

Section values.
  Context (lib : rs_lib) (str_ok : rstr -> Prop).
  Notation stands := (stands str_ok).
  Notation packet := (packet lib str_ok).
  Notation W := (wire (lb_enc lib) (lb_encs lib)).
  Lemma stands_not_none t tn x v : stands t tn x v -> v ≠ VNone.
  Proof.
    destruct t as [b|e|fs]; cbn [RsSpec.stands].
    - destruct (builtin_kind b); [by intros (n & _ & -> & _)|by intros (s & _ & -> & _)].
    - by intros (y & _ & _ & ->).
    - by intros (xs & vs & _ & -> & _).
  Qed.
  Lemma Forall2_inj {A B} (P : A -> B -> Prop) l1 l2 vs : (forall x y v, P x v -> P y v -> x = y) -> Forall2 P l1 vs -> Forall2 P l2 vs -> l1 = l2.
  Proof.
    intros HP H. revert l2. induction H as [|x v l vs Hx _ IH]; intros l2 H2; inversion H2; [done|]. subst. f_equal; [by eapply HP|by apply IH].
  Qed.
  Lemma stands_inj t : forall tn x y v, fair_type t -> stands t tn x v -> stands t tn y v -> x = y.
  Proof.
    induction t as [b|e|fs IH] using rtype_ind'; intros tn x y v Hk Hx Hy.
    - cbn [RsSpec.stands] in *. destruct (builtin_kind b).
      + destruct Hx as (n & -> & -> & _), Hy as (m & -> & [= ->] & _). done.
      + destruct Hx as (n & -> & -> & _), Hy as (m & -> & [= ->] & _). done.
    - cbn [RsSpec.stands] in *. destruct Hx as (c & Hc & -> & ->), Hy as (d & Hd & -> & [= E]). apply Z.pow_inj_r in E; [|lia..].
      rewrite (good_enum_same e c d); [done|apply Hk|done|done|lia].
    - pose proof (fun f Hf => fair_field fs f Hk Hf) as Hkf. clear Hk. apply stands_struct in Hx as (xs & vs & -> & -> & Hx). apply stands_struct in Hy as (ys & vs' & -> & [= <-] & Hy). f_equal.
      revert xs ys vs Hx Hy. induction IH as [|f fs Hf _ IH]; intros [|[g x] xs] [|[g' y] ys] [|[h v] vs] Hx Hy; try done.
      destruct Hx as [(E1 & E2 & H1) Hx], Hy as [(E1' & _ & H1') Hy]. cbn [fst snd] in *. subst g g'. destruct (Hkf f ltac:(by left)) as [Hft Hao].
      f_equal; [f_equal|by apply (IH ltac:(intros; apply Hkf; by right) xs ys vs)].
      specialize (fun x y v => Hf (f_tname f) x y v Hft).
      assert (forall x y, stands_items (f_array f) (stands (f_ty f) (f_tname f)) x v -> stands_items (f_array f) (stands (f_ty f) (f_tname f)) y v -> x = y) as HI.
      { clear -Hf. intros x y. unfold stands_items. destruct (f_array f); [|apply Hf]. intros (l & l' & -> & -> & _ & H1) (m & m' & -> & [= <-] & _ & H2). f_equal. by eapply Forall2_inj. }
      unfold stands_wrapped in *. destruct (f_opt f) eqn:Eo; [|by apply HI].
      assert (f_array f = false) as Ea by (by destruct (f_array f)). rewrite Ea in *. cbn [stands_items] in *.
      destruct H1 as [[-> ->]|(x1 & -> & H1)], H1' as [[-> E]|(y1 & -> & H1')]; [done|by apply stands_not_none in H1'|subst v; by apply stands_not_none in H1|]. do 2 f_equal. by apply HI.
  Qed.

  Context (Hlib : rs_lib_ok lib str_ok).
  Lemma number_enc k n rest : in_kind k n -> rs_number lib k n (lb_enc lib k n ++ rest) rest.
  Proof. intros H. split; [done|]. destruct k; try done. by apply (lk_enc _ _ Hlib). Qed.
  Lemma each_enc (Q : value -> list byte -> list byte -> Prop) E l rest : Forall (fun v => forall rest, Q v (E v ++ rest) rest) l -> each Q l (concat (map E l) ++ rest) rest.
  Proof. induction 1 as [|v l Hv _ IH]; [done|]. cbn [map concat each]. exists (concat (map E l) ++ rest). split; [|done]. rewrite <- (assoc_L (++)). apply Hv. Qed.
  (** what is written for a value is a packet for it *)
  Lemma packet_wire t : forall tn x v rest, fair_type t -> stands t tn x v -> packet t v (W t v ++ rest) rest.
  Proof.
    induction t as [b|e|fs IH] using rtype_ind'; intros tn x v rest Hk Hs.
    - cbn [RsSpec.stands RsSpec.packet] in *. destruct (builtin_kind b) eqn:Eb.
      + destruct Hs as (n & -> & -> & Hn). exists n. split; [done|]. cbn [wire]. rewrite Eb. by apply number_enc.
      + destruct Hs as (s & -> & -> & Hl & Hs). exists s, (lb_encs lib s ++ rest). split; [done|]. cbn [wire]. unfold count. rewrite <- (assoc_L (++)). split; [|done]. apply number_enc. cbn. lia.
    - destruct Hk as [He _]. cbn [RsSpec.stands RsSpec.packet] in *. destruct Hs as (y & Hy & -> & ->). eexists. split; [done|]. split; [by exists y|]. cbn [wire]. apply number_enc.
      destruct (enum_value_bounds _ _ He Hy) as [H1 H2]. destruct (e_repr e); cbn [repr_kind repr_bits in_kind] in *; (split; [lia|exact H2]).
    - pose proof (fun f Hf => fair_field fs f Hk Hf) as Hkf. clear Hk. apply stands_struct in Hs as (xs & vs & -> & -> & Hs). apply packet_struct. exists vs. split; [done|].
      revert xs vs Hs. induction IH as [|f fs Hf _ IH]; intros [|[g y] xs] [|[h v] vs] Hs; try done. destruct Hs as [(E1 & E2 & Hw) Hs]. cbn [fst snd] in *. subst g h.
      destruct (Hkf f ltac:(by left)) as [Hft Hao]. split; [done|]. exists (W (TStruct fs) (VRec vs) ++ rest). split; [|by apply (IH ltac:(intros; apply Hkf; by right) xs vs)].
      change (W (TStruct (f :: fs)) (VRec ((f_name f, v) :: vs))) with (wire_wrapped (lb_enc lib) (f_array f) (f_opt f) (W (f_ty f)) v ++ W (TStruct fs) (VRec vs)).
      rewrite <- (assoc_L (++)). set (rest' := W (TStruct fs) (VRec vs) ++ rest). clearbody rest'. specialize (fun x v rest => Hf (f_tname f) x v rest Hft). clear IH Hs.
      unfold stands_wrapped, packet_wrapped, wire_wrapped, stands_items, packet_items in *. destruct (f_opt f).
      + destruct (f_array f); [done|]. destruct Hw as [[-> ->]|(z & -> & Hz)]; [left; split; [done|]; by apply number_enc|]. right. exists 1%Z, (W (f_ty f) v ++ rest'). split; [done|].
        pose proof (stands_not_none _ _ _ _ Hz) as Hv. assert (match v with VNone => lb_enc lib KU8 (NInt 0) | _ => lb_enc lib KU8 (NInt 1) ++ W (f_ty f) v end = lb_enc lib KU8 (NInt 1) ++ W (f_ty f) v) as -> by (by destruct v).
        rewrite <- (assoc_L (++)). split; [by apply number_enc|]. by eapply Hf.
      + destruct (f_array f); [|by eapply Hf]. destruct Hw as (l & l' & -> & -> & Hl & HF). exists l', (concat (map (W (f_ty f)) l') ++ rest'). split; [done|]. unfold count. rewrite <- (assoc_L (++)).
        split; [apply number_enc; cbn; rewrite <- (Forall2_length _ _ _ HF); lia|]. apply each_enc. clear -Hf HF. induction HF as [|a b l l' H _ IH]; constructor; [|done]. intros. by eapply Hf.
  Qed.

  (** reading does not look at what follows the packet *)
  Lemma number_more k n data rest more : rs_number lib k n data rest -> rs_number lib k n (data ++ more) (rest ++ more).
  Proof. intros [H1 H2]. split; [done|]. destruct k; try (subst data; by rewrite <- (assoc_L (++))). by apply (lk_local _ _ Hlib). Qed.
  Lemma packet_more t : forall v data rest more, packet t v data rest -> packet t v (data ++ more) (rest ++ more).
  Proof.
    induction t as [b|e|fs IH] using rtype_ind'; intros v data rest more Hp.
    - cbn [RsSpec.packet] in *. destruct (builtin_kind b).
      + destruct Hp as (n & -> & Hn). exists n. split; [done|]. by apply number_more.
      + destruct Hp as (s & mid & -> & Hn & Hs & ->). exists s, ((lb_encs lib s ++ rest) ++ more). split; [done|]. split; [by apply number_more|]. split; [done|]. by rewrite <- (assoc_L (++)).
    - cbn [RsSpec.packet] in *. destruct Hp as (n & -> & Hv & Hn). exists n. split; [done|]. split; [done|]. by apply number_more.
    - apply packet_struct in Hp as (vs & -> & Hp). apply packet_struct. exists vs. split; [done|]. revert vs data Hp.
      induction IH as [|f fs Hf _ IH]; intros [|[g v] vs] data Hp; try done; [cbn in *; by subst|]. destruct Hp as (-> & mid & Hw & Hp). split; [done|]. exists (mid ++ more). split; [|by apply IH].
      clear Hp IH. assert (forall v data rest, packet_items lib (f_array f) (packet (f_ty f)) v data rest -> packet_items lib (f_array f) (packet (f_ty f)) v (data ++ more) (rest ++ more)) as HI.
      { clear -Hf Hlib. intros v data rest. unfold packet_items. destruct (f_array f); [|apply Hf]. intros (l & m & -> & Hn & HE). exists l, (m ++ more). split; [done|]. split; [by apply number_more|].
        clear Hn. revert m HE. induction l as [|v l IH]; intros m HE; [cbn in *; by subst|]. destruct HE as (m' & H1 & H2). exists (m' ++ more). split; [by apply Hf|by apply IH]. }
      unfold packet_wrapped in *. destruct (f_opt f); [|by apply HI]. destruct Hw as [[-> Hn]|(fl & m & Hfl & Hn & Hi)]; [left; split; [done|]; by apply number_more|].
      right. exists fl, (m ++ more). split; [done|]. split; [by apply number_more|by apply HI].
  Qed.
End values.
