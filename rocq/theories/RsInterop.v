(** What the two back-ends make of each other's packets. *)
From Verif Require Export RsResults AcceptProofs.
Export RsSem RsRun RsRun2 RsRun3 RsRun4.

Section formats.
  Context (rt : runtime) (lib : rs_lib) (str_ok both : list Z -> Prop).
  Context (Hlib : rs_lib_ok lib str_ok) (Hsf : same_format rt lib both) (Hboth : forall s, both s -> str_ok s).
  Lemma number_same k n data rest : number rt k n data rest <-> rs_number lib k n data rest.
  Proof.
    unfold number, rs_number. split; intros [Hk H]; (split; [done|]).
    - destruct k; try (by rewrite <- (sf_enc _ _ _ Hsf)). by apply (sf_rd _ _ _ Hsf).
    - destruct k; try (by rewrite (sf_enc _ _ _ Hsf)). by apply (sf_rd _ _ _ Hsf).
  Qed.
  Lemma strings_arr l : strings_in both (VArr l) <-> Forall (strings_in both) l.
  Proof. cbn [strings_in]. induction l as [|v l IH]; [by split|]. cbn [fold_right]. rewrite IH. by rewrite Forall_cons. Qed.
  Lemma strings_rec fs : strings_in both (VRec fs) <-> Forall (fun fv => strings_in both fv.2) fs.
  Proof. cbn [strings_in]. induction fs as [|v l IH]; [by split|]. cbn [fold_right]. rewrite IH. by rewrite Forall_cons. Qed.

  (** the same bytes are written *)
  Lemma wire_same t : forall tn x v, fair_type t -> stands str_ok t tn x v -> strings_in both v ->
    wire (rt_enc rt) (rt_encs rt) t v = wire (lb_enc lib) (lb_encs lib) t v.
  Proof.
    assert (forall n, (Z.of_nat n < 2 ^ 32)%Z -> count (rt_enc rt) n = count (lb_enc lib) n) as Hc.
    { intros n Hn. unfold count. apply (sf_enc _ _ _ Hsf). cbn. lia. }
    induction t as [b|e|fs IH] using rtype_ind'; intros tn x v Hk Hs Hb.
    - cbn [stands] in Hs. destruct (builtin_kind b) eqn:Eb.
      + destruct Hs as (n & -> & -> & Hn). cbn [wire]. rewrite Eb. by apply (sf_enc _ _ _ Hsf).
      + destruct Hs as (s & -> & -> & Hl & _). cbn [wire]. rewrite Hc by done. by rewrite (sf_encs _ _ _ Hsf).
    - destruct Hk as [He _]. destruct Hs as (y & Hy & -> & ->). cbn [wire]. apply (sf_enc _ _ _ Hsf).
      destruct (enum_value_bounds _ _ He Hy) as [H1 H2]. destruct (e_repr e); cbn [repr_kind repr_bits in_kind] in *; (split; [lia|exact H2]).
    - pose proof (fun f Hf => fair_field fs f Hk Hf) as Hkf. clear Hk. apply stands_struct in Hs as (xs & vs & -> & -> & Hs). rewrite strings_rec in Hb. rewrite !wire_struct.
      revert xs vs Hs Hb. induction IH as [|f fs Hf _ IH]; intros [|[g y] xs] [|[h v] vs] Hs Hb; try done. destruct Hs as [(E1 & E2 & Hw) Hs]. cbn [fst snd] in *. subst g h.
      apply Forall_cons in Hb as [Hb1 Hb]. cbn [snd] in Hb1. destruct (Hkf f ltac:(by left)) as [Hft Hao]. cbn [fields_wire]. fold (fields_wire (rt_enc rt) (rt_encs rt)) (fields_wire (lb_enc lib) (lb_encs lib)).
      f_equal; [|by apply (IH ltac:(intros; apply Hkf; by right) xs vs)].
      specialize (fun x v => Hf (f_tname f) x v Hft). clear IH Hs. unfold stands_wrapped, wire_wrapped, stands_items in *. destruct (f_opt f).
      + destruct (f_array f); [done|]. destruct Hw as [[-> ->]|(z & -> & Hz)]; [by apply (sf_enc _ _ _ Hsf)|]. rewrite (Hf _ _ Hz Hb1).
        assert (rt_enc rt KU8 (NInt 1) = lb_enc lib KU8 (NInt 1)) as -> by (by apply (sf_enc _ _ _ Hsf)).
        pose proof (stands_not_none _ _ _ _ _ Hz). by destruct v.
      + destruct (f_array f); [|by eapply Hf]. destruct Hw as (l & l' & -> & -> & Hl & HF). rewrite (Forall2_length _ _ _ HF) in Hl. rewrite Hc by done. f_equal. f_equal.
        rewrite strings_arr in Hb1. clear -Hf HF Hb1. induction HF as [|a b l l' H _ IH]; [done|]. apply Forall_cons in Hb1 as [H1 H2]. cbn [map]. f_equal; [by eapply Hf|by apply IH].
  Qed.

  (** the packets of Rust are those of TypeScript in which all enums are declared variants *)
  Definition variants_only : rtype -> value -> Prop := shape is_variant any_string.
  Lemma variants_struct fs v : variants_only (TStruct fs) v <-> exists vs, v = VRec vs /\ Forall2 (fun f gv => gv.1 = f_name f /\ wrapped (f_array f) (f_opt f) (variants_only (f_ty f)) gv.2) fs vs.
  Proof.
    unfold variants_only. cbn [shape]. apply exist_proper. intros vs. apply and_iff_compat_l. revert vs. induction fs as [|f fs IH]; intros [|[g w] vs].
    - by split.
    - split; [done|]. inversion 1.
    - split; [done|]. inversion 1.
    - rewrite Forall2_cons, <- IH. cbn [fst snd]. tauto.
  Qed.
  Lemma each_mono (P Q : value -> list byte -> list byte -> Prop) (l : list value) data rest :
    (forall v data rest, v ∈ l -> P v data rest -> Q v data rest) -> each P l data rest -> each Q l data rest.
  Proof.
    revert data. induction l as [|v l IH]; intros data H; [done|]. intros (mid & H1 & H2). exists mid. split; [by apply H; [left|]|]. apply IH; [|done]. intros. apply H; [by right|done].
  Qed.
  Lemma each_elem (P : value -> list byte -> list byte -> Prop) (R : value -> Prop) (l : list value) data rest :
    (forall v data rest, v ∈ l -> P v data rest -> R v) -> each P l data rest -> Forall R l.
  Proof.
    revert data. induction l as [|v l IH]; intros data H; [constructor|]. intros (mid & H1 & H2). constructor; [by eapply H; [left|]|]. eapply IH; [|exact H2]. intros. eapply H; [by right|done].
  Qed.
  Lemma packet_accepts t : forall v data rest, fair_type t -> strings_in both v -> packet lib str_ok t v data rest -> accepts rt t v data rest /\ variants_only t v.
  Proof.
    induction t as [b|e|fs IH] using rtype_ind'; intros v data rest Hk Hb Hp.
    - unfold variants_only. cbn [packet accepts shape] in *. destruct (builtin_kind b) eqn:Eb.
      + destruct Hp as (n & -> & Hn). split; exists n; (split; [done|]); [by apply number_same|apply Hn].
      + destruct Hp as (s & mid & -> & Hn & Hs & ->). split; [|exists s; repeat split; destruct Hn as [Hn _]; cbn in Hn; lia].
        exists s, (Z.of_nat (length s)), (lb_encs lib s ++ rest). split; [done|]. split; [by apply number_same|]. by apply (sf_rds _ _ _ Hsf).
    - destruct Hk as [He _]. unfold variants_only. cbn [packet accepts shape] in *. destruct Hp as (n & -> & (y & Hy & ->) & Hn). split; [|eexists; split; [done|]; by exists y].
      eexists. split; [done|]. split; [|by apply number_same]. eexists. split; [done|].
      destruct (good_enum_bounds e He) as (m & Hm & HL & _ & _ & _ & Hx). rewrite HL. pose proof (proj1 (Hx y) Hy) as (i & u & E & Hi & _). rewrite E. cbn [ev_value].
      assert (0 < 2 ^ Z.of_nat i)%Z by (apply Z.pow_pos_nonneg; lia). split; [lia|]. apply Z.pow_le_mono_r; lia.
    - pose proof (fun f Hf => fair_field fs f Hk Hf) as Hkf. clear Hk. apply packet_struct in Hp as (vs & -> & Hp). rewrite strings_rec in Hb. rewrite accepts_struct, variants_struct.
      assert (accepts_fields rt fs vs data rest /\ Forall2 (fun f gv => gv.1 = f_name f /\ wrapped (f_array f) (f_opt f) (variants_only (f_ty f)) gv.2) fs vs) as [H1 H2]; [|by split; exists vs].
      revert vs data Hb Hp. induction IH as [|f fs Hf _ IH]; intros [|[g v] vs] data Hb Hp; try done. destruct Hp as (-> & mid & Hw & Hp).
      apply Forall_cons in Hb as [Hb1 Hb]. cbn [snd] in Hb1. destruct (Hkf f ltac:(by left)) as [Hft Hao]. destruct (IH ltac:(intros; apply Hkf; by right) vs mid Hb Hp) as [IH1 IH2].
      assert (accepts_wrapped rt (f_array f) (f_opt f) (accepts rt (f_ty f)) v data mid /\ wrapped (f_array f) (f_opt f) (variants_only (f_ty f)) v) as [H1 H2];
        [|split; [split; [done|by exists mid]|by constructor]].
      specialize (fun v data rest => Hf v data rest Hft). clear IH IH1 IH2 Hp Hb. unfold packet_wrapped, accepts_wrapped, packet_items, accepts_items, wrapped in *. destruct (f_opt f).
      + destruct (f_array f); [done|]. destruct Hw as [[-> Hn]|(fl & mid' & Hfl & Hn & Hq)].
        * split; [|by left]. left. split; [done|]. by apply number_same.
        * destruct (Hf _ _ _ Hb1 Hq) as [H1 H2]. split; [|by right]. right. exists fl, mid'. split; [done|]. split; [by apply number_same|done].
      + destruct (f_array f); [|destruct (Hf _ _ _ Hb1 Hw) as [H1 H2]; split; [done|by right]]. destruct Hw as (l & mid' & -> & Hn & HE). rewrite strings_arr in Hb1.
        rewrite Forall_forall in Hb1. split.
        * exists l, mid'. split; [done|]. split; [by apply number_same|]. eapply each_mono; [|exact HE]. intros u d r0 Hu Hpk. by apply (Hf u d r0 (Hb1 u Hu)).
        * right. exists l. split; [done|]. split; [destruct Hn as [Hn _]; cbn in Hn; lia|]. eapply each_elem; [|exact HE]. intros u d r0 Hu Hpk. by apply (Hf u d r0 (Hb1 u Hu)).
  Qed.
  Context (Hex : exact_strings rt).
  Lemma accepts_packet t : forall v data rest, fair_type t -> strings_in both v -> accepts rt t v data rest -> variants_only t v -> packet lib str_ok t v data rest.
  Proof.
    induction t as [b|e|fs IH] using rtype_ind'; intros v data rest Hk Hb Ha Hv.
    - unfold variants_only in Hv. cbn [packet accepts shape] in *. destruct (builtin_kind b) eqn:Eb.
      + destruct Ha as (n & -> & Hn). exists n. split; [done|]. by apply number_same.
      + destruct Ha as (s & z & mid & -> & Hn & Hs). assert (0 <= z)%Z as Hz by (destruct Hn as [Hn _]; cbn in Hn; lia). destruct (Hex _ _ _ _ Hz Hs) as [-> ->].
        exists s, (rt_encs rt s ++ rest). split; [done|]. split; [by apply number_same|]. split; [by apply Hboth|]. by rewrite (sf_encs _ _ _ Hsf).
    - unfold variants_only in Hv. cbn [packet accepts shape] in *. destruct Ha as (n & -> & _ & Hn), Hv as (m & [= <-] & Hv). exists n. split; [done|]. split; [done|]. by apply number_same.
    - pose proof (fun f Hf => fair_field fs f Hk Hf) as Hkf. clear Hk. apply accepts_struct in Ha as (vs & -> & Ha). apply variants_struct in Hv as (vs' & [= <-] & Hv). rewrite strings_rec in Hb.
      apply packet_struct. exists vs. split; [done|]. revert vs data Hb Ha Hv. induction IH as [|f fs Hf _ IH]; intros [|[g v] vs] data Hb Ha Hv; try done. destruct Ha as (-> & mid & Hw & Ha).
      apply Forall2_cons in Hv as [[_ Hv1] Hv]. apply Forall_cons in Hb as [Hb1 Hb]. cbn [snd] in Hb1, Hv1. destruct (Hkf f ltac:(by left)) as [Hft Hao].
      split; [done|]. exists mid. split; [|by apply (IH ltac:(intros; apply Hkf; by right) vs mid)].
      specialize (fun v data rest => Hf v data rest Hft). clear IH Ha Hv Hb. unfold packet_wrapped, accepts_wrapped, packet_items, accepts_items, wrapped in *. destruct (f_opt f).
      + destruct (f_array f); [done|]. destruct Hw as [[-> Hn]|(fl & mid' & Hfl & Hn & Hq)].
        * left. split; [done|]. by apply number_same.
        * right. exists fl, mid'. split; [done|]. split; [by apply number_same|]. destruct Hv1 as [[_ ->]|Hv1]; [|by apply Hf]. exfalso. clear -Hq. destruct (f_ty f) as [b|e|gs]; cbn [accepts] in Hq.
          -- destruct (builtin_kind b); [by destruct Hq as (? & ? & _)|by destruct Hq as (? & ? & ? & ? & _)].
          -- by destruct Hq as (? & ? & _).
          -- by destruct Hq as (? & ? & _).
      + destruct (f_array f); [|destruct Hv1 as [[? _]|Hv1]; [done|by apply Hf]]. destruct Hw as (l & mid' & -> & Hn & HE). rewrite strings_arr in Hb1. rewrite Forall_forall in Hb1.
        destruct Hv1 as [[? _]|(l' & [= <-] & _ & Hv1)]; [done|]. rewrite Forall_forall in Hv1.
        exists l, mid'. split; [done|]. split; [by apply number_same|]. eapply each_mono; [|exact HE]. intros u d r0 Hu Hpk. by apply Hf; [apply Hb1|..|apply Hv1].
  Qed.
End formats.
