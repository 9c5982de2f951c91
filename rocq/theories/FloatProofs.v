(** Proofs for C34 with floats. *)
From Verif Require Export FloatSpec Needs.
From Verif Require Import Runtimes.

Section floats.
  Context (rt : runtime) (str_ok : jstr -> Prop) (Hrt : rt_ok rt str_ok).
  Notation W := (Wire.wire (rt_enc rt) (rt_encs rt)).
  (** ** there are fewer floats than bit patterns *)
  Definition word_value (b : Z) : Z := match (rt_rd rt KF32 (le_bytes 4 b, false)).1 with NFloat x => x | NInt _ => 0%Z end.
  Lemma word_facts b : exists x, rt_rd rt KF32 (le_bytes 4 b, false) = (NFloat x, ([], false)) /\ word_value b = x /\ (0 <= x < 2 ^ 32 - 1)%Z /\ in_kind KF32 (NFloat x).
  Proof.
    destruct (rd_enough _ _ Hrt KF32 (le_bytes 4 b)) as (n & Hn & E); [by rewrite le_bytes_length|]. unfold word_value. rewrite E. cbn [fst].
    destruct n as [z|x]; [done|]. exists x. split; [by rewrite drop_ge by (by rewrite le_bytes_length)|]. split; [done|]. split; [|done].
    destruct Hn as [H1 H2]. assert (x ≠ 4294967295%Z) by (intros ->; destruct H2 as [H2|H2]; [by vm_compute in H2|done]). lia.
  Qed.
  Lemma float_twice : exists w n, length w = 4 /\ rt_rd rt KF32 (w, false) = (n, ([], false)) /\ in_kind KF32 n /\ w ≠ rt_enc rt KF32 n.
  Proof.
    remember (2 ^ 32)%Z as N eqn:EN.
    destruct (decide (Exists (fun b => le_bytes 4 b ≠ rt_enc rt KF32 (NFloat (word_value b))) (seqZ 0 N))) as [H|H].
    - apply Exists_exists in H as (b & _ & Hb). destruct (word_facts b) as (x & E & Ex & _ & Hk). rewrite Ex in Hb. exists (le_bytes 4 b), (NFloat x).
      split; [apply le_bytes_length|]. done.
    - exfalso. rewrite Exists_exists in H. assert (forall b, b ∈ seqZ 0 N -> le_bytes 4 b = rt_enc rt KF32 (NFloat (word_value b))) as H0.
      { intros b Hb. destruct (decide (le_bytes 4 b = rt_enc rt KF32 (NFloat (word_value b)))) as [|Hne]; [done|]. destruct H. by exists b. }
      assert (NoDup (word_value <$> seqZ 0 N)) as Hd.
      { apply NoDup_fmap_2_strong; [|apply NoDup_seqZ]. intros b c Hb Hc Ebc. pose proof (H0 b Hb) as H1. pose proof (H0 c Hc) as H2. rewrite Ebc, <- H2 in H1.
        apply elem_of_seqZ in Hb, Hc. apply (f_equal le_val) in H1. rewrite !le_val_bytes in H1. change (8 * Z.of_nat 4)%Z with 32%Z in H1. rewrite <- EN, !Z.mod_small in H1 by lia. done. }
      assert (word_value <$> seqZ 0 N ⊆ seqZ 0 (N - 1)) as Hs.
      { intros x Hx. apply elem_of_list_fmap in Hx as (b & -> & _). destruct (word_facts b) as (y & _ & -> & Hy & _). apply elem_of_seqZ. lia. }
      pose proof (submseteq_length _ _ (NoDup_submseteq _ _ Hd Hs)) as HL. rewrite fmap_length, !seqZ_length in HL. assert (0 < N)%Z by (subst N; lia). clear EN. lia.
  Qed.
  (** ** a float with two encodings *)
  Lemma plug_float w n t : str_ok [] -> length w = 4 -> in_kind KF32 n -> (forall rest, rt_rd rt KF32 (w ++ rest, false) = (n, (rest, false))) -> w ≠ rt_enc rt KF32 n ->
    inside (fun f => f_ty f = TBuiltin Float) t -> usual t -> exists v d, has_type str_ok t v /\ read_as (dec rt t) v d /\ d ≠ W t v.
  Proof.
    intros Hstr Hl Hk Hw Hne.
    apply (plug_exact rt str_ok Hrt Hstr declared _ (fun t v d => d ≠ W t v) (fun f v d => d ≠ wire_wrapped (rt_enc rt) (f_array f) (f_opt f) (W (f_ty f)) v)).
    - done.
    - intros pre f post vs v ws d HL _ _ Hd E. rewrite wire_struct, fields_wire_app in E by done. apply app_inv_head in E. cbn [fields_wire] in E. fold (fields_wire (rt_enc rt) (rt_encs rt)) in E.
      by apply app_inv_tail in E.
    - intros f v d Hn Hd E. rewrite one_wire in E by done. unfold one_bytes in E. do 2 apply app_inv_head in E. done.
    - intros f Hu Ef. exists (Needs.one f (VNum n)), (one_bytes rt f w). split; [|split].
      + apply one_shape. rewrite Ef. by exists n.
      + apply (read_as_one rt str_ok Hrt). rewrite Ef. intros rest c. cbn [dec]. unfold dec_builtin. cbn [builtin_kind]. unfold read_num. cbn [r_rest r_failed r_calls]. rewrite Hw. by eexists.
      + rewrite one_wire by done. unfold one_bytes. intros E. do 2 apply app_inv_head in E. by rewrite Ef in E.
  Qed.
End floats.

Section schema.
  Context iter a r (Hfair : fair_order iter) (Hnb : no_builtin_decl a) (Hr : type_check iter a = Ok r).
  Lemma float_inside : needs_float a (x_name (r_export r)) -> inside (fun f => f_ty f = TBuiltin Float) (TStruct (x_fields (r_export r))).
  Proof.
    intros Hneed. eapply (field_inside _ _ _ Hfair Hnb Hr); [|exact Hneed]. intros f u f' (_ & _ & _ & _ & Hty) Hu. cbn [snd] in Hty. rewrite Hu in Hty.
    destruct (type_check_result _ _ _ Hfair Hnb Hr) as (_ & _ & _ & Hent).
    destruct (Hent _ _ _ Hty) as [_ [(b & Hb & Hb')|[(vs & rp & Hde & _)|(fs' & ds & rs & Hd' & _)]]]; [by injection Hb as <-|..].
    + exfalso. by eapply (declared_not_builtin _ Hnb _ _ Float).
    + exfalso. by eapply (declared_not_builtin _ Hnb _ _ Float).
  Qed.
End schema.

Section claims.
  Context (a : ast) (rt : runtime) (str_ok : jstr -> Prop) (Hrt : rt_ok rt str_ok) (e : string) (He : exports a = [e]).
  Notation W := (Wire.wire (rt_enc rt) (rt_encs rt)).
  Lemma run_exact iter r data : exact_strings rt -> fair_order iter -> no_builtin_decl a -> type_check iter a = Ok r ->
    ~ needs_optional a (x_name (r_export r)) -> ~ needs_float a (x_name (r_export r)) ->
    let t := TStruct (x_fields (r_export r)) in let res := dec rt t (RState data false 0) in r_failed res.2 = false -> data = W t res.1 ++ r_rest res.2.
  Proof.
    intros Hex Hf Hn Hr Ho Hfl t res H4. refine (dec_exact rt str_ok Hrt t Hex _ _ (RState data false 0) H4); [done|].
    refine (fields_without _ _ _ Hf Hn Hr (fun u => u_opt u = true \/ u_name u = "float") _ _ _ _).
    - intros f u f' (_ & E2 & _ & E4 & Hty) Hq. cbn [snd] in *. unfold exact_field in Hq. destruct (f_opt f') eqn:Eo; [by left|right].
      assert (f_ty f' = TBuiltin Float) as Eq by (destruct (f_ty f') as [[]| |]; try done; exfalso; apply Hq; by split). rewrite Eq in Hty.
      pose proof (entry_leaf _ _ _ Hf Hn Hr _ _ Hty) as Hl. cbn in Hl. revert Hl. unfold builtin_of_name. repeat case_decide; congruence.
    - intros f. unfold exact_field. destruct (f_opt f); [right; by intros []|]. destruct (f_ty f) as [[]| |]; auto; right; by intros [].
    - intros (n & fs & f & u & H6 & H7 & H8 & [H9|H9]); [apply Ho|apply Hfl]; by exists n, fs, f, u.
  Qed.
  Lemma code_encodings : exact_strings rt -> local_floats rt -> str_ok [] -> small_enums a -> for_code a (fun k t => names_fine a k ->
    (one_encoding rt k t <-> ~ needs_optional a e /\ ~ needs_float a e)).
  Proof.
    intros Hex Hloc Hstr Hs. apply (for_needs _ _ He). intros iter r Hf Hn Hr E Hk.
    assert (forall v d, has_type str_ok (TStruct (x_fields (r_export r))) v -> read_as (dec rt (TStruct (x_fields (r_export r)))) v d -> d ≠ W (TStruct (x_fields (r_export r))) v ->
      one_encoding rt (class_of (r_export r)) (TStruct (x_fields (r_export r))) -> False) as Hno.
    { intros v d Hv Hd Hne Hone. destruct (fine_reads _ _ _ Hf Hn Hr rt str_ok [] d Hrt Hk) as (M & props & H1 & H2 & _ & _ & _ & H6). destruct (Hd [] 0) as [c' Ed]. rewrite app_nil_r in Ed. cbn zeta in *. rewrite Ed in *.
      cbn [fst snd r_failed] in *. specialize (H6 eq_refl). apply rep_in_rep in H6.
      destruct (writes_wire rt _ _ _ Hf Hn Hr (nf_ready _ _ Hk) v _ _ (any_typed _ _ _ _ Hv) H6) as (M2 & Hw2 & _).
      pose proof (Hone _ _ _ _ _ H1 H6 (any_typed _ _ _ _ Hv) _ _ _ _ H6 Hw2) as Hd'. rewrite H2 in Hd'. cbn [r_rest] in Hd'. rewrite app_nil_r in Hd'. by apply Hne. }
    split.
    - intros Hone. split.
      + intros Ho. rewrite <- E in Ho. destruct (plug_two rt str_ok Hrt Hstr (TStruct (x_fields (r_export r)))) as (v & d & Hv & Hd & Hne); [|by apply (small_usual a iter)|by eapply Hno].
        eapply (field_inside _ _ _ Hf Hn Hr); [|exact Ho]. intros f u f' (_ & _ & _ & E4 & _) Hu. cbn [snd] in *. congruence.
      + intros Hfl. rewrite <- E in Hfl. destruct (float_twice rt str_ok Hrt) as (w & n & Hl & Hrd & Hkn & Hne).
        assert (forall rest, rt_rd rt KF32 (w ++ rest, false) = (n, (rest, false))) as Hw.
        { intros rest. destruct (rd_enough _ _ Hrt KF32 (w ++ rest)) as (n2 & _ & E2); [rewrite app_length, Hl; change (width KF32) with 4; lia|]. rewrite E2.
          pose proof (Hloc w rest [] Hl) as HL. rewrite app_nil_r, Hrd, E2 in HL. cbn in HL. subst n2. do 2 f_equal.
          rewrite drop_app_le by (rewrite Hl; change (width KF32) with 4; lia). rewrite drop_ge by (rewrite Hl; change (width KF32) with 4; lia). done. }
        destruct (plug_float rt str_ok Hrt w n (TStruct (x_fields (r_export r))) Hstr Hl Hkn Hw Hne (float_inside _ _ _ Hf Hn Hr Hfl) (small_usual a iter r Hf Hn Hr Hs)) as (v & d & Hv & Hd & Hd').
        by eapply Hno.
    - intros [Ho Hfl] h data l M v Hrd Hrep Hv h' this bytes M' Hrep' Hw. rewrite <- E in Ho, Hfl.
      destruct (reads_typed rt str_ok _ _ _ Hf Hn Hr Hrt Hk h data l M Hrd) as (v0 & H1 & Hv0 & E0 & H4 & H5). pose proof (rep_unique _ _ _ _ _ _ _ _ _ Hv Hv0 Hrep H1) as <-.
      destruct (writes_wire rt _ _ _ Hf Hn Hr (nf_ready _ _ Hk) v h' this Hv Hrep') as (M2 & Hw2 & _). pose proof (writes_det _ _ _ _ _ _ Hw Hw2) as [= -> _].
      rewrite H5 in *. rewrite E0. by apply (run_exact iter r).
  Qed.
End claims.
