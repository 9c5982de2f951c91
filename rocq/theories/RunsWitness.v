(** Libraries and schemas that meet the hypotheses of PropRuns.v. *)
From Verif Require Export RunsProofs NeedsWitness.

Lemma latin1_local : local_floats latin1.
Proof.
  intros w rest rest' Hw. cbn [rt_rd latin1]. unfold le_rd. rewrite !app_length. cbn [width]. rewrite Hw. cbn [orb].
  replace (4 + length rest <? 4)%nat with false by (symmetry; apply Nat.ltb_ge; lia). replace (4 + length rest' <? 4)%nat with false by (symmetry; apply Nat.ltb_ge; lia). by rewrite !take_app_alt.
Qed.
Lemma latin1_on : exact_on latin1 latin1_ok.
Proof. intros z bs s rest Hz _. by apply latin1_exact. Qed.
Lemma utf8_on : exact_on utf8_lib ascii_ok.
Proof.
  intros z bs s rest Hz Hs. cbn [utf8_lib rt_rds rt_encs]. unfold utf8_rds. cbn [orb]. destruct (Z.ltb_spec (Z.of_nat (length bs)) z); [done|]. intros [= <- <-].
  pose proof (utf8_dec_ascii _ (take (Z.to_nat z) bs) (Nat.le_refl _) Hs) as E. destruct (utf8_ascii _ Hs) as [-> _]. rewrite <- E. split; [|by rewrite take_drop].
  apply (f_equal length) in E. unfold latin1_encs in E. rewrite map_length, take_length_le in E by lia. lia.
Qed.
Lemma utf8_local : local_floats utf8_lib.
Proof. exact latin1_local. Qed.
Lemma ascii_two : two_strings ascii_ok.
Proof. split; [constructor|]. exists [65%Z]. split; [done|]. split; [cbn; lia|]. repeat constructor; lia. Qed.
Lemma latin1_two : two_strings latin1_ok.
Proof. split; [constructor|]. exists [65%Z]. split; [done|]. split; [cbn; lia|]. repeat constructor; lia. Qed.
Lemma declared_varied a : (forall n vs, declares_enum a n vs -> 2 <= length vs) -> (forall n fs, declares_struct a n fs -> fs ≠ []) -> varied a.
Proof. intros H1 H2 e n _ _. split; [apply H1|apply H2]. Qed.
Lemma order_varied : accepted order_schema /\ plain_names order_schema /\ small_enums order_schema /\ varied order_schema.
Proof. split; [apply accepted_fwd; [solve_legal|apply okb_ok; by vm_compute]|]. split; [solve_plain|]. split; [decl_cases|]. apply declared_varied; decl_cases; done. Qed.
Lemma order_not_fixed : ~ all_fixed order_schema.
Proof.
  intros H. assert (order_fixed order_schema [("b", plain "B"); ("x", plain "uint8")]) as Hf by (apply (H "A" "A"); [done|apply rtc_refl|by left]).
  destruct (Hf 0 1 _ _ ltac:(lia) eq_refl eq_refl) as [Hs|Hr].
  - destruct Hs as [Hb|[[vs Hv]|(fs & Hd & Hall)]].
    + revert Hb. apply (bool_decide_unpack _). by vm_compute.
    + unfold declares_enum in Hv. repeat (apply elem_of_cons in Hv as [Hv|Hv]; [discriminate Hv|]). by apply elem_of_nil in Hv.
    + unfold declares_struct in Hd. repeat (apply elem_of_cons in Hd as [Hd|Hd]; [first [discriminate Hd|injection Hd as ->]|]); [|by apply elem_of_nil in Hd].
      specialize (Hall ("c", plain "C") ltac:(by left)). revert Hall. apply (bool_decide_unpack _). by vm_compute.
  - cbn in Hr. inversion Hr as [|x y z (fs & f & u & Hd & _)]; subst. unfold declares_struct in Hd. repeat (apply elem_of_cons in Hd as [Hd|Hd]; [discriminate Hd|]). by apply elem_of_nil in Hd.
Qed.
Lemma demo_varied : accepted demo_schema /\ plain_names demo_schema /\ small_enums demo_schema /\ varied demo_schema /\ all_fixed demo_schema.
Proof. split; [eapply accepted_export; [apply demo_facts|by vm_compute]|]. split; [apply demo_facts|]. split; [apply demo_facts|]. split; [|apply demo_facts]. apply declared_varied; decl_cases; cbn; first [done|lia]. Qed.
