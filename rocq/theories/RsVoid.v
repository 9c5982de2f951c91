(** Arrays whose items take no bytes, in Rust: C88. *)
From Verif Require Export Void RsClaims2.

Section room.
  Context (lib : rs_lib) (str_ok : rstr -> Prop) (Hlib : rs_lib_ok lib str_ok).
  Definition heft (t : rtype) : Z := if voidb t then 0 else 1.
  Lemma heft_bounds t : (0 <= heft t <= 1)%Z.
  Proof. unfold heft. destruct (voidb t); lia. Qed.
  Lemma into_solid t : solid t -> forall tn cur i, roomy (heft t) i (into lib t tn cur i).
  Proof.
    induction t as [b|e|fs IH] using rtype_ind'; intros Hi tn cur i.
    - apply (roomy_le 1); [done|]. by eapply into_roomy.
    - apply (roomy_le 1); [done|]. by eapply into_roomy.
    - destruct cur as [| | | |xs|]; try done. unfold solid in Hi. rewrite all_fields_struct in Hi. rewrite into_struct.
      apply (roomy_le (heft (TStruct fs) + 0)%Z); [lia|]. apply roomy_go; [|intros; apply roomy_good]. unfold heft. cbn [voidb].
      revert xs i. induction IH as [|f fs Hf _ IH]; intros [|[g x] xs] i; try done; [apply roomy_good|]. cbn [into_fields forallb].
      destruct (Hi f ltac:(by left)) as [Hsa Hsf]. specialize (fun cur i => Hf Hsf (f_tname f) cur i).
      assert (roomy (if negb (f_array f) && negb (f_opt f) && voidb (f_ty f) then 0 else 1) i (into_field lib f x i)) as Hone.
      { clear IH Hi xs. unfold into_field, into_wrapped. destruct (f_opt f).
        - rewrite andb_false_r. cbn [andb]. apply (roomy_go 1 0); [by eapply roomy_num|]. intros n j. case_decide; [|apply roomy_good].
          apply (roomy_le (heft (f_ty f) + 0)%Z); [pose proof (heft_bounds (f_ty f)); lia|]. apply roomy_go; [apply Hf|intros; apply roomy_good].
        - destruct (f_array f); cbn [negb andb]; [|apply Hf]. unfold heft in Hf. rewrite (Hsa eq_refl) in Hf. destruct x; try done.
          destruct (take_num lib KU32 i) as [n j|j|] eqn:E; cbn [rgo]; [|done|done]. pose proof (roomy_num lib str_ok Hlib KU32 i) as Hn. rewrite E in Hn.
          destruct (take_num_good lib str_ok Hlib _ _ _ _ E) as (_ & H0 & _). pose proof (as_int_in _ _ H0 ltac:(done)) as En. rewrite En in H0. cbn in H0.
          pose proof (roomy_many (Z.to_nat (as_int n)) (into lib (f_ty f) (f_tname f) (dflt (f_ty f) (f_tname f))) l (reserve (as_int n) j) (Hf _)) as Hm.
          destruct (many _ _ l (reserve (as_int n) j)) as [l' j'|j'|]; cbn [rgo]; [|done|done]. cbn in *. rewrite Z2Nat.id in Hm by lia. lia. }
      specialize (IH ltac:(intros; apply Hi; by right)). set (k1 := (if _ && _ && _ then 0 else 1)%Z) in Hone. set (k2 := (if forallb _ fs then 0 else 1)%Z) in IH.
      apply (roomy_le (k1 + (k2 + 0))%Z); [|apply roomy_go; [exact Hone|intros; apply roomy_go; [apply IH|intros; apply roomy_good]]]. subst k1 k2.
      destruct (negb (f_array f) && negb (f_opt f) && voidb (f_ty f)), (forallb _ fs); cbn; lia.
  Qed.
End room.
Lemma rust_solid a lib str_ok e : rs_lib_ok lib str_ok -> rust_names a -> exports a = [e] -> ~ weightless_array a e -> for_rust a (fun m t => forall cur data x i, typed str_ok t (rm_type m) cur ->
  rs_read lib m cur data = Good x i -> (ri_room i <= Z.of_nat (length data))%Z /\ (~ no_bytes a e -> (ri_room i < Z.of_nat (length data))%Z)).
Proof.
  intros Hlib Hrn He Hne. apply for_rust_intro. intros iter r titer Hf Hn Hr Ht cur data x i [v Hv] H.
  destruct (type_check_result _ _ _ Hf Hn Hr) as (He' & Hen & _). rewrite He in He'. injection He' as ->.
  rewrite (module_reads _ _ _ Hf Hn Hr _ Ht Hrn) in H by (by eapply typed_fits).
  pose proof (into_solid lib str_ok Hlib _ (entry_solid _ _ _ Hf Hn Hr Hne) (x_name (r_export r)) (dflt (TStruct (x_fields (r_export r))) (x_name (r_export r))) (RIn data 0 0)) as Hro.
  destruct (into lib _ _ _ _) as [y j|j|]; cbn [rgo] in H; [|done|done]. injection H as <- <-. cbn [roomy ri_room ri_bytes] in Hro.
  pose proof (heft_bounds (TStruct (x_fields (r_export r)))). split; [lia|]. intros Hb. unfold heft in *. destruct (voidb _) eqn:E; [|lia]. destruct Hb. eapply entry_void; [done..|exact Hen|exact E].
Qed.

(** values that TypeScript can have, Rust can have *)
Lemma has_stands str_ok t : forall tn v, fair_type t -> small_type t -> has_type str_ok t v -> exists x, stands str_ok t tn x v.
Proof.
  induction t as [b|e|fs IH] using rtype_ind'; intros tn v Hk Hs Hv.
  - unfold has_type in Hv. cbn [shape stands] in *. destruct (builtin_kind b); [destruct Hv as (n & -> & Hn)|destruct Hv as (s & -> & Hn)]; by do 2 eexists.
  - destruct Hv as (n & -> & (y & Hy & ->)). destruct Hk as [Hk _], Hs as [Hs _]. cbn [leaf_small fair_leaf] in *. eexists _, y. split; [done|]. split; [done|]. f_equal. unfold variant_value. f_equal.
    apply good_enum_bounds in Hk as (m & Hm & HL & Hb & Hlo & Hhi & Hx). apply Hx in Hy as (i & w & -> & Hi & H1). apply lookup_lt_Some in H1. cbn [ev_value]. rewrite decide_False by lia. done.
  - pose proof (fun f Hf => fair_field fs f Hk Hf) as Hkf. pose proof (fun f Hf => small_field fs f Hs Hf) as Hsf. clear Hk Hs. destruct Hv as (vs & -> & Hv).
    assert (exists xs, stands_fields str_ok fs xs vs) as (xs & H); [|exists (RRec xs); apply stands_struct; by exists xs, vs].
    revert vs Hv. induction IH as [|f fs Hf _ IH]; intros [|[g v] vs] Hv; try done; [by exists []|]. destruct Hv as (-> & Hw & Hv).
    destruct (IH ltac:(intros; apply Hkf; by right) ltac:(intros; apply Hsf; by right) _ Hv) as [xs Hxs]. destruct (Hkf f ltac:(by left)) as [Hft Hao]. specialize (fun v => Hf (f_tname f) v Hft (Hsf f ltac:(by left))).
    assert (exists x, stands_wrapped (f_array f) (f_opt f) (stands str_ok (f_ty f) (f_tname f)) x v) as [x Hx]; [|exists ((f_name f, x) :: xs); by repeat split].
    assert ((if f_array f then exists l, v = VArr l /\ (Z.of_nat (length l) < 2 ^ 32)%Z /\ Forall (has_type str_ok (f_ty f)) l else has_type str_ok (f_ty f) v) ->
      exists x, stands_items (f_array f) (stands str_ok (f_ty f) (f_tname f)) x v) as HI.
    { unfold stands_items. destruct (f_array f); [|apply Hf]. intros (l & -> & Hl & HA).
      assert (exists xs, Forall2 (stands str_ok (f_ty f) (f_tname f)) xs l) as [ys Hys].
      { clear Hl Hw. induction HA as [|w l Hw _ [ys Hys]]; [by exists []|]. destruct (Hf _ Hw) as [y Hy]. exists (y :: ys). by constructor. }
      exists (RVec ys), ys, l. rewrite (Forall2_length _ _ _ Hys). done. }
    unfold stands_wrapped. destruct Hw as [[-> ->]|Hw]; [exists (ROpt None); by left|]. destruct (HI Hw) as [x Hx]. destruct (f_opt f); [|by exists x]. exists (ROpt (Some x)). right. by exists x.
Qed.
Lemma rust_weightless a lib str_ok e : rs_lib_ok lib str_ok -> str_ok [] -> rust_names a -> small_enums a -> exports a = [e] -> weightless_array a e -> for_rust a (fun m t =>
  exists d L, default_value (rm_items m) (rm_type m) = Some d /\ forall z, (Z.of_nat z < 2 ^ 32)%Z -> exists data x v i, length data = L /\ rs_read lib m d data = Good x i /\ stands str_ok t (rm_type m) x v /\ z <= items v).
Proof.
  intros Hlib Hstr Hrn Hs He Hw. apply for_rust_intro. intros iter r titer Hf Hn Hr Ht.
  destruct (type_check_result _ _ _ Hf Hn Hr) as (He' & Hen & _). rewrite He in He'. injection He' as ->.
  destruct (many_items str_ok Hstr (lb_enc lib) (lb_encs lib) (fun n => lk_width _ _ Hlib KU32 n) _ (entry_hosts _ _ _ Hf Hn Hr _ _ Hen Hw) (export_variants _ _ _ Hf Hn Hr)) as (L & HL).
  eexists _, L. split; [by eapply module_default|]. intros z Hz. destruct (HL z Hz) as (v & H1 & H2 & H3).
  pose proof (export_fair _ _ _ Hf Hn Hr _ Ht Hrn) as Hft. pose proof (entry_small _ _ _ Hf Hn Hr Hs _ _ (export_entry _ _ _ Hf Hn Hr)) as Hsm.
  destruct (has_stands str_ok _ (x_name (r_export r)) v Hft Hsm H1) as [x Hx].
  destruct (module_round_trip _ _ _ Hf Hn Hr _ Ht Hrn lib str_ok Hlib x v [] Hs Hx) as (i & H4 & _). rewrite app_nil_r in H4. by exists (wire (lb_enc lib) (lb_encs lib) (TStruct (x_fields (r_export r))) v), x, v, i.
Qed.
