(** The length of the generated text for schemas of bounded nesting. *)
From Verif Require Export GenSize3.

Lemma field_le f fs : f ∈ fs -> fsize f <= sum_list (List.map fsize fs).
Proof. induction fs as [|g fs IH]; [by intros ?%elem_of_nil|]. cbn [List.map]. rewrite sum_cons. intros [->|H]%elem_of_cons; [lia|]. specialize (IH H). lia. Qed.
Lemma fields_le fs : length fs <= sum_list (List.map fsize fs).
Proof. induction fs as [|g fs IH]; [done|]. cbn [List.map length]. rewrite sum_cons. unfold fsize at 1. lia. Qed.

Section nested.
  Context a (Hd : NoDup (decl_names a)) (Hnb : no_builtin_decl a).
  Let N := asize a.
  Lemma struct_is n fs fs' : declares_struct a n fs -> declares_struct a n fs' -> fs = fs'.
  Proof. intros H1 H2. pose proof (decl_unique _ _ _ _ Hd H1 H2) as E. by injection E. Qed.
  Lemma nested_unfolded d n : nested a d n -> forall p k, unfolded a p n k -> k <= (p + 1 + 2 * d) * (N + 1) ^ d.
  Proof.
    induction 1 as [d n Hl|d n fs Hs _ IH]; intros p k Hk.
    - assert (1 <= (N + 1) ^ d) as H1 by (assert (0 < (N + 1) ^ d); [|lia]; apply Nat.neq_0_lt_0, Nat.pow_nonzero; lia).
      destruct Hk as [p n _|p n gs ks Hg _]; [nia|exfalso]. destruct Hl as [Hl|[vs Hl]]; [by apply (Hnb n); [eapply decl_names_elem|]|].
      by pose proof (decl_unique _ _ _ _ Hd Hg Hl).
    - destruct Hk as [p n [Hl|[vs Hl]]|p n gs ks Hg Hks]; [exfalso; by apply (Hnb n); [eapply decl_names_elem|]|exfalso; by pose proof (decl_unique _ _ _ _ Hd Hs Hl)|].
      rewrite <- (struct_is _ _ _ Hs Hg) in Hks. pose proof (node_le _ _ Hs) as Hn. cbn [nsize tsize] in Hn. fold N in Hn. pose proof (fields_le fs) as Hlen.
      set (P := (N + 1) ^ d) in *. assert (1 <= P) as H1 by (assert (0 < P); [|lia]; apply Nat.neq_0_lt_0, Nat.pow_nonzero; lia).
      assert (sum_list ks <= (length fs * (p + 1 + 2 * d) + sum_list (List.map fsize fs)) * P) as Hsum.
      { clear -IH Hks H1. induction Hks as [|f k fs ks Hk _ IHk]; [cbn; lia|]. cbn [List.map length]. rewrite !sum_cons.
        pose proof (IH f ltac:(by left) _ _ Hk) as Hf. specialize (IHk ltac:(intros; eapply IH; [by right|done])). fold P in Hf. unfold fsize at 1.
        assert ((p + 1 + sl f.1 + 1 + 2 * d) * P <= (p + 1 + 2 * d + (sl f.1 + sl (u_name f.2) + 1)) * P) by (apply Nat.mul_le_mono_r; lia). nia. }
      rewrite Nat.pow_succ_r'. fold P. set (Q := p + 1 + 2 * d) in *.
      replace (p + 1 + 2 * S d) with (Q + 2) by (subst Q; lia).
      assert ((length fs * Q + sum_list (List.map fsize fs)) * P <= (N * Q + N) * P) by (apply Nat.mul_le_mono_r; nia).
      assert (p + 1 <= Q * P) by (subst Q; nia). nia.
  Qed.
End nested.

Lemma size_nested : exists K, forall d s a e iter r version now titer t, parse_schema s = POk a -> exports a = [e] -> nested a d e -> fair_order iter -> type_check iter a = Ok r ->
  fair_types titer -> generate version now titer r = Ok t -> sl t <= K * ((sl e + 1) * length s + d * (2 * length s + 2) ^ d) + sl version + sl now.
Proof.
  exists (3200 * 4). intros d s a e iter r version now titer t Hs He Hn Hf Hr Ht Hg. destruct (bound_export s a iter r Hs Hf Hr) as [H1 H2]. rewrite He in H1. injection H1 as ->.
  pose proof (bound_text s a iter r version now titer t Hs Hf Hr Ht Hg) as HB. pose proof (bound_names _ _ Hs) as Hnb.
  pose proof (vs_decls _ (result_valid _ _ _ Hf Hnb Hr)) as Hd. pose proof (nested_unfolded a Hd Hnb _ _ Hn _ _ H2) as HU.
  pose proof (layout_size _ _ (proj1 (parse_schema_ok a s) Hs)) as Ha.
  destruct (bound_fields s a iter r Hs Hf Hr) as (ds & Hds & _).
  assert (1 <= d) as H1d. { destruct Hn as [d n [Hl|[vs Hl]]|]; [exfalso; by eapply Hnb; [eapply decl_names_elem|]|by pose proof (decl_unique _ _ _ _ Hd Hds Hl)|lia]. }
  revert HB HU. set (U := rsize 1 _). set (E := sl (x_name (r_export r))) in *. clearbody U. intros HB HU.
  set (L := 2 * length s + 2). assert ((asize a + 1) ^ d <= L ^ d) as HP by (apply Nat.pow_le_mono_l; lia).
  set (W := L ^ d) in *. assert (U <= 4 * (d * W)) as HU2. { etrans; [exact HU|]. transitivity ((1 + 1 + 2 * d) * W); [by apply Nat.mul_le_mono_l|]. nia. }
  lia.
Qed.
Lemma tower_nested : exports (tower 1) = ["AA"] /\ nested (tower 1) 2 "AA" /\ ~ nested (tower 1) 1 "AA" /\ is_ok (type_check iter_fwd (tower 1)).
Proof.
  assert (declares_struct (tower 1) "AA" [("a", plain "A"); ("b", plain "A")]) as H1 by (by left).
  assert (declares_struct (tower 1) "A" [("x", plain "uint8")]) as H0 by (right; by left).
  assert (forall n t, NDecl n t ∈ tower 1 -> t = AStruct [("a", plain "A"); ("b", plain "A")] \/ t = AStruct [("x", plain "uint8")]) as Hall.
  { intros n t H. unfold tower in H. cbn in H. rewrite !elem_of_cons, elem_of_nil in H. naive_solver. }
  split; [reflexivity|]. split; [|split; [|vm_compute; eexists; reflexivity]].
  - apply (nested_struct _ _ _ _ H1). intros f Hf. assert (u_name f.2 = "A") as ->. { rewrite !elem_of_cons, elem_of_nil in Hf. by destruct Hf as [->|[->|[]]]. }
    apply (nested_struct _ _ _ _ H0). intros g ->%elem_of_list_singleton. left. left. apply (bool_decide_unpack _). by vm_compute.
  - assert (forall n, n = "AA" \/ n = "A" -> ~ (n ∈ builtin_names \/ exists vs, declares_enum (tower 1) n vs)) as Hn.
    { intros n Hn [H|[vs H]]; [|by destruct (Hall _ _ H)]. revert H. destruct Hn as [->| ->]; apply (bool_decide_unpack _); by vm_compute. }
    assert (forall n, nested (tower 1) 0 n -> n ∈ builtin_names \/ exists vs, declares_enum (tower 1) n vs) as H0n by (intros n H; by inversion H).
    intros H. inversion H as [? ? Hl|? ? fs Hs Hfs]; subst; [by apply (Hn "AA"); [left|]|].
    assert (NoDup (decl_names (tower 1))) as Hnd by (apply (bool_decide_unpack _); by vm_compute).
    pose proof (decl_unique _ _ _ _ Hnd H1 Hs) as [= <-]. specialize (Hfs ("a", plain "A") ltac:(by left)). apply H0n in Hfs. by apply (Hn "A"); [right|].
Qed.
