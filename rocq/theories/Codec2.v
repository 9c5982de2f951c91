(** Cost of decoding, shape of decoded values, uniqueness of encodings, size. *)
From Verif Require Export Codec WireSpec.

(** the numbers that the generated reader accepts for an enum *)
Definition in_range (e : enum) (n : num) : Prop := exists z, n = NInt z /\ (enum_lo e <= z <= enum_hi e)%Z.
Definition exact_field (f : sfield) : Prop := f_opt f = false /\ f_ty f ≠ TBuiltin Float.

Section codec.
  Context (rt : runtime) (str_ok : jstr -> Prop) (Hrt : rt_ok rt str_ok).
  Notation wire := (wire (rt_enc rt) (rt_encs rt)).

  Lemma wire_size t v : length (wire t v) = byte_size (rt_encs rt) t v.
  Proof.
    revert v. induction t as [b|e|fs IH] using rtype_ind'; intros v.
    - cbn [Wire.wire byte_size]. destruct v as [n|s| | |]; try done.
      + destruct (builtin_kind b); [|done]. apply (enc_width _ _ Hrt).
      + unfold count. rewrite app_length, (enc_width _ _ Hrt). done.
    - destruct v; try done. apply (enc_width _ _ Hrt).
    - destruct v as [| | |vs|]; try done. cbn [Wire.wire byte_size]. rewrite Forall_forall in IH.
      revert vs. induction fs as [|f fs IHfs]; intros [|[g v] vs]; try done.
      rewrite app_length. rewrite IHfs by (intros h Hh; apply IH; by right). f_equal.
      assert (forall v, length (wire (f_ty f) v) = byte_size (rt_encs rt) (f_ty f) v) as E by (apply IH; by left). clear - E Hrt.
      assert (length (if f_array f then match v with VArr l => count (rt_enc rt) (length l) ++ concat (map (wire (f_ty f)) l) | _ => [] end else wire (f_ty f) v) =
        if f_array f then match v with VArr l => 4 + sum_list (map (byte_size (rt_encs rt) (f_ty f)) l) | _ => 0 end else byte_size (rt_encs rt) (f_ty f) v) as Ein.
      { destruct (f_array f); [|apply E]. destruct v as [| |l| |]; try done. unfold count. rewrite app_length, (enc_width _ _ Hrt). cbn [width]. f_equal.
        induction l as [|v l IH]; [done|]. cbn [map concat sum_list foldr]. rewrite app_length, E. f_equal. exact IH. }
      unfold wire_wrapped, size_wrapped. destruct (f_opt f); [|exact Ein].
      destruct v; rewrite ?app_length, ?Ein, (enc_width _ _ Hrt); done.
  Qed.

  (** ** cost *)
  Definition cheap (d : decoder) : Prop := forall r, r_failed (d r).2 = false ->
    r_calls (d r).2 + length (r_rest (d r).2) <= r_calls r + length (r_rest r).
  Lemma read_num_ok k r : r_failed (read_num rt k r).2 = false ->
    r_failed r = false /\ width k <= length (r_rest r) /\ r_rest (read_num rt k r).2 = drop (width k) (r_rest r) /\ r_calls (read_num rt k r).2 = S (r_calls r).
  Proof.
    intros H. assert (r_failed r = false) as Hf. { destruct (r_failed r) eqn:Hf; [|done]. rewrite (read_num_sticky rt str_ok Hrt k r Hf) in H. done. }
    split; [done|]. unfold read_num in *. rewrite Hf in *. destruct (decide (width k <= length (r_rest r))) as [Hw|Hw].
    - split; [done|]. destruct (rd_enough _ _ Hrt k (r_rest r) Hw) as (n & _ & E). rewrite E. done.
    - destruct (rd_short _ _ Hrt k (r_rest r)) as (n & bs & _ & E); [lia|]. rewrite E in H. done.
  Qed.
  Lemma read_num_cheap k r : r_failed (read_num rt k r).2 = false ->
    r_calls (read_num rt k r).2 + length (r_rest (read_num rt k r).2) + (width k - 1) <= r_calls r + length (r_rest r).
  Proof.
    intros H. destruct (read_num_ok k r H) as (_ & Hw & -> & ->). rewrite drop_length. assert (1 <= width k) by (destruct k; cbn; lia). lia.
  Qed.
  Lemma read_str_ok z r : r_failed (read_str rt z r).2 = false -> r_failed r = false /\
    r_calls (read_str rt z r).2 = S (r_calls r) /\ length (r_rest (read_str rt z r).2) <= length (r_rest r).
  Proof.
    intros H. assert (r_failed r = false) as Hf. { destruct (r_failed r) eqn:Hf; [|done]. rewrite (read_str_sticky rt str_ok Hrt z r Hf) in H. done. }
    split; [done|]. unfold read_str in *. pose proof (rds_forward _ _ Hrt z (r_rest r) (r_failed r)) as HF.
    destruct (rt_rds rt z _) as [s [bs b]]. done.
  Qed.
  Lemma sticky_inv d r : sticky d -> r_failed (d r).2 = false -> r_failed r = false.
  Proof. intros Hs H. destruct (r_failed r) eqn:Hf; [|done]. rewrite (Hs r Hf) in H. done. Qed.
  Lemma cheap_times n d : cheap d -> sticky d -> forall r, r_failed (dec_times n d r).2 = false ->
    r_calls (dec_times n d r).2 + length (r_rest (dec_times n d r).2) <= r_calls r + length (r_rest r).
  Proof.
    intros Hd Hs. induction n as [|n IH]; intros r Hf; [done|]. cbn [dec_times] in *. pose proof (Hd r) as H1. destruct (d r) as [v r1].
    pose proof (IH r1) as H2. pose proof (sticky_times n d Hs r1) as H3. destruct (dec_times n d r1) as [vs r2]. cbn [snd] in *.
    assert (r_failed r1 = false) by (destruct (r_failed r1); naive_solver). specialize (H1 H). specialize (H2 Hf). lia.
  Qed.
  Lemma cheap_wrap a o d : cheap d -> sticky d -> cheap (dec_wrap rt a o d).
  Proof.
    intros Hd Hs. unfold dec_wrap.
    assert (cheap (if a then dec_arr rt d else d)) as Ha.
    { destruct a; [|done]. intros r Hf. unfold dec_arr in *. pose proof (read_num_cheap KU32 r) as H1. destruct (read_num rt KU32 r) as [n r1].
      pose proof (cheap_times (Z.to_nat (int_of n)) d Hd Hs r1) as H2. pose proof (sticky_times (Z.to_nat (int_of n)) d Hs r1) as H3.
      destruct (dec_times _ d r1) as [vs r2]. cbn [snd] in *. assert (r_failed r1 = false) as Hf1 by (destruct (r_failed r1); naive_solver).
      specialize (H1 Hf1). specialize (H2 Hf). lia. }
    assert (sticky (if a then dec_arr rt d else d)) as Hsa by (destruct a; [by eapply sticky_arr|done]).
    destruct o; [|done]. intros r Hf. unfold dec_opt in *. pose proof (read_num_cheap KU8 r) as H1. destruct (read_num rt KU8 r) as [n r1]. cbn [snd] in *.
    case_decide.
    - pose proof (sticky_inv _ _ Hsa Hf) as Hf1. specialize (H1 Hf1). specialize (Ha r1 Hf). lia.
    - cbn [snd] in *. specialize (H1 Hf). lia.
  Qed.
  Lemma cheap_dec t : cheap (dec rt t).
  Proof.
    induction t as [b|e|fs IH] using rtype_ind'; intros r Hf.
    - cbn [dec] in *. unfold dec_builtin in *. destruct (builtin_kind b) as [k|].
      + pose proof (read_num_cheap k r) as H. destruct (read_num rt k r) as [n r1]. cbn [snd] in *. specialize (H Hf). lia.
      + pose proof (read_num_cheap KU32 r) as H1. destruct (read_num rt KU32 r) as [n r1]. pose proof (read_str_ok (int_of n) r1) as H2.
        destruct (read_str rt (int_of n) r1) as [s r2]. cbn [snd] in *. destruct (H2 Hf) as (Hf1 & HC & HL). specialize (H1 Hf1). cbn [width] in H1. lia.
    - cbn [dec] in *. unfold dec_enum in *. pose proof (read_num_cheap (repr_kind (e_repr e)) r) as H. destruct (read_num rt _ r) as [n r1]. cbn [snd] in *.
      case_decide; cbn [snd] in *; [|done]. specialize (H Hf). lia.
    - rewrite dec_struct_eq in *. cbn [snd] in *. rewrite Forall_forall in IH. revert r Hf. induction fs as [|f fs IHfs]; intros r Hf; [done|].
      rewrite dec_fields_cons in *. cbn [snd] in *.
      assert (cheap (dec_field rt f)) as Hc. { apply cheap_wrap; [apply IH; by left|by eapply sticky_dec]. }
      assert (r_failed (dec_field rt f r).2 = false) as Hf1.
      { destruct (r_failed (dec_field rt f r).2) eqn:E; [|done]. by rewrite (dec_fields_sticky rt str_ok Hrt fs _ E) in Hf. }
      specialize (Hc r Hf1). assert (forall x, x ∈ fs -> cheap (dec rt (f_ty x))) as IH' by (intros h Hh; apply IH; by right).
      specialize (IHfs IH' _ Hf). lia.
  Qed.

  (** ** shape of results *)
  Definition yields (d : decoder) (P : value -> Prop) : Prop := forall r, r_failed (d r).2 = false -> P (d r).1.
  Lemma yields_times n d P : yields d P -> sticky d -> forall r, r_failed (dec_times n d r).2 = false -> Forall P (dec_times n d r).1.
  Proof.
    intros Hd Hs. induction n as [|n IH]; intros r Hf; [constructor|]. cbn [dec_times] in *. pose proof (Hd r) as H1. destruct (d r) as [v r1].
    pose proof (IH r1) as H2. pose proof (sticky_times n d Hs r1) as H3. destruct (dec_times n d r1) as [vs r2]. cbn [fst snd] in *.
    assert (r_failed r1 = false) by (destruct (r_failed r1); naive_solver). constructor; [by apply H1|by apply H2].
  Qed.
  Lemma yields_wrap a o d P : yields d P -> sticky d -> yields (dec_wrap rt a o d) (wrapped a o P).
  Proof.
    intros Hd Hs. unfold dec_wrap.
    assert (yields (if a then dec_arr rt d else d) (wrapped a o P)) as Ha.
    { destruct a; [|intros r Hf; right; by apply Hd]. intros r Hf. unfold dec_arr in *. right. destruct (read_num rt KU32 r) as [n r1] eqn:Hn.
      assert (in_kind KU32 n) as Hk. { pose proof (read_num_kind rt str_ok Hrt KU32 r) as Hk. by rewrite Hn in Hk. }
      destruct n as [z|]; [|done]. cbn [int_of] in *. cbn in Hk.
      pose proof (yields_times (Z.to_nat z) d P Hd Hs r1) as H2. pose proof (dec_times_length (Z.to_nat z) d r1) as HL.
      destruct (dec_times _ d r1) as [vs r2]. cbn [fst snd] in *. exists vs. split; [done|]. split; [|by apply H2]. rewrite HL. lia. }
    destruct o; [|done]. intros r Hf. unfold dec_opt in *. destruct (read_num rt KU8 r) as [n r1].
    case_decide; [by apply Ha|]. by left.
  Qed.
  Lemma dec_yields t : yields (dec rt t) (shape in_range (fun _ => True) t).
  Proof.
    induction t as [b|e|fs IH] using rtype_ind'; intros r Hf.
    - cbn [dec shape] in *. unfold dec_builtin in *. destruct (builtin_kind b) as [k|].
      + pose proof (read_num_kind rt str_ok Hrt k r) as Hk. destruct (read_num rt k r) as [n r1]. by exists n.
      + pose proof (read_num_kind rt str_ok Hrt KU32 r) as Hk. destruct (read_num rt KU32 r) as [n r1]. cbn [fst] in Hk. destruct n as [z|]; [|done]. cbn [int_of] in *. cbn in Hk.
        assert (length (read_str rt z r1).1 <= Z.to_nat z) as HL.
        { unfold read_str. pose proof (rds_units _ _ Hrt z (r_rest r1) (r_failed r1)) as H. destruct (rt_rds rt z _) as [s [? ?]]. done. }
        destruct (read_str rt z r1) as [s r2]. cbn [fst snd] in *. exists s. split; [done|]. split; [lia|done].
    - cbn [dec shape] in *. unfold dec_enum in *. destruct (read_num rt _ r) as [n r1] eqn:Hn.
      case_decide as Hr; [|done]. exists n. split; [done|]. exists (int_of n). split; [|done].
      pose proof (read_num_kind rt str_ok Hrt (repr_kind (e_repr e)) r) as Hk. rewrite Hn in Hk. cbn in Hk. by destruct n, (e_repr e).
    - rewrite dec_struct_eq in *. cbn [fst snd] in *. rewrite Forall_forall in IH. apply shape_struct. eexists. split; [done|].
      revert r Hf. induction fs as [|f fs IHfs]; intros r Hf; [done|].
      rewrite dec_fields_cons in *. cbn [fst snd] in *.
      assert (r_failed (dec_field rt f r).2 = false) as Hf1.
      { destruct (r_failed (dec_field rt f r).2) eqn:E; [|done]. by rewrite (dec_fields_sticky rt str_ok Hrt fs _ E) in Hf. }
      cbn [fields_shape]. split; [done|]. split.
      + unfold dec_field in *. eapply yields_wrap; [|by eapply sticky_dec|done]. apply IH. by left.
      + apply IHfs; [|done]. intros h Hh. apply IH. by right.
  Qed.

  (** ** uniqueness *)
  Definition exact (d : decoder) (e : value -> list byte) : Prop := forall r, r_failed (d r).2 = false -> r_rest r = e (d r).1 ++ r_rest (d r).2.
  Lemma read_num_exact k r : k ≠ KF32 -> r_failed (read_num rt k r).2 = false ->
    r_rest r = rt_enc rt k (read_num rt k r).1 ++ r_rest (read_num rt k r).2.
  Proof.
    intros Hk H. destruct (read_num_ok k r H) as (Hf & Hw & Hd & _). rewrite Hd. unfold read_num in *. rewrite Hf in *.
    destruct (rt_rd rt k (r_rest r, false)) as [n [bs b]] eqn:E. cbn [fst]. rewrite (rd_exact _ _ Hrt k (r_rest r) n _ Hk Hw E). by rewrite take_drop.
  Qed.
  Lemma exact_times n d e : exact d e -> sticky d -> forall r, r_failed (dec_times n d r).2 = false ->
    r_rest r = concat (map e (dec_times n d r).1) ++ r_rest (dec_times n d r).2.
  Proof.
    intros Hd Hs. induction n as [|n IH]; intros r Hf; [done|]. cbn [dec_times] in *. pose proof (Hd r) as H1. destruct (d r) as [v r1].
    pose proof (IH r1) as H2. pose proof (sticky_times n d Hs r1) as H3. destruct (dec_times n d r1) as [vs r2]. cbn [fst snd] in *.
    assert (r_failed r1 = false) by (destruct (r_failed r1); naive_solver). rewrite H1 by done. rewrite H2 by done. cbn [map concat]. by rewrite <- app_assoc.
  Qed.
  Lemma dec_exact t : exact_strings rt -> t ≠ TBuiltin Float -> all_fields exact_field t -> exact (dec rt t) (wire t).
  Proof.
    intros Hex. induction t as [b|e|fs IH] using rtype_ind'; intros Ht Ha r Hf.
    - cbn [dec Wire.wire] in *. unfold dec_builtin in *. destruct (builtin_kind b) as [k|] eqn:Hk.
      + assert (k ≠ KF32) as Hne by (destruct b; naive_solver).
        pose proof (read_num_exact k r Hne) as H. destruct (read_num rt k r) as [n r1]. by apply H.
      + pose proof (read_num_exact KU32 r ltac:(done)) as H1. pose proof (read_num_kind rt str_ok Hrt KU32 r) as Hin. destruct (read_num rt KU32 r) as [n r1].
        pose proof (read_str_ok (int_of n) r1) as H2. cbn [fst snd] in *. destruct n as [z|]; [|done]. cbn [int_of] in *.
        destruct (read_str rt z r1) as [s r2] eqn:Hs. cbn [fst snd] in *. destruct (H2 Hf) as (Hf1 & _). rewrite (H1 Hf1).
        unfold read_str in Hs. rewrite Hf1 in Hs. destruct (rt_rds rt z (r_rest r1, false)) as [s' [rest fl]] eqn:E. injection Hs as <- <-. cbn [r_failed] in Hf. subst fl.
        destruct (Hex _ _ _ _ (proj1 Hin) E) as [Hz Hbs]. cbn [r_rest]. rewrite Hbs, Hz. unfold count. by rewrite <- app_assoc.
    - cbn [dec Wire.wire] in *. unfold dec_enum in *. pose proof (read_num_exact (repr_kind (e_repr e)) r ltac:(by destruct (e_repr e))) as H.
      destruct (read_num rt _ r) as [n r1]. case_decide; cbn [fst snd] in *; [by apply H|done].
    - rewrite dec_struct_eq in *. cbn [fst snd] in *. rewrite wire_struct. rewrite Forall_forall in IH. rewrite all_fields_struct in Ha. clear Ht.
      revert r Hf. induction fs as [|f fs IHfs]; intros r Hf; [done|].
      rewrite dec_fields_cons in *. cbn [fst snd] in *. cbn [fields_wire]. fold (fields_wire (rt_enc rt) (rt_encs rt)).
      assert (r_failed (dec_field rt f r).2 = false) as Hf1.
      { destruct (r_failed (dec_field rt f r).2) eqn:E; [|done]. by rewrite (dec_fields_sticky rt str_ok Hrt fs _ E) in Hf. }
      rewrite <- app_assoc. rewrite <- IHfs; [|intros h Hh; apply IH; by right|intros h Hh; apply Ha; by right|done].
      destruct (Ha f) as [[Ho Hnf] Haf]; [by left|]. assert (exact (dec rt (f_ty f)) (wire (f_ty f))) as He by (apply IH; [by left|done..]).
      clear - Hf1 Ho He Hrt. unfold dec_field, dec_wrap, wire_wrapped in *. rewrite Ho in *. destruct (f_array f); [|by apply He].
      unfold dec_arr in *. pose proof (read_num_exact KU32 r ltac:(done)) as H1. pose proof (read_num_kind rt str_ok Hrt KU32 r) as Hin.
      destruct (read_num rt KU32 r) as [n r1]. cbn [fst snd] in *. destruct n as [z|]; [|done]. cbn [int_of] in *.
      pose proof (exact_times (Z.to_nat z) _ _ He ltac:(by eapply sticky_dec) r1) as H2. pose proof (sticky_times (Z.to_nat z) (dec rt (f_ty f)) ltac:(by eapply sticky_dec) r1) as H3.
      pose proof (dec_times_length (Z.to_nat z) (dec rt (f_ty f)) r1) as HL.
      destruct (dec_times _ _ r1) as [vs r2]. cbn [fst snd] in *. assert (r_failed r1 = false) as Hf2 by (destruct (r_failed r1); naive_solver).
      rewrite (H1 Hf2). rewrite (H2 Hf1). unfold count. rewrite <- app_assoc. do 2 f_equal. cbn in Hin. do 2 f_equal. lia.
  Qed.

  (** the loop over an array runs as often as the count says, whatever happens *)
  Lemma dec_times_calls n k r : r_calls (dec_times n (fun r => let '(x, r) := read_num rt k r in (VNum x, r)) r).2 = n + r_calls r.
  Proof.
    revert r. induction n as [|n IH]; intros r; [done|]. cbn [dec_times].
    assert (r_calls (read_num rt k r).2 = S (r_calls r)) as H1. { unfold read_num. by destruct (rt_rd rt k _) as [? [? ?]]. }
    destruct (read_num rt k r) as [x r1]. specialize (IH r1). destruct (dec_times n _ r1) as [vs r2]. cbn [snd] in *. lia.
  Qed.
End codec.

(** ** items *)
Section dense.
  Context (rt : runtime) (str_ok : jstr -> Prop) (Hrt : rt_ok rt str_ok).
  Fixpoint inhabited (t : rtype) : Prop :=
    match t with TStruct fs => fs ≠ [] /\ fold_right (fun f P => inhabited (f_ty f) /\ P) True fs | _ => True end.
  Lemma inhabited_struct fs : inhabited (TStruct fs) <-> fs ≠ [] /\ forall f, f ∈ fs -> inhabited (f_ty f).
  Proof.
    cbn [inhabited]. f_equiv. induction fs as [|f fs IH]; cbn [fold_right].
    - split; [|done]. intros _ f Hf. by apply elem_of_nil in Hf.
    - rewrite IH. split.
      + intros [H1 H2] g [->|Hg]%elem_of_cons; [done|by apply H2].
      + intros H. split; [apply H; left|]. intros g Hg. apply H. by right.
  Qed.
  Definition dense (d : decoder) : Prop := forall r, r_failed (d r).2 = false -> S (items (d r).1 + length (r_rest (d r).2)) <= length (r_rest r).
  Lemma dense_times n d : dense d -> sticky d -> forall r, r_failed (dec_times n d r).2 = false ->
    sum_list (map (fun v => S (items v)) (dec_times n d r).1) + length (r_rest (dec_times n d r).2) <= length (r_rest r).
  Proof.
    intros Hd Hs. induction n as [|n IH]; intros r Hf; [done|]. cbn [dec_times] in *. pose proof (Hd r) as H1. destruct (d r) as [v r1].
    pose proof (IH r1) as H2. pose proof (sticky_times n d Hs r1) as H3. destruct (dec_times n d r1) as [vs r2]. cbn [fst snd] in *.
    assert (r_failed r1 = false) by (destruct (r_failed r1); naive_solver). specialize (H1 ltac:(done)). specialize (H2 ltac:(done)). cbn. lia.
  Qed.
  Lemma read_num_shorter k r : r_failed (read_num rt k r).2 = false -> S (length (r_rest (read_num rt k r).2)) <= length (r_rest r).
  Proof.
    intros H. destruct (read_num_ok rt str_ok Hrt k r H) as (_ & Hw & -> & _). rewrite drop_length. assert (1 <= width k) by (destruct k; cbn; lia). lia.
  Qed.
  Lemma dense_wrap a o d : dense d -> sticky d -> dense (dec_wrap rt a o d).
  Proof.
    intros Hd Hs. unfold dec_wrap.
    assert (dense (if a then dec_arr rt d else d)) as Ha.
    { destruct a; [|done]. intros r Hf. unfold dec_arr in *. pose proof (read_num_shorter KU32 r) as H1. destruct (read_num rt KU32 r) as [n r1].
      pose proof (dense_times (Z.to_nat (int_of n)) d Hd Hs r1) as H2. pose proof (sticky_times (Z.to_nat (int_of n)) d Hs r1) as H3.
      destruct (dec_times _ d r1) as [vs r2]. cbn [fst snd items] in *.
      assert (r_failed r1 = false) by (destruct (r_failed r1); naive_solver). specialize (H1 ltac:(done)). specialize (H2 ltac:(done)). lia. }
    destruct o; [|done]. intros r Hf. unfold dec_opt in *. pose proof (read_num_shorter KU8 r) as H1. destruct (read_num rt KU8 r) as [n r1]. cbn [snd] in *.
    destruct (decide _); [|cbn [fst snd items] in *; specialize (H1 Hf); lia].
    pose proof (Ha r1 Hf) as H2. assert (r_failed r1 = false) as Hf1.
    { destruct (r_failed r1) eqn:E; [|done]. assert (sticky (if a then dec_arr rt d else d)) as Hs' by (destruct a; [by eapply sticky_arr|done]). by rewrite (Hs' r1 E) in Hf. }
    specialize (H1 Hf1). lia.
  Qed.
  Lemma dense_dec t : inhabited t -> dense (dec rt t).
  Proof.
    induction t as [b|e|fs IH] using rtype_ind'; intros Hi r Hf.
    - cbn [dec] in *. unfold dec_builtin in *. destruct (builtin_kind b) as [k|].
      + pose proof (read_num_shorter k r) as H. destruct (read_num rt k r) as [n r1]. cbn in *. specialize (H Hf). lia.
      + pose proof (read_num_shorter KU32 r) as H. destruct (read_num rt KU32 r) as [n r1]. pose proof (read_str_ok rt str_ok Hrt (int_of n) r1) as H2.
        destruct (read_str rt (int_of n) r1) as [s r2]. cbn [fst snd items] in *. destruct (H2 Hf) as (Hf1 & _ & HL). specialize (H Hf1). lia.
    - cbn [dec] in *. unfold dec_enum in *. pose proof (read_num_shorter (repr_kind (e_repr e)) r) as H. destruct (read_num rt _ r) as [n r1].
      case_decide; cbn [fst snd items] in *; [specialize (H Hf); lia|done].
    - rewrite dec_struct_eq in *. cbn [fst snd] in *. apply inhabited_struct in Hi as [Hne Hi]. rewrite Forall_forall in IH.
      assert (forall r, r_failed (dec_fields rt fs r).2 = false -> length fs + (items (VRec (dec_fields rt fs r).1) + length (r_rest (dec_fields rt fs r).2)) <= length (r_rest r)) as H.
      { clear r Hf Hne. induction fs as [|f fs IHf]; intros r Hf; [done|]. rewrite dec_fields_cons in *. cbn [fst snd] in *.
        assert (r_failed (dec_field rt f r).2 = false) as Hf1.
        { destruct (r_failed (dec_field rt f r).2) eqn:E; [|done]. by rewrite (dec_fields_sticky rt str_ok Hrt fs _ E) in Hf. }
        assert (dense (dec_field rt f)) as Hd.
        { unfold dec_field. apply dense_wrap; [apply IH; [left|apply Hi; left]|by eapply sticky_dec]. }
        specialize (Hd r Hf1). specialize (IHf ltac:(intros; apply IH; [by right|done]) ltac:(intros; apply Hi; by right) _ Hf). cbn [items map length sum_list_with id] in *. lia. }
      specialize (H r Hf). destruct fs; [done|]. cbn [length] in H. lia.
  Qed.
End dense.
