(** How often [read] calls the reader, for any packet. *)
From Verif Require Import AcceptProofs Runtimes.
Local Open Scope Z_scope.
Notation calls r := (Z.of_nat (r_calls r)).

(** ** Without a word about what a failed reader answers *)
Section any.
  Context (rt : runtime) (str_ok : jstr -> Prop) (Hrt : rt_ok rt str_ok).
  Definition atmost (d : decoder) (m : Z) : Prop := forall r, calls (d r).2 <= calls r + m.
  Lemma atmost_times n d m : atmost d m -> 0 <= m -> atmost (fun r => let '(vs, r) := dec_times n d r in (VArr vs, r)) (Z.of_nat n * m).
  Proof.
    intros Hd Hm r. assert (calls (dec_times n d r).2 <= calls r + Z.of_nat n * m) as H; [|by destruct (dec_times n d r)].
    revert r. induction n as [|n IH]; intros r; [cbn; lia|]. cbn [dec_times]. pose proof (Hd r) as H1. destruct (d r) as [v r1]. specialize (IH r1).
    destruct (dec_times n d r1) as [vs r2]. cbn [snd] in *. lia.
  Qed.
  Lemma count_bound r : 0 <= int_of (read_num rt KU32 r).1 <= 2 ^ 32 - 1.
  Proof. pose proof (read_num_kind rt str_ok Hrt KU32 r) as H. destruct (read_num rt KU32 r) as [[z|b] r1]; cbn in *; [lia|done]. Qed.
  Lemma atmost_arr d m : atmost d m -> 0 <= m -> atmost (dec_arr rt d) (1 + (2 ^ 32 - 1) * m).
  Proof.
    intros Hd Hm r. unfold dec_arr. pose proof (read_num_calls rt KU32 r) as H1. pose proof (count_bound r) as Hb. destruct (read_num rt KU32 r) as [n r1].
    pose proof (atmost_times (Z.to_nat (int_of n)) d m Hd Hm r1) as H2. cbv beta in H2. destruct (dec_times _ d r1) as [vs r2]. cbn [fst snd] in *. rewrite Z2Nat.id in H2 by lia.
    pose proof (Z.mul_le_mono_nonneg_r (int_of n) (2 ^ 32 - 1) m Hm ltac:(lia)). lia.
  Qed.
  Lemma atmost_opt d m : atmost d m -> 0 <= m -> atmost (dec_opt rt d) (1 + m).
  Proof.
    intros Hd Hm r. unfold dec_opt. pose proof (read_num_calls rt KU8 r) as H1. destruct (read_num rt KU8 r) as [n r1]. cbn [snd] in *. specialize (Hd r1).
    case_decide; cbn [snd]; lia.
  Qed.
  Lemma most_reads_nonneg t : 0 <= most_reads t.
  Proof.
    induction t as [b|e|fs IH] using rtype_ind'; [destruct b; cbn; lia|cbn; lia|]. cbn [most_reads]. induction IH as [|f fs Hf _ IH]; cbn [fold_right]; [lia|].
    destruct (f_opt f), (f_array f); nia.
  Qed.
  Lemma atmost_dec t : atmost (dec rt t) (most_reads t).
  Proof.
    induction t as [b|e|fs IH] using rtype_ind'; intros r.
    - cbn [dec]. unfold dec_builtin. destruct (builtin_kind b) as [k|] eqn:Hk.
      + pose proof (read_num_calls rt k r). destruct (read_num rt k r) as [n r1]. cbn [snd] in *. assert (most_reads (TBuiltin b) >= 1) by (destruct b; cbn; lia). lia.
      + assert (most_reads (TBuiltin b) = 2) as -> by by destruct b. pose proof (read_num_calls rt KU32 r). destruct (read_num rt KU32 r) as [n r1].
        pose proof (read_str_calls rt (int_of n) r1). destruct (read_str rt (int_of n) r1) as [s r2]. cbn [snd] in *. lia.
    - cbn [dec most_reads]. unfold dec_enum. pose proof (read_num_calls rt (repr_kind (e_repr e)) r). destruct (read_num rt _ r) as [n r1].
      case_decide; cbn [snd r_calls fail TsRead.fail] in *; lia.
    - rewrite dec_struct_eq. cbn [snd]. revert r. induction IH as [|f fs Hf _ IH]; intros r; [cbn; lia|]. rewrite dec_fields_cons. cbn [snd].
      pose proof (most_reads_nonneg (f_ty f)) as Hp.
      assert (calls (dec_field rt f r).2 <= calls r + ((if f_opt f then 1 else 0) + (if f_array f then 1 + (2 ^ 32 - 1) * most_reads (f_ty f) else most_reads (f_ty f)))) as H1.
      { unfold dec_field, dec_wrap. destruct (f_opt f), (f_array f).
        - apply (atmost_opt _ (1 + (2 ^ 32 - 1) * most_reads (f_ty f))); [by apply atmost_arr|lia].
        - by apply atmost_opt.
        - etrans; [by apply (atmost_arr _ (most_reads (f_ty f)))|lia].
        - etrans; [apply Hf|lia]. }
      specialize (IH (dec_field rt f r).2). cbn [most_reads fold_right] in *. lia.
  Qed.
End any.
Lemma code_reads a rt str_ok : rt_ok rt str_ok -> for_code a (fun k t => names_fine a k ->
  forall h data x M, reads rt k h data (Done (x, M)) -> calls (m_rd M) <= most_reads t).
Proof.
  intros Hrt. apply for_code_intro. intros iter r Hf Hn Hr Hk h data x M Hrd.
  destruct (fine_reads _ _ _ Hf Hn Hr rt str_ok h data Hrt Hk) as (M' & props & H1 & H2 & _). cbn zeta in *.
  pose proof (reads_det _ _ _ _ _ _ Hrd H1) as E. assert (M = M') as -> by congruence. rewrite H2.
  etrans; [by eapply atmost_dec|cbn [r_calls]; lia].
Qed.

(** ** A reader that answers 0 after failing *)
Section quiet.
  Context (rt : runtime) (str_ok : jstr -> Prop) (Hrt : rt_ok rt str_ok) (Hz : zero_after_failure rt).
  (** [q]: calls if the reader had failed before; [l]: calls that the packet does not pay for *)
  Record paid (d : decoder) (q l : Z) : Prop := {
    p_sticky : sticky d;
    p_cheap : cheap d;
    p_quiet : forall r, r_failed r = true -> calls (d r).2 <= calls r + q;
    p_late : forall r, r_failed r = false -> calls (d r).2 <= calls r + Z.of_nat (length (r_rest r)) + l }.
  Lemma paid_times n d q l : paid d q l -> 0 <= q -> 0 <= l ->
    (forall r, r_failed r = true -> calls (dec_times n d r).2 <= calls r + Z.of_nat n * q) /\
    (forall r, r_failed r = false -> calls (dec_times n d r).2 <= calls r + Z.of_nat (length (r_rest r)) + l + Z.of_nat n * q).
  Proof.
    intros [Hs Hc Hq Hl] Hq0 Hl0. induction n as [|n [IHq IHl]]; [split; intros r _; cbn; lia|]. cbn [dec_times]. split; intros r Hf.
    - specialize (Hq r Hf). pose proof (Hs r Hf) as Hf1. destruct (d r) as [v r1]. specialize (IHq r1 Hf1). destruct (dec_times n d r1) as [vs r2]. cbn [snd] in *. lia.
    - specialize (Hl r Hf). specialize (Hc r). destruct (d r) as [v r1]. cbn [snd] in *. specialize (IHq r1). specialize (IHl r1).
      destruct (r_failed r1).
      + specialize (IHq eq_refl). destruct (dec_times n d r1) as [vs r2]. cbn [snd] in *. lia.
      + specialize (IHl eq_refl). specialize (Hc eq_refl). destruct (dec_times n d r1) as [vs r2]. cbn [snd] in *. lia.
  Qed.
  Lemma read_zero k r : k = KU8 \/ k = KU32 -> r_failed r = true -> int_of (read_num rt k r).1 = 0.
  Proof. intros Hk Hf. unfold read_num. rewrite Hf. pose proof (Hz k (r_rest r) Hk) as E. destruct (rt_rd rt k _) as [n [? ?]]. cbn in *. by subst n. Qed.
  Lemma paid_arr d q l : paid d q l -> 0 <= q -> 0 <= l -> paid (dec_arr rt d) 1 (1 + l + (2 ^ 32 - 1) * q).
  Proof.
    intros Hp Hq Hl. split.
    - eapply sticky_arr; [done|apply Hp].
    - apply (cheap_wrap rt str_ok Hrt true false); apply Hp.
    - intros r Hf. unfold dec_arr. pose proof (read_num_calls rt KU32 r) as H1. pose proof (read_zero KU32 r ltac:(by right) Hf) as H0.
      destruct (read_num rt KU32 r) as [n r1]. cbn [fst snd] in *. rewrite H0. change (dec_times (Z.to_nat 0) d r1) with (@nil value, r1). cbn [snd]. lia.
    - intros r Hf. unfold dec_arr. pose proof (read_num_calls rt KU32 r) as H1. pose proof (count_bound rt str_ok Hrt r) as Hb.
      pose proof (read_num_cheap rt str_ok Hrt KU32 r) as H2.
      destruct (read_num rt KU32 r) as [n r1]. destruct (paid_times (Z.to_nat (int_of n)) d q l Hp Hq Hl) as [H3 H4]. specialize (H3 r1). specialize (H4 r1).
      cbn [fst snd] in *. rewrite Z2Nat.id in H3, H4 by lia. pose proof (Z.mul_le_mono_nonneg_r (int_of n) (2 ^ 32 - 1) q Hq ltac:(lia)) as H5. destruct (r_failed r1).
      + specialize (H3 eq_refl). destruct (dec_times _ d r1) as [vs r2]. cbn [snd] in *. lia.
      + specialize (H4 eq_refl). specialize (H2 eq_refl). destruct (dec_times _ d r1) as [vs r2]. cbn [snd width] in *. lia.
  Qed.
  Lemma paid_opt d q l : paid d q l -> 0 <= q <= l -> paid (dec_opt rt d) 1 (1 + l).
  Proof.
    intros Hp Hq. split.
    - eapply sticky_opt; [done|apply Hp].
    - apply (cheap_wrap rt str_ok Hrt false true); apply Hp.
    - intros r Hf. unfold dec_opt. pose proof (read_num_calls rt KU8 r) as H1. pose proof (read_zero KU8 r ltac:(by left) Hf) as H0.
      destruct (read_num rt KU8 r) as [n r1]. cbn [fst snd] in *. rewrite H0. rewrite decide_False by lia. cbn [snd]. lia.
    - intros r Hf. unfold dec_opt. pose proof (read_num_calls rt KU8 r) as H1. pose proof (read_num_cheap rt str_ok Hrt KU8 r) as H2.
      destruct (read_num rt KU8 r) as [n r1]. pose proof (p_quiet _ _ _ Hp r1) as H3. pose proof (p_late _ _ _ Hp r1) as H4. cbn [snd] in *.
      case_decide; cbn [snd]; [|lia]. destruct (r_failed r1).
      + specialize (H3 eq_refl). lia.
      + specialize (H4 eq_refl). specialize (H2 eq_refl). lia.
  Qed.
  (** calls if the reader had failed before: arrays are empty, optional fields absent *)
  Fixpoint quiet (t : rtype) : Z :=
    match t with
    | TBuiltin BString => 2
    | TBuiltin _ | TEnum _ => 1
    | TStruct fs => fold_right (fun f n => (if f_array f || f_opt f then 1 else quiet (f_ty f)) + n) 0 fs
    end.
  Definition late (t : rtype) : Z := read_places t + (2 ^ 32 - 1) * (read_places t - quiet t).
  Lemma quiet_places t : 0 <= quiet t <= read_places t.
  Proof.
    induction t as [b|e|fs IH] using rtype_ind'; [destruct b; cbn; lia|cbn; lia|]. cbn [quiet read_places]. induction IH as [|f fs Hf _ IH]; cbn [fold_right]; [lia|].
    destruct (f_opt f), (f_array f); cbn [orb]; lia.
  Qed.
  Definition field_places (f : sfield) : Z := (if f_array f then 1 else 0) + (if f_opt f then 1 else 0) + read_places (f_ty f).
  Definition field_quiet (f : sfield) : Z := if f_array f || f_opt f then 1 else quiet (f_ty f).
  Lemma paid_more d q l l' : paid d q l -> l <= l' -> paid d q l'.
  Proof. intros [H1 H2 H3 H4] Hl. split; [done..|]. intros r Hf. specialize (H4 r Hf). lia. Qed.
  Lemma paid_dec t : paid (dec rt t) (quiet t) (late t).
  Proof.
    induction t as [b|e|fs IH] using rtype_ind'.
    1-2: split; [by eapply sticky_dec|by eapply cheap_dec| |]; intros r Hf.
    - pose proof (atmost_dec rt str_ok Hrt (TBuiltin b) r) as H. by destruct b.
    - pose proof (atmost_dec rt str_ok Hrt (TBuiltin b) r) as H. destruct b; cbn [most_reads] in H; unfold late; cbn [read_places quiet]; lia.
    - by pose proof (atmost_dec rt str_ok Hrt (TEnum e) r) as H.
    - pose proof (atmost_dec rt str_ok Hrt (TEnum e) r) as H. cbn [most_reads] in H; unfold late; cbn [read_places quiet]; lia.
    - assert (Forall (fun f => paid (dec_field rt f) (field_quiet f) (field_places f + (2 ^ 32 - 1) * (field_places f - field_quiet f))) fs) as Hfs.
      { apply Forall_forall. intros f Hf. rewrite Forall_forall in IH. specialize (IH f Hf). pose proof (quiet_places (f_ty f)) as Hqp.
        unfold dec_field, dec_wrap, field_quiet, field_places.
        assert (quiet (f_ty f) <= late (f_ty f)) as Hle by (unfold late; lia).
        destruct (f_array f), (f_opt f); cbn [orb].
        - apply (paid_more _ _ (1 + (1 + late (f_ty f) + (2 ^ 32 - 1) * quiet (f_ty f)))); [|unfold late; lia].
          apply (paid_opt _ 1); [|lia]. apply paid_arr; [done|lia..].
        - apply (paid_more _ _ (1 + late (f_ty f) + (2 ^ 32 - 1) * quiet (f_ty f))); [|unfold late; lia]. apply paid_arr; [done|lia..].
        - apply (paid_more _ _ (1 + late (f_ty f))); [|unfold late; lia]. apply (paid_opt _ (quiet (f_ty f))); [done|lia].
        - apply (paid_more _ _ (late (f_ty f))); [done|unfold late; lia]. }
      clear IH. split; [by eapply sticky_dec|by eapply cheap_dec| |]; intros r Hf; rewrite dec_struct_eq; cbn [snd].
      + cbn [quiet]. revert r Hf. induction Hfs as [|f fs Hp _ IH]; intros r Hf; [cbn; lia|]. rewrite dec_fields_cons. cbn [snd fold_right].
        pose proof (p_quiet _ _ _ Hp r Hf) as H1. pose proof (p_sticky _ _ _ Hp r Hf) as Hf1. specialize (IH _ Hf1). unfold field_quiet in H1. lia.
      + revert r Hf. assert (forall r, (r_failed r = true -> calls (dec_fields rt fs r).2 <= calls r + quiet (TStruct fs)) /\
          (r_failed r = false -> calls (dec_fields rt fs r).2 <= calls r + Z.of_nat (length (r_rest r)) + late (TStruct fs))) as H; [|intros r; apply H].
        induction Hfs as [|f fs Hp _ IH]; intros r; [unfold late; cbn [dec_fields List.map dec_list snd quiet read_places fold_right]; lia|]. rewrite dec_fields_cons. cbn [snd].
        specialize (IH (dec_field rt f r).2) as [IHq IHl].
        pose proof (quiet_places (TStruct fs)) as Hqs.
        assert (0 <= field_quiet f <= field_places f) as Hqf.
        { pose proof (quiet_places (f_ty f)). unfold field_quiet, field_places. destruct (f_array f), (f_opt f); cbn [orb]; lia. }
        assert (quiet (TStruct (f :: fs)) = field_quiet f + quiet (TStruct fs)) as Eq by done.
        assert (read_places (TStruct (f :: fs)) = field_places f + read_places (TStruct fs)) as Ep by done.
        assert (late (TStruct (f :: fs)) = field_places f + (2 ^ 32 - 1) * (field_places f - field_quiet f) + late (TStruct fs)) as El by (unfold late; lia).
        assert (quiet (TStruct fs) <= late (TStruct fs)) as Hle by (unfold late; nia).
        split; intros Hf.
        * pose proof (p_quiet _ _ _ Hp r Hf) as H1. pose proof (p_sticky _ _ _ Hp r Hf) as Hf1. specialize (IHq Hf1). lia.
        * pose proof (p_late _ _ _ Hp r Hf) as H1. pose proof (p_cheap _ _ _ Hp r) as H2. destruct (r_failed (dec_field rt f r).2) eqn:Hf1.
          -- specialize (IHq eq_refl). lia.
          -- specialize (IHl eq_refl). specialize (H2 eq_refl). lia.
  Qed.
End quiet.
Lemma code_paid a rt str_ok : rt_ok rt str_ok -> zero_after_failure rt -> for_code a (fun k t => names_fine a k ->
  forall h data x M, reads rt k h data (Done (x, M)) -> calls (m_rd M) <= Z.of_nat (length data) + 2 ^ 32 * read_places t).
Proof.
  intros Hrt Hz. apply for_code_intro. intros iter r Hf Hn Hr Hk h data x M Hrd.
  destruct (fine_reads _ _ _ Hf Hn Hr rt str_ok h data Hrt Hk) as (M' & props & H1 & H2 & _). cbn zeta in *.
  pose proof (reads_det _ _ _ _ _ _ Hrd H1) as E. assert (M = M') as -> by congruence. rewrite H2.
  etrans; [eapply p_late; [by apply (paid_dec rt str_ok)|done]|]. cbn [r_calls r_rest].
  match goal with |- _ + _ + late ?t <= _ => pose proof (quiet_places t); unfold late end. lia.
Qed.
Lemma latin1_zero : zero_after_failure latin1.
Proof. intros k bs [->| ->]; done. Qed.
