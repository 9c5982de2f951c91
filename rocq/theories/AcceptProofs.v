(** The reference decoder accepts what [accepts] says. *)
From Verif Require Export Accept WireResults.

Definition accepts_fields (rt : runtime) : list sfield -> list (string * value) -> list byte -> list byte -> Prop :=
  fix fields (fs : list sfield) (vs : list (string * value)) (data rest : list byte) : Prop :=
    match fs, vs with
    | [], [] => data = rest
    | f :: fs, (g, v) :: vs => g = f_name f /\ exists mid, accepts_wrapped rt (f_array f) (f_opt f) (accepts rt (f_ty f)) v data mid /\ fields fs vs mid rest
    | _, _ => False
    end.
Lemma accepts_struct rt fs v data rest : accepts rt (TStruct fs) v data rest <-> exists vs, v = VRec vs /\ accepts_fields rt fs vs data rest.
Proof.
  cbn [accepts]. split; intros (vs & -> & H); exists vs; (split; [done|]); revert vs data H;
    induction fs as [|f fs IH]; intros [|[g v] vs] data H; try done; destruct H as (-> & mid & H1 & H2); (split; [done|]); exists mid; (split; [done|]); by apply IH.
Qed.

#[global] Instance kind_eq_dec : EqDecision kind.
Proof. solve_decision. Defined.

Section accept.
  Context (rt : runtime) (str_ok : jstr -> Prop) (Hrt : rt_ok rt str_ok).
  (** [d] accepts the packets [P] *)
  Definition taken {A} (d : rstate -> A * rstate) (P : A -> list byte -> list byte -> Prop) : Prop := forall data c v rest,
    P v data rest <-> exists c', d (RState data false c) = (v, RState rest false c').
  Lemma number_taken k : taken (read_num rt k) (number rt k).
  Proof.
    intros data c n rest. unfold number, read_num. cbn [r_rest r_failed r_calls]. split.
    - intros [Hk H]. assert (rt_rd rt k (data, false) = (n, (rest, false))) as ->; [|by eexists].
      destruct (decide (k = KF32)) as [->|Hf]; [done|]. assert (data = rt_enc rt k n ++ rest) as -> by by destruct k. by apply (rd_enc _ _ Hrt).
    - intros [c' H]. destruct (decide (width k <= length data)) as [Hw|Hw].
      + destruct (rd_enough _ _ Hrt k data Hw) as (m & Hm & E). rewrite E in H. injection H as <- <- <-. split; [done|].
        assert (k ≠ KF32 -> data = rt_enc rt k m ++ drop (width k) data) as Hx by (intros Hf; rewrite (rd_exact _ _ Hrt k data m _ Hf Hw E); by rewrite take_drop).
        destruct k; by first [apply Hx|exact E].
      + destruct (rd_short _ _ Hrt k data) as (m & bs & _ & E); [lia|]. by rewrite E in H.
  Qed.
  Lemma state_ok r : r_failed r = false -> r = RState (r_rest r) false (r_calls r).
  Proof. destruct r. cbn. by intros ->. Qed.
  Lemma each_taken (d : decoder) (P : value -> list byte -> list byte -> Prop) n l data c rest : sticky d -> taken d P -> (length l = n /\ each P l data rest <-> exists c', dec_times n d (RState data false c) = (l, RState rest false c')).
  Proof.
    intros Hs Hd. revert l data c. induction n as [|n IH]; intros l data c.
    - cbn [dec_times]. split.
      + intros [Hl H]. destruct l; [|done]. cbn in H. subst. by eexists.
      + intros (c' & [= <- <- <-]). done.
    - cbn [dec_times]. split.
      + intros [Hl H]. destruct l as [|v l]; [done|]. destruct H as (mid & H1 & H2). apply (Hd data c) in H1 as [c1 ->].
        destruct (proj1 (IH l mid c1)) as [c2 ->]; [by split; [injection Hl|]|]. by eexists.
      + intros [c' H]. destruct (d (RState data false c)) as [v r1] eqn:E1. destruct (dec_times n d r1) as [vs r2] eqn:E2. injection H as <- ->.
        assert (r_failed r1 = false) as Hf. { destruct (r_failed r1) eqn:Hf; [|done]. pose proof (sticky_times n d Hs r1 Hf) as H. by rewrite E2 in H. }
        rewrite (state_ok r1 Hf) in E1, E2. destruct (proj2 (IH vs (r_rest r1) (r_calls r1)) (ex_intro _ _ E2)) as [Hl H2].
        split; [cbn; lia|]. exists (r_rest r1). split; [|done]. apply (Hd data c). by eexists.
  Qed.
  Lemma items_taken (arr : bool) (d : decoder) (P : value -> list byte -> list byte -> Prop) : sticky d -> taken d P -> taken (if arr then dec_arr rt d else d) (accepts_items rt arr P).
  Proof.
    intros Hs Hd. destruct arr; [|done]. intros data c v rest. unfold accepts_items, dec_arr. split.
    - intros (l & mid & -> & Hn & He). apply (number_taken _ data c) in Hn as [c1 ->]. cbn [int_of]. rewrite Nat2Z.id.
      destruct (proj1 (each_taken d P (length l) l mid c1 rest Hs Hd)) as [c2 ->]; [done|]. by eexists.
    - intros [c' H]. destruct (read_num rt KU32 (RState data false c)) as [n r1] eqn:E1. destruct (dec_times (Z.to_nat (int_of n)) d r1) as [vs r2] eqn:E2. injection H as <- ->.
      assert (r_failed r1 = false) as Hf. { destruct (r_failed r1) eqn:Hf; [|done]. pose proof (sticky_times (Z.to_nat (int_of n)) d Hs r1 Hf) as H. by rewrite E2 in H. }
      rewrite (state_ok r1 Hf) in E1, E2. destruct (proj2 (each_taken d P _ vs (r_rest r1) (r_calls r1) rest Hs Hd) (ex_intro _ _ E2)) as [Hl H2].
      exists vs, (r_rest r1). split; [done|]. split; [|done]. assert (number rt KU32 n data (r_rest r1)) as Hn by (apply (number_taken _ data c); by eexists).
      destruct n as [z|]; [|by destruct Hn as [[] _]]. rewrite Hl. cbn [int_of]. replace (Z.of_nat (Z.to_nat z)) with z; [done|]. destruct Hn as [Hn _]. cbn in Hn. lia.
  Qed.
  Lemma wrapped_taken (arr op : bool) (d : decoder) (P : value -> list byte -> list byte -> Prop) : sticky d -> taken d P -> taken (dec_wrap rt arr op d) (accepts_wrapped rt arr op P).
  Proof.
    intros Hs Hd. pose proof (items_taken arr d P Hs Hd) as Hi. unfold dec_wrap, accepts_wrapped. destruct op; [|done]. intros data c v rest. unfold dec_opt.
    assert (sticky (if arr then dec_arr rt d else d)) as Hs' by (destruct arr; [by eapply sticky_arr|done]). split.
    - intros [[-> Hn]|(flag & mid & Hne & Hn & Ha)].
      + apply (number_taken _ data c) in Hn as [c1 ->]. by eexists.
      + assert (0 <= flag)%Z by (destruct Hn as [Hn _]; cbn in Hn; lia). apply (number_taken _ data c) in Hn as [c1 ->]. cbn [int_of]. rewrite decide_True by lia. by apply Hi.
    - intros [c' H]. destruct (read_num rt KU8 (RState data false c)) as [n r1] eqn:E1.
      assert (r_failed r1 = false) as Hf.
      { destruct (r_failed r1) eqn:Hf; [|done]. case_decide; [|injection H as <- ->; done]. pose proof (Hs' r1 Hf) as H'. by rewrite H in H'. }
      rewrite (state_ok r1 Hf) in E1. assert (number rt KU8 n data (r_rest r1)) as Hn by (apply (number_taken _ data c); by eexists).
      destruct n as [z|]; [|by destruct Hn as [[] _]]. cbn [int_of] in H. case_decide as Hz.
      + right. exists z, (r_rest r1). split; [lia|]. split; [done|]. rewrite (state_ok r1 Hf) in H. eapply Hi. by eexists.
      + left. injection H as <- Hr. split; [done|]. assert (z = 0)%Z as -> by (destruct Hn as [Hn' _]; cbn in Hn'; lia). by rewrite Hr in Hn.
  Qed.
  Lemma dec_taken t : all_enums (fun e => readable e /\ forall n, in_kind (repr_kind (e_repr e)) n -> (enum_lo e <= int_of n <= enum_hi e)%Z <-> from_first_to_last e n) t ->
    taken (dec rt t) (accepts rt t).
  Proof.
    induction t as [b|e|fs IH] using rtype_ind'; intros He data c v rest.
    - cbn [dec accepts]. unfold dec_builtin. destruct (builtin_kind b) as [k|].
      + split.
        * intros (n & -> & Hn). apply (number_taken _ data c) in Hn as [c1 ->]. by eexists.
        * intros [c' H]. destruct (read_num rt k (RState data false c)) as [n r1] eqn:E1. injection H as <- ->. exists n. split; [done|]. apply (number_taken _ data c). by eexists.
      + split.
        * intros (s & z & mid & -> & Hn & Hs). apply (number_taken _ data c) in Hn as [c1 ->]. cbn [int_of]. unfold read_str. cbn [r_rest r_failed]. rewrite Hs. by eexists.
        * intros [c' H]. destruct (read_num rt KU32 (RState data false c)) as [n r1] eqn:E1. destruct (read_str rt (int_of n) r1) as [s r2] eqn:E2. injection H as <- ->.
          assert (r_failed r1 = false) as Hf. { destruct (r_failed r1) eqn:Hf; [|done]. pose proof (read_str_sticky rt str_ok Hrt (int_of n) r1 Hf) as H. by rewrite E2 in H. }
          rewrite (state_ok r1 Hf) in E1. assert (number rt KU32 n data (r_rest r1)) as Hn by (apply (number_taken _ data c); by eexists).
          destruct n as [z|]; [|by destruct Hn as [[] _]]. cbn [int_of] in E2. exists s, z, (r_rest r1). split; [done|]. split; [done|].
          unfold read_str in E2. rewrite Hf in E2. destruct (rt_rds rt z (r_rest r1, false)) as [s' [rest' fl]]. injection E2 as <- <- <- _. done.
    - cbn [dec accepts all_enums] in *. destruct He as [_ He]. unfold dec_enum. split.
      + intros (n & -> & Hr & Hn). assert (in_kind (repr_kind (e_repr e)) n) as Hk by apply Hn. apply (number_taken _ data c) in Hn as [c1 ->].
        rewrite decide_True by by apply He. by eexists.
      + intros [c' H]. destruct (read_num rt _ (RState data false c)) as [n r1] eqn:E1. case_decide as Hd; [|done]. injection H as <- ->.
        assert (number rt (repr_kind (e_repr e)) n data rest) as Hn by (apply (number_taken _ data c); by eexists). exists n. split; [done|]. split; [|done]. apply He; [apply Hn|done].
    - rewrite all_enums_struct in He. rewrite Forall_forall in IH. rewrite accepts_struct.
      assert (forall vs data c, accepts_fields rt fs vs data rest <-> exists c', dec_fields rt fs (RState data false c) = (vs, RState rest false c')) as H.
      { clear data c v. induction fs as [|f fs IHfs]; intros vs data c.
        - split; [intros H; destruct vs; [|done]; cbn in H; subst; by exists c|]. intros (c' & [= <- <- <-]). done.
        - assert (taken (dec_field rt f) (accepts_wrapped rt (f_array f) (f_opt f) (accepts rt (f_ty f)))) as Hf.
          { apply wrapped_taken; [by eapply sticky_dec|]. apply IH; [by left|apply He; by left]. }
          assert (forall vs data c, accepts_fields rt fs vs data rest <-> exists c', dec_fields rt fs (RState data false c) = (vs, RState rest false c')) as IH'.
          { apply IHfs; intros g Hg; [apply IH; by right|apply He; by right]. }
          rewrite dec_fields_cons. split.
          + destruct vs as [|[g v] vs]; [done|]. intros (-> & mid & H1 & H2). apply (Hf data c) in H1 as [c1 ->]. cbn [fst snd]. apply (IH' vs mid c1) in H2 as [c2 ->]. by eexists.
          + intros [c' H]. destruct (dec_field rt f (RState data false c)) as [v r1] eqn:E1. cbn [fst snd] in H. injection H as H1 H2.
            assert (r_failed r1 = false) as Hf1. { destruct (r_failed r1) eqn:Hf1; [|done]. pose proof (dec_fields_sticky rt str_ok Hrt fs r1 Hf1) as H'. by rewrite H2 in H'. }
            rewrite (state_ok r1 Hf1) in E1. destruct vs as [|[g w] vs]; [done|]. injection H1 as <- <- H1. split; [done|]. exists (r_rest r1). split; [apply (Hf data c); by eexists|].
            apply (IH' vs (r_rest r1) (r_calls r1)). exists c'. rewrite <- (state_ok r1 Hf1). by rewrite (surjective_pairing (dec_fields rt fs r1)), H1, H2. }
      split.
      + intros (vs & -> & Hv). apply (H vs data c) in Hv as [c' E]. exists c'. by rewrite dec_struct_eq, E.
      + intros [c' E]. rewrite dec_struct_eq in E. injection E as <- E. eexists. split; [done|]. apply (H _ data c). exists c'. rewrite <- E. apply surjective_pairing.
  Qed.
End accept.

Lemma small_between e : good_enum e -> length (e_variants e) <= 31 -> forall n, in_kind (repr_kind (e_repr e)) n -> (enum_lo e <= int_of n <= enum_hi e)%Z <-> from_first_to_last e n.
Proof.
  intros (m & Hm & HL & _ & Hlo & Hhi & _)%good_enum_bounds Hs n Hk. rewrite Hlo, Hhi, !shl1_pow by lia. unfold from_first_to_last. rewrite HL.
  replace (Z.of_nat m - 1)%Z with (Z.of_nat (m - 1)) by lia. change (2 ^ Z.of_nat 0)%Z with 1%Z.
  destruct n as [z|]; [|by destruct (e_repr e)]. cbn [int_of]. split; [by intros H; exists z|by intros (? & [= <-] & H)].
Qed.
Lemma export_taken a rt str_ok : rt_ok rt str_ok -> small_enums a -> forall iter r, fair_order iter -> no_builtin_decl a -> type_check iter a = Ok r ->
  taken (dec rt (TStruct (x_fields (r_export r)))) (accepts rt (TStruct (x_fields (r_export r)))).
Proof.
  intros Hrt Hs iter r Hf Hn Hr. eapply dec_taken; [done|]. apply (export_enums _ _ _ Hf Hn Hr). intros n e Hne. destruct (entry_declared_enum _ _ _ Hf Hn Hr n e Hne) as (vs & Hd & HL).
  pose proof (entry_leaf _ _ _ Hf Hn Hr _ _ Hne) as Hg. assert (length (e_variants e) <= 31) by (rewrite HL; by eapply Hs).
  split; [by apply good_enum_readable|by apply small_between].
Qed.
Lemma reads_decided a rt str_ok : rt_ok rt str_ok -> small_enums a -> forall iter r, fair_order iter -> no_builtin_decl a -> type_check iter a = Ok r ->
  let k := class_of (r_export r) in let t := TStruct (x_fields (r_export r)) in names_fine a k -> forall h data,
  (exists v rest l M, accepts rt t v data rest /\ reads rt k h data (Done (JLoc l, M)) /\ rep (m_heap M) (JLoc l) v /\ r_rest (m_rd M) = rest /\
     forall v' rest', accepts rt t v' data rest' -> v' = v /\ rest' = rest) \/
  ((forall v rest, ~ accepts rt t v data rest) /\ exists M, reads rt k h data (Done (JNull, M))).
Proof.
  intros Hrt Hs iter r Hf Hn Hr k t Hk h data.
  assert (taken (dec rt t) (accepts rt t)) as Ht by by eapply export_taken.
  destruct (fine_reads _ _ _ Hf Hn Hr rt str_ok h data Hrt Hk) as (M & props & H1 & H2 & _ & _ & _ & H6). fold t in H1, H2, H6. cbn zeta in *.
  destruct (dec rt t (RState data false 0)) as [v r1] eqn:E. cbn [fst snd] in *. destruct (r_failed r1) eqn:Hfail.
  - right. split; [|by exists M]. intros v' rest [c' H]%(Ht data 0). rewrite E in H. injection H as -> ->. done.
  - left. exists v, (r_rest r1), (length h), M. rewrite (state_ok r1 Hfail) in E. split; [apply (Ht data 0); by eexists|]. split; [done|].
    split; [eapply rep_in_rep; by apply H6|]. split; [by rewrite H2|]. intros v' rest' [c' H]%(Ht data 0). rewrite E in H. by injection H as <- <-.
Qed.
Lemma code_accepts a rt str_ok : rt_ok rt str_ok -> small_enums a -> for_code a (fun k t => names_fine a k -> forall h data,
  (exists v rest l M, accepts rt t v data rest /\ reads rt k h data (Done (JLoc l, M)) /\ rep (m_heap M) (JLoc l) v /\ r_rest (m_rd M) = rest /\
     forall v' rest', accepts rt t v' data rest' -> v' = v /\ rest' = rest) \/
  ((forall v rest, ~ accepts rt t v data rest) /\ exists M, reads rt k h data (Done (JNull, M)))).
Proof. intros Hrt Hs. apply for_code_intro. intros iter r Hf Hn Hr. by eapply reads_decided. Qed.

(** ** How accepted packets relate to the bytes that write gives *)
Section similar.
  Context (rt : runtime) (str_ok : jstr -> Prop) (Hrt : rt_ok rt str_ok) (Hex : exact_strings rt).
  Context (floats : Prop) (R : list byte -> list byte -> Prop).
  Context (Rrefl : forall w, R w w) (Rapp : forall w1 w2 w1' w2', R w1 w1' -> R w2 w2' -> R (w1 ++ w2) (w1' ++ w2')).
  Context (Rflag : forall z, (0 < z < 256)%Z -> R (rt_enc rt KU8 (NInt z)) (rt_enc rt KU8 (NInt 1))).
  Context (Rfloat : floats -> forall w w', length w = width KF32 -> length w' = width KF32 -> R w w').
  Notation wire := (wire (rt_enc rt) (rt_encs rt)).
  Lemma number_similar k n data rest : floats \/ k ≠ KF32 -> number rt k n data rest -> exists w, data = w ++ rest /\ R w (rt_enc rt k n).
  Proof.
    intros Hk [Hn H]. destruct (decide (k = KF32)) as [->|Hne].
    - destruct Hk as [Hk|]; [|done]. destruct (decide (width KF32 <= length data)) as [Hw|Hw].
      + destruct (rd_enough _ _ Hrt KF32 data Hw) as (m & _ & E). rewrite E in H. injection H as <- <-. exists (take (width KF32) data).
        split; [by rewrite take_drop|]. apply (Rfloat Hk); [rewrite take_length; lia|by apply (enc_width _ _ Hrt)].
      + destruct (rd_short _ _ Hrt KF32 data) as (m & bs & _ & E); [lia|]. by rewrite E in H.
    - exists (rt_enc rt k n). split; [by destruct k|apply Rrefl].
  Qed.
  Lemma each_similar (P : value -> list byte -> list byte -> Prop) e : (forall v data rest, P v data rest -> exists w, data = w ++ rest /\ R w (e v)) ->
    forall l data rest, each P l data rest -> exists w, data = w ++ rest /\ R w (concat (map e l)).
  Proof.
    intros HP. induction l as [|v l IH]; intros data rest H.
    - exists []. by split.
    - destruct H as (mid & H1 & H2). apply HP in H1 as (w1 & -> & H1). apply IH in H2 as (w2 & -> & H2). exists (w1 ++ w2). rewrite <- app_assoc. split; [done|]. by apply Rapp.
  Qed.
  Lemma accepts_value t v data rest : accepts rt t v data rest -> v ≠ VNone.
  Proof.
    destruct t as [b|e|fs]; cbn [accepts].
    - destruct (builtin_kind b); [by intros (n & -> & _)|by intros (s & z & mid & -> & _)].
    - by intros (n & -> & _).
    - by intros (vs & -> & _).
  Qed.
  Lemma wrapped_similar (arr op : bool) (P : value -> list byte -> list byte -> Prop) e : (forall v data rest, P v data rest -> v ≠ VNone /\ exists w, data = w ++ rest /\ R w (e v)) ->
    forall v data rest, accepts_wrapped rt arr op P v data rest -> exists w, data = w ++ rest /\ R w (wire_wrapped (rt_enc rt) arr op e v).
  Proof.
    intros HP.
    assert (forall v data rest, accepts_items rt arr P v data rest -> v ≠ VNone /\ exists w, data = w ++ rest /\
      R w (if arr then match v with VArr l => count (rt_enc rt) (length l) ++ concat (map e l) | _ => [] end else e v)) as Hi.
    { intros v data rest. unfold accepts_items. destruct arr; [|by apply HP]. intros (l & mid & -> & Hn & He). split; [done|].
      apply number_similar in Hn as (w1 & -> & H1); [|by right]. eapply (each_similar P e) in He as (w2 & -> & H2); [|intros; by apply HP].
      exists (w1 ++ w2). rewrite <- app_assoc. split; [done|]. by apply Rapp. }
    intros v data rest. unfold accepts_wrapped, wire_wrapped. destruct op; [|by apply Hi].
    intros [[-> Hn]|(flag & mid & Hne & Hn & Ha)].
    - by apply number_similar in Hn; [|by right].
    - destruct (Hi _ _ _ Ha) as (Hv & w2 & -> & H2). assert (0 < flag < 256)%Z as Hfl by (destruct Hn as [Hn _]; cbn in Hn; lia).
      exists (rt_enc rt KU8 (NInt flag) ++ w2). rewrite <- app_assoc. split; [by destruct Hn as [_ ->]|].
      destruct v; [..|done]; apply Rapp; by auto.
  Qed.
  Lemma accepts_similar t : floats \/ t ≠ TBuiltin Float -> all_fields (fun f => floats \/ f_ty f ≠ TBuiltin Float) t ->
    forall v data rest, accepts rt t v data rest -> exists w, data = w ++ rest /\ R w (wire t v).
  Proof.
    induction t as [b|e|fs IH] using rtype_ind'; intros Ht Ha v data rest H.
    - cbn [accepts Wire.wire] in *. destruct (builtin_kind b) as [k|] eqn:Hk.
      + destruct H as (n & -> & H). eapply number_similar; [|exact H]. destruct Ht as [|Ht]; [by left|right]. by destruct b; naive_solver.
      + destruct H as (s & z & mid & -> & Hn & Hs). assert (0 <= z)%Z as Hz by (destruct Hn as [Hn _]; cbn in Hn; lia). destruct (Hex _ _ _ _ Hz Hs) as [-> ->].
        apply number_similar in Hn as (w1 & -> & H1); [|by right]. exists (w1 ++ rt_encs rt s). rewrite <- app_assoc. split; [done|]. apply Rapp; [exact H1|apply Rrefl].
    - cbn [accepts Wire.wire] in *. destruct H as (n & -> & _ & H). eapply number_similar; [|exact H]. right. by destruct (e_repr e).
    - apply accepts_struct in H as (vs & -> & H). rewrite wire_struct. rewrite all_fields_struct in Ha. rewrite Forall_forall in IH. clear Ht.
      revert vs data H. induction fs as [|f fs IHfs]; intros [|[g v] vs] data H; try done.
      + exists []. by split.
      + destruct H as (-> & mid & H1 & H2). cbn [fields_wire]. fold (fields_wire (rt_enc rt) (rt_encs rt)).
        apply IHfs in H2 as (w2 & -> & H2); [|intros h Hh; apply IH; by right|intros h Hh; apply Ha; by right].
        eapply wrapped_similar in H1 as (w1 & -> & H1).
        * exists (w1 ++ w2). rewrite <- app_assoc. split; [done|]. by apply Rapp.
        * intros u d r Hu. split; [by eapply accepts_value|]. destruct (Ha f) as [Hf1 Hf2]; [by left|]. eapply IH; [by left|done|done|exact Hu].
  Qed.
End similar.

Lemma reads_accepts a rt str_ok : rt_ok rt str_ok -> small_enums a -> forall iter r, fair_order iter -> no_builtin_decl a -> type_check iter a = Ok r ->
  names_fine a (class_of (r_export r)) -> forall h data l M, reads rt (class_of (r_export r)) h data (Done (JLoc l, M)) ->
  exists v, rep (m_heap M) (JLoc l) v /\ accepts rt (TStruct (x_fields (r_export r))) v data (r_rest (m_rd M)).
Proof.
  intros Hrt Hs iter r Hf Hn Hr Hk h data l M Hrd.
  destruct (reads_typed rt str_ok _ _ _ Hf Hn Hr Hrt Hk h data l M Hrd) as (v & H1 & _ & -> & H4 & H5). eexists. split; [exact H1|]. rewrite H5 in *.
  eapply (export_taken a rt str_ok); [done..|]. exists (r_calls (m_rd M)). rewrite H5, <- (state_ok _ H4). apply surjective_pairing.
Qed.
Lemma code_flags_only a rt str_ok : rt_ok rt str_ok -> exact_strings rt -> small_enums a -> no_float a -> for_code a (fun k t => names_fine a k ->
  forall h data l M, reads rt k h data (Done (JLoc l, M)) ->
    exists v w, rep (m_heap M) (JLoc l) v /\ data = w ++ r_rest (m_rd M) /\ Forall2 (flag_apart rt) w (wire (rt_enc rt) (rt_encs rt) t v)).
Proof.
  intros Hrt Hex Hs Hno. apply for_code_intro. intros iter r Hf Hn Hr Hk h data l M Hrd.
  destruct (reads_accepts a rt str_ok Hrt Hs iter r Hf Hn Hr Hk h data l M Hrd) as (v & H1 & H2). exists v.
  eapply (accepts_similar rt str_ok Hrt Hex False (Forall2 (flag_apart rt))) in H2 as (w & -> & H2).
  - by exists w.
  - intros w. induction w; constructor; [by left|done].
  - intros. by apply Forall2_app.
  - intros z Hz. pose proof (enc_width _ _ Hrt KU8 (NInt z)) as L1. pose proof (enc_width _ _ Hrt KU8 (NInt 1)) as L2.
    destruct (rt_enc rt KU8 (NInt z)) as [|b [|]] eqn:E1; try done. destruct (rt_enc rt KU8 (NInt 1)) as [|c [|]] eqn:E2; try done.
    constructor; [|constructor]. right. split; [done|]. by exists z.
  - done.
  - by right.
  - apply (export_fields _ _ _ Hf Hn Hr). intros n gs f u _ Hd Hu Ht _ _ Hl. right. intros Hty. rewrite Hty in Hl. cbn in Hl. apply (Hno _ _ _ _ Hd Hu). rewrite <- Ht.
    revert Hl. unfold builtin_of_name. repeat case_decide; congruence.
Qed.
Lemma code_same_length a rt str_ok : rt_ok rt str_ok -> exact_strings rt -> small_enums a -> for_code a (fun k t => names_fine a k ->
  forall h data l M, reads rt k h data (Done (JLoc l, M)) ->
    exists v, rep (m_heap M) (JLoc l) v /\ length data = length (wire (rt_enc rt) (rt_encs rt) t v) + length (r_rest (m_rd M))).
Proof.
  intros Hrt Hex Hs. apply for_code_intro. intros iter r Hf Hn Hr Hk h data l M Hrd.
  destruct (reads_accepts a rt str_ok Hrt Hs iter r Hf Hn Hr Hk h data l M Hrd) as (v & H1 & H2). exists v. split; [done|].
  eapply (accepts_similar rt str_ok Hrt Hex True (fun w w' => length w = length w')) in H2 as (w & -> & H2).
  - by rewrite app_length, H2.
  - done.
  - intros. rewrite !app_length. congruence.
  - intros z _. by rewrite !(enc_width _ _ Hrt).
  - intros. congruence.
  - by left.
  - apply (export_fields _ _ _ Hf Hn Hr). by left.
Qed.

(** ** Calls of the reader where there are no arrays *)
Lemma read_num_calls rt k r : r_calls (read_num rt k r).2 = S (r_calls r).
Proof. unfold read_num. by destruct (rt_rd rt k _) as [? [? ?]]. Qed.
Lemma read_str_calls rt z r : r_calls (read_str rt z r).2 = S (r_calls r).
Proof. unfold read_str. by destruct (rt_rds rt z _) as [? [? ?]]. Qed.
Lemma dec_calls rt t : all_fields (fun f => f_array f = false) t -> forall r, r_calls (dec rt t r).2 <= most_calls t + r_calls r.
Proof.
  induction t as [b|e|fs IH] using rtype_ind'; intros Ha r.
  - cbn [dec]. unfold dec_builtin. destruct (builtin_kind b) as [k|] eqn:Hk.
    + pose proof (read_num_calls rt k r). destruct (read_num rt k r) as [n r1]. cbn [snd] in *. assert (most_calls (TBuiltin b) >= 1) by (destruct b; cbn; lia). lia.
    + assert (most_calls (TBuiltin b) = 2) as -> by by destruct b. pose proof (read_num_calls rt KU32 r). destruct (read_num rt KU32 r) as [n r1].
      pose proof (read_str_calls rt (int_of n) r1). destruct (read_str rt (int_of n) r1) as [s r2]. cbn [snd] in *. lia.
  - cbn [dec most_calls]. unfold dec_enum. pose proof (read_num_calls rt (repr_kind (e_repr e)) r). destruct (read_num rt _ r) as [n r1]. case_decide; cbn [snd r_calls fail TsRead.fail] in *; lia.
  - rewrite dec_struct_eq. cbn [snd]. rewrite all_fields_struct in Ha. rewrite Forall_forall in IH.
    revert r. induction fs as [|f fs IHfs]; intros r; [cbn; lia|]. rewrite dec_fields_cons. cbn [snd].
    destruct (Ha f) as [Hf1 Hf2]; [by left|]. assert (r_calls (dec_field rt f r).2 <= (if f_opt f then 1 else 0) + most_calls (f_ty f) + r_calls r) as H1.
    { pose proof (IH f ltac:(by left) Hf2) as Hd. unfold dec_field, dec_wrap. rewrite Hf1. destruct (f_opt f); [|specialize (Hd r); lia]. unfold dec_opt.
      pose proof (read_num_calls rt KU8 r). destruct (read_num rt KU8 r) as [n r1]. cbn [snd] in *. specialize (Hd r1). case_decide; cbn [snd]; lia. }
    assert (r_calls (dec_fields rt fs (dec_field rt f r).2).2 <= most_calls (TStruct fs) + r_calls (dec_field rt f r).2) as H2.
    { apply IHfs; intros g Hg; [apply IH; by right|apply Ha; by right]. }
    cbn [most_calls fold_right] in *. lia.
Qed.
Lemma code_calls a rt str_ok : rt_ok rt str_ok -> no_arrays a -> for_code a (fun k t => names_fine a k ->
  forall h data x M, reads rt k h data (Done (x, M)) -> r_calls (m_rd M) <= most_calls t).
Proof.
  intros Hrt Hno. apply for_code_intro. intros iter r Hf Hn Hr Hk h data x M Hrd.
  destruct (fine_reads _ _ _ Hf Hn Hr rt str_ok h data Hrt Hk) as (M' & props & H1 & H2 & _). cbn zeta in *.
  pose proof (reads_det _ _ _ _ _ _ Hrd H1) as E. assert (M = M') as -> by congruence. rewrite H2.
  etrans; [apply dec_calls|cbn [r_calls]; lia].
  apply (export_fields _ _ _ Hf Hn Hr). intros n gs f u _ Hd Hu _ Har _ _. rewrite Har. by eapply Hno.
Qed.
