(** How the packets that the emitted Rust reads relate to the ones it writes. *)
From Verif Require Export RsClaims2 RsOneSpec Accept.
From Verif Require Import AcceptProofs.
Export RsSem.

Section similar.
  Context (lib : rs_lib) (str_ok : rstr -> Prop) (Hlib : rs_lib_ok lib str_ok).
  Context (floats flags : Prop) (R : list byte -> list byte -> Prop).
  Context (Rrefl : forall w, R w w) (Rapp : forall w1 w2 w1' w2', R w1 w1' -> R w2 w2' -> R (w1 ++ w2) (w1' ++ w2')).
  Context (Rflag : flags -> forall z, (0 < z < 256)%Z -> R (lb_enc lib KU8 (NInt z)) (lb_enc lib KU8 (NInt 1))).
  Context (Rfloat : floats -> forall w w', length w = width KF32 -> length w' = width KF32 -> R w w').
  Notation packet := (packet lib str_ok).
  Notation W := (wire (lb_enc lib) (lb_encs lib)).
  Lemma rs_number_similar k n data rest : floats \/ k ≠ KF32 -> rs_number lib k n data rest -> exists w, data = w ++ rest /\ R w (lb_enc lib k n).
  Proof.
    intros Hk [Hn H]. destruct (decide (k = KF32)) as [->|Hne].
    - destruct Hk as [Hk|]; [|done]. destruct (decide (width KF32 <= length data)) as [Hw|Hw].
      + destruct (lk_enough _ _ Hlib KF32 data Hw) as (m & _ & E). rewrite E in H. injection H as <- <-. exists (take (width KF32) data).
        split; [by rewrite take_drop|]. apply (Rfloat Hk); [rewrite take_length; lia|by apply (lk_width _ _ Hlib)].
      + rewrite (lk_short _ _ Hlib KF32 data) in H by lia. done.
    - exists (lb_enc lib k n). split; [by destruct k|apply Rrefl].
  Qed.
  Lemma packet_wrapped_similar (arr op : bool) (P : value -> list byte -> list byte -> Prop) e : flags \/ op = false ->
    (forall v data rest, P v data rest -> v ≠ VNone /\ exists w, data = w ++ rest /\ R w (e v)) ->
    forall v data rest, packet_wrapped lib arr op P v data rest -> exists w, data = w ++ rest /\ R w (wire_wrapped (lb_enc lib) arr op e v).
  Proof.
    intros Ho HP.
    assert (forall v data rest, packet_items lib arr P v data rest -> v ≠ VNone /\ exists w, data = w ++ rest /\
      R w (if arr then match v with VArr l => count (lb_enc lib) (length l) ++ concat (map e l) | _ => [] end else e v)) as Hi.
    { intros v data rest. unfold packet_items. destruct arr; [|by apply HP]. intros (l & mid & -> & Hn & He). split; [done|].
      apply rs_number_similar in Hn as (w1 & -> & H1); [|by right]. eapply (each_similar R Rrefl Rapp P e) in He as (w2 & -> & H2); [|intros; by apply HP].
      exists (w1 ++ w2). rewrite <- app_assoc. split; [done|]. by apply Rapp. }
    intros v data rest. unfold packet_wrapped, wire_wrapped. destruct op; [|by apply Hi]. destruct Ho as [Ho|]; [|done].
    intros [[-> Hn]|(flag & mid & Hne & Hn & Ha)].
    - by apply rs_number_similar in Hn; [|by right].
    - destruct (Hi _ _ _ Ha) as (Hv & w2 & -> & H2). assert (0 < flag < 256)%Z as Hfl by (destruct Hn as [Hn _]; cbn in Hn; lia).
      exists (lb_enc lib KU8 (NInt flag) ++ w2). rewrite <- app_assoc. split; [by destruct Hn as [_ ->]|].
      destruct v; [..|done]; apply Rapp; by auto.
  Qed.
  Lemma packet_similar t : floats \/ t ≠ TBuiltin Float -> all_fields (fun f => (floats \/ f_ty f ≠ TBuiltin Float) /\ (flags \/ f_opt f = false)) t ->
    forall v data rest, packet t v data rest -> exists w, data = w ++ rest /\ R w (W t v).
  Proof.
    induction t as [b|e|fs IH] using rtype_ind'; intros Ht Ha v data rest H.
    - cbn [RsSpec.packet Wire.wire] in *. destruct (builtin_kind b) as [k|] eqn:Hk.
      + destruct H as (n & -> & H). eapply rs_number_similar; [|exact H]. destruct Ht as [|Ht]; [by left|right]. by destruct b; naive_solver.
      + destruct H as (s & mid & -> & Hn & _ & ->).
        apply rs_number_similar in Hn as (w1 & -> & H1); [|by right]. exists (w1 ++ lb_encs lib s). rewrite <- app_assoc. split; [done|]. apply Rapp; [exact H1|apply Rrefl].
    - cbn [RsSpec.packet Wire.wire] in *. destruct H as (n & -> & _ & H). eapply rs_number_similar; [|exact H]. right. by destruct (e_repr e).
    - apply packet_struct in H as (vs & -> & H). rewrite wire_struct. rewrite all_fields_struct in Ha. rewrite Forall_forall in IH. clear Ht.
      revert vs data H. induction fs as [|f fs IHfs]; intros [|[g v] vs] data H; try done.
      + exists []. by split.
      + destruct H as (-> & mid & H1 & H2). cbn [fields_wire]. fold (fields_wire (lb_enc lib) (lb_encs lib)).
        apply IHfs in H2 as (w2 & -> & H2); [|intros h Hh; apply IH; by right|intros h Hh; apply Ha; by right].
        destruct (Ha f) as [[Hf1 Hf2] Hf3]; [by left|]. eapply packet_wrapped_similar in H1 as (w1 & -> & H1).
        * exists (w1 ++ w2). rewrite <- app_assoc. split; [done|]. by apply Rapp.
        * done.
        * intros u d r Hu. split; [intros ->; by eapply packet_none|]. eapply IH; [by left|done|done|exact Hu].
  Qed.
End similar.

Section size.
  Context (lib : rs_lib) (str_ok : rstr -> Prop) (Hlib : rs_lib_ok lib str_ok).
  Notation W := (wire (lb_enc lib) (lb_encs lib)).
  Lemma rs_wire_size t v : length (W t v) = byte_size (lb_encs lib) t v.
  Proof.
    revert v. induction t as [b|e|fs IH] using rtype_ind'; intros v.
    - cbn [Wire.wire byte_size]. destruct v as [n|s| | |]; try done.
      + destruct (builtin_kind b); [|done]. apply (lk_width _ _ Hlib).
      + unfold count. rewrite app_length, (lk_width _ _ Hlib). done.
    - destruct v; try done. apply (lk_width _ _ Hlib).
    - destruct v as [| | |vs|]; try done. cbn [Wire.wire byte_size]. rewrite Forall_forall in IH.
      revert vs. induction fs as [|f fs IHfs]; intros [|[g v] vs]; try done.
      rewrite app_length. rewrite IHfs by (intros h Hh; apply IH; by right). f_equal.
      assert (forall v, length (W (f_ty f) v) = byte_size (lb_encs lib) (f_ty f) v) as E by (apply IH; by left). clear - E Hlib.
      assert (length (if f_array f then match v with VArr l => count (lb_enc lib) (length l) ++ concat (map (W (f_ty f)) l) | _ => [] end else W (f_ty f) v) =
        if f_array f then match v with VArr l => 4 + sum_list (map (byte_size (lb_encs lib) (f_ty f)) l) | _ => 0 end else byte_size (lb_encs lib) (f_ty f) v) as Ein.
      { destruct (f_array f); [|apply E]. destruct v as [| |l| |]; try done. unfold count. rewrite app_length, (lk_width _ _ Hlib). cbn [width]. f_equal.
        induction l as [|v l IH]; [done|]. cbn [map concat sum_list foldr]. rewrite app_length, E. f_equal. exact IH. }
      unfold wire_wrapped, size_wrapped. destruct (f_opt f); [|exact Ein].
      destruct v; rewrite ?app_length, ?Ein, (lk_width _ _ Hlib); done.
  Qed.
End size.

Lemma for_rust_weaken a (P Q : rs_module -> rtype -> Prop) : (forall m t, P m t -> Q m t) -> for_rust a P -> for_rust a Q.
Proof.
  intros HPQ H iter r version now titer H1 H2 H3 H4 H5 H6. destruct (H iter r version now titer H1 H2 H3 H4 H5 H6) as (t & m & ty & E1 & E2 & E3 & E4 & E5).
  exists t, m, ty. auto 6.
Qed.
Section run.
  Context (a : ast) (lib : rs_lib) (str_ok : rstr -> Prop) (Hlib : rs_lib_ok lib str_ok) (Hs : small_enums a) (Hrn : rust_names a).
  (** what was read can be written, and read again *)
  Lemma rust_again (floats flags : Prop) (R : list byte -> list byte -> Prop) :
    (forall w, R w w) -> (forall w1 w2 w1' w2', R w1 w1' -> R w2 w2' -> R (w1 ++ w2) (w1' ++ w2')) ->
    (flags -> forall z, (0 < z < 256)%Z -> R (lb_enc lib KU8 (NInt z)) (lb_enc lib KU8 (NInt 1))) ->
    (floats -> forall w w', length w = width KF32 -> length w' = width KF32 -> R w w') ->
    (forall n fs f u, declares_struct a n fs -> (f, u) ∈ fs -> (floats \/ u_name u ≠ "float") /\ (flags \/ u_opt u = false)) ->
    for_rust a (fun m t => exists d, default_value (rm_items m) (rm_type m) = Some d /\
    forall data x i, rs_read lib m d data = Good x i -> exists w bytes, rs_write lib m x = Some bytes /\ data = w ++ ri_bytes i /\ R w bytes /\
      forall rest, exists j, rs_read lib m d (bytes ++ rest) = Good x j /\ ri_bytes j = rest).
  Proof.
    intros H1 H2 H3 H4 Hd. apply for_rust_intro. intros iter r titer Hf Hn Hr Ht. eexists. split; [by eapply module_default|]. intros data x i Hx.
    destruct (module_decides _ _ _ Hf Hn Hr _ Ht Hrn lib str_ok Hlib data Hs) as [(y & v & j & Hy & Hv & Hp)|(j & Hj & _)]; [|congruence].
    rewrite Hx in Hy. injection Hy as <- <-.
    eapply (packet_similar lib str_ok Hlib floats flags R) in Hp as (w & Hw & HR); [|done..|by right|].
    - exists w. eexists. split; [by eapply module_writes|]. split; [done|]. split; [done|]. intros rest. by eapply module_round_trip.
    - apply (export_fields _ _ _ Hf Hn Hr). intros n gs f u _ Hds Hu Htn _ Ho Hl. destruct (Hd _ _ _ _ Hds Hu) as [Ha Hb]. rewrite Ho. split; [|done].
      destruct Ha as [|Ha]; [by left|right]. intros Hty. rewrite Hty in Hl. cbn in Hl. apply Ha. rewrite <- Htn.
      revert Hl. unfold builtin_of_name. repeat case_decide; congruence.
  Qed.
  Lemma rust_rewrite : for_rust a (fun m t => exists d, default_value (rm_items m) (rm_type m) = Some d /\
    forall data x i, rs_read lib m d data = Good x i -> exists bytes, rs_write lib m x = Some bytes /\ length data = length bytes + length (ri_bytes i) /\
      forall rest, exists j, rs_read lib m d (bytes ++ rest) = Good x j /\ ri_bytes j = rest).
  Proof.
    eapply for_rust_weaken; [|apply (rust_again True True (fun w w' => length w = length w'))].
    - intros m t (d & Hd & H). exists d. split; [done|]. intros data x i Hx. destruct (H _ _ _ Hx) as (w & bytes & H1 & -> & H2 & H3). exists bytes.
      rewrite app_length, H2. done.
    - done.
    - intros. rewrite !app_length. congruence.
    - intros _ z _. by rewrite !(lk_width _ _ Hlib).
    - intros _ w w' -> ->. done.
    - intros. split; by left.
  Qed.
  Lemma rust_flags_only : no_float a -> for_rust a (fun m t => exists d, default_value (rm_items m) (rm_type m) = Some d /\
    forall data x i, rs_read lib m d data = Good x i -> exists w bytes, rs_write lib m x = Some bytes /\ data = w ++ ri_bytes i /\ Forall2 (rs_flag_apart lib) w bytes).
  Proof.
    intros Hno. eapply for_rust_weaken; [|apply (rust_again False True (Forall2 (rs_flag_apart lib)))].
    - intros m t (d & Hd & H). exists d. split; [done|]. intros data x i Hx. destruct (H _ _ _ Hx) as (w & bytes & H1 & H2 & H3 & _). by exists w, bytes.
    - intros w. induction w; constructor; [by left|done].
    - intros. by apply Forall2_app.
    - intros _ z Hz. pose proof (lk_width _ _ Hlib KU8 (NInt z)) as L1. pose proof (lk_width _ _ Hlib KU8 (NInt 1)) as L2.
      destruct (lb_enc lib KU8 (NInt z)) as [|b [|]] eqn:E1; try done. destruct (lb_enc lib KU8 (NInt 1)) as [|c [|]] eqn:E2; try done.
      constructor; [|constructor]. right. split; [done|]. by exists z.
    - done.
    - intros n fs f u Hd Hu. split; [right; by eapply Hno|by left].
  Qed.
  Lemma rust_exact : no_opt_float a -> for_rust a (fun m t => exists d, default_value (rm_items m) (rm_type m) = Some d /\
    forall data x i, rs_read lib m d data = Good x i -> exists bytes, rs_write lib m x = Some bytes /\ data = bytes ++ ri_bytes i).
  Proof.
    intros Hno. eapply for_rust_weaken; [|apply (rust_again False False eq)].
    - intros m t (d & Hd & H). exists d. split; [done|]. intros data x i Hx. destruct (H _ _ _ Hx) as (w & bytes & H1 & H2 & -> & _). by exists bytes.
    - done.
    - by intros ? ? ? ? -> ->.
    - done.
    - done.
    - intros n fs f u Hd Hu. destruct (Hno _ _ _ _ Hd Hu). split; by right.
  Qed.
End run.
Lemma rust_size a lib str_ok : rs_lib_ok lib str_ok -> rust_names a -> for_rust a (fun m t => forall x v, stands str_ok t (rm_type m) x v ->
  exists bytes, rs_write lib m x = Some bytes /\ length bytes = byte_size (lb_encs lib) t v).
Proof.
  intros Hlib Hrn. apply for_rust_intro. intros iter r titer Hf Hn Hr Ht x v Hv. eexists. split; [by eapply module_writes|]. by eapply rs_wire_size.
Qed.
