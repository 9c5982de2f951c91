(** The core of RunsProofs.v: fields in different orders confuse their readers. *)
From Verif Require Export RunsCore.

Section core.
  Context (rt : runtime) (str_ok : jstr -> Prop) (Hrt : rt_ok rt str_ok) (Hex : exact_on rt str_ok) (Hfl : local_floats rt) (H2s : two_strings str_ok).
  Notation W := (wire (rt_enc rt) (rt_encs rt)).
  Notation FW := (fields_wire (rt_enc rt) (rt_encs rt)).
  Notation typed := (has_type str_ok).
  Notation AF := (accepts_fields rt).
  Notation num := TsSem.num.

  (** ** one field *)
  Definition fW (f : sfield) : value -> list byte := wire_wrapped (rt_enc rt) (f_array f) (f_opt f) (W (f_ty f)).
  Definition fA (f : sfield) : value -> list byte -> list byte -> Prop := accepts_wrapped rt (f_array f) (f_opt f) (accepts rt (f_ty f)).
  Definition fT (f : sfield) : value -> Prop := wrapped (f_array f) (f_opt f) (typed (f_ty f)).

  Lemma usual_taken t : usual t -> taken (dec rt t) (accepts rt t).
  Proof.
    intros Hu. apply (dec_taken rt str_ok Hrt). eapply all_enums_mono; [|exact Hu]. intros e [H1 H2]. split; [by apply good_enum_readable|by apply small_between].
  Qed.
  Lemma field_taken f : usual (f_ty f) -> taken (dec_field rt f) (fA f).
  Proof. intros Hu. apply (wrapped_taken rt str_ok Hrt); [by eapply sticky_dec|by apply usual_taken]. Qed.
  Lemma field_wire f v rest : usual (f_ty f) -> fT f v -> fA f v (fW f v ++ rest) rest.
  Proof.
    intros Hu Hv. apply (field_taken f Hu _ 0).
    apply (wrap_inverts rt str_ok Hrt (f_array f) (f_opt f) (dec rt (f_ty f)) (W (f_ty f)) (typed (f_ty f))); [|by intros w ?%shape_not_none|done].
    apply (dec_inverts rt str_ok Hrt). by apply usual_readable.
  Qed.
  Lemma field_fun f v v' data rest rest' : usual (f_ty f) -> fA f v data rest -> fA f v' data rest' -> v = v' /\ rest = rest'.
  Proof. intros Hu [c E]%(field_taken f Hu data 0) [c' E']%(field_taken f Hu data 0). rewrite E in E'. by injection E' as <- <-. Qed.

  (** what is accepted does not depend on what follows *)
  Definition local (P : value -> list byte -> list byte -> Prop) (e : value -> list byte) (T : value -> Prop) : Prop := forall v data rest, T v -> P v data rest ->
    exists w, data = w ++ rest /\ length w = length (e v) /\ forall rest', P v (w ++ rest') rest'.
  Lemma number_local k n data rest : number rt k n data rest -> exists w, data = w ++ rest /\ length w = width k /\ forall rest', number rt k n (w ++ rest') rest'.
  Proof.
    intros [Hk H]. destruct (decide (k = KF32)) as [->|Hne].
    - destruct (decide (width KF32 <= length data)) as [Hw|Hw].
      + destruct (rd_enough _ _ Hrt KF32 data Hw) as (m & _ & E). rewrite E in H. injection H as -> <-. exists (take (width KF32) data).
        assert (length (take (width KF32) data) = 4) as Hl by (rewrite take_length; change (width KF32) with 4 in *; lia).
        split; [by rewrite take_drop|]. split; [done|]. intros rest'. split; [done|].
        destruct (rd_enough _ _ Hrt KF32 (take (width KF32) data ++ rest')) as (m' & _ & E'); [rewrite app_length, Hl; cbn; lia|].
        pose proof (Hfl (take (width KF32) data) (drop (width KF32) data) rest' Hl) as HL. rewrite take_drop, E, E' in HL. cbn [fst] in HL. subst m'. rewrite E'. by rewrite drop_app_alt.
      + destruct (rd_short _ _ Hrt KF32 data) as (m & bs & _ & E); [lia|]. by rewrite E in H.
    - exists (rt_enc rt k n). split; [by destruct k|]. split; [apply (enc_width _ _ Hrt)|]. intros rest'. split; [done|]. by destruct k.
  Qed.
  Lemma each_local P e T : local P e T -> forall l data rest, Forall T l -> each P l data rest ->
    exists w, data = w ++ rest /\ length w = length (concat (map e l)) /\ forall rest', each P l (w ++ rest') rest'.
  Proof.
    intros HP l data rest HT. revert data. induction HT as [|v l Hv _ IH]; intros data H.
    - exists []. cbn in H. by subst.
    - destruct H as (mid & H1 & H2). destruct (HP _ _ _ Hv H1) as (w1 & -> & L1 & K1). destruct (IH _ H2) as (w2 & -> & L2 & K2).
      exists (w1 ++ w2). split; [by rewrite app_assoc|]. split; [cbn; rewrite !app_length; lia|]. intros rest'. rewrite <- app_assoc. exists (w2 ++ rest'). split; [apply K1|apply K2].
  Qed.
  Lemma wrapped_local (arr op : bool) P e T : local P e T -> (forall v, T v -> v ≠ VNone) -> (forall v data rest, P v data rest -> v ≠ VNone) -> local (accepts_wrapped rt arr op P) (wire_wrapped (rt_enc rt) arr op e) (wrapped arr op T).
  Proof.
    intros HP HN HA.
    assert (forall v data rest, v ≠ VNone -> wrapped arr op T v -> accepts_items rt arr P v data rest ->
      exists w, data = w ++ rest /\ length w = length (if arr then match v with VArr l => count (rt_enc rt) (length l) ++ concat (map e l) | _ => [] end else e v) /\ forall rest', accepts_items rt arr P v (w ++ rest') rest') as Hi.
    { intros v data rest Hv [[_ ->]|HT] H; [done|]. destruct arr; [|by apply HP]. destruct H as (l & mid & -> & Hn & He). destruct HT as (l' & [= <-] & _ & HT).
      destruct (number_local _ _ _ _ Hn) as (w1 & -> & L1 & K1). destruct (each_local P e T HP l mid rest HT He) as (w2 & -> & L2 & K2).
      exists (w1 ++ w2). split; [by rewrite app_assoc|]. split; [rewrite !app_length; unfold count; rewrite (enc_width _ _ Hrt); lia|].
      intros rest'. exists l, (w2 ++ rest'). rewrite <- app_assoc. split; [done|]. split; [apply K1|apply K2]. }
    intros v data rest HT H. unfold accepts_wrapped, wire_wrapped in *. destruct op.
    - destruct H as [[-> Hn]|(flag & mid & Hf & Hn & Ha)].
      + destruct (number_local _ _ _ _ Hn) as (w1 & -> & L1 & K1). exists w1. split; [done|]. split; [by rewrite (enc_width _ _ Hrt)|]. intros rest'. left. split; [done|apply K1].
      + assert (v ≠ VNone) as Hv.
        { intros ->. unfold accepts_items in Ha. destruct arr; [by destruct Ha as (? & ? & [=] & _)|]. by destruct (HA _ _ _ Ha). }
        destruct (number_local _ _ _ _ Hn) as (w1 & -> & L1 & K1). destruct (Hi _ _ _ Hv HT Ha) as (w2 & -> & L2 & K2). exists (w1 ++ w2). split; [by rewrite app_assoc|].
        split; [destruct v; try done; rewrite !app_length, (enc_width _ _ Hrt), L1, L2; done|]. intros rest'. right. exists flag, (w2 ++ rest'). rewrite <- app_assoc. split; [done|]. split; [apply K1|apply K2].
    - apply Hi; [|done|done]. intros ->. destruct HT as [[[=] _]|HT]. destruct arr; [by destruct HT as (? & [=] & _)|by apply (HN VNone)].
  Qed.
  Lemma accepts_not_none t v data rest : accepts rt t v data rest -> v ≠ VNone.
  Proof. destruct t as [b|e|fs]; cbn [accepts]; [destruct (builtin_kind b)|..]; naive_solver. Qed.
  Lemma accepts_local t : local (accepts rt t) (W t) (typed t).
  Proof.
    induction t as [b|e|fs IH] using rtype_ind'; intros v data rest HT H.
    - unfold has_type in HT. cbn [accepts shape wire] in *. destruct (builtin_kind b) as [k|] eqn:Eb.
      + destruct H as (n & -> & Hn). destruct (number_local _ _ _ _ Hn) as (w & -> & L & K). exists w. split; [done|]. cbn [wire]. rewrite ?Eb, (enc_width _ _ Hrt). split; [done|].
        intros rest'. exists n. split; [done|apply K].
      + destruct H as (s & z & mid & -> & Hn & Hs). destruct HT as (s' & [= <-] & _ & Hok). assert (0 <= z)%Z as Hz by (destruct Hn as [Hn _]; cbn in Hn; lia).
        destruct (Hex z mid s rest Hz Hok Hs) as [-> ->]. destruct (number_local _ _ _ _ Hn) as (w & -> & L & K). exists (w ++ rt_encs rt s). split; [by rewrite <- app_assoc|].
        split; [unfold count; by rewrite !app_length, (enc_width _ _ Hrt), L|]. intros rest'. exists s, (Z.of_nat (length s)), (rt_encs rt s ++ rest'). rewrite <- app_assoc.
        split; [done|]. split; [apply K|]. by apply (rds_enc _ _ Hrt).
    - destruct H as (n & -> & Hr & Hn). destruct (number_local _ _ _ _ Hn) as (w & -> & L & K). exists w. split; [done|]. cbn [wire]. rewrite (enc_width _ _ Hrt). split; [done|].
      intros rest'. exists n. split; [done|]. split; [done|apply K].
    - apply accepts_struct in H as (vs & -> & H). apply shape_struct in HT as (vs' & [= <-] & HT). rewrite wire_struct. rewrite Forall_forall in IH.
      assert (exists w, data = w ++ rest /\ length w = length (FW fs vs) /\ forall rest', AF fs vs (w ++ rest') rest') as (w & H1 & H2 & H3).
      { revert vs data HT H. induction fs as [|f fs IHf]; intros [|[g v] vs] data HT H; try done.
        - exists []. cbn in H. by subst.
        - destruct H as (-> & mid & H1 & H2), HT as (_ & HT1 & HT2).
          destruct (wrapped_local (f_array f) (f_opt f) _ _ _ (IH f ltac:(by left))) with v data mid as (w1 & -> & L1 & K1); [by intros ? ?%shape_not_none|by intros ??? ?%accepts_not_none|done|done|].
          destruct (IHf ltac:(intros; apply IH; by right) vs mid HT2 H2) as (w2 & -> & L2 & K2). exists (w1 ++ w2). split; [by rewrite app_assoc|].
          split; [cbn [fields_wire]; fold (fields_wire (rt_enc rt) (rt_encs rt)); rewrite !app_length; lia|]. intros rest'. split; [done|]. exists (w2 ++ rest'). rewrite <- app_assoc. split; [apply K1|apply K2]. }
      exists w. split; [done|]. split; [done|]. intros rest'. apply accepts_struct. by exists vs.
  Qed.
  Lemma field_local f : local (fA f) (fW f) (fT f).
  Proof. apply wrapped_local; [apply accepts_local|by intros ? ?%shape_not_none|by intros ??? ?%accepts_not_none]. Qed.

  (** ** two fields that come first cannot be told apart *)
  Lemma short_word f x y1 y2 X : usual (f_ty f) -> fT f y1 -> fT f y2 -> y1 ≠ y2 ->
    (exists R rest, fA f y1 (x ++ R) rest) -> (exists R rest, fA f y2 (x ++ R) rest) -> length x = X -> X < length (fW f y1) \/ X < length (fW f y2).
  Proof.
    intros Hu T1 T2 Hne (R1 & rest1 & A1) (R2 & rest2 & A2) HX. destruct (decide (length (fW f y1) <= X)) as [L1|]; [|lia]. destruct (decide (length (fW f y2) <= X)) as [L2|]; [|lia]. exfalso. apply Hne.
    destruct (field_local f _ _ _ T1 A1) as (w1 & E1 & K1 & M1). destruct (field_local f _ _ _ T2 A2) as (w2 & E2 & K2 & M2).
    assert (exists s, x = w1 ++ s) as [s1 S1]. { apply app_eq_inv in E1 as [(s & -> & ->)|(s & -> & ->)]; [by exists s|]. rewrite app_length in K1. exists []. destruct s; [by rewrite !app_nil_r|cbn in K1; lia]. }
    assert (exists s, x = w2 ++ s) as [s2 S2]. { apply app_eq_inv in E2 as [(s & -> & ->)|(s & -> & ->)]; [by exists s|]. rewrite app_length in K2. exists []. destruct s; [by rewrite !app_nil_r|cbn in K2; lia]. }
    specialize (M1 s1). specialize (M2 s2). rewrite <- S1 in M1. rewrite <- S2 in M2. by destruct (field_fun f _ _ _ _ _ Hu M1 M2).
  Qed.
  Lemma crossed f g a a' b b' : usual (f_ty f) -> usual (f_ty g) -> fT f a -> fT f a' -> fT g b -> fT g b' -> a ≠ a' -> b ≠ b' ->
    (forall x y, x = a \/ x = a' -> y = b \/ y = b' -> (exists R rest, fA g y (fW f x ++ R) rest) /\ (exists R rest, fA f x (fW g y ++ R) rest)) -> False.
  Proof.
    intros Uf Ug Ta Ta' Tb Tb' Na Nb H.
    pose proof (short_word g (fW f a) b b' _ Ug Tb Tb' Nb ltac:(apply H; auto) ltac:(apply H; auto) eq_refl).
    pose proof (short_word g (fW f a') b b' _ Ug Tb Tb' Nb ltac:(apply H; auto) ltac:(apply H; auto) eq_refl).
    pose proof (short_word f (fW g b) a a' _ Uf Ta Ta' Na ltac:(apply H; auto) ltac:(apply H; auto) eq_refl).
    pose proof (short_word f (fW g b') a a' _ Uf Ta Ta' Na ltac:(apply H; auto) ltac:(apply H; auto) eq_refl). lia.
  Qed.
End core.
