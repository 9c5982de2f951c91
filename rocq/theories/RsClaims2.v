(** More statements about emitted Rust: memory; both languages. *)
From Verif Require Export RsClaims.
Export RsSem RsRun RsRun2 RsRun3 RsRun4.

(** ** Memory *)
Section room.
  Context (lib : rs_lib) (str_ok : rstr -> Prop) (Hlib : rs_lib_ok lib str_ok).
  Definition roomy {A} (more : Z) (i : rin) (r : rres A) : Prop :=
    match r with Good _ i' => (ri_room i' + Z.of_nat (length (ri_bytes i')) + more <= ri_room i + Z.of_nat (length (ri_bytes i)))%Z | _ => True end.
  Lemma roomy_go {A B} n1 n2 i (r : rres A) (k : A -> rin -> rres B) : roomy n1 i r -> (forall a i, roomy n2 i (k a i)) -> roomy (n1 + n2) i (rgo r k).
  Proof. unfold roomy. destruct r as [a i1|i1|]; cbn [rgo]; intros H1 H2; [|done|done]. specialize (H2 a i1). destruct (k a i1); [lia|done|done]. Qed.
  Lemma roomy_le {A} n1 n2 i (r : rres A) : (n2 <= n1)%Z -> roomy n1 i r -> roomy n2 i r.
  Proof. unfold roomy. destruct r; [lia|done|done]. Qed.
  Lemma roomy_good {A} (a : A) i : roomy 0 i (Good a i).
  Proof. cbn. lia. Qed.
  Lemma roomy_num k i : roomy 1 i (take_num lib k i).
  Proof.
    destruct (take_num lib k i) as [n j|j|] eqn:E; [|done|done]. destruct (take_num_good lib str_ok Hlib _ _ _ _ E) as (_ & _ & H & _ & H2). cbn.
    assert (1 <= width k) by (destruct k; cbn; lia). lia.
  Qed.
  Lemma roomy_many k (P : rin -> rres rval) l i : (forall i, roomy 1 i (P i)) -> roomy (Z.of_nat k) i (many k (fun l i => rgo (P i) (fun y i => Good (l ++ [y]) i)) l i).
  Proof.
    intros HP. revert l i. induction k as [|k IH]; intros l i; cbn [many]; [cbn; lia|]. apply (roomy_le (1 + 0 + Z.of_nat k)%Z); [lia|]. apply roomy_go; [|intros; apply IH].
    apply roomy_go; [apply HP|intros; apply roomy_good].
  Qed.
  Lemma into_roomy t : inhabited t -> forall tn cur i, roomy 1 i (into lib t tn cur i).
  Proof.
    induction t as [b|e|fs IH] using rtype_ind'; intros Hi tn cur i.
    - cbn [into]. destruct (builtin_kind b) as [k|]; [apply (roomy_go 1 0); [apply roomy_num|intros; apply roomy_good]|].
      destruct (take_num lib KU32 i) as [n j|j|] eqn:E; cbn [rgo]; [|done|done]. pose proof (roomy_num KU32 i) as Hn. rewrite E in Hn.
      destruct (take_num_good lib str_ok Hlib _ _ _ _ E) as (_ & H0 & _). pose proof (as_int_in _ _ H0 ltac:(done)) as En. rewrite En in H0. cbn in H0.
      unfold take_str. destruct (lb_rds lib (as_int n) (ri_bytes j)) as [[s bs]|] eqn:Es; cbn [rgo]; [|done]. cbn in *.
      destruct (lk_str_exact _ _ Hlib _ _ _ _ (proj1 H0) Es) as (_ & _ & Hb). rewrite Hb, app_length in Hn. lia.
    - cbn [into]. apply (roomy_go 1 0); [apply roomy_num|]. intros n j. destruct (variant_of e (as_int n)); [apply roomy_good|done].
    - destruct cur as [| | | |xs|]; try done. apply inhabited_struct in Hi as [Hne Hi]. rewrite into_struct. apply (roomy_go 1 0); [|intros; apply roomy_good].
      assert (forall fs, Forall (fun f => forall cur i, roomy 1 i (into lib (f_ty f) (f_tname f) cur i)) fs -> forall xs i, roomy (Z.of_nat (length fs)) i (into_fields lib fs xs i)) as HF.
      { clear -Hlib. intros fs IH. induction IH as [|f fs Hf _ IH]; intros [|[g x] xs] i; try done; [apply roomy_good|]. cbn [into_fields length].
        apply (roomy_le (1 + (Z.of_nat (length fs) + 0))%Z); [lia|]. apply roomy_go; [|intros; apply roomy_go; [apply IH|intros; apply roomy_good]]. unfold into_field, into_wrapped. destruct (f_opt f).
        - apply (roomy_go 1 0); [apply roomy_num|]. intros n j. case_decide; [|apply roomy_good]. apply (roomy_le (1 + 0)%Z); [lia|]. apply roomy_go; [apply Hf|intros; apply roomy_good].
        - destruct (f_array f); [|apply Hf]. destruct x; try done.
          destruct (take_num lib KU32 i) as [n j|j|] eqn:E; cbn [rgo]; [|done|done]. pose proof (roomy_num KU32 i) as Hn. rewrite E in Hn.
          destruct (take_num_good lib str_ok Hlib _ _ _ _ E) as (_ & H0 & _). pose proof (as_int_in _ _ H0 ltac:(done)) as En. rewrite En in H0. cbn in H0.
          pose proof (roomy_many (Z.to_nat (as_int n)) (into lib (f_ty f) (f_tname f) (dflt (f_ty f) (f_tname f))) l (reserve (as_int n) j) (Hf _)) as Hm.
          destruct (many _ _ l (reserve (as_int n) j)) as [l' j'|j'|]; cbn [rgo]; [|done|done]. cbn in *. rewrite Z2Nat.id in Hm by lia. lia. }
      destruct fs as [|f fs]; [done|]. eapply (roomy_le (Z.of_nat (length (f :: fs)))); [cbn [length]; lia|]. apply HF. rewrite Forall_forall in IH. apply Forall_forall. intros g Hg cur0 i0. apply IH; [done|by apply Hi].
  Qed.
End room.
Lemma rust_room a lib str_ok : rs_lib_ok lib str_ok -> rust_names a -> no_empty a -> for_rust a (fun m t => forall cur data x i, typed str_ok t (rm_type m) cur ->
  rs_read lib m cur data = Good x i -> (ri_room i < Z.of_nat (length data))%Z).
Proof.
  intros Hlib Hrn Hne. apply for_rust_intro. intros iter r titer Hf Hn Hr Ht cur data x i [v Hv] H.
  rewrite (module_reads _ _ _ Hf Hn Hr _ Ht Hrn) in H by (by eapply typed_fits).
  pose proof (into_roomy lib str_ok Hlib _ (entry_inhabited _ _ _ Hf Hn Hr Hne) (x_name (r_export r)) (dflt (TStruct (x_fields (r_export r))) (x_name (r_export r))) (RIn data 0 0)) as Hro.
  destruct (into lib _ _ _ _) as [y j|j|]; cbn [rgo] in H; [|done|done]. injection H as <- <-. cbn in Hro. lia.
Qed.

(** ** Both languages *)
Section both.
  Context (rt : runtime) (lib : rs_lib) (rt_str str_ok both : list Z -> Prop).
  Context (Hrt : rt_ok rt rt_str) (Hlib : rs_lib_ok lib str_ok) (Hsf : same_format rt lib both) (Hboth : forall s, both s -> str_ok s).
  Lemma rs_number_fun k n1 n2 data r1 r2 : rs_number lib k n1 data r1 -> rs_number lib k n2 data r2 -> n1 = n2 /\ r1 = r2.
  Proof.
    intros [Hk1 H1] [Hk2 H2]. assert (lb_rd lib k data = Some (n1, r1)) as E1 by (destruct k; try (subst data; by apply (lk_enc _ _ Hlib)); done).
    assert (lb_rd lib k data = Some (n2, r2)) as E2 by (destruct k; try (rewrite H2; by apply (lk_enc _ _ Hlib)); done). rewrite E1 in E2. by simplify_eq.
  Qed.
  Context (Hex : exact_strings rt).
  Lemma accepts_none t data rest : ~ accepts rt t VNone data rest.
  Proof. destruct t as [b|e|gs]; cbn [accepts]; [destruct (builtin_kind b)|..]; naive_solver. Qed.
  Lemma packet_none t data rest : ~ packet lib str_ok t VNone data rest.
  Proof. destruct t as [b|e|gs]; cbn [packet]; [destruct (builtin_kind b)|..]; naive_solver. Qed.
  (** when both languages accept a packet, they read the same *)
  Lemma packets_agree t : forall v w data r1 r2, fair_type t -> strings_in both v -> accepts rt t v data r1 -> packet lib str_ok t w data r2 -> w = v /\ r2 = r1.
  Proof.
    induction t as [b|e|fs IH] using rtype_ind'; intros v w data r1 r2 Hk Hb Ha Hp.
    - cbn [packet accepts] in *. destruct (builtin_kind b) eqn:Eb.
      + destruct Ha as (n1 & -> & H1%(number_same rt lib both Hsf)), Hp as (n2 & -> & H2). by destruct (rs_number_fun _ _ _ _ _ _ H1 H2) as [-> ->].
      + destruct Ha as (s1 & z & mid1 & -> & H1%(number_same rt lib both Hsf) & Hs), Hp as (s2 & mid2 & -> & H2 & Hs2 & ->).
        destruct (rs_number_fun _ _ _ _ _ _ H1 H2) as [[= ->] ->]. apply Hex in Hs as [Hl E]; [|lia]. cbn in Hb. rewrite (sf_encs _ _ _ Hsf) in E by done.
        pose proof (lk_str _ _ Hlib s1 r1 (Hboth _ Hb)) as E1. pose proof (lk_str _ _ Hlib s2 r2 Hs2) as E2. rewrite Hl, E, E1 in E2. by simplify_eq.
    - cbn [packet accepts] in *. destruct Ha as (n1 & -> & _ & H1%(number_same rt lib both Hsf)), Hp as (n2 & -> & _ & H2). by destruct (rs_number_fun _ _ _ _ _ _ H1 H2) as [-> ->].
    - pose proof (fun f Hf => fair_field fs f Hk Hf) as Hkf. clear Hk. apply accepts_struct in Ha as (vs & -> & Ha). apply packet_struct in Hp as (ws & -> & Hp). rewrite strings_rec in Hb.
      assert (ws = vs /\ r2 = r1) as [-> ->]; [|done]. revert vs ws data Hb Ha Hp. induction IH as [|f fs Hf _ IH]; intros [|[g v] vs] [|[h w] ws] data Hb Ha Hp; try done; [by rewrite <- Ha, <- Hp|].
      destruct Ha as (-> & mid1 & Ha1 & Ha), Hp as (-> & mid2 & Hp1 & Hp). apply Forall_cons in Hb as [Hb1 Hb]. cbn [snd] in Hb1. destruct (Hkf f ltac:(by left)) as [Hft Hao].
      assert (w = v /\ mid2 = mid1) as [-> ->]; [|by destruct (IH ltac:(intros; apply Hkf; by right) vs ws mid1 Hb Ha Hp) as [-> ->]].
      specialize (fun v w data r1 r2 => Hf v w data r1 r2 Hft). clear IH Ha Hp Hb. unfold packet_wrapped, accepts_wrapped, packet_items, accepts_items in *. destruct (f_opt f).
      + destruct (f_array f); [done|]. destruct Ha1 as [[-> H1%(number_same rt lib both Hsf)]|(fl1 & m1 & Hf1 & H1%(number_same rt lib both Hsf) & Ha1)], Hp1 as [[-> H2]|(fl2 & m2 & Hf2 & H2 & Hp1)].
        * by destruct (rs_number_fun _ _ _ _ _ _ H1 H2) as [_ ->].
        * destruct (rs_number_fun _ _ _ _ _ _ H1 H2) as [[= <-] _]. done.
        * destruct (rs_number_fun _ _ _ _ _ _ H1 H2) as [[= ->] _]. done.
        * destruct (rs_number_fun _ _ _ _ _ _ H1 H2) as [_ ->]. by eapply Hf.
      + destruct (f_array f); [|by eapply Hf]. destruct Ha1 as (l1 & m1 & -> & H1%(number_same rt lib both Hsf) & HE1), Hp1 as (l2 & m2 & -> & H2 & HE2).
        destruct (rs_number_fun _ _ _ _ _ _ H1 H2) as [[= HL] ->]. rewrite strings_arr in Hb1. clear H1 H2.
        assert (l2 = l1 /\ mid2 = mid1) as [-> ->]; [|done]. revert l2 m2 HL HE1 HE2. induction Hb1 as [|v l1 Hv _ IH]; intros [|w l2] m2 HL HE1 HE2; try done; [by rewrite <- HE1, <- HE2|].
        destruct HE1 as (n1 & Hn1 & HE1), HE2 as (n2 & Hn2 & HE2). destruct (Hf _ _ _ _ _ Hv Hn1 Hn2) as [-> ->]. assert (Z.of_nat (length l1) = Z.of_nat (length l2)) as HL' by (cbn [length] in HL; lia). by destruct (IH l2 n1 HL' HE1 HE2) as [-> ->].
  Qed.
End both.

Lemma Forall2_fun {A B} (P : A -> B -> Prop) l vs ws : (forall x v w, P x v -> P x w -> v = w) -> Forall2 P l vs -> Forall2 P l ws -> vs = ws.
Proof. intros HP H. revert ws. induction H as [|x v l vs Hx _ IH]; intros ws H2; inversion H2; [done|]. subst. f_equal; [by eapply HP|by apply IH]. Qed.
Lemma good_enum_names e c d : good_enum e -> c ∈ e_variants e -> d ∈ e_variants e -> ev_name c = ev_name d -> c = d.
Proof.
  intros (vs & r & _ & Hnd & _ & ->). cbn [e_variants]. intros (i & u & -> & Hi)%elem_of_lookup_imap (j & w & -> & Hj)%elem_of_lookup_imap. cbn. intros ->. by rewrite (NoDup_lookup _ _ _ _ Hnd Hi Hj).
Qed.
Lemma stands_fun str_ok t : forall tn x v w, fair_type t -> stands str_ok t tn x v -> stands str_ok t tn x w -> v = w.
Proof.
  induction t as [b|e|fs IH] using rtype_ind'; intros tn x v w Hk Hv Hw.
  - cbn [stands] in *. destruct (builtin_kind b); naive_solver.
  - destruct Hk as [He _]. destruct Hv as (y1 & H1 & -> & ->), Hw as (y2 & H2 & [= E] & ->). by rewrite (good_enum_names e y1 y2 He H1 H2 E).
  - pose proof (fun f Hf => fair_field fs f Hk Hf) as Hkf. clear Hk. apply stands_struct in Hv as (xs & vs & -> & -> & Hv). apply stands_struct in Hw as (xs' & ws & [= <-] & -> & Hw). f_equal.
    revert xs vs ws Hv Hw. induction IH as [|f fs Hf _ IH]; intros [|[g x] xs] [|[h v] vs] [|[h' w] ws] Hv Hw; try done. destruct Hv as [(E1 & E2 & Hv1) Hv], Hw as [(E3 & E4 & Hw1) Hw]. cbn [fst snd] in *.
    subst h h'. destruct (Hkf f ltac:(by left)) as [Hft _]. specialize (fun x v w => Hf (f_tname f) x v w Hft).
    f_equal; [|by eapply IH; [intros; apply Hkf; by right|..]]. f_equal. clear Hv Hw IH.
    assert (forall x v w, stands_items (f_array f) (stands str_ok (f_ty f) (f_tname f)) x v -> stands_items (f_array f) (stands str_ok (f_ty f) (f_tname f)) x w -> v = w) as HI.
    { unfold stands_items. destruct (f_array f); [|done]. intros x' v' w' (l & l1 & -> & -> & _ & H1) (l' & l2 & [= <-] & -> & _ & H2). f_equal. by eapply Forall2_fun. }
    unfold stands_wrapped in *. destruct (f_opt f); [|by eapply HI]. destruct Hv1 as [[-> ->]|(y & -> & Hv1)], Hw1 as [[E ->]|(y' & E & Hw1)]; simplify_eq; [done|by eapply HI].
Qed.

Lemma both_interoperate a rt lib rt_str str_ok both : rt_ok rt rt_str -> rs_lib_ok lib str_ok -> same_format rt lib both -> (forall s, both s -> str_ok s) ->
  small_enums a -> rust_names a -> for_both a (fun k m t => names_fine a k -> exists d, default_value (rm_items m) (rm_type m) = Some d /\
  forall v x h this, stands str_ok t (rm_type m) x v -> strings_in both v -> rep h this v ->
    exists bytes M, writes rt k h this (Done (bytes, M)) /\ rs_write lib m x = Some bytes /\ forall rest h',
      (exists l M, reads rt k h' (bytes ++ rest) (Done (JLoc l, M)) /\ rep (m_heap M) (JLoc l) v /\ r_rest (m_rd M) = rest) /\
      (exists i, rs_read lib m d (bytes ++ rest) = Good x i /\ ri_bytes i = rest)).
Proof.
  intros Hrt Hlib Hsf Hboth Hs Hrn. apply for_both_intro. intros iter r titer Hf Hn Hr Ht Hk. eexists. split; [by eapply module_default|]. intros v x h this Hx Hb Hrep.
  pose proof (export_fair _ _ _ Hf Hn Hr _ Ht Hrn) as Hft. pose proof (fun rest => packet_wire lib str_ok Hlib _ _ _ _ rest Hft Hx) as Hp.
  destruct (packet_accepts rt lib str_ok both Hsf _ _ _ _ Hft Hb (Hp [])) as [_ Hv].
  destruct (writes_wire rt _ _ _ Hf Hn Hr (nf_ready _ _ Hk) v h this (any_typed _ _ _ _ Hv) Hrep) as (M & Hw & _).
  rewrite (wire_same rt lib str_ok both Hsf _ _ _ _ Hft Hx Hb) in Hw. eexists _, M. split; [exact Hw|]. split; [by eapply module_writes|]. intros rest h'. split; [|by eapply module_round_trip].
  destruct (packet_accepts rt lib str_ok both Hsf _ _ _ _ Hft Hb (Hp rest)) as [Ha _].
  destruct (reads_decided a rt rt_str Hrt Hs iter r Hf Hn Hr Hk h' (wire (lb_enc lib) (lb_encs lib) (TStruct (x_fields (r_export r))) v ++ rest)) as [(v' & rest' & l & M' & Ha' & H1 & H2 & H3 & Hu)|[Hno _]];
    [|by destruct (Hno _ _ Ha)]. destruct (Hu _ _ Ha) as [-> ->]. by exists l, M'.
Qed.
Lemma both_included a rt lib rt_str str_ok both : rt_ok rt rt_str -> rs_lib_ok lib str_ok -> same_format rt lib both -> (forall s, both s -> str_ok s) ->
  small_enums a -> rust_names a -> for_both a (fun k m t => names_fine a k -> exists d, default_value (rm_items m) (rm_type m) = Some d /\
  forall h data x v i, rs_read lib m d data = Good x i -> stands str_ok t (rm_type m) x v -> strings_in both v ->
    exists l M, reads rt k h data (Done (JLoc l, M)) /\ rep (m_heap M) (JLoc l) v /\ r_rest (m_rd M) = ri_bytes i).
Proof.
  intros Hrt Hlib Hsf Hboth Hs Hrn. apply for_both_intro. intros iter r titer Hf Hn Hr Ht Hk. eexists. split; [by eapply module_default|]. intros h data x v i Hx Hxv Hb.
  pose proof (export_fair _ _ _ Hf Hn Hr _ Ht Hrn) as Hft.
  destruct (module_decides _ _ _ Hf Hn Hr _ Ht Hrn lib str_ok Hlib data Hs) as [(y & w & j & Hy & Hyw & Hp)|(j & Hj & _)]; [|by rewrite Hx in Hj]. rewrite Hx in Hy. injection Hy as <- <-.
  assert (w = v) as -> by (by eapply stands_fun).
  destruct (packet_accepts rt lib str_ok both Hsf _ _ _ _ Hft Hb Hp) as [Ha _].
  destruct (reads_decided a rt rt_str Hrt Hs iter r Hf Hn Hr Hk h data) as [(v' & rest' & l & M' & Ha' & H1 & H2 & H3 & Hu)|[Hno _]];
    [|by destruct (Hno _ _ Ha)]. destruct (Hu _ _ Ha) as [-> ->]. by exists l, M'.
Qed.
Lemma both_decided a rt lib rt_str str_ok both : rt_ok rt rt_str -> exact_strings rt -> rs_lib_ok lib str_ok -> same_format rt lib both -> (forall s, both s -> str_ok s) ->
  small_enums a -> rust_names a -> for_both a (fun k m t => names_fine a k -> exists d, default_value (rm_items m) (rm_type m) = Some d /\
  forall h data v rest, accepts rt t v data rest -> strings_in both v ->
    (exists l M, reads rt k h data (Done (JLoc l, M)) /\ rep (m_heap M) (JLoc l) v /\ r_rest (m_rd M) = rest) /\
    ((shape is_variant any_string t v /\ exists x i, rs_read lib m d data = Good x i /\ stands str_ok t (rm_type m) x v /\ ri_bytes i = rest) \/
     (~ shape is_variant any_string t v /\ exists i, rs_read lib m d data = Bad i))).
Proof.
  intros Hrt Hex Hlib Hsf Hboth Hs Hrn. apply for_both_intro. intros iter r titer Hf Hn Hr Ht Hk. eexists. split; [by eapply module_default|]. intros h data v rest Ha Hb.
  pose proof (export_fair _ _ _ Hf Hn Hr _ Ht Hrn) as Hft. split.
  { destruct (reads_decided a rt rt_str Hrt Hs iter r Hf Hn Hr Hk h data) as [(v' & rest' & l & M' & Ha' & H1 & H2 & H3 & Hu)|[Hno _]];
      [|by destruct (Hno _ _ Ha)]. destruct (Hu _ _ Ha) as [-> ->]. by exists l, M'. }
  destruct (module_decides _ _ _ Hf Hn Hr _ Ht Hrn lib str_ok Hlib data Hs) as [(x & w & i & Hx & Hxw & Hp)|(i & Hi & Hno)].
  - left. destruct (packets_agree rt lib str_ok both Hlib Hsf Hboth Hex _ _ _ _ _ _ Hft Hb Ha Hp) as [-> E].
    destruct (packet_accepts rt lib str_ok both Hsf _ _ _ _ Hft Hb Hp) as [_ Hv]. split; [exact Hv|]. exists x, i. done.
  - right. split; [|by exists i]. intros Hv. eapply Hno. by eapply (accepts_packet rt lib str_ok both).
Qed.
