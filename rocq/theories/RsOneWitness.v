(** Witnesses for C98 and C99. *)
From Verif Require Export RsEvolveWitness RsOne AcceptWitness.
Export RsSem.

Lemma flag_rust : rust_names flag_schema /\ small_enums flag_schema.
Proof. split; [solve_rust|decl_cases]. Qed.
Lemma rust_two_encodings lib str_ok : rs_lib_ok lib str_ok -> accepted flag_schema /\ for_rust flag_schema (fun m t => exists d, default_value (rm_items m) (rm_type m) = Some d /\
  exists bytes, rs_write lib m (RRec [("x", ROpt (Some (RNum (NInt 7))))]) = Some bytes /\
    exists data i, rs_read lib m d data = Good (RRec [("x", ROpt (Some (RNum (NInt 7))))]) i /\ ri_bytes i = [] /\ data ≠ bytes).
Proof.
  intros Hlib. destruct flag_facts as (Hn & Hx & Hp & Hfix). destruct flag_rust as [Hrn Hs]. split; [by eapply accepted_export|]. eapply for_rust_fixed; [done..|].
  intros iter r titer Hf Hnb Hr Ht E. eexists. split; [by eapply module_default|].
  set (x := RRec [("x", ROpt (Some (RNum (NInt 7))))]). set (v := VRec [("x", VNum (NInt 7))]).
  assert (stands str_ok (TStruct (x_fields (r_export r))) (x_name (r_export r)) x v) as Hv.
  { rewrite E. eexists _, _. split; [done|]. split; [done|]. split; [done|]. split; [done|]. split; [|done]. right. eexists. split; [done|]. eexists. split; [done|]. split; [done|]. cbn. lia. }
  eexists. split; [by eapply module_writes|].
  set (data := lb_enc lib KU8 (NInt 2) ++ lb_enc lib KU8 (NInt 7)). exists data.
  assert (packet lib str_ok (TStruct (x_fields (r_export r))) v data []) as Hpk.
  { rewrite E. eexists. split; [done|]. split; [done|]. eexists. split; [|reflexivity]. right. exists 2%Z, (lb_enc lib KU8 (NInt 7)). split; [done|].
    split; [split; [cbn; lia|done]|]. eexists. split; [done|]. split; [cbn; lia|]. by rewrite app_nil_r. }
  destruct (module_takes _ _ _ Hf Hnb Hr _ Ht Hrn lib str_ok Hlib _ _ _ Hs Hpk) as (y & i & H1 & H2 & H3).
  rewrite (stands_inj str_ok _ _ y x v (export_fair _ _ _ Hf Hnb Hr _ Ht Hrn) H2 Hv) in H1. exists i. split; [done|]. split; [done|].
  rewrite E. cbn. rewrite app_nil_r. subst data. intros Eb. apply app_inj_1 in Eb as [Eb _]; [|by rewrite !(lk_width _ _ Hlib)].
  pose proof (lk_enc _ _ Hlib KU8 (NInt 1) [] ltac:(cbn; lia)) as R1. pose proof (lk_enc _ _ Hlib KU8 (NInt 2) [] ltac:(cbn; lia)) as R2. rewrite Eb, R1 in R2. by injection R2.
Qed.
Lemma demo_size : stands utf8_str (TStruct (x_fields demo_export)) "Outer" demo_rval demo_value /\ byte_size (lb_encs utf8_rs) (TStruct (x_fields demo_export)) demo_value = 32.
Proof. split; [exact demo_stands|by vm_compute]. Qed.
Lemma rust_flag_apart : no_float flag_schema /\ small_enums flag_schema /\ rust_names flag_schema /\
  rs_flag_apart utf8_rs (ascii_of_N 9) (ascii_of_N 1) /\ ~ rs_flag_apart utf8_rs (ascii_of_N 0) (ascii_of_N 1) /\ ~ rs_flag_apart utf8_rs (ascii_of_N 9) (ascii_of_N 7).
Proof.
  split; [apply flag_no_float|]. split; [apply flag_rust|]. split; [apply flag_rust|]. split; [|split].
  - right. split; [by vm_compute|]. exists 9%Z. split; [lia|by vm_compute].
  - intros [H|(_ & z & Hz & H)]; [by vm_compute in H|].
    pose proof (lk_enc _ _ utf8_rs_ok KU8 (NInt z) [] ltac:(cbn; lia)) as R1. rewrite <- H in R1. vm_compute in R1. injection R1 as <-. lia.
  - intros [H|(H & _)]; by vm_compute in H.
Qed.
Lemma order_one : accepted order_schema /\ small_enums order_schema /\ rust_names order_schema /\ no_opt_float order_schema.
Proof.
  split; [apply accepted_fwd; [solve_legal|apply okb_ok; by vm_compute]|]. split; [decl_cases|]. split; [exact order_rust|].
  assert (forall n fs, declares_struct order_schema n fs -> Forall (fun d => u_opt d.2 = false /\ u_name d.2 ≠ "float") fs) as H.
  { decl_cases; repeat (apply Forall_cons; split; [by split|]); apply Forall_nil; exact I. }
  intros n fs f u Hd Hin. specialize (H n fs Hd). rewrite Forall_forall in H. by apply (H (f, u)).
Qed.
