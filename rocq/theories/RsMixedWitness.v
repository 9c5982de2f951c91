(** Runs and libraries that witness the statements of PropRust4.v. *)
From Verif Require Export RsEvolveWitness RsMixed.
Export RsSem RsRun RsRun2 RsRun3 RsRun4.

Lemma ascii_latin1 s : ascii_ok s -> latin1_ok s.
Proof. intros H. eapply Forall_impl; [exact H|]. cbn. intros c Hc. lia. Qed.
Lemma mixed_libs : rt_ok latin1 latin1_ok /\ rs_lib_ok utf8_rs utf8_str /\ same_format latin1 utf8_rs ascii_ok /\ (forall s, ascii_ok s -> latin1_ok s) /\ (forall s, ascii_ok s -> utf8_str s) /\ ascii_ok [].
Proof.
  split; [exact latin1_rt_ok|]. split; [exact utf8_rs_ok|]. split; [exact latin1_format|]. split; [exact ascii_latin1|]. split; [exact ascii_utf8|]. apply Forall_nil_2.
Qed.
Lemma mixed_long_run : exists bytes, sent msg_long long_heap = Some bytes /\ rs_sent msg_long long_rval = Some bytes /\
  received msg_old bytes = Some (Some ["kind"; "text"]) /\ rs_received msg_old bytes = Some (Some (short_rval "Pong")) /\
  sent msg_old (wide_heap 2) = Some (take 6 bytes) /\ rs_sent msg_old (short_rval "Pong") = Some (take 6 bytes) /\
  received msg_long (take 6 bytes) = Some None /\ rs_received msg_long (take 6 bytes) = Some None.
Proof. eexists. split; [vm_compute; reflexivity|]. repeat (split; [by vm_compute|]). by vm_compute. Qed.
Lemma mixed_wide_run : (exists bytes, sent msg_wide (wide_heap 4) = Some bytes /\ rs_sent msg_wide (short_rval "Quit") = Some bytes /\
    received msg_old bytes = Some None /\ rs_received msg_old bytes = Some None) /\
  (exists bytes, sent msg_wide (wide_heap 2) = Some bytes /\ rs_sent msg_wide (short_rval "Pong") = Some bytes /\
    received msg_old bytes = Some (Some ["kind"; "text"]) /\ rs_received msg_old bytes = Some (Some (short_rval "Pong"))).
Proof. split; (eexists; split; [vm_compute; reflexivity|]; repeat (split; [by vm_compute|]); by vm_compute). Qed.
