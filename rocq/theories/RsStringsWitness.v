(** Libraries and schemas that meet the hypotheses of PropRsStrings.v. *)
From Verif Require Export RsStrings RsRunsWitness NeedsWitness.

Definition utf8_conv (s : list Z) : list Z := utf8_dec (latin1_encs s).
Lemma utf8_decodes : decodes utf8_lib utf8_rs utf8_str utf8_conv.
Proof.
  intros s rest _. cbn [utf8_lib utf8_rs rt_rds lb_encs]. unfold utf8_rds. assert (length (latin1_encs s) = length s) as HL by apply map_length.
  rewrite app_length, HL. cbn [orb]. destruct (Z.ltb_spec (Z.of_nat (length s + length rest)) (Z.of_nat (length s))); [lia|].
  rewrite Nat2Z.id, <- HL, take_app, drop_app. done.
Qed.
Lemma accent_unread : undecodable utf8_lib utf8_rs [233%Z].
Proof. split; [done|]. intros rest. cbn [utf8_lib utf8_rs lb_rds rt_encs]. by destruct (_ <? _)%Z. Qed.
Lemma string_examples : (rt_ok utf8_lib ascii_ok /\ rs_lib_ok utf8_rs utf8_str /\ same_format utf8_lib utf8_rs ascii_ok /\ (forall s, ascii_ok s -> utf8_str s) /\ ascii_ok [] /\ utf8_str []) /\
  (decodes utf8_lib utf8_rs utf8_str utf8_conv /\ utf8_str [195; 169]%Z /\ utf8_conv [195; 169]%Z = [233]%Z) /\
  undecodable utf8_lib utf8_rs [233%Z] /\
  (accepted deep_schema /\ small_enums deep_schema /\ rust_names deep_schema /\ exports deep_schema = ["P"] /\ needs_string deep_schema "P") /\
  (accepted order_schema /\ small_enums order_schema /\ rust_names order_schema /\ exports order_schema = ["A"] /\ ~ needs_string order_schema "A").
Proof.
  split; [split; [exact utf8_rt_ok|]; split; [exact utf8_rs_ok|]; split; [exact utf8_format|]; split; [exact ascii_utf8|]; split; [constructor|by split; [constructor|]]|].
  split; [split; [exact utf8_decodes|]; split; [|by vm_compute]; split; [repeat constructor; lia|by vm_compute]|]. split; [exact accent_unread|]. destruct order_varied as (H1 & H2 & H3 & H4). split.
  - split; [apply deep_facts|]. split; [apply deep_facts|]. split; [apply deep_facts|]. split; apply deep_needs.
  - split; [done|]. split; [done|]. split; [exact order_rust|]. split; apply order_without.
Qed.
