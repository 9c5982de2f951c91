(** Concrete packets for [accepts]. *)
From Coq Require Import String.
From Verif Require Export AcceptProofs WireWitness.

Lemma export_accepts a x rt str_ok : rt_ok rt str_ok -> small_enums a -> no_builtin_decl a -> export_of a = Ok x -> forall v data rest,
  accepts rt (TStruct (x_fields x)) v data rest <-> exists c, dec rt (TStruct (x_fields x)) (RState data false 0) = (v, RState rest false c).
Proof. intros Hrt Hs Hn (r & Hr & [= <-])%rbind_ok v data rest. by eapply (export_taken a rt str_ok Hrt Hs _ r fair_fwd). Qed.

(** the demo packet with something behind it, and the same packet with the flag 4 that is no variant *)
Lemma demo_accepts : let t := TStruct (x_fields demo_export) in accepts latin1 t demo_value (demo_bytes ++ ["x"%char]) ["x"%char] /\
  forall v rest, ~ accepts latin1 t v (take 2 demo_bytes ++ [ascii_of_N 4] ++ drop 3 demo_bytes) rest.
Proof.
  cbn zeta. assert (small_enums demo_schema) as Hs by apply demo_facts. assert (no_builtin_decl demo_schema) as Hn by (apply legal_no_builtin, demo_facts).
  pose proof (export_accepts demo_schema demo_export latin1 latin1_ok latin1_rt_ok Hs Hn ltac:(by vm_compute)) as H. split.
  - apply H. eexists. vm_compute. reflexivity.
  - intros v rest [c Hc]%H. revert Hc. vm_compute. discriminate.
Qed.
Lemma flag_accepts : let t := TStruct (x_fields flag_export) in let v := VRec [("x", VNum (NInt 7))] in
  accepts latin1 t v [ascii_of_N 9; ascii_of_N 7] [] /\ wire (rt_enc latin1) (rt_encs latin1) t v = [ascii_of_N 1; ascii_of_N 7] /\
  flag_apart latin1 (ascii_of_N 9) (ascii_of_N 1) /\ ~ flag_apart latin1 (ascii_of_N 0) (ascii_of_N 1) /\ ~ flag_apart latin1 (ascii_of_N 9) (ascii_of_N 7).
Proof.
  cbn zeta. split; [|split; [by vm_compute|split; [|split]]].
  - cbn [flag_export x_fields accepts f_array f_opt f_ty f_name accepts_wrapped accepts_items builtin_kind]. eexists. split; [done|]. split; [done|]. exists []. split; [|done]. right.
    exists 9%Z, [ascii_of_N 7]. split; [done|]. split; [split; [cbn; lia|by vm_compute]|]. exists (NInt 7). split; [done|]. split; [cbn; lia|by vm_compute].
  - right. split; [by vm_compute|]. exists 9%Z. split; [lia|by vm_compute].
  - intros [H|[_ (z & Hz & H)]]; [done|]. pose proof (rd_enc _ _ latin1_rt_ok KU8 (NInt z) [] ltac:(cbn; lia)) as E. rewrite <- H in E. vm_compute in E. injection E as <-. lia.
  - intros [H|[H _]]; [done|]. vm_compute in H. discriminate.
Qed.
Lemma flag_no_float : no_float flag_schema /\ no_arrays flag_schema /\ most_calls (TStruct (x_fields flag_export)) = 2.
Proof.
  assert (forall n fs, declares_struct flag_schema n fs -> Forall (fun d => u_name d.2 ≠ "float" /\ u_array d.2 = false) fs) as H.
  { decl_cases; repeat (apply Forall_cons; split; [by split|]); apply Forall_nil; exact I. }
  split; [|split; [|done]]; intros n fs f u Hd Hin; specialize (H n fs Hd); rewrite Forall_forall in H; by apply (H (f, u)).
Qed.
