(** Schemas, values and packets that witness or refute the statements of PropRust3.v. *)
From Verif Require Export RsWitness EvolveWitness RsEvolve.
Export RsSem RsRun RsRun2 RsRun3 RsRun4.

Lemma mark_rust : rust_names mark_old /\ rust_names mark_new.
Proof. split; solve_rust. Qed.
Lemma msg_rust : rust_names msg_old /\ rust_names msg_long /\ rust_names msg_wide /\ rust_names (rename swap_names my_fields msg_long).
Proof.
  split; [solve_rust|]. split; [solve_rust|]. split; [solve_rust|].
  change (rename swap_names my_fields msg_long) with [NDecl "Msg" (AEnum ["Ping"; "Pong"]);
    NDecl "Kind" (AStruct [("mkind", plain "Msg"); ("mtext", plain "string"); ("mtags", arr "uint16"); ("mnext", opt "Msg")]); NExport "Kind"]. solve_rust.
Qed.
Lemma utf8_empty : utf8_str [].
Proof. split; [exact latin1_empty|done]. Qed.

(** ** runs of the emitted code *)
Definition rs_of (a : ast) : option rs_module :=
  match (do r <- type_check iter_fwd a; rs_generate "0" "now" types_fwd r) with Ok t => read_rs t | _ => None end.
Definition rs_sent (a : ast) (x : rval) : option (list byte) := match rs_of a with Some m => rs_write utf8_rs m x | None => None end.
Definition rs_received (a : ast) (data : list byte) : option (option rval) :=
  match rs_of a with
  | Some m => match default_value (rm_items m) (rm_type m) with
              | Some d => match rs_read utf8_rs m d data with Good x _ => Some (Some x) | Bad _ => Some None | Ill => None end
              | None => None
              end
  | None => None
  end.
Definition short_rval (kind : string) : rval := RRec [("kind", RVariant "Kind" kind); ("text", RStr [104]%Z)].
Definition long_rval : rval := RRec [("kind", RVariant "Kind" "Pong"); ("text", RStr [104]%Z); ("tags", RVec [rnum 513]); ("next", ROpt None)].
Lemma rs_long_run : exists bytes, rs_sent msg_long long_rval = Some bytes /\ rs_received msg_old bytes = Some (Some (short_rval "Pong")) /\
  rs_sent msg_old (short_rval "Pong") = Some (take 6 bytes) /\ rs_received msg_long (take 6 bytes) = Some None.
Proof. eexists. split; [vm_compute; reflexivity|]. split; [|split]; by vm_compute. Qed.
Lemma rs_wide_run : (exists bytes, rs_sent msg_wide (short_rval "Quit") = Some bytes /\ rs_received msg_wide bytes = Some (Some (short_rval "Quit")) /\ rs_received msg_old bytes = Some None) /\
  (exists bytes, rs_sent msg_wide (short_rval "Pong") = Some bytes /\ rs_received msg_old bytes = Some (Some (short_rval "Pong"))).
Proof. split; eexists; (split; [vm_compute; reflexivity|]); [split|]; by vm_compute. Qed.
Lemma rs_swap_run : exists bytes, rs_sent msg_long long_rval = Some bytes /\
  rs_sent (rename swap_names my_fields msg_long) (RRec [("mkind", RVariant "Msg" "Pong"); ("mtext", RStr [104]%Z); ("mtags", RVec [rnum 513]); ("mnext", ROpt None)]) = Some bytes.
Proof. eexists. split; vm_compute; reflexivity. Qed.

(** ** the ninth variant *)
Lemma tiny_rust : rust_names (tiny_schema eight) /\ rust_names (tiny_schema (eight ++ ["I"])).
Proof. split; [solve_rust|]. change (eight ++ ["I"]) with ["A"; "B"; "C"; "D"; "E"; "F"; "G"; "H"; "I"]. solve_rust. Qed.
Lemma rust_ninth_refuted : usable (tiny_schema eight) /\ usable (tiny_schema (eight ++ ["I"])) /\ forall lib str_ok, rs_lib_ok lib str_ok ->
  for_rusts (tiny_schema eight) (tiny_schema (eight ++ ["I"])) (fun m1 t1 m2 t2 => exists d, default_value (rm_items m2) (rm_type m2) = Some d /\
    forall x, typed str_ok t1 (rm_type m1) x -> typed str_ok t2 (rm_type m2) x /\ exists bytes i, rs_write lib m1 x = Some bytes /\ rs_read lib m2 d bytes = Bad i).
Proof.
  destruct ninth_refuted as (H1 & H2 & _). destruct tiny_rust as [Hrn1 Hrn2]. split; [done|]. split; [done|]. intros lib str_ok Hlib.
  assert (export_of (tiny_schema eight) = Ok (tiny_export U8 eight)) as E1 by by vm_compute.
  assert (export_of (tiny_schema (eight ++ ["I"])) = Ok (tiny_export U16 (eight ++ ["I"]))) as E2 by by vm_compute.
  eapply for_rust_fixed; [exact E1|apply H1|]. intros iter1 r1 titer1 Hf1 Hn1 Hr1 Ht1 Ex1.
  eapply for_rust_fixed; [exact E2|apply H2|]. intros iter2 r2 titer2 Hf2 Hn2 Hr2 Ht2 Ex2.
  eexists. split; [exact (module_default _ _ _ Hf2 Hn2 Hr2 _ Ht2 Hrn2)|]. cbn [rs_module_of rm_type]. intros x [v Hv]. rewrite <- Ex1 in Hv.
  pose proof (module_writes _ _ _ Hf1 Hn1 Hr1 _ Ht1 Hrn1 lib str_ok _ _ Hv) as Hw. rewrite Ex1 in Hv, Hw.
  apply stands_struct in Hv as (xs & vs & -> & -> & Hv). destruct (stands_fields_length _ _ _ _ Hv) as [HL1 HL2].
  destruct xs as [|[g x] [|]]; [discriminate| |discriminate]. destruct vs as [|[h v] [|]]; [discriminate| |discriminate].
  destruct Hv as [(Eg & Eh & Hv) _]. cbn [fst f_name] in Eg, Eh. subst g h. cbn [snd] in Hv. destruct Hv as (y & Hy & -> & ->). split.
  - rewrite Ex2. eexists (VRec [("kind", _)]). apply stands_struct. eexists _, [("kind", _)]. split; [reflexivity|]. split; [reflexivity|]. split; [|exact I]. split; [done|]. split; [done|]. cbn [snd]. exists y. split; [|split; reflexivity].
    cbn [f_ty e_variants] in Hy |- *. rewrite imap_app. apply elem_of_app. by left.
  - eexists _, _. split; [exact Hw|]. rewrite (fresh_reads _ _ _ Hf2 Hn2 Hr2 _ Ht2 Hrn2), Ex2.
    cbn [tiny_export x_fields dflt List.map f_name f_array f_opt f_ty f_tname dflt_wrapped]. rewrite into_struct. cbn [into_fields]. unfold into_field, into_wrapped. cbn [f_array f_opt f_ty f_tname into e_repr repr_kind].
    unfold take_num. cbn [ri_bytes ri_calls ri_room]. rewrite (lk_short _ _ Hlib); [reflexivity|]. cbn [wire wire_wrapped f_array f_opt f_ty]. cbn. rewrite app_nil_r, (lk_width _ _ Hlib). cbn. lia.
Qed.

(** ** separate runs *)
Lemma order_rust : rust_names order_schema.
Proof. solve_rust. Qed.
Local Ltac rec := eexists _, _; split; [reflexivity|]; split; [reflexivity|].
Local Ltac fld := split; [reflexivity|]; split; [reflexivity|]; split.
Local Ltac int := eexists; split; [reflexivity|]; split; [reflexivity|]; cbn; lia.
Lemma languages_differ : exists a iter1 iter2, accepted a /\ plain_names a /\ rust_names a /\ small_enums a /\ fair_order iter1 /\ fair_order iter2 /\
  forall rt rt_str lib str_ok both, rt_ok rt rt_str -> rs_lib_ok lib str_ok -> same_format rt lib both -> for_apart iter1 iter2 a (fun k t1 m t2 =>
    exists d v h this bytes M y i, default_value (rm_items m) (rm_type m) = Some d /\ has_type rt_str t1 v /\ rep h this v /\
      writes rt k h this (Done (bytes, M)) /\ get_prop h this "x" = Done (JNum (NInt 2)) /\
      rs_read lib m d bytes = Good (RRec [("x", RNum (NInt 1)); ("b", y)]) i /\ ri_bytes i = []).
Proof.
  destruct two_exports as (i1 & i2 & Hf1 & Hf2 & Hx1 & Hx2).
  exists order_schema, i1, i2. assert (accepted order_schema) as Hacc by (apply accepted_fwd; [solve_legal|apply okb_ok; by vm_compute]).
  split; [done|]. assert (plain_names order_schema) as Hp by solve_plain. split; [done|]. split; [exact order_rust|]. assert (small_enums order_schema) as Hs by decl_cases.
  split; [done|]. split; [done|]. split; [done|]. intros rt rt_str lib str_ok both Hrt Hlib Hsf. apply for_apart_intro; [done..|]. intros r1 r2 titer Hn Hr1 Hr2 Ht.
  apply rbind_ok in Hx1 as (r1' & Hr1' & [= E1]). apply rbind_ok in Hx2 as (r2' & Hr2' & [= E2]).
  rewrite Hr1 in Hr1'. injection Hr1' as <-. rewrite Hr2 in Hr2'. injection Hr2' as <-.
  pose proof (plain_fine _ _ _ Hf1 order_names Hr1 Hp) as Hk1.
  assert (has_type rt_str (TStruct (x_fields (r_export r1))) order_value) as Hv.
  { rewrite E1. eexists. split; [done|]. split; [done|]. split; [right|split; [done|]; split; [right; eexists; split; [done|cbn; lia]|done]].
    eexists. split; [done|]. split; [done|]. split; [right|done]. eexists. split; [done|]. split; [done|]. split; [right|done]. eexists. split; [done|cbn; lia]. }
  destruct (writes_wire rt _ _ _ Hf1 order_names Hr1 (nf_ready _ _ Hk1) _ _ _ (any_typed _ _ _ _ Hv) order_rep) as (M & Hw & _).
  assert (wire (rt_enc rt) (rt_encs rt) (TStruct (x_fields (r_export r1))) order_value = lb_enc lib KU8 (NInt 1) ++ lb_enc lib KU8 (NInt 2)) as Ew.
  { rewrite E1. cbn. rewrite !app_nil_r. by rewrite !(sf_enc _ _ _ Hsf) by (cbn; lia). }
  rewrite Ew in Hw.
  set (ov := VRec [("x", VNum (NInt 1)); ("b", VRec [("c", VRec [("v", VNum (NInt 2))])])]).
  set (y := RRec [("c", RRec [("v", RNum (NInt 2))])]).
  assert (stands str_ok (TStruct (x_fields (r_export r2))) (x_name (r_export r2)) (RRec [("x", RNum (NInt 1)); ("b", y)]) ov) as Hs2.
  { rewrite E2. rec. fld; [int|]. fld; [|exact I]. rec. fld; [|exact I]. rec. fld; [int|]. exact I. }
  destruct (module_round_trip _ _ _ Hf2 Hn Hr2 _ Ht order_rust lib str_ok Hlib _ _ [] Hs Hs2) as (i & Hi & Hi').
  assert (wire (lb_enc lib) (lb_encs lib) (TStruct (x_fields (r_export r2))) ov = lb_enc lib KU8 (NInt 1) ++ lb_enc lib KU8 (NInt 2)) as Ew2.
  { rewrite E2. cbn. by rewrite !app_nil_r. }
  rewrite Ew2, app_nil_r in Hi.
  eexists _, order_value, order_heap, (JLoc 0), _, M, y, i. split; [exact (module_default _ _ _ Hf2 Hn Hr2 _ Ht order_rust)|]. split; [done|]. split; [apply order_rep|].
  split; [exact Hw|]. split; [done|]. split; [exact Hi|done].
Qed.
Lemma demo_apart : all_fixed demo_schema /\ rust_names demo_schema /\ small_enums demo_schema /\ same_format utf8_lib utf8_rs ascii_ok /\ fair_order iter_fwd /\ fair_order iter_rev /\
  is_ok (type_check iter_rev demo_schema).
Proof.
  split; [apply demo_facts|]. split; [exact demo_rust|]. split; [apply demo_facts|]. split; [exact utf8_format|]. split; [apply fair_fwd|]. split; [apply fair_rev|]. apply okb_ok. by vm_compute.
Qed.
