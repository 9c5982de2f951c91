(** Schemas, values and packets that witness or refute the statements of PropRust.v. *)
From Verif Require Export RsClaims2 WireWitness.
Export RsSem RsRun RsRun2 RsRun3 RsRun4.

Lemma for_rust_fixed a x (P : rs_module -> rtype -> Prop) : export_of a = Ok x -> all_fixed a ->
  (forall iter r titer, fair_order iter -> no_builtin_decl a -> type_check iter a = Ok r -> fair_types titer -> r_export r = x -> P (rs_module_of titer r) (TStruct (x_fields x))) -> for_rust a P.
Proof.
  intros (r0 & Hr0 & [= <-])%rbind_ok Hfix HP. apply for_rust_intro. intros iter r titer Hf Hn Hr Ht. pose proof (fixed_same_code _ _ _ _ _ Hf fair_fwd Hn Hr Hr0 Hfix) as E.
  specialize (HP _ _ _ Hf Hn Hr Ht E). by rewrite <- E in HP.
Qed.
Lemma for_both_fixed a x (P : cls -> rs_module -> rtype -> Prop) : export_of a = Ok x -> all_fixed a ->
  (forall iter r titer, fair_order iter -> no_builtin_decl a -> type_check iter a = Ok r -> fair_types titer -> r_export r = x -> P (class_of x) (rs_module_of titer r) (TStruct (x_fields x))) -> for_both a P.
Proof.
  intros (r0 & Hr0 & [= <-])%rbind_ok Hfix HP. apply for_both_intro. intros iter r titer Hf Hn Hr Ht. pose proof (fixed_same_code _ _ _ _ _ Hf fair_fwd Hn Hr Hr0 Hfix) as E.
  specialize (HP _ _ _ Hf Hn Hr Ht E). by rewrite <- E in HP.
Qed.
Ltac solve_rust := constructor; [decl_cases; solve_names|let n := fresh in let H := fresh in intros n H;
  repeat (apply elem_of_cons in H as [->|H]; [solve_names|]); by apply elem_of_nil in H].

(** ** C85: what is read depends on the value that is read into *)
Lemma array_rust : rust_names array_schema /\ small_enums array_schema.
Proof. split; [solve_rust|decl_cases]. Qed.
Lemma flag_rust : rust_names flag_schema /\ small_enums flag_schema.
Proof. split; [solve_rust|decl_cases]. Qed.
Lemma doubled lib str_ok : rs_lib_ok lib str_ok -> accepted array_schema /\ for_rust array_schema (fun m t => forall l, typed str_ok t (rm_type m) (RRec [("xs", RVec l)]) ->
  exists bytes i, rs_write lib m (RRec [("xs", RVec l)]) = Some bytes /\ rs_read lib m (RRec [("xs", RVec l)]) bytes = Good (RRec [("xs", RVec (l ++ l))]) i).
Proof.
  intros Hlib. destruct array_facts as (Hn & Hx & Hp & Hfix). destruct array_rust as [Hrn Hs]. split; [by eapply accepted_export|]. eapply for_rust_fixed; [done..|].
  intros iter r titer Hf Hnb Hr Ht E l [v Hv]. cbn [rs_module_of rm_type] in Hv. rewrite <- E in Hv.
  destruct (module_round_trip _ _ _ Hf Hnb Hr _ Ht Hrn lib str_ok Hlib _ _ [] Hs Hv) as (i & Hi & _). rewrite app_nil_r in Hi.
  eexists _, i. split; [by eapply module_writes|]. rewrite (module_onto _ _ _ Hf Hnb Hr _ Ht Hrn lib str_ok) by (by eexists). rewrite Hi. by rewrite E.
Qed.
Lemma kept lib str_ok : rs_lib_ok lib str_ok -> accepted flag_schema /\ for_rust flag_schema (fun m t => forall n, in_kind KU8 n ->
  exists bytes i, rs_write lib m (RRec [("x", ROpt None)]) = Some bytes /\ rs_read lib m (RRec [("x", ROpt (Some (RNum n)))]) bytes = Good (RRec [("x", ROpt (Some (RNum n)))]) i).
Proof.
  intros Hlib. destruct flag_facts as (Hn & Hx & Hp & Hfix). destruct flag_rust as [Hrn Hs]. split; [by eapply accepted_export|]. eapply for_rust_fixed; [done..|].
  intros iter r titer Hf Hnb Hr Ht E n Hin.
  assert (stands str_ok (TStruct (x_fields (r_export r))) (x_name (r_export r)) (RRec [("x", ROpt None)]) (VRec [("x", VNone)])) as Hv.
  { rewrite E. eexists _, _. split; [done|]. split; [done|]. split; [done|]. split; [done|]. split; [by left|done]. }
  assert (typed str_ok (TStruct (x_fields (r_export r))) (x_name (r_export r)) (RRec [("x", ROpt (Some (RNum n)))])) as Hc.
  { exists (VRec [("x", VNum n)]). rewrite E. eexists _, _. split; [done|]. split; [done|]. split; [done|]. split; [done|]. split; [|done]. right. eexists. split; [done|]. by exists n. }
  destruct (module_round_trip _ _ _ Hf Hnb Hr _ Ht Hrn lib str_ok Hlib _ _ [] Hs Hv) as (i & Hi & _). rewrite app_nil_r in Hi.
  eexists _, i. split; [by eapply module_writes|]. rewrite (module_onto _ _ _ Hf Hnb Hr _ Ht Hrn lib str_ok _ _ Hc). rewrite Hi. by rewrite E.
Qed.

(** ** C88: memory *)
Lemma reserves lib str_ok : rs_lib_ok lib str_ok -> accepted array_schema /\ for_rust array_schema (fun m t => exists d, default_value (rm_items m) (rm_type m) = Some d /\
  forall z, (0 < z < 2 ^ 32)%Z -> exists data i, length data = 4 /\ rs_read lib m d data = Bad i /\ ri_room i = z /\ ri_calls i = 2).
Proof.
  intros Hlib. destruct array_facts as (Hn & Hx & Hp & Hfix). destruct array_rust as [Hrn Hs]. split; [by eapply accepted_export|]. eapply for_rust_fixed; [done..|].
  intros iter r titer Hf Hnb Hr Ht E. eexists. split; [by eapply module_default|]. intros z Hz. exists (lb_enc lib KU32 (NInt z)).
  rewrite (fresh_reads _ _ _ Hf Hnb Hr _ Ht Hrn), E. eexists. split; [apply (lk_width _ _ Hlib)|].
  split; [|shelve]. cbn [array_export x_fields dflt List.map f_name f_array f_opt f_ty f_tname dflt_wrapped]. rewrite into_struct. cbn [into_fields]. unfold into_field, into_wrapped. cbn [f_array f_opt f_ty f_tname].
  unfold take_num at 1. cbn [ri_bytes ri_calls ri_room]. pose proof (lk_enc _ _ Hlib KU32 (NInt z) [] ltac:(cbn; lia)) as E1. rewrite app_nil_r in E1. rewrite E1. cbn [rgo as_int].
  replace (Z.to_nat z) with (S (Z.to_nat (z - 1))) by lia. cbn [many into builtin_kind]. unfold take_num. cbn [ri_bytes ri_calls ri_room reserve]. rewrite (lk_short _ _ Hlib) by (cbn; lia). cbn [rgo]. reflexivity.
  Unshelve. cbn. split; [lia|done].
Qed.
Lemma hollow_rust : rust_names hollow_schema /\ small_enums hollow_schema.
Proof. split; [solve_rust|decl_cases]. Qed.
Lemma hollow_many n l i : many n (fun l i => rgo (Good (RRec []) i) (fun y i => Good (l ++ [y]) i)) l i = Good (l ++ repeat (RRec []) n) i.
Proof. revert l. induction n as [|n IH]; intros l; cbn [many repeat rgo]; [by rewrite app_nil_r|]. rewrite IH. by rewrite <- (assoc_L (++)). Qed.
Lemma hollow_result lib str_ok : rs_lib_ok lib str_ok -> accepted hollow_schema /\ for_rust hollow_schema (fun m t => exists d, default_value (rm_items m) (rm_type m) = Some d /\
  forall z, (0 <= z < 2 ^ 32)%Z -> exists data i, length data = 4 /\ rs_read lib m d data = Good (RRec [("xs", RVec (repeat (RRec []) (Z.to_nat z)))]) i /\ ri_calls i = 1).
Proof.
  intros Hlib. destruct hollow_facts as (Hn & Hx & Hp & Hfix). destruct hollow_rust as [Hrn Hs]. split; [by eapply accepted_export|]. eapply for_rust_fixed; [done..|].
  intros iter r titer Hf Hnb Hr Ht E. eexists. split; [by eapply module_default|]. intros z Hz. exists (lb_enc lib KU32 (NInt z)).
  rewrite (fresh_reads _ _ _ Hf Hnb Hr _ Ht Hrn), E. eexists. split; [apply (lk_width _ _ Hlib)|].
  split; [|shelve]. cbn [hollow_export x_fields dflt List.map f_name f_array f_opt f_ty f_tname dflt_wrapped]. rewrite into_struct. cbn [into_fields]. unfold into_field, into_wrapped. cbn [f_array f_opt f_ty f_tname].
  unfold take_num at 1. cbn [ri_bytes ri_calls ri_room]. pose proof (lk_enc _ _ Hlib KU32 (NInt z) [] ltac:(cbn; lia)) as E1. rewrite app_nil_r in E1. rewrite E1. cbn [rgo as_int].
  pose proof (hollow_many (Z.to_nat z) [] (reserve z (RIn [] 1 0))) as Hm. cbn [into dflt List.map]. cbn [rgo] in *. rewrite Hm. cbn [rgo]. reflexivity.
  Unshelve. done.
Qed.

(** ** C87: TypeScript takes what Rust refuses *)
Lemma three_rust : rust_names three_schema /\ small_enums three_schema.
Proof. split; [solve_rust|decl_cases; cbn; lia]. Qed.
Lemma three_apart rt rt_str lib str_ok both : rt_ok rt rt_str -> rs_lib_ok lib str_ok -> same_format rt lib both -> accepted three_schema /\
  for_both three_schema (fun k m t => exists d, default_value (rm_items m) (rm_type m) = Some d /\ forall h, exists data l M i,
    reads rt k h data (Done (JLoc l, M)) /\ get_prop (m_heap M) (JLoc l) "e" = Done (JNum (NInt 3)) /\ rs_read lib m d data = Bad i).
Proof.
  intros Hrt Hlib Hsf. destruct three_facts as (Hn & Hx & Hp & Hfix). destruct three_rust as [Hrn Hs]. split; [by eapply accepted_export|]. eapply for_both_fixed; [done..|].
  intros iter r titer Hf Hnb Hr Ht E. eexists. split; [by eapply module_default|]. intros h. exists (rt_enc rt KU8 (NInt 3)).
  destruct (export_reads _ _ rt rt_str h (rt_enc rt KU8 (NInt 3)) Hn Hx Hp Hrt) as (M & props & H1 & H2 & _ & _ & _ & H6).
  assert (dec rt (TStruct (x_fields three_export)) (RState (rt_enc rt KU8 (NInt 3)) false 0) = (VRec [("e", VNum (NInt 3))], RState [] false 1)) as Ed.
  { cbn [three_export x_fields dec List.map dec_list f_name f_array f_opt f_ty dec_wrap]. unfold dec_enum. cbn [three_enum e_repr repr_kind].
    rewrite <- (app_nil_r (rt_enc rt _ _)), (read_enc rt rt_str Hrt) by (cbn; lia). done. }
  rewrite Ed in *. cbn [fst snd r_failed] in *. specialize (H6 eq_refl). apply rep_in_rep in H6. eexists _, M, _. split; [exact H1|].
  split; [destruct H6 as (p & pr & ps & _ & _ & (y & Hy & ->) & _); exact Hy|].
  rewrite (sf_enc _ _ _ Hsf) by (cbn; lia). rewrite (fresh_reads _ _ _ Hf Hnb Hr _ Ht Hrn), E.
  cbn [three_export x_fields dflt List.map f_name f_array f_opt f_ty f_tname dflt_wrapped]. rewrite into_struct. cbn [into_fields]. unfold into_field, into_wrapped. cbn [f_array f_opt f_ty f_tname into three_enum e_repr repr_kind].
  unfold take_num. cbn [ri_bytes ri_calls ri_room]. pose proof (lk_enc _ _ Hlib KU8 (NInt 3) [] ltac:(cbn; lia)) as E1. rewrite app_nil_r in E1. rewrite E1. cbn [rgo as_int].
  assert (variant_of three_enum 3 = None) as -> by by vm_compute. reflexivity.
Qed.

(** ** C86: strings that are not ASCII *)
Lemma string_rust : rust_names string_schema /\ small_enums string_schema.
Proof. split; [solve_rust|decl_cases]. Qed.
Lemma accents : accepted string_schema /\ for_both string_schema (fun k m t => exists d, default_value (rm_items m) (rm_type m) = Some d /\
  (* Rust to TypeScript *)
  (forall h, exists bytes l M, rs_write utf8_rs m (RRec [("s", RStr [195; 169]%Z)]) = Some bytes /\
     reads utf8_lib k h bytes (Done (JLoc l, M)) /\ get_prop (m_heap M) (JLoc l) "s" = Done (JStr [233%Z]) /\ r_rest (m_rd M) = []) /\
  (* TypeScript to Rust *)
  exists this_heap this bytes M i, rep this_heap this (VRec [("s", VStr [233%Z])]) /\ writes utf8_lib k this_heap this (Done (bytes, M)) /\ rs_read utf8_rs m d bytes = Bad i).
Proof.
  destruct string_facts as (Hn & Hx & Hp & Hfix). destruct string_rust as [Hrn Hs]. split; [by eapply accepted_export|]. eapply for_both_fixed; [done..|].
  intros iter r titer Hf Hnb Hr Ht E. eexists. split; [by eapply module_default|]. split.
  - intros h. set (bytes := map ascii_of_N [2; 0; 0; 0; 195; 169]%N).
    assert (stands utf8_str (TStruct (x_fields (r_export r))) (x_name (r_export r)) (RRec [("s", RStr [195; 169]%Z)]) (VRec [("s", VStr [195; 169]%Z)])) as Hv.
    { rewrite E. eexists _, _. split; [done|]. split; [done|]. split; [done|]. split; [done|]. split; [|done]. eexists. split; [done|]. split; [done|]. split; [cbn; lia|]. split; [repeat constructor; lia|done]. }
    destruct (export_reads _ _ utf8_lib ascii_ok h bytes Hn Hx Hp utf8_rt_ok) as (M2 & props & H1 & H2 & _ & _ & _ & H6).
    assert (dec utf8_lib (TStruct (x_fields string_export)) (RState bytes false 0) = (VRec [("s", VStr [233%Z])], RState [] false 2)) as Ed by by vm_compute.
    rewrite Ed in *. cbn [fst snd r_failed] in *. specialize (H6 eq_refl). apply rep_in_rep in H6. exists bytes, (length h), M2.
    split; [rewrite (module_writes _ _ _ Hf Hnb Hr _ Ht Hrn utf8_rs utf8_str _ _ Hv), E; by vm_compute|]. split; [exact H1|].
    split; [destruct H6 as (p & pr & ps & _ & _ & (y & Hy & ->) & _); exact Hy|by rewrite H2].
  - set (v := VRec [("s", VStr [233%Z])]). set (h0 := [OPlain PClass [("s", JStr [233%Z])]] : heap).
    assert (rep h0 (JLoc 0) v) as Hrep. { eexists _, _, _. split; [done|]. split; [done|]. split; [|done]. by eexists. }
    assert (writable (TStruct (x_fields string_export)) v) as Hv.
    { eexists. split; [done|]. split; [done|]. split; [right|done]. eexists. split; [done|]. cbn. split; [lia|done]. }
    destruct (export_writes _ _ utf8_lib _ h0 (JLoc 0) Hn Hx Hp Hv Hrep) as (M & Hw).
    exists h0, (JLoc 0). eexists _, M, _. split; [done|]. split; [exact Hw|]. rewrite (fresh_reads _ _ _ Hf Hnb Hr _ Ht Hrn), E. by vm_compute.
Qed.

(** ** The demo *)
Definition demo_module : option rs_module :=
  match (do r <- type_check iter_fwd demo_schema; rs_generate "0" "now" types_fwd r) with Ok t => read_rs t | _ => None end.
Definition rnum (z : Z) : rval := RNum (NInt z).
Definition demo_rval : rval :=
  RRec [("id", rnum 513);
        ("inner", RRec [("flag", RVariant "Flag" "B"); ("pos", ROpt None); ("names", RVec [RStr [104; 105]%Z; RStr []]);
                        ("values", RVec [RRec [("a", rnum 7); ("b", rnum (-1)); ("c", rnum 255); ("d", rnum 0)]])])].
Lemma demo_rust : rust_names demo_schema.
Proof. solve_rust. Qed.
Lemma demo_stands : stands utf8_str (TStruct (x_fields demo_export)) "Outer" demo_rval demo_value.
Proof.
  assert (TStruct (x_fields demo_export) = ltac:(let t := eval vm_compute in (TStruct (x_fields demo_export)) in exact t)) as -> by by vm_compute.
  Local Ltac rec := eexists _, _; split; [reflexivity|]; split; [reflexivity|].
  Local Ltac fld := split; [reflexivity|]; split; [reflexivity|]; split.
  Local Ltac int := eexists; split; [reflexivity|]; split; [reflexivity|]; cbn; lia.
  Local Ltac vec := eexists _, _; split; [reflexivity|]; split; [reflexivity|]; split; [cbn; lia|]; repeat apply Forall2_cons_2; try apply Forall2_nil_2.
  Local Ltac str := eexists; split; [reflexivity|]; split; [reflexivity|]; split; [cbn; lia|]; split; [repeat constructor; lia|reflexivity].
  rec. fld; [int|]. fld; [|exact I]. rec. fld; [eexists; split; [right; left|by split]|]. fld; [by left|]. fld; [vec; str|]. fld; [|exact I]. vec.
  rec. do 4 (fld; [int|]). exact I.
Qed.
Lemma demo_runs : (match demo_module with Some m => rs_write utf8_rs m demo_rval | None => None end) = Some demo_bytes /\ (match demo_module with Some m => match default_value (rm_items m) (rm_type m) with Some d => Some (rs_read utf8_rs m d demo_bytes) | None => None end | None => None end)
  = Some (Good demo_rval (RIn [] 13 3)).
Proof. vm_compute. split; reflexivity. Qed.
Lemma demo_both : stands utf8_str (TStruct (x_fields demo_export)) "Outer" demo_rval demo_value /\ rep demo_heap (JLoc 0) demo_value /\
  strings_in ascii_ok demo_value /\ names_fine demo_schema (class_of demo_export).
Proof.
  split; [exact demo_stands|]. split; [exact demo_rep|]. split; [cbn; repeat split; repeat constructor; lia|].
  apply export_fine; [apply demo_facts|by vm_compute|apply demo_facts].
Qed.

(** ** More packets *)
Lemma flag_packet : let t := TStruct (x_fields flag_export) in exists v data,
  packet utf8_rs utf8_str t v data [] /\ data ≠ wire (lb_enc utf8_rs) (lb_encs utf8_rs) t v.
Proof.
  exists (VRec [("x", VNum (NInt 7))]), (map ascii_of_N [2; 7]%N). split; [|by vm_compute]. eexists. split; [done|]. split; [done|]. eexists. split; [|reflexivity].
  right. exists 2%Z, (map ascii_of_N [7]%N). split; [done|]. split; [split; [cbn; lia|by vm_compute]|]. eexists. split; [done|]. split; [cbn; lia|by vm_compute].
Qed.
Lemma three_plain : accepted three_schema /\ only_plain three_schema "P" /\ rust_names three_schema /\ small_enums three_schema.
Proof.
  split; [destruct three_facts as (? & ? & _); by eapply accepted_export|]. split; [|exact three_rust].
  assert (forall n fs, declares_struct three_schema n fs -> Forall (fun d => u_array d.2 = false /\ u_opt d.2 = false) fs) as H by (decl_cases; by repeat constructor).
  intros n fs f u _ Hd Hin. specialize (H _ _ Hd). rewrite Forall_forall in H. exact (H _ Hin).
Qed.
