(** Schemas that witness or refute the statements of PropEvolve.v. *)
From Verif Require Export EvolveProofs4 NeededProofs WireWitness.

(** fields of builtin types, enums and structs of builtins keep their order *)
Lemma flat_fixed a : (forall n fs, declares_struct a n fs -> forall d, d ∈ fs -> shallow a (u_name d.2)) -> all_fixed a.
Proof. intros H e n fs _ _ Hd i j di dj _ Hi _. left. eapply H; [done|]. by eapply elem_of_list_lookup_2. Qed.
Lemma for_versions_export a1 a2 x1 x2 (P : cls -> rtype -> cls -> rtype -> Prop) : export_of a1 = Ok x1 -> export_of a2 = Ok x2 -> all_fixed a1 -> all_fixed a2 ->
  P (class_of x1) (TStruct (x_fields x1)) (class_of x2) (TStruct (x_fields x2)) -> for_versions a1 a2 P.
Proof.
  intros (r1 & Hr1 & [= <-])%rbind_ok (r2 & Hr2 & [= <-])%rbind_ok H1 H2 HP. apply for_versions_intro; [done..|]. intros iter1 s1 iter2 s2 Hf1 Hf2 Hn1 Hn2 Hs1 Hs2.
  by rewrite (fixed_same_code _ _ _ _ _ Hf1 fair_fwd Hn1 Hs1 Hr1 H1), (fixed_same_code _ _ _ _ _ Hf2 fair_fwd Hn2 Hs2 Hr2 H2).
Qed.

(** three versions of a packet: the first, one with another field, one with another variant *)
Definition msg_schema (kinds : list string) (extra : list (string * unresolved)) : ast :=
  [NDecl "Kind" (AEnum kinds); NDecl "Msg" (AStruct ([("kind", plain "Kind"); ("text", plain "string")] ++ extra)); NExport "Msg"].
Definition msg_old : ast := msg_schema ["Ping"; "Pong"] [].
Definition msg_long : ast := msg_schema ["Ping"; "Pong"] [("tags", arr "uint16"); ("next", opt "Kind")].
Definition msg_wide : ast := msg_schema ["Ping"; "Pong"; "Quit"] [].
Definition usable (a : ast) : Prop := accepted a /\ plain_names a /\ small_enums a /\ all_fixed a /\ no_empty a.
Ltac solve_shallow := let H := fresh in intros ? H; repeat (apply elem_of_cons in H as [->|H]; [first [left; apply (bool_decide_unpack _); by vm_compute|right; left; eexists; left]|]); by apply elem_of_nil in H.
Ltac solve_usable := split; [eapply accepted_export; [solve_legal|by vm_compute]|]; split; [solve_plain|]; split; [decl_cases; cbn; lia|];
  split; [apply flat_fixed; decl_cases; solve_shallow|decl_cases; done].
Lemma msg_facts : usable msg_old /\ usable msg_long /\ usable msg_wide.
Proof. split; [solve_usable|]. split; solve_usable. Qed.
Lemma msg_appended : appended msg_old msg_long [("tags", arr "uint16"); ("next", opt "Kind")].
Proof.
  exists "Msg", [("kind", plain "Kind"); ("text", plain "string")]. split; [done|]. split; [done|]. split; [right; left|]. split; [right; left|].
  intros n Hne _ t. split; intros H; repeat (apply elem_of_cons in H as [H|H]; [first [discriminate H|injection H as -> ->; first [left|done]]|]); by apply elem_of_nil in H.
Qed.
Lemma msg_weight : ~ Forall (weightless msg_long) [("tags", arr "uint16"); ("next", opt "Kind")].
Proof. intros [[H _] _]%Forall_cons. discriminate H. Qed.
(** a field that takes no bytes is added *)
Definition mark_schema (extra : list (string * unresolved)) : ast :=
  [NDecl "Nil" (AStruct []); NDecl "Msg" (AStruct ([("n", plain "uint8"); ("text", plain "string")] ++ extra)); NExport "Msg"].
Definition mark_old : ast := mark_schema [].
Definition mark_new : ast := mark_schema [("mark", plain "Nil")].
Lemma mark_facts : (accepted mark_old /\ plain_names mark_old /\ small_enums mark_old /\ all_fixed mark_old) /\
  (accepted mark_new /\ plain_names mark_new /\ small_enums mark_new /\ all_fixed mark_new) /\
  appended mark_old mark_new [("mark", plain "Nil")] /\ Forall (weightless mark_new) [("mark", plain "Nil")].
Proof.
  assert (forall l, shallow (mark_schema l) "Nil") as HN by (intros l; right; right; exists []; split; [left|intros d H; by apply elem_of_nil in H]).
  assert (all_fixed mark_old) as F1 by (apply flat_fixed; decl_cases; solve_shallow).
  assert (all_fixed mark_new) as F2.
  { apply flat_fixed. decl_cases; [solve_shallow|]. intros d H. repeat (apply elem_of_cons in H as [->|H]; [first [exact (HN _)|left; apply (bool_decide_unpack _); by vm_compute]|]). by apply elem_of_nil in H. }
  split; [|split; [|split]].
  - split; [eapply accepted_export; [solve_legal|by vm_compute]|]. split; [solve_plain|]. split; [decl_cases|exact F1].
  - split; [eapply accepted_export; [solve_legal|by vm_compute]|]. split; [solve_plain|]. split; [decl_cases|exact F2].
  - exists "Msg", [("n", plain "uint8"); ("text", plain "string")]. split; [done|]. split; [done|]. split; [right; left|]. split; [right; left|].
    intros n Hne _ t. split; intros H; repeat (apply elem_of_cons in H as [H|H]; [first [discriminate H|injection H as -> ->; first [left|done]]|]); by apply elem_of_nil in H.
  - repeat constructor. by econstructor; [left|constructor].
Qed.
Lemma msg_grown : grown msg_old msg_wide.
Proof.
  exists "Msg". split; [done|]. split; [done|]. intros n _. split.
  - intros fs H. unfold declares_struct in *. repeat (apply elem_of_cons in H as [H|H]; [first [discriminate H|injection H as -> ->; right; left]|]); by apply elem_of_nil in H.
  - intros vs H. unfold declares_enum in *. repeat (apply elem_of_cons in H as [H|H]; [first [discriminate H|injection H as -> ->]|]); [|by apply elem_of_nil in H].
    exists ["Quit"]. split; [left|]. intros r [H1 H2]. split; [cbn in *; destruct r; cbn in *; lia|]. intros r' _. apply (H2 r'). destruct r'; cbn; lia.
Qed.

(** The ninth variant changes the representation, so packets of the old version are lost. *)
Definition eight : list string := ["A"; "B"; "C"; "D"; "E"; "F"; "G"; "H"].
Definition tiny_schema (vs : list string) : ast := [NDecl "Kind" (AEnum vs); NDecl "Msg" (AStruct [("kind", plain "Kind")]); NExport "Msg"].
Definition tiny_export (r : enum_repr) (vs : list string) : export := Export_ "Msg" [SField "kind" "Kind" (TEnum (Enum r (imap (fun i v => EnumVariant v i) vs))) false false].
Lemma ninth_refuted : usable (tiny_schema eight) /\ usable (tiny_schema (eight ++ ["I"])) /\ forall rt str_ok, rt_ok rt str_ok ->
  for_versions (tiny_schema eight) (tiny_schema (eight ++ ["I"])) (fun k1 t1 k2 t2 => forall v h this bytes M h',
    has_type str_ok t1 v -> rep h this v -> writes rt k1 h this (Done (bytes, M)) ->
    has_type str_ok t2 v /\ exists M', reads rt k2 h' bytes (Done (JNull, M'))).
Proof.
  assert (usable (tiny_schema eight)) as H1 by solve_usable. assert (usable (tiny_schema (eight ++ ["I"]))) as H2 by solve_usable.
  split; [done|]. split; [done|]. intros rt str_ok Hrt.
  assert (export_of (tiny_schema eight) = Ok (tiny_export U8 eight)) as E1 by by vm_compute.
  assert (export_of (tiny_schema (eight ++ ["I"])) = Ok (tiny_export U16 (eight ++ ["I"]))) as E2 by by vm_compute.
  eapply for_versions_export; [exact E1|exact E2|apply H1|apply H2|]. intros v h this bytes M h' Hv Hrep Hw. cbn [tiny_export x_fields] in Hv.
  destruct (export_writes _ _ rt v h this ltac:(apply H1) E1 ltac:(apply H1) (any_typed _ _ _ _ Hv) Hrep) as (M1 & Hw1).
  assert (bytes = wire (rt_enc rt) (rt_encs rt) (TStruct (x_fields (tiny_export U8 eight))) v) as -> by (pose proof (writes_det _ _ _ _ _ _ Hw Hw1); congruence).
  destruct (export_reads _ _ rt str_ok h' (wire (rt_enc rt) (rt_encs rt) (TStruct (x_fields (tiny_export U8 eight))) v) ltac:(apply H2) E2 ltac:(apply H2) Hrt) as (M2 & props & Hrd & _).
  apply shape_struct in Hv as (vs & -> & Hv). destruct vs as [|[g v] [|]]; [done| |by destruct Hv as (_ & _ & ?)]. destruct Hv as (-> & [[[=] _]|(n & -> & Hn)] & _).
  split.
  - apply shape_struct. eexists. split; [done|]. split; [done|]. split; [|done]. right. exists n. split; [done|]. apply numbered_declared in Hn as (i & Hi & ->). apply numbered_declared. exists i. cbn in *. split; [lia|done].
  - exists M2. cbn zeta in Hrd. match type of Hrd with context [if ?b then _ else _] => assert (b = true) as Hb end; [|by rewrite Hb in Hrd].
    rewrite dec_struct_eq. cbn [snd tiny_export x_fields]. rewrite dec_fields_cons. cbn [snd]. rewrite wire_struct. cbn. unfold dec_field, dec_wrap. cbn.
    unfold dec_enum, read_num. cbn [r_rest r_failed e_repr repr_kind].
    destruct (rd_short _ _ Hrt KU16 (rt_enc rt KU8 n ++ [])) as (m & bs' & _ & ->); [rewrite app_nil_r, (enc_width _ _ Hrt); cbn; lia|]. by case_decide.
Qed.

(** a renaming that swaps the two types *)
Definition swap_names (n : string) : string := if decide (n = "Kind") then "Msg" else if decide (n = "Msg") then "Kind" else n.
Definition my_fields (n f : string) : string := if decide (n = "Msg") then String "m" f else f.
Lemma swap_good : good_renaming swap_names msg_long /\ good_field_renaming my_fields msg_long.
Proof.
  split; [split|].
  - apply Forall_forall. apply (bool_decide_unpack _). by vm_compute.
  - intros n m _ _. unfold swap_names. repeat case_decide; congruence.
  - intros n fs f g _ _ _. unfold my_fields. case_decide; congruence.
Qed.
Lemma swap_usable : usable (rename swap_names my_fields msg_long).
Proof.
  change (rename swap_names my_fields msg_long) with [NDecl "Msg" (AEnum ["Ping"; "Pong"]);
    NDecl "Kind" (AStruct [("mkind", plain "Msg"); ("mtext", plain "string"); ("mtags", arr "uint16"); ("mnext", opt "Msg")]); NExport "Kind"]. solve_usable.
Qed.

(** runs of the emitted code: the bytes written for the object at 0, and the property names of the result *)
Definition sent (a : ast) (h : heap) : option (list byte) :=
  match export_of a with
  | Ok x => match call_write latin1 20 (class_of x) h (JLoc 0) with Some (Done (bytes, _)) => Some bytes | _ => None end
  | _ => None
  end.
Definition received (a : ast) (data : list byte) : option (option (list string)) :=
  match export_of a with
  | Ok x => match call_read latin1 20 (class_of x) [] data with
            | Some (Done (JNull, _)) => Some None
            | Some (Done (JLoc p, M)) => match m_heap M !! p with Some (OPlain _ props) => Some (Some props.*1) | _ => None end
            | _ => None
            end
  | _ => None
  end.
Definition wide_heap (kind : Z) : heap := [OPlain PClass [("kind", jnum kind); ("text", JStr [104]%Z)]].
Definition long_heap : heap := [OPlain PClass [("kind", jnum 2); ("text", JStr [104]%Z); ("tags", JLoc 1); ("next", JUndef)]; OArr [jnum 513]].
Lemma long_run : exists bytes, sent msg_long long_heap = Some bytes /\ received msg_old bytes = Some (Some ["kind"; "text"]) /\ received msg_long (take 6 bytes) = Some None.
Proof. eexists. split; [vm_compute; reflexivity|]. split; by vm_compute. Qed.
Lemma wide_run : (exists bytes, sent msg_wide (wide_heap 4) = Some bytes /\ received msg_wide bytes = Some (Some ["kind"; "text"]) /\ received msg_old bytes = Some None) /\
  (exists bytes, sent msg_wide (wide_heap 2) = Some bytes /\ received msg_old bytes = Some (Some ["kind"; "text"])).
Proof. split; eexists; (split; [vm_compute; reflexivity|]); [split|]; by vm_compute. Qed.
Lemma latin1_empty : latin1_ok [].
Proof. by apply Forall_nil. Qed.
Lemma more_addable : addable demo_schema "More" (AStruct [("outer", arr "Outer"); ("flag", opt "Flag"); ("n", plain "int8")]).
Proof.
  split; [solve_names|]. split; [solve_names|]. split; [solve_names|]. intros f u H.
  repeat (apply elem_of_cons in H as [H|H]; [injection H as -> ->; split; [first [left; solve_names|right; solve_names]|by intros [[=] [=]]]|]). by apply elem_of_nil in H.
Qed.
(** a schema whose fields may change places, and one more declaration *)
Lemma order_valid : valid_schema order_schema.
Proof. apply (type_check_valid iter_fwd); [apply fair_fwd|apply order_names|]. eexists. by vm_compute. Qed.
Lemma order_more : addable order_schema "D" (AStruct [("a", arr "A"); ("b", opt "B"); ("n", plain "int8")]).
Proof.
  split; [solve_names|]. split; [solve_names|]. split; [solve_names|]. intros f u H.
  repeat (apply elem_of_cons in H as [H|H]; [injection H as -> ->; split; [first [left; solve_names|right; solve_names]|by intros [[=] [=]]]|]). by apply elem_of_nil in H.
Qed.
Lemma order_possible : exists r1 r2, (exists iter, fair_order iter /\ type_check iter order_schema = Ok r1) /\ (exists iter, fair_order iter /\ type_check iter order_schema = Ok r2) /\ r1 ≠ r2.
Proof.
  destruct two_orders as (i1 & i2 & H1 & H2 & E1 & E2). unfold names_of in *. apply rbind_ok in E1 as (r1 & R1 & E1). apply rbind_ok in E2 as (r2 & R2 & E2).
  exists r1, r2. split; [eauto|]. split; [eauto|]. intros ->. rewrite E1 in E2. done.
Qed.
Lemma more_same : same_needed demo_schema (demo_schema ++ [NDecl "More" (AEnum ["A"])]).
Proof.
  exists "Outer". split; [done|]. split; [done|]. intros n Hn t. rewrite elem_decl_app. split; [by left|]. intros [?|[-> ->]]; [done|]. exfalso.
  apply rtc_inv_r in Hn as [E|(m & _ & (fs & f & u & Hd & Hu & Hx))]; [done|].
  destruct (vs_types _ demo_valid _ _ _ _ Hd Hu) as [H|H]; rewrite Hx in H; revert H; apply (bool_decide_unpack _); by vm_compute.
Qed.
