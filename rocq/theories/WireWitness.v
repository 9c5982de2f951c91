(** Schemas, values and packets that witness or refute the statements of PropWire.v. *)
From Verif Require Export WireResults Runtimes.

(** ** tools *)
Lemma accepted_fwd a : legal_ast a -> is_ok (type_check iter_fwd a) -> accepted a.
Proof. intros Hl Hok. pose proof (legal_no_builtin _ Hl) as Hn. split; [done|]. intros iter Hf. apply type_check_valid; [done..|]. by apply (type_check_valid iter_fwd); [apply fair_fwd|..]. Qed.
Definition export_of (a : ast) : res export := do r <- type_check iter_fwd a; Ok (r_export r).
Lemma accepted_export a x : legal_ast a -> export_of a = Ok x -> accepted a.
Proof. intros Hn (r & Hr & _)%rbind_ok. apply accepted_fwd; [done|]. by exists r. Qed.
Lemma for_code_export a x (P : cls -> rtype -> Prop) : export_of a = Ok x -> all_fixed a ->
  P (class_of x) (TStruct (x_fields x)) -> for_code a P.
Proof.
  intros (r0 & Hr0 & [= <-])%rbind_ok Hfix HP. apply for_code_intro. intros iter r Hf Hn Hr.
  by rewrite (fixed_same_code _ _ _ _ _ Hf fair_fwd Hn Hr Hr0 Hfix).
Qed.
(** structs with at most one field *)
Lemma single_fixed a : (forall n fs, declares_struct a n fs -> length fs <= 1) -> all_fixed a.
Proof.
  intros H e n fs _ _ Hd i j di dj Hij Hi Hj. specialize (H _ _ Hd). apply lookup_lt_Some in Hi. apply lookup_lt_Some in Hj. lia.
Qed.
Ltac decl_cases := let H := fresh in intros ? ? H; unfold declares_struct, declares_enum in H;
  repeat (apply elem_of_cons in H as [H|H]; [first [discriminate H|injection H as -> ->]|]); try (by apply elem_of_nil in H).
Lemma export_fine a x : legal_ast a -> export_of a = Ok x -> plain_names a -> names_fine a (class_of x).
Proof. intros Hn%legal_no_builtin (r & Hr & [= <-])%rbind_ok Hp. by eapply plain_fine; [apply fair_fwd|..]. Qed.
Lemma export_reads a x rt str_ok h data : legal_ast a -> export_of a = Ok x -> plain_names a -> rt_ok rt str_ok ->
  exists M props, let res := dec rt (TStruct (x_fields x)) (RState data false 0) in
    reads rt (class_of x) h data (Done (if r_failed res.2 then JNull else JLoc (length h), M)) /\
    m_rd M = res.2 /\ (forall p, p < length h -> m_heap M !! p = h !! p) /\
    m_heap M !! length h = Some (OPlain PCtor props) /\ (forall n, n ∉ List.map f_name (x_fields x) -> own n props = None) /\
    (r_failed res.2 = false -> rep_in (length h) (length (m_heap M)) (m_heap M) (JLoc (length h)) res.1).
Proof.
  intros Hn Hx Hp Hrt. pose proof (export_fine _ _ Hn Hx Hp) as Hk. apply legal_no_builtin in Hn. apply rbind_ok in Hx as (r & Hr & [= <-]).
  by eapply fine_reads; [apply fair_fwd|..].
Qed.
Lemma export_writes a x rt v h this : legal_ast a -> export_of a = Ok x -> plain_names a -> writable (TStruct (x_fields x)) v -> rep h this v ->
  exists M, writes rt (class_of x) h this (Done (wire (rt_enc rt) (rt_encs rt) (TStruct (x_fields x)) v, M)).
Proof.
  intros Hn Hx Hp Hv Hrep. pose proof (export_fine _ _ Hn Hx Hp) as Hk. apply legal_no_builtin in Hn. apply rbind_ok in Hx as (r & Hr & [= <-]).
  destruct (writes_wire rt _ _ _ fair_fwd Hn Hr (nf_ready _ _ Hk) v h this Hv Hrep) as (M & HM & _). by exists M.
Qed.
Ltac solve_names := by apply (bool_decide_unpack _); vm_compute.
Ltac solve_plain := apply no_underscore_plain;
  [decl_cases; (split; [solve_names|repeat (apply Forall_cons; split; [unfold no_underscore; apply (bool_decide_unpack _); by vm_compute|]); apply Forall_nil; exact I])
  |intros ? H; injection H as <-; split; [unfold no_underscore|]; apply (bool_decide_unpack _); by vm_compute
  |let H := fresh in intros ? ? H; injection H as <-; unfold declares_struct; intros H;
    repeat (apply elem_of_cons in H as [H|H]; [first [discriminate H|injection H as ->]|]); try (by apply elem_of_nil in H);
    apply (bool_decide_unpack _); by vm_compute].

(** ** C29: an enum with three variants lets 3 through *)
Definition three_schema : ast := [NDecl "E" (AEnum ["A"; "B"; "C"]); NDecl "P" (AStruct [("e", plain "E")]); NExport "P"].
Definition three_enum : enum := Enum U8 [EnumVariant "A" 0; EnumVariant "B" 1; EnumVariant "C" 2].
Definition three_export : export := Export_ "P" [SField "e" "E" (TEnum three_enum) false false].
Lemma three_facts : legal_ast three_schema /\ export_of three_schema = Ok three_export /\ plain_names three_schema /\ all_fixed three_schema.
Proof.
  split; [solve_legal|]. split; [by vm_compute|]. split; [solve_plain|]. apply single_fixed. decl_cases. cbn. lia.
Qed.
Lemma undeclared_refuted : exists a, accepted a /\ plain_names a /\ small_enums a /\ forall rt str_ok, rt_ok rt str_ok -> for_code a (fun k t => forall h, exists data l M v,
  reads rt k h data (Done (JLoc l, M)) /\ rep (m_heap M) (JLoc l) v /\ writable t v /\ ~ has_type any_string t v /\
  get_prop (m_heap M) (JLoc l) "e" = Done (JNum (NInt 3))).
Proof.
  destruct three_facts as (Hn & Hx & Hp & Hfix). exists three_schema. split; [by eapply accepted_export|]. split; [done|].
  split; [decl_cases; cbn; lia|]. intros rt str_ok Hrt. eapply for_code_export; [done..|]. intros h.
  destruct (export_reads _ _ rt str_ok h (rt_enc rt KU8 (NInt 3)) Hn Hx Hp Hrt) as (M & props & H1 & H2 & _ & _ & _ & H6).
  assert (dec rt (TStruct (x_fields three_export)) (RState (rt_enc rt KU8 (NInt 3)) false 0) = (VRec [("e", VNum (NInt 3))], RState [] false 1)) as E.
  { cbn [three_export x_fields dec List.map dec_list f_name f_array f_opt f_ty dec_wrap]. unfold dec_enum. cbn [three_enum e_repr repr_kind].
    rewrite <- (app_nil_r (rt_enc rt _ _)), (read_enc rt str_ok Hrt) by (cbn; lia). done. }
  rewrite E in *. cbn [fst snd r_failed] in *. eexists _, _, M, _. split; [exact H1|]. specialize (H6 eq_refl). apply rep_in_rep in H6. split; [exact H6|].
  split; [|split].
  - eexists. split; [done|]. split; [done|]. split; [|done]. right. by exists (NInt 3).
  - intros (vs & [= <-] & _ & [[[=]]|(n & [= <-] & x & Hin & E')] & _). cbn [three_export x_fields three_enum e_variants] in Hin.
    repeat (apply elem_of_cons in Hin as [->|Hin]; [by vm_compute in E'|]). by apply elem_of_nil in Hin.
  - destruct H6 as (p & pr & ps & _ & _ & (y & Hy & ->) & _). exact Hy.
Qed.

(** ** C30: enums of every permitted size *)
Definition enum_schema (vs : list string) : ast := [NDecl "E" (AEnum vs); NDecl "P" (AStruct [("e", plain "E")]); NExport "P"].
Lemma enum_schema_facts vs : no_builtin_decl (enum_schema vs) /\ plain_names (enum_schema vs).
Proof.
  split.
  - intros n Hn. change (n ∈ ["E"; "P"]) in Hn.
    assert (forall m, m ∈ ["E"; "P"] -> m ∉ builtin_names) as H; [|by apply H]. apply Forall_forall. solve_names.
  - solve_plain.
Qed.
Lemma enum_schema_valid vs : 1 <= length vs <= 32 -> NoDup vs -> valid_schema (enum_schema vs).
Proof.
  intros Hlen Hnd.
  assert (forall n fs, declares_struct (enum_schema vs) n fs -> n = "P" /\ fs = [("e", plain "E")]) as Hs by (decl_cases; done).
  constructor.
  - eexists _, _. split; [done|]. right. left.
  - change (NoDup ["E"; "P"]). solve_names.
  - decl_cases. done.
  - intros n fs f u [-> ->]%Hs [= -> ->]%elem_of_list_singleton. right. left.
  - intros n fs f u [-> ->]%Hs [= -> ->]%elem_of_list_singleton. by intros [??].
  - assert (forall n m, refers (enum_schema vs) n m -> n = "P" /\ m = "E") as Hr.
    { intros n m (fs & f & u & [-> ->]%Hs & [= -> ->]%elem_of_list_singleton & <-). done. }
    intros n Ht. assert (n = "P") as -> by (inversion Ht; subst; by edestruct Hr).
    assert (forall x y, tc (refers (enum_schema vs)) x y -> y = "E") as He by (induction 1; [by edestruct Hr|done]). by apply He in Ht.
  - intros n fs [-> ->]%Hs. apply (bool_decide_unpack _). by vm_compute.
Qed.
Lemma enum_schema_type vs iter r : fair_order iter -> type_check iter (enum_schema vs) = Ok r -> exists rp, smallest_repr (length vs) rp /\
  r_export r = Export_ "P" [SField "e" "E" (TEnum (Enum rp (imap (fun i v => EnumVariant v i) vs))) false false].
Proof.
  intros Hf Hr. destruct (enum_schema_facts vs) as [Hn _]. pose proof (type_check_result _ _ _ Hf Hn Hr) as (He & _). injection He as He.
  pose proof (entry_denotes _ _ _ Hf Hn Hr _ _ (export_entry _ _ _ Hf Hn Hr)) as Hd. rewrite <- He in Hd. destruct (r_export r) as [xn xfs]. cbn in *. subst xn.
  inversion Hd as [| |? fs ds ? Hs Hp Hm]; subst.
  assert (fs = [("e", plain "E")]) as ->. { unfold declares_struct in Hs. repeat (apply elem_of_cons in Hs as [Hs|Hs]; [first [discriminate Hs|by injection Hs as ->]|]). by apply elem_of_nil in Hs. }
  apply Permutation_sym, Permutation_length_1_inv in Hp; subst ds. inversion Hm as [|? f ? fs Hf1 Hf2]; subst. inversion Hf2; subst. inversion Hf1 as [? ? t Ht]; subst.
  cbn [plain u_name u_array u_opt] in *. inversion Ht as [? ? Hb|? vs' rp Hd' Hrp|? fs ds ? Hs' _ _]; subst.
  - by vm_compute in Hb.
  - exists rp. assert (vs' = vs) as ->. { unfold declares_enum in Hd'. repeat (apply elem_of_cons in Hd' as [Hd'|Hd']; [first [discriminate Hd'|by injection Hd' as ->]|]). by apply elem_of_nil in Hd'. }
    done.
  - unfold declares_struct in Hs'. repeat (apply elem_of_cons in Hs' as [Hs'|Hs']; [discriminate Hs'|]). by apply elem_of_nil in Hs'.
Qed.
Lemma enum_schema_legal vs : Forall (fun v => legal_name (txt v)) vs -> legal_ast (enum_schema vs).
Proof.
  intros Hvs. assert (legal_ast (enum_schema [])) as H by solve_legal. unfold legal_ast, enum_schema in *.
  apply Forall_cons in H as [(H1 & H2 & _) H]. constructor; [|exact H]. split; [exact H1|]. split; [exact H2|exact Hvs].
Qed.
Lemma enum_schema_accepted vs : 1 <= length vs <= 32 -> NoDup vs -> Forall (fun v => legal_name (txt v)) vs -> accepted (enum_schema vs).
Proof.
  intros Hl Hnd Hlegal. split; [by apply enum_schema_legal|]. intros iter Hf. apply type_check_valid; [done|apply enum_schema_facts|by apply enum_schema_valid].
Qed.
(** up to 31 variants all are read back *)
Lemma variants_transmitted vs rt str_ok : 1 <= length vs <= 31 -> NoDup vs -> Forall (fun v => legal_name (txt v)) vs -> rt_ok rt str_ok ->
  accepted (enum_schema vs) /\ for_code (enum_schema vs) (fun k t => forall i h this h', i < length vs ->
    rep h this (VRec [("e", VNum (variant_value i))]) -> exists bytes M l M', writes rt k h this (Done (bytes, M)) /\
      reads rt k h' bytes (Done (JLoc l, M')) /\ get_prop (m_heap M') (JLoc l) "e" = Done (JNum (variant_value i))).
Proof.
  intros Hlen Hnd Hlegal Hrt. split; [apply enum_schema_accepted; [lia|done..]|]. apply for_code_intro. intros iter r Hf Hn Hr i h this h' Hi Hrep.
  destruct (enum_schema_facts vs) as [_ Hp]. pose proof (plain_fine _ _ _ Hf Hn Hr Hp) as Hk.
  destruct (enum_schema_type vs iter r Hf Hr) as (rp & Hrp & Ex).
  assert (has_type str_ok (TStruct (x_fields (r_export r))) (VRec [("e", VNum (variant_value i))])) as Hv.
  { rewrite Ex. eexists. split; [done|]. split; [done|]. split; [|done]. right. eexists. split; [done|].
    destruct (lookup_lt_is_Some_2 vs i Hi) as [v Hv]. exists (EnumVariant v i). split; [|done]. cbn [e_variants]. apply elem_of_list_lookup. exists i.
    rewrite list_lookup_imap. unfold f_ty. by rewrite Hv. }
  destruct (writes_wire rt _ _ _ Hf Hn Hr (nf_ready _ _ Hk) _ h this (any_typed _ _ _ _ Hv) Hrep) as (M & Hw & _).
  destruct (reads_wire rt str_ok _ _ _ Hf Hn Hr Hrt) with (v := VRec [("e", VNum (variant_value i))]) (h := h') (rest := @nil byte) as (l & M2 & H1 & H2 & _); [decl_cases; lia|done|done|].
  rewrite app_nil_r in H1. eexists _, M, l, M2. split; [exact Hw|]. split; [exact H1|]. destruct H2 as (p & pr & ps & _ & _ & (y & Hy & ->) & _). exact Hy.
Qed.
Definition many_names : list string := (fun n => String (ascii_of_nat n) "") <$> (seq 65 26 ++ seq 97 6).
Lemma many_facts : length many_names = 32 /\ NoDup many_names /\ Forall (fun v => legal_name (txt v)) many_names.
Proof.
  split; [done|]. split; [solve_names|]. assert (legal_ast (enum_schema many_names)) as H by solve_legal. apply Forall_cons in H as [(_ & _ & H) _]. exact H.
Qed.
(** with 32 variants none is *)
Lemma big_enum_refuted vs rt str_ok : length vs = 32 -> NoDup vs -> Forall (fun v => legal_name (txt v)) vs -> rt_ok rt str_ok ->
  accepted (enum_schema vs) /\ for_code (enum_schema vs) (fun k t => forall i h this h', i < length vs ->
    rep h this (VRec [("e", VNum (variant_value i))]) -> exists bytes M M', writes rt k h this (Done (bytes, M)) /\ reads rt k h' bytes (Done (JNull, M'))).
Proof.
  intros Hlen Hnd Hlegal Hrt. split; [apply enum_schema_accepted; [lia|done..]|]. apply for_code_intro. intros iter r Hf Hn Hr i h this h' Hi Hrep.
  destruct (enum_schema_facts vs) as [_ Hp]. pose proof (plain_fine _ _ _ Hf Hn Hr Hp) as Hk.
  destruct (enum_schema_type vs iter r Hf Hr) as (rp & Hrp & Ex).
  assert (writable (TStruct (x_fields (r_export r))) (VRec [("e", VNum (variant_value i))])) as Hv.
  { rewrite Ex. eexists. split; [done|]. split; [done|]. split; [|done]. right. by eexists. }
  destruct (writes_wire rt _ _ _ Hf Hn Hr (nf_ready _ _ Hk) _ h this Hv Hrep) as (M & Hw & _).
  eexists _, M. destruct (fine_reads _ _ _ Hf Hn Hr rt str_ok h' (wire (rt_enc rt) (rt_encs rt) (TStruct (x_fields (r_export r))) (VRec [("e", VNum (variant_value i))])) Hrt Hk) as (M2 & props & H1 & _).
  exists M2. split; [exact Hw|]. cbn zeta in H1.
  assert (forall data, r_failed (dec rt (TStruct (x_fields (r_export r))) data).2 = true) as E; [|by rewrite E in H1].
  intros data. rewrite Ex. cbn [x_fields dec List.map dec_list f_name f_array f_opt f_ty dec_wrap]. unfold dec_enum.
  assert (good_enum (Enum rp (imap (fun i v => EnumVariant v i) vs))) as Hg. { exists vs, rp. split; [lia|]. done. }
  destruct (good_enum_bounds _ Hg) as (n & _ & HL & _ & Hlo & Hhi & _). cbn [e_variants] in HL. rewrite imap_length in HL. subst n. rewrite Hlo, Hhi, Hlen.
  destruct (read_num rt _ data) as [m r1]. destruct (decide _) as [Hd|]; [exfalso|done]. cbn in Hd. lia.
Qed.

(** ** C28, C31: names that break read *)
Definition name_schema (f : string) : ast := [NDecl "P" (AStruct [(f, plain "uint8")]); NExport "P"].
Definition name_export (f : string) : export := Export_ "P" [SField f "uint8" (TBuiltin Uint8) false false].
Lemma name_facts f : f ∈ "__proto__" :: readonly_names -> legal_ast (name_schema f) /\ export_of (name_schema f) = Ok (name_export f) /\ all_fixed (name_schema f).
Proof.
  intros Hf. split; [|split].
  - apply parsed_legal. repeat (apply elem_of_cons in Hf as [->|Hf]; [by vm_compute|]). by apply elem_of_nil in Hf.
  - repeat (apply elem_of_cons in Hf as [->|Hf]; [by vm_compute|]). by apply elem_of_nil in Hf.
  - apply single_fixed. decl_cases. cbn. lia.
Qed.
Lemma read_one rt f h data n : loads (class_of (name_export f)) ->
  call_read rt n (class_of (name_export f)) h data = Some (
    let '(x, r) := read_num rt KU8 (RState data false 0) in
    match set_prop (h ++ [OPlain PCtor []]) (JLoc (length h)) f (JNum x) with
    | Done h' => Done (if r_failed r then JNull else JLoc (length h), Mach h' [<["output" := Some (JLoc (length h))]> ∅] r [])
    | Throws e => Throws e
    | Stuck => Stuck
    end).
Proof.
  intros Hl. unfold call_read. rewrite decide_True by done. cbn [prologue class_of name_export k_name].
  change (prologue (class_of (name_export f))) with (@Done unit ()). cbv beta iota zeta.
  change (k_read (class_of (name_export f))) with [SSimple (Assign (EProp (EVar "output") f) (ERead "uint8"))].
  cbn [exec_seq exec exec_simple eval m_env lookup_var]. rewrite lookup_insert. cbn [obind m_rd]. change (kind_of "uint8") with (Some KU8). cbv beta iota.
  destruct (read_num rt KU8 _) as [x r]. cbn [obind m_heap with_rd]. by destruct (set_prop _ _ f _).
Qed.
Lemma readonly_throws f rt : f ∈ readonly_names ->
  accepted (name_schema f) /\ for_code (name_schema f) (fun k t => forall h data, exists e, reads rt k h data (Throws e)).
Proof.
  intros Hf. destruct (name_facts f) as (Hn & Hx & Hfix); [by right|]. split; [by eapply accepted_export|]. eapply for_code_export; [done..|].
  intros h data. destruct (decide (loads (class_of (name_export f)))) as [Hl|Hl].
  - exists "TypeError", 0. intros n _. rewrite read_one by done. destruct (read_num rt KU8 _) as [x r]. cbn [set_prop]. rewrite list_lookup_middle by done.
    rewrite decide_False. { by rewrite decide_True. }
    intros [_ ->]. revert Hf. change ("__proto__" ∉ readonly_names). solve_names.
  - exists "SyntaxError", 0. intros n _. unfold call_read. by rewrite decide_False.
Qed.
Lemma proto_lost rt str_ok : rt_ok rt str_ok -> accepted (name_schema "__proto__") /\ for_code (name_schema "__proto__") (fun k t => forall z h, in_kind KU8 (NInt z) ->
  exists l M, reads rt k h (rt_enc rt KU8 (NInt z)) (Done (JLoc l, M)) /\ get_prop (m_heap M) (JLoc l) "__proto__" = Done JFun /\ m_heap M !! l = Some (OPlain PCtor [])).
Proof.
  intros Hrt. destruct (name_facts "__proto__") as (Hn & Hx & Hfix); [by left|]. split; [by eapply accepted_export|]. eapply for_code_export; [done..|].
  intros z h Hz. exists (length h). eexists. split.
  - exists 0. intros n _. rewrite read_one by solve_names. rewrite <- (app_nil_r (rt_enc rt _ _)), (read_enc rt str_ok Hrt) by done.
    cbn [set_prop]. rewrite list_lookup_middle by done. rewrite decide_True by done. reflexivity.
  - cbn [m_heap get_prop]. by rewrite list_lookup_middle.
Qed.

(** ** C33: an array that claims to be long *)
Definition array_schema : ast := [NDecl "P" (AStruct [("xs", arr "uint8")]); NExport "P"].
Definition array_export : export := Export_ "P" [SField "xs" "uint8" (TBuiltin Uint8) true false].
Lemma array_facts : legal_ast array_schema /\ export_of array_schema = Ok array_export /\ plain_names array_schema /\ all_fixed array_schema.
Proof. split; [solve_legal|]. split; [by vm_compute|]. split; [solve_plain|]. apply single_fixed. decl_cases. cbn. lia. Qed.
Lemma long_reads rt str_ok : rt_ok rt str_ok -> accepted array_schema /\ for_code array_schema (fun k t => forall z h, (0 < z < 2 ^ 32)%Z ->
  exists data M, length data = 4 /\ reads rt k h data (Done (JNull, M)) /\ Z.of_nat (r_calls (m_rd M)) = (z + 1)%Z).
Proof.
  intros Hrt. destruct array_facts as (Hn & Hx & Hp & Hfix). split; [by eapply accepted_export|]. eapply for_code_export; [done..|].
  intros z h Hz. exists (rt_enc rt KU32 (NInt z)).
  destruct (export_reads _ _ rt str_ok h (rt_enc rt KU32 (NInt z)) Hn Hx Hp Hrt) as (M & props & H1 & H2 & _). exists M. split; [apply (enc_width _ _ Hrt)|].
  assert (exists vs r, dec rt (TStruct (x_fields array_export)) (RState (rt_enc rt KU32 (NInt z)) false 0) = (vs, r) /\ r_failed r = true /\ Z.of_nat (r_calls r) = (z + 1)%Z) as (vs & r & E & Hr & Hc).
  { cbn [array_export x_fields dec List.map dec_list f_name f_array f_opt f_ty dec_wrap dec_builtin builtin_kind]. unfold dec_arr, dec_builtin. cbn [builtin_kind].
    rewrite <- (app_nil_r (rt_enc rt _ _)), (read_enc rt str_ok Hrt) by (cbn; lia). cbn [int_of].
    pose proof (dec_times_calls rt (Z.to_nat z) KU8 (RState [] false 1)) as Hc.
    assert (r_failed (dec_times (Z.to_nat z) (fun r => let '(n, r0) := read_num rt KU8 r in (VNum n, r0)) (RState [] false 1)).2 = true) as Hf.
    { replace (Z.to_nat z) with (S (Z.to_nat (z - 1))) by lia. cbn [dec_times].
      assert (r_failed (read_num rt KU8 (RState [] false 1)).2 = true) as Hf0. { unfold read_num. cbn [r_rest r_failed r_calls]. destruct (rd_short _ _ Hrt KU8 [] ltac:(cbn; lia)) as (m & bs & _ & ->). done. }
      destruct (read_num rt KU8 _) as [m r1]. pose proof (sticky_times (Z.to_nat (z - 1)) (fun r => let '(n, r0) := read_num rt KU8 r in (VNum n, r0))) as Hs.
      specialize (Hs ltac:(intros r Hr; pose proof (read_num_sticky rt str_ok Hrt KU8 r Hr) as Hs'; by destruct (read_num rt KU8 r))). specialize (Hs r1 Hf0). by destruct (dec_times _ _ r1). }
    destruct (dec_times _ _ _) as [vs r]. eexists _, r. split; [done|]. split; [done|]. cbn [snd r_calls] in Hc. rewrite Hc. lia. }
  rewrite E in *. cbn [fst snd] in *. rewrite Hr in H1. split; [exact H1|]. by rewrite H2.
Qed.

(** ** C34: flags other than 1 *)
Definition flag_schema : ast := [NDecl "P" (AStruct [("x", opt "uint8")]); NExport "P"].
Definition flag_export : export := Export_ "P" [SField "x" "uint8" (TBuiltin Uint8) false true].
Lemma flag_facts : legal_ast flag_schema /\ export_of flag_schema = Ok flag_export /\ plain_names flag_schema /\ all_fixed flag_schema.
Proof. split; [solve_legal|]. split; [by vm_compute|]. split; [solve_plain|]. apply single_fixed. decl_cases. cbn. lia. Qed.
Lemma two_encodings rt str_ok : rt_ok rt str_ok -> accepted flag_schema /\ for_code flag_schema (fun k t => forall h, exists data l M v,
  reads rt k h data (Done (JLoc l, M)) /\ r_rest (m_rd M) = [] /\ rep (m_heap M) (JLoc l) v /\ has_type str_ok t v /\
  forall h' this bytes M', rep h' this v -> writes rt k h' this (Done (bytes, M')) -> bytes ≠ data).
Proof.
  intros Hrt. destruct flag_facts as (Hn & Hx & Hp & Hfix). split; [by eapply accepted_export|]. eapply for_code_export; [done..|].
  intros h. set (data := rt_enc rt KU8 (NInt 2) ++ rt_enc rt KU8 (NInt 7)). exists data.
  destruct (export_reads _ _ rt str_ok h data Hn Hx Hp Hrt) as (M & props & H1 & H2 & _ & _ & _ & H6).
  assert (dec rt (TStruct (x_fields flag_export)) (RState data false 0) = (VRec [("x", VNum (NInt 7))], RState [] false 2)) as E.
  { cbn [flag_export x_fields dec List.map dec_list f_name f_array f_opt f_ty dec_wrap]. unfold dec_opt, dec_builtin. cbn [builtin_kind]. subst data.
    rewrite (read_enc rt str_ok Hrt) by (cbn; lia). rewrite <- (app_nil_r (rt_enc rt _ _)), (read_enc rt str_ok Hrt) by (cbn; lia). done. }
  rewrite E in *. cbn [fst snd r_failed] in *. eexists _, M, _. split; [exact H1|]. split; [by rewrite H2|]. split; [by eapply rep_in_rep, H6|].
  assert (has_type str_ok (TStruct (x_fields flag_export)) (VRec [("x", VNum (NInt 7))])) as Hv.
  { eexists. split; [done|]. split; [done|]. split; [|done]. right. exists (NInt 7). cbn. split; [done|lia]. }
  split; [exact Hv|]. intros h' this bytes M' Hrep Hw.
  destruct (export_writes _ _ rt _ h' this Hn Hx Hp (any_typed _ _ _ _ Hv) Hrep) as (M2 & Hw'). pose proof (writes_det _ _ _ _ _ _ Hw Hw') as [= -> _].
  subst data. cbn. rewrite app_nil_r. intros Eb. apply app_inj_1 in Eb as [Eb _]; [|by rewrite !(enc_width _ _ Hrt)].
  pose proof (rd_enc _ _ Hrt KU8 (NInt 1) [] ltac:(cbn; lia)) as R1. pose proof (rd_enc _ _ Hrt KU8 (NInt 2) [] ltac:(cbn; lia)) as R2. rewrite Eb, R2 in R1. by injection R1.
Qed.

(** ** C35: two runs *)
Definition order_B : rtype := TStruct [SField "c" "C" (TStruct [SField "v" "uint8" (TBuiltin Uint8) false false]) false false].
Definition order_bx : export := Export_ "A" [SField "b" "B" order_B false false; SField "x" "uint8" (TBuiltin Uint8) false false].
Definition order_xb : export := Export_ "A" [SField "x" "uint8" (TBuiltin Uint8) false false; SField "b" "B" order_B false false].
Lemma two_exports : exists i1 i2, fair_order i1 /\ fair_order i2 /\
  (do r <- type_check i1 order_schema; Ok (r_export r)) = Ok order_bx /\ (do r <- type_check i2 order_schema; Ok (r_export r)) = Ok order_xb.
Proof.
  first [ exists iter_fwd, iter_rev; split; [apply fair_fwd|]; split; [apply fair_rev|]; by vm_compute
        | exists iter_rev, iter_fwd; split; [apply fair_rev|]; split; [apply fair_fwd|]; by vm_compute ].
Qed.
Definition order_value : value := VRec [("b", VRec [("c", VRec [("v", VNum (NInt 1))])]); ("x", VNum (NInt 2))].
Definition order_heap : heap :=
  [OPlain PClass [("b", JLoc 1); ("x", JNum (NInt 2))]; OPlain PObject [("c", JLoc 2)]; OPlain PObject [("v", JNum (NInt 1))]].
Lemma order_rep : rep order_heap (JLoc 0) order_value.
Proof.
  eexists _, _, _. split; [done|]. split; [done|]. split; [|split; [by eexists|done]]. eexists. split; [done|].
  eexists _, _, _. split; [done|]. split; [done|]. split; [|done]. eexists. split; [done|].
  eexists _, _, _. split; [done|]. split; [done|]. split; [|done]. by eexists.
Qed.
Lemma runs_differ : exists a iter1 iter2, accepted a /\ plain_names a /\ small_enums a /\ fair_order iter1 /\ fair_order iter2 /\
  forall rt str_ok, rt_ok rt str_ok -> for_runs iter1 iter2 a (fun k1 k2 t =>
    exists v h this bytes M l M', has_type str_ok t v /\ rep h this v /\ writes rt k1 h this (Done (bytes, M)) /\
      reads rt k2 h bytes (Done (JLoc l, M')) /\ get_prop h this "x" = Done (JNum (NInt 2)) /\ get_prop (m_heap M') (JLoc l) "x" = Done (JNum (NInt 1))).
Proof.
  destruct two_exports as (i1 & i2 & Hf1 & Hf2 & Hx1 & Hx2).
  exists order_schema, i1, i2. assert (accepted order_schema) as Hacc by (apply accepted_fwd; [solve_legal|apply okb_ok; by vm_compute]).
  split; [done|]. assert (plain_names order_schema) as Hp by solve_plain. split; [done|].
  split; [decl_cases|]. split; [done|]. split; [done|]. intros rt str_ok Hrt. apply for_runs_intro; [done..|]. intros r1 r2 Hn Hr1 Hr2.
  apply rbind_ok in Hx1 as (r1' & Hr1' & [= E1]). apply rbind_ok in Hx2 as (r2' & Hr2' & [= E2]).
  rewrite Hr1 in Hr1'. injection Hr1' as <-. rewrite Hr2 in Hr2'. injection Hr2' as <-. set (k1 := class_of (r_export r1)). set (k2 := class_of (r_export r2)).
  pose proof (plain_fine _ _ _ Hf1 order_names Hr1 Hp) as Hk1. pose proof (plain_fine _ _ _ Hf2 order_names Hr2 Hp) as Hk2.
  assert (has_type str_ok (TStruct (x_fields (r_export r1))) order_value) as Hv.
  { rewrite E1. eexists. split; [done|]. split; [done|]. split; [right|split; [done|]; split; [right; eexists; split; [done|cbn; lia]|done]].
    eexists. split; [done|]. split; [done|]. split; [right|done]. eexists. split; [done|]. split; [done|]. split; [right|done]. eexists. split; [done|cbn; lia]. }
  destruct (writes_wire rt _ _ _ Hf1 order_names Hr1 (nf_ready _ _ Hk1) _ _ _ (any_typed _ _ _ _ Hv) order_rep) as (M & Hw & _). fold k1 in Hw.
  assert (wire (rt_enc rt) (rt_encs rt) (TStruct (x_fields (r_export r1))) order_value = rt_enc rt KU8 (NInt 1) ++ rt_enc rt KU8 (NInt 2)) as Ew.
  { rewrite E1. cbn. by rewrite !app_nil_r. }
  rewrite Ew in Hw. destruct (fine_reads _ _ _ Hf2 order_names Hr2 rt str_ok order_heap (rt_enc rt KU8 (NInt 1) ++ rt_enc rt KU8 (NInt 2)) Hrt Hk2) as (M2 & props & H1 & _ & _ & _ & _ & H6).
  cbn zeta in *. rewrite E2 in H1, H6.
  assert (dec rt (TStruct (x_fields order_xb)) (RState (rt_enc rt KU8 (NInt 1) ++ rt_enc rt KU8 (NInt 2)) false 0) =
    (VRec [("x", VNum (NInt 1)); ("b", VRec [("c", VRec [("v", VNum (NInt 2))])])], RState [] false 2)) as Ed.
  { cbn [order_xb order_B x_fields dec List.map dec_list f_name f_array f_opt f_ty dec_wrap]. unfold dec_builtin. cbn [builtin_kind].
    rewrite (read_enc rt str_ok Hrt) by (cbn; lia). rewrite <- (app_nil_r (rt_enc rt _ _)), (read_enc rt str_ok Hrt) by (cbn; lia). done. }
  rewrite Ed in H1, H6. cbn [fst snd r_failed] in H1, H6. specialize (H6 eq_refl). apply rep_in_rep in H6.
  exists order_value, order_heap, (JLoc 0). eexists _, M, _, M2. split; [done|]. split; [apply order_rep|]. split; [exact Hw|].
  split; [subst k2; rewrite E2; exact H1|]. split; [done|]. destruct H6 as (p & pr & ps & _ & _ & (y & Hy & ->) & _). exact Hy.
Qed.

(** ** C51: an optional field with a name that objects inherit *)
Definition omit_schema (f : string) : ast := [NDecl "E" (AStruct []); NDecl "P" (AStruct [(f, opt "E")]); NExport "P"].
Definition omit_export (f : string) : export := Export_ "P" [SField f "E" (TStruct []) false true].
Lemma omit_facts f : f ∈ "write" :: object_names -> legal_ast (omit_schema f) /\ export_of (omit_schema f) = Ok (omit_export f) /\
  (no_underscore f -> plain_names (omit_schema f)) /\ all_fixed (omit_schema f).
Proof.
  intros Hf. split; [|split; [|split]].
  - apply parsed_legal. repeat (apply elem_of_cons in Hf as [->|Hf]; [by vm_compute|]). by apply elem_of_nil in Hf.
  - repeat (apply elem_of_cons in Hf as [->|Hf]; [by vm_compute|]). by apply elem_of_nil in Hf.
  - intros Hne. repeat (apply elem_of_cons in Hf as [->|Hf]; [first [solve [exfalso; revert Hne; unfold no_underscore; apply (bool_decide_unpack _); by vm_compute]|solve_plain]|]). by apply elem_of_nil in Hf.
  - apply single_fixed. decl_cases; cbn; lia.
Qed.
Lemma omitted_refuted rt str_ok f : rt_ok rt str_ok -> f ∈ "write" :: object_names -> accepted (omit_schema f) /\ (no_underscore f -> plain_names (omit_schema f)) /\
  for_code (omit_schema f) (fun k t => exists v h this bytes M,
    has_type str_ok t v /\ holds h this v /\ writes rt k h this (Done (bytes, M)) /\ bytes ≠ wire (rt_enc rt) (rt_encs rt) t v).
Proof.
  intros Hrt Hin. destruct (omit_facts f Hin) as (Hn & Hx & Hp & Hfix). split; [by eapply accepted_export|]. split; [done|]. eapply for_code_export; [done..|].
  assert (exists M, writes rt (class_of (omit_export f)) [OPlain PClass []] (JLoc 0) (Done (rt_enc rt KU8 (NInt 1), M))) as [M HM].
  { clear -Hin. repeat (apply elem_of_cons in Hin as [->|Hin]; [eexists; exists 0; intros n _; vm_compute; reflexivity|]). by apply elem_of_nil in Hin. }
  exists (VRec [(f, VNone)]), [OPlain PClass []], (JLoc 0), (rt_enc rt KU8 (NInt 1)), M.
  split; [|split; [|split]].
  - eexists. split; [done|]. split; [done|]. split; [by left|done].
  - eexists _, _, _. split; [done|]. split; [done|]. split; [done|]. split; [by right|done].
  - exact HM.
  - cbn. rewrite !app_nil_r. intros Eb.
    pose proof (rd_enc _ _ Hrt KU8 (NInt 0) [] ltac:(cbn; lia)) as R1. pose proof (rd_enc _ _ Hrt KU8 (NInt 1) [] ltac:(cbn; lia)) as R2. rewrite <- Eb, R2 in R1. by injection R1.
Qed.

(** ** C32: strings *)
Definition string_schema : ast := [NDecl "P" (AStruct [("s", plain "string")]); NExport "P"].
Definition string_export : export := Export_ "P" [SField "s" "string" (TBuiltin BString) false false].
Lemma string_facts : legal_ast string_schema /\ export_of string_schema = Ok string_export /\ plain_names string_schema /\ all_fixed string_schema.
Proof. split; [solve_legal|]. split; [by vm_compute|]. split; [solve_plain|]. apply single_fixed. decl_cases; cbn; lia. Qed.
Lemma strings_survive rt str_ok : rt_ok rt str_ok -> accepted string_schema /\ for_code string_schema (fun k t => forall s h this h', str_ok s -> (Z.of_nat (length s) < 2 ^ 32)%Z ->
  rep h this (VRec [("s", VStr s)]) -> exists bytes M l M', writes rt k h this (Done (bytes, M)) /\ reads rt k h' bytes (Done (JLoc l, M')) /\
    get_prop (m_heap M') (JLoc l) "s" = Done (JStr s) /\ r_rest (m_rd M') = []).
Proof.
  intros Hrt. destruct string_facts as (Hn & Hx & Hp & Hfix). split; [by eapply accepted_export|]. eapply for_code_export; [done..|]. intros s h this h' Hs Hl Hrep.
  assert (has_type str_ok (TStruct (x_fields string_export)) (VRec [("s", VStr s)])) as Hv.
  { eexists. split; [done|]. split; [done|]. split; [right|done]. by exists s. }
  destruct (export_writes _ _ rt _ h this Hn Hx Hp (any_typed _ _ _ _ Hv) Hrep) as (M & Hw).
  pose proof (export_fine _ _ Hn Hx Hp) as Hk. apply legal_no_builtin in Hn. pose proof Hx as (r & Hr & [= Ex])%rbind_ok. rewrite <- Ex in Hk, Hv, Hw |- *.
  destruct (reads_wire rt str_ok _ _ _ fair_fwd Hn Hr Hrt) with (v := VRec [("s", VStr s)]) (h := h') (rest := @nil byte) as (l & M2 & H1 & H2 & H3); [decl_cases|done|done|].
  rewrite app_nil_r in H1. eexists _, M, l, M2. split; [exact Hw|]. split; [exact H1|]. split; [|done]. destruct H2 as (p & pr & ps & _ & _ & (y & Hy & ->) & _). exact Hy.
Qed.
Lemma utf8_strings_refuted : for_code string_schema (fun k t => forall h, exists this_heap this bytes M l M',
  rep this_heap this (VRec [("s", VStr [233%Z])]) /\ writes utf8_lib k this_heap this (Done (bytes, M)) /\ reads utf8_lib k h bytes (Done (JLoc l, M')) /\
  get_prop (m_heap M') (JLoc l) "s" = Done (JStr [65533%Z]) /\ r_rest (m_rd M') ≠ []).
Proof.
  destruct string_facts as (Hn & Hx & Hp & Hfix). eapply for_code_export; [done..|]. intros h.
  set (v := VRec [("s", VStr [233%Z])]). set (h0 := [OPlain PClass [("s", JStr [233%Z])]] : heap).
  assert (rep h0 (JLoc 0) v) as Hrep. { eexists _, _, _. split; [done|]. split; [done|]. split; [|done]. by eexists. }
  assert (writable (TStruct (x_fields string_export)) v) as Hv.
  { eexists. split; [done|]. split; [done|]. split; [right|done]. eexists. split; [done|]. cbn. split; [lia|done]. }
  destruct (export_writes _ _ utf8_lib _ h0 (JLoc 0) Hn Hx Hp Hv Hrep) as (M & Hw).
  destruct (export_reads _ _ utf8_lib ascii_ok h (wire (rt_enc utf8_lib) (rt_encs utf8_lib) (TStruct (x_fields string_export)) v) Hn Hx Hp utf8_rt_ok) as (M2 & props & H1 & H2 & _ & _ & _ & H6).
  assert (dec utf8_lib (TStruct (x_fields string_export)) (RState (wire (rt_enc utf8_lib) (rt_encs utf8_lib) (TStruct (x_fields string_export)) v) false 0) =
    (VRec [("s", VStr [65533%Z])], RState [byte_of 169] false 2)) as E by by vm_compute.
  rewrite E in *. cbn [fst snd r_failed] in *. exists h0, (JLoc 0). eexists _, M, _, M2. split; [done|]. split; [exact Hw|]. split; [exact H1|].
  specialize (H6 eq_refl). apply rep_in_rep in H6. split; [|by rewrite H2]. destruct H6 as (p & pr & ps & _ & _ & (y & Hy & ->) & _). exact Hy.
Qed.

(** ** C52: arrays of empty structs *)
Definition hollow_schema : ast := [NDecl "E" (AStruct []); NDecl "P" (AStruct [("xs", arr "E")]); NExport "P"].
Definition hollow_export : export := Export_ "P" [SField "xs" "E" (TStruct []) true false].
Lemma hollow_facts : legal_ast hollow_schema /\ export_of hollow_schema = Ok hollow_export /\ plain_names hollow_schema /\ all_fixed hollow_schema.
Proof. split; [solve_legal|]. split; [by vm_compute|]. split; [solve_plain|]. apply single_fixed. decl_cases; cbn; lia. Qed.
Lemma hollow_times n r : dec_times n (fun r => (VRec [], r)) r = (repeat (VRec []) n, r).
Proof. induction n as [|n IH]; [done|]. cbn [dec_times repeat]. by rewrite IH. Qed.
Lemma hollow_refuted rt str_ok : rt_ok rt str_ok -> accepted hollow_schema /\ for_code hollow_schema (fun k t => forall z h, (0 <= z < 2 ^ 32)%Z ->
  exists data l M v, length data = 4 /\ reads rt k h data (Done (JLoc l, M)) /\ rep (m_heap M) (JLoc l) v /\ Z.of_nat (items v) = z).
Proof.
  intros Hrt. destruct hollow_facts as (Hn & Hx & Hp & Hfix). split; [by eapply accepted_export|]. eapply for_code_export; [done..|]. intros z h Hz.
  exists (rt_enc rt KU32 (NInt z)). destruct (export_reads _ _ rt str_ok h (rt_enc rt KU32 (NInt z)) Hn Hx Hp Hrt) as (M & props & H1 & H2 & _ & _ & _ & H6).
  assert (dec rt (TStruct (x_fields hollow_export)) (RState (rt_enc rt KU32 (NInt z)) false 0) = (VRec [("xs", VArr (repeat (VRec []) (Z.to_nat z)))], RState [] false 1)) as E.
  { cbn [hollow_export x_fields dec List.map dec_list f_name f_array f_opt f_ty dec_wrap]. unfold dec_arr.
    rewrite <- (app_nil_r (rt_enc rt _ _)), (read_enc rt str_ok Hrt) by (cbn; lia). cbn [int_of]. by rewrite hollow_times. }
  rewrite E in *. cbn [fst snd r_failed] in *. eexists _, M, _. split; [apply (enc_width _ _ Hrt)|]. split; [exact H1|]. split; [by eapply rep_in_rep, H6|].
  cbn [items map sum_list_with id]. rewrite Nat.add_0_r. transitivity (Z.of_nat (Z.to_nat z)); [f_equal|lia].
  generalize (Z.to_nat z). intros n. induction n as [|n IH]; [done|]. cbn [repeat map sum_list_with id]. rewrite IH. done.
Qed.

(** ** A schema with all kinds of fields, a value, and an object that represents it *)
Definition num (z : Z) : value := VNum (NInt z).
Definition demo_value : value :=
  VRec [("id", num 513);
        ("inner", VRec [("flag", num 2); ("pos", VNone); ("names", VArr [VStr [104; 105]%Z; VStr []]);
                        ("values", VArr [VRec [("a", num 7); ("b", num (-1)); ("c", num 255); ("d", num 0)]])])].
Definition jnum (z : Z) : val := JNum (NInt z).
Definition demo_heap : heap :=
  [ OPlain PClass [("id", jnum 513); ("inner", JLoc 1)];
    OPlain PObject [("flag", jnum 2); ("names", JLoc 2); ("values", JLoc 3)];
    OArr [JStr [104; 105]%Z; JStr []]; OArr [JLoc 4];
    OPlain PObject [("a", jnum 7); ("b", jnum (-1)); ("c", jnum 255); ("d", jnum 0)] ].
Definition demo_bytes : list byte := map (fun n => ascii_of_N n) (* id *) [1; 2; (* flag *) 2; (* pos *) 0;
  (* names *) 2; 0; 0; 0; 2; 0; 0; 0; 104; 105; 0; 0; 0; 0; (* values *) 1; 0; 0; 0; 7; 0; 0; 0; 255; 255; 255; 255; 255; 0]%N.
Definition demo_export : export := match export_of demo_schema with Ok x => x | _ => Export_ "" [] end.
Lemma init_fixed a fs d : Forall (fun d => shallow a (u_name d.2)) fs -> order_fixed a (fs ++ [d]).
Proof.
  intros Hf i j di dj Hij Hi Hj. left. rewrite Forall_lookup in Hf. apply (Hf i).
  assert (i < length fs). { apply lookup_lt_Some in Hj. rewrite app_length in Hj. cbn in Hj. lia. }
  by rewrite lookup_app_l in Hi.
Qed.
Lemma demo_facts : legal_ast demo_schema /\ accepted demo_schema /\ plain_names demo_schema /\ small_enums demo_schema /\ all_fixed demo_schema /\
  no_inherited demo_schema /\ no_empty demo_schema.
Proof.
  split; [apply demo_legal|]. split; [apply accepted_fwd; [apply demo_legal|apply demo_accepted]|]. split; [solve_plain|].
  split; [decl_cases; cbn; lia|]. split; [|split].
  - intros e n fs _ _. revert n fs.
    assert (forall t, t ∈ builtin_names -> shallow demo_schema t) as Hb by (intros t Ht; by left).
    decl_cases.
    + apply (init_fixed _ [_]). constructor; [|constructor]. apply Hb. solve_names.
    + apply (init_fixed _ [_; _; _]). repeat (constructor; [apply Hb; solve_names|]). constructor.
    + apply (init_fixed _ [_; _; _]). constructor; [|constructor; [|constructor; [|constructor]]].
      * right. left. exists ["A"; "B"]. unfold declares_enum, demo_schema. left.
      * right. right. exists [("x", plain "float"); ("y", plain "float")]. split; [right; left|]. apply Forall_forall. solve_names.
      * apply Hb. solve_names.
    + apply (init_fixed _ [_]). constructor; [|constructor]. apply Hb. solve_names.
    + apply (init_fixed _ []). constructor.
  - assert (forall n fs, declares_struct demo_schema n fs -> Forall (fun d => d.1 ∉ "write" :: object_names) fs) as H by (decl_cases; apply (bool_decide_unpack _); by vm_compute).
    intros n fs f u Hd Hin _. specialize (H n fs Hd). rewrite Forall_forall in H. by apply (H (f, u)).
  - decl_cases; done.
Qed.
Lemma snake_plain : plain_names snake_schema /\ legal_ast snake_schema /\ accepted snake_schema.
Proof.
  destruct snake_facts as (Hp & Hl & Ha). split; [|split; [done|by apply accepted_fwd]].
  assert (forall e fs, exports snake_schema = [e] -> declares_struct snake_schema e fs -> Forall (fun f => f ∉ js_reserved ++ readonly_names) fs.*1) as Ht.
  { intros e fs [= <-] Hd. revert Hd. unfold declares_struct, snake_schema. intros H.
    repeat (apply elem_of_cons in H as [H|H]; [first [done|injection H as ->; solve_names]|]). by apply elem_of_nil in H. }
  constructor; [constructor|..].
  - intros e n fs _ _ Hd. specialize (Hp n fs Hd). by split; [apply read_kept_apart|apply write_kept_apart].
  - intros e [= <-]. solve_names.
  - by intros e fs x u t [= <-].
  - intros e fs He Hd. split; [by destruct (Hp _ _ Hd)|]. eapply Forall_impl; [by eapply Ht|]. intros x Hx Hin. apply Hx, elem_of_app. by left.
  - intros e0 n fs _ _ Hd. split; [by destruct (Hp _ _ Hd)|]. revert n fs Hd. decl_cases; solve_names.
  - intros e fs He Hd. eapply Forall_impl; [by eapply Ht|]. intros x Hx Hin. apply Hx, elem_of_app. by right.
Qed.
Lemma demo_run : fst <$> (match call_write latin1 20 (class_of demo_export) demo_heap (JLoc 0) with Some (Done x) => Some x | _ => None end) = Some demo_bytes /\
  fst <$> (match call_read latin1 20 (class_of demo_export) [] demo_bytes with Some (Done x) => Some x | _ => None end) = Some (JLoc 0).
Proof. by vm_compute. Qed.
Lemma demo_typed : has_type latin1_ok (TStruct (x_fields demo_export)) demo_value.
Proof.
  assert (TStruct (x_fields demo_export) = ltac:(let t := eval vm_compute in (TStruct (x_fields demo_export)) in exact t)) as -> by by vm_compute.
  Local Ltac field := split; [reflexivity|]; split; [right|].
  eexists. split; [reflexivity|]. field; [eexists; split; [reflexivity|cbn; lia]|]. field; [|exact I].
  eexists. split; [reflexivity|]. field; [eexists; split; [reflexivity|]; eexists; split; [right; left|reflexivity]|].
  split; [reflexivity|]. split; [left; done|]. field.
  { eexists. split; [reflexivity|]. split; [cbn; lia|]. repeat constructor; (eexists; split; [reflexivity|]; split; [cbn; lia|repeat constructor; lia]). }
  field; [|exact I]. eexists. split; [reflexivity|]. split; [cbn; lia|]. constructor; [|constructor]. eexists. split; [reflexivity|].
  do 4 (field; [eexists; split; [reflexivity|cbn; lia]|]). exact I.
Qed.
Lemma demo_rep : rep demo_heap (JLoc 0) demo_value.
Proof.
  repeat first [exact I|reflexivity|left; reflexivity|eexists|split].
Qed.
