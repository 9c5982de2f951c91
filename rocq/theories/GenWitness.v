(** Final lemmas and witnesses for the generator theorems. *)
From Verif Require Export ParserProofs2.
From Verif Require Export GenBrackets GenNames GenSize TsTextGen.

Definition types_fwd : tymap -> list (string * (string * rtype)) := map_to_list.
Definition types_rev (m : tymap) : list (string * (string * rtype)) := reverse (map_to_list m).
Lemma fair_types_fwd : fair_types types_fwd.
Proof. intros m. done. Qed.
Lemma fair_types_rev : fair_types types_rev.
Proof. intros m. apply reverse_Permutation. Qed.

Lemma parsed_legal a : parse_schema (show_ast a) = POk a -> legal_ast a.
Proof. apply parse_legal. Qed.
Ltac solve_legal := apply parsed_legal; by vm_compute.

(** C20 *)
Lemma declared_types a : for_text a (fun ds k => exports a = [k_name k] /\ NoDup (decl_name <$> ds) /\
  forall n, n ∈ decl_name <$> ds <-> n ≠ k_name k /\ n ∉ builtin_names /\ needed a (k_name k) n).
Proof.
  apply for_text_intro. intros iter r titer Hf Hn Hr Ht. split; [by eapply type_check_result|]. split; [by eapply decls_nodup|].
  intros n. cbn [module_of m_class class_of k_name m_decls]. split.
  - intros (d & -> & Hd)%elem_of_list_fmap. eapply decls_inv in Hd; [naive_solver|done..].
  - intros (H1 & H2 & H3). eapply decls_declare in H3 as (d & Hd & <-); [apply elem_of_list_fmap; eauto|done..].
Qed.
(** the names that the code mentions: types of parameters and members *)
Lemma mentioned_types a : for_text a (fun ds k => forall n fs f u, n = k_name k \/ n ∈ decl_name <$> ds ->
  declares_struct a n fs -> (f, u) ∈ fs -> u_name u ∈ builtin_names \/ u_name u ∈ decl_name <$> ds).
Proof. apply for_text_intro. intros iter r titer Hf Hn Hr Ht n fs f u. by eapply mentioned_declared. Qed.

(** C50 *)
Lemma mirrored a : for_text a (fun ds k => (forall d, d ∈ ds -> declares a (decl_name d) d) /\
  exists fs ps, declares_struct a (k_name k) fs /\ ps ≡ₚ fs /\
    k_params k = List.map (fun '(f, u) => (f, param_type (k_name k) u)) ps).
Proof.
  apply for_text_intro. intros iter r titer Hf Hn Hr Ht. split.
  - intros d Hd. eapply decls_inv in Hd; [naive_solver|done..].
  - by eapply params_inv.
Qed.

(** C60 *)
Lemma text_is_module a : for_text a (fun ds k => exports a = [k_name k]).
Proof. eapply for_text_mono; [|exact (declared_types a)]. by intros ds k [H _]. Qed.

(** C21 *)
Lemma two_runs iter a r version now1 now2 titer1 titer2 :
  fair_order iter -> no_builtin_decl a -> type_check iter a = Ok r -> fair_types titer1 -> fair_types titer2 ->
  exists pre post ds1 ds2, ds1 ≡ₚ ds2 /\ Forall (fun d => exists t, d = "    export " +:+ t) ds1 /\
    generate version now1 titer1 r = Ok ("// Generated by packetc v" +:+ version +:+ " at " +:+ now1 +:+ pre +:+ concat_str ds1 +:+ post) /\
    generate version now2 titer2 r = Ok ("// Generated by packetc v" +:+ version +:+ " at " +:+ now2 +:+ pre +:+ concat_str ds2 +:+ post).
Proof.
  intros Hf Hn Hr H1 H2. set (e := x_name (r_export r)).
  exists (NL +:+ import_line +:+ line "" ("export namespace " +:+ e +:+ " {")), (line "" "}" +:+ print_class (class_of (r_export r))).
  exists (List.map print_decl (List.concat (List.map (decl_of e) (titer1 (r_types r))))).
  exists (List.map print_decl (List.concat (List.map (decl_of e) (titer2 (r_types r))))).
  split; [|split; [|split]].
  - assert (titer1 (r_types r) ≡ₚ titer2 (r_types r)) as HP by (rewrite (H1 _), (H2 _); done).
    rewrite <- !flat_map_concat_map. apply Permutation_map. by apply Permutation_flat_map.
  - apply Forall_forall. intros s (d & <- & _)%elem_of_list_In%in_map_iff. destruct d; cbn [print_decl]; unfold line, tab; eexists; rewrite !sapp_assoc; reflexivity.
  - rewrite (generate_ok _ _ _ _ _ _ Hf Hn Hr). unfold print_module, header, line. cbn [module_of m_version m_now m_decls m_class class_of k_name]. fold e.
    rewrite !sapp_assoc. reflexivity.
  - rewrite (generate_ok _ _ _ _ _ _ Hf Hn Hr). unfold print_module, header, line. cbn [module_of m_version m_now m_decls m_class class_of k_name]. fold e.
    rewrite !sapp_assoc. reflexivity.
Qed.
(** and both differences occur *)
Definition two_schema : ast :=
  [NDecl "A" (AEnum ["x"]); NDecl "B" (AEnum ["y"]); NDecl "P" (AStruct [("a", plain "A"); ("b", plain "B")]); NExport "P"].
Lemma order_visible : exists r, type_check iter_fwd two_schema = Ok r /\
  generate "0" "now" types_fwd r ≠ generate "0" "now" types_rev r.
Proof.
  destruct (type_check iter_fwd two_schema) as [r|?|?|] eqn:E; [|by vm_compute in E..]. exists r. split; [done|].
  vm_compute in E. injection E as <-. vm_compute. intros [=].
Qed.

(** C23 *)
Definition clash_struct : ast :=
  [ NDecl "Leaf" (AStruct [("x", plain "uint8")]);
    NDecl "A" (AStruct [("b", plain "Leaf")]);
    NDecl "P" (AStruct [("a", plain "A"); ("a_b", plain "Leaf")]);
    NExport "P" ].
Definition clash_string : ast :=
  [ NDecl "Leaf" (AStruct [("x", plain "uint8")]);
    NDecl "P" (AStruct [("x", plain "string"); ("x_len", plain "Leaf")]);
    NExport "P" ].
Definition clash_opt : ast :=
  [ NDecl "A" (AStruct [("b", opt "uint8")]);
    NDecl "P" (AStruct [("a", plain "A"); ("a_b", opt "uint8")]);
    NExport "P" ].
Definition class_for (a : ast) : cls :=
  match type_check iter_fwd a with Ok r => class_of (r_export r) | _ => Cls "" [] [] [] end.
Lemma clash_schemas_valid : forall a, a ∈ [clash_struct; clash_string; clash_opt] ->
  no_builtin_decl a /\ valid_schema a /\ (forall n fs, declares_struct a n fs -> NoDup fs.*1).
Proof.
  intros a Ha. assert (no_builtin_decl a) as Hn.
  { repeat (apply elem_of_cons in Ha as [->|Ha]; [by apply (bool_decide_unpack _); vm_compute|]). by apply elem_of_nil in Ha. }
  split; [done|]. split.
  - apply (type_check_valid iter_fwd); [apply fair_fwd|done|]. apply okb_ok.
    repeat (apply elem_of_cons in Ha as [->|Ha]; [by vm_compute|]). by apply elem_of_nil in Ha.
  - intros n fs Hd. assert (Forall (fun x => match x with NDecl _ (AStruct fs) => NoDup fs.*1 | _ => True end) a) as H.
    { repeat (apply elem_of_cons in Ha as [->|Ha]; [repeat (apply Forall_cons; split; [first [exact I|apply (bool_decide_unpack _); vm_compute; exact I]|]); by apply Forall_nil|]). by apply elem_of_nil in Ha. }
    rewrite Forall_forall in H. exact (H _ Hd).
Qed.
Definition dup_in (l : list string) : bool := negb (bool_decide (NoDup l)).
Lemma dup_in_spec l : dup_in l = true -> ~ NoDup l.
Proof. unfold dup_in. intros H Hn. by rewrite bool_decide_eq_true_2 in H. Qed.
Lemma clash_locals :
  ~ read_ok (class_for clash_struct) /\ ~ read_ok (class_for clash_string) /\ ~ write_ok (class_for clash_opt).
Proof.
  split; [|split].
  - intros [_ [H _]]. revert H. apply dup_in_spec. vm_compute. done.
  - intros [_ [H _]]. revert H. apply dup_in_spec. vm_compute. done.
  - intros [_ [H _]]. revert H. apply dup_in_spec. vm_compute. done.
Qed.
Lemma locals_distinct a : plain_fields a -> for_text a (fun ds k => read_ok k /\ write_ok k).
Proof. intros Hp. apply for_text_intro. intros iter r titer Hf Hn Hr Ht. by eapply plain_names_ok. Qed.
Lemma locals_criterion a : for_text a (fun ds k =>
  (read_ok k <-> forall n fs, needed a (k_name k) n -> declares_struct a n fs -> kept_apart (read_local a) fs) /\
  (write_ok k <-> forall n fs, needed a (k_name k) n -> declares_struct a n fs -> kept_apart (write_local a) fs)).
Proof. apply for_text_intro. intros iter r titer Hf Hn Hr Ht. by eapply names_criterion. Qed.
Lemma clash_schemas_legal a : a ∈ [clash_struct; clash_string; clash_opt] -> legal_ast a.
Proof. intros Ha. repeat (apply elem_of_cons in Ha as [->|Ha]; [solve_legal|]). by apply elem_of_nil in Ha. Qed.
Lemma clash_text a (P : cls -> Prop) : a ∈ [clash_struct; clash_string; clash_opt] -> ~ P (class_for a) ->
  legal_ast a /\ valid_schema a /\ (forall n fs, declares_struct a n fs -> NoDup fs.*1) /\
  exists iter r version now titer t ds k, fair_order iter /\ fair_types titer /\ type_check iter a = Ok r /\
    generate version now titer r = Ok t /\ read_ts t = Some (ds, k) /\ ~ P k.
Proof.
  intros Ha HP. destruct (clash_schemas_valid a Ha) as (Hn & Hv & Hd). pose proof (clash_schemas_legal a Ha) as Hl.
  split; [done|]. split; [done|]. split; [done|]. apply (type_check_valid iter_fwd) in Hv as [r Hr]; [|apply fair_fwd|done].
  destruct (read_generated iter_fwd a r fair_fwd Hn Hl Hr "0" "now" types_fwd fair_types_fwd) as (t & ds & H1 & H2 & _);
    [apply (bool_decide_unpack _); by vm_compute..|].
  exists iter_fwd, r, "0", "now", types_fwd, t, ds, (class_of (r_export r)). split; [apply fair_fwd|]. split; [apply fair_types_fwd|].
  split; [done|]. split; [done|]. split; [done|]. unfold class_for in HP. by rewrite Hr in HP.
Qed.
Lemma names_refuted : exists a, legal_ast a /\ valid_schema a /\ (forall n fs, declares_struct a n fs -> NoDup fs.*1) /\
  exists iter r version now titer t ds k, fair_order iter /\ fair_types titer /\ type_check iter a = Ok r /\
    generate version now titer r = Ok t /\ read_ts t = Some (ds, k) /\ ~ read_ok k.
Proof. exists clash_struct. apply clash_text; [by left|apply clash_locals]. Qed.
Lemma write_names_refuted : exists a, legal_ast a /\ valid_schema a /\ (forall n fs, declares_struct a n fs -> NoDup fs.*1) /\
  exists iter r version now titer t ds k, fair_order iter /\ fair_types titer /\ type_check iter a = Ok r /\
    generate version now titer r = Ok t /\ read_ts t = Some (ds, k) /\ ~ write_ok k.
Proof. exists clash_opt. apply clash_text; [by right; right; left|apply clash_locals]. Qed.
Lemma demo_legal : legal_ast demo_schema.
Proof. solve_legal. Qed.
(** checking field names *)
Fixpoint after (x y : string) : option string :=
  match x, y with
  | EmptyString, String d s => if decide (d = "_"%char) then Some s else None
  | String c x', String d y' => if decide (c = d) then after x' y' else None
  | _, EmptyString => None
  end.
Lemma after_spec x s : after x (x +:+ "_" +:+ s) = Some s.
Proof. induction x as [|c x IH]; [done|]. rewrite sapp_cons. cbn [after]. by rewrite decide_True. Qed.
Definition is_struct_name (a : ast) (n : string) : bool :=
  existsb (fun d => match d with NDecl m (AStruct _) => bool_decide (m = n) | _ => false end) a.
Definition inlinedb (a : ast) (u : unresolved) : bool := negb (u_array u || u_opt u) && is_struct_name a (u_name u).
Lemma inlinedb_spec a u gs : inlined a u gs -> inlinedb a u = true.
Proof.
  intros (Ha & Ho & Hd). unfold inlinedb. rewrite Ha, Ho. apply existsb_exists. exists (NDecl (u_name u) (AStruct gs)).
  split; [by apply elem_of_list_In|]. by apply bool_decide_eq_true.
Qed.
Definition distinguishableb (a : ast) (fs : list (string * unresolved)) : bool :=
  bool_decide (NoDup fs.*1) && forallb (fun f => forallb (fun g =>
    match after f.1 g.1 with
    | None => true
    | Some s => negb (inlinedb a f.2) && negb (bool_decide (s = "len" \/ s = "temp") && inlinedb a g.2)
    end) fs) fs.
Lemma distinguishableb_spec a fs : distinguishableb a fs = true -> distinguishable a fs.
Proof.
  unfold distinguishableb. rewrite andb_true_iff, bool_decide_eq_true, forallb_forall. intros [Hnd H]. split; [done|].
  intros x u s v Hx Hy. apply elem_of_list_In in Hx, Hy. specialize (H _ Hx). rewrite forallb_forall in H. specialize (H _ Hy). cbn [fst snd] in H.
  rewrite after_spec, andb_true_iff, !negb_true_iff in H. destruct H as [H1 H2]. split.
  - intros gs Hi. apply inlinedb_spec in Hi. congruence.
  - intros Hs gs Hi. apply inlinedb_spec in Hi. rewrite Hi, bool_decide_eq_true_2 in H2 by done. done.
Qed.
Lemma plain_fields_check a : Forall (fun d => match d with NDecl _ (AStruct fs) => distinguishableb a fs = true | _ => True end) a -> plain_fields a.
Proof. intros H n fs Hd. rewrite Forall_forall in H. apply distinguishableb_spec. exact (H _ Hd). Qed.
Lemma demo_plain_fields : plain_fields demo_schema.
Proof. apply plain_fields_check. repeat (apply Forall_cons; split; [first [exact I|by vm_compute]|]). by apply Forall_nil. Qed.
(** names with underscores that do no harm *)
Definition snake_schema : ast :=
  [ NDecl "Kind" (AEnum ["low"; "high"]);
    NDecl "Pos" (AStruct [("x", plain "uint8"); ("x_old", plain "uint8"); ("y_", plain "string")]);
    NDecl "P" (AStruct [("id", plain "uint8"); ("id_kind", plain "Pos"); ("user_name", plain "string"); ("user_name_old", plain "Pos");
      ("kind", plain "Kind"); ("kind_", plain "Kind"); ("pos", opt "Pos"); ("pos_x", plain "uint8"); ("pos_x_len", opt "Kind"); ("_", plain "Kind")]);
    NExport "P" ].
Lemma snake_facts : plain_fields snake_schema /\ legal_ast snake_schema /\ is_ok (type_check iter_fwd snake_schema).
Proof.
  split; [|split; [solve_legal|vm_compute; eexists; reflexivity]].
  apply plain_fields_check. repeat (apply Forall_cons; split; [first [exact I|by vm_compute]|]). by apply Forall_nil.
Qed.
(** the criterion at work: kept apart here, not there *)
Lemma criterion_facts :
  (forall n fs, declares_struct snake_schema n fs -> kept_apart (read_local snake_schema) fs /\ kept_apart (write_local snake_schema) fs) /\
  (exists fs, declares_struct clash_string "P" fs /\ ~ kept_apart (read_local clash_string) fs) /\
  (exists fs, declares_struct clash_opt "P" fs /\ ~ kept_apart (write_local clash_opt) fs).
Proof.
  split; [|split].
  - intros n fs Hd. destruct snake_facts as [H _]. split; [apply read_kept_apart|apply write_kept_apart]; by eapply H.
  - eexists. split; [by right; left|]. intros H. apply (H 0 1 _ _ "_len" _ _ "" ltac:(done) eq_refl eq_refl); [|by eapply rl_self; repeat split; left|done].
    apply rl_len; [done|by right].
  - eexists. split; [by right; left|]. intros H. apply (H 0 1 _ _ "_b" _ _ "" ltac:(done) eq_refl eq_refl); [|by apply wl_self|done].
    apply (wl_field _ _ [("b", opt "uint8")] "b" (opt "uint8") ""); [by repeat split; left|by left|by apply wl_self].
Qed.
Lemma demo_result : exists r, type_check iter_fwd demo_schema = Ok r /\ generate "0" "now" types_fwd r ≠ Ok "".
Proof.
  destruct demo_accepted as [r Hr]. exists r. split; [done|]. rewrite (generate_ok _ _ _ _ _ _ fair_fwd demo_names Hr).
  unfold print_module, header, line. rewrite !sapp_assoc. intros [=].
Qed.
