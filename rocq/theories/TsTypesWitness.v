(** Schemas for C62: names that give type errors in the emitted module. *)
From Verif Require Export NameWitness TsTypesProofs.

Definition tag_schema (n : string) : ast := [NDecl n (AEnum ["a"; "b"]); NDecl "P" (AStruct [("t", plain n)]); NExport "P"].
Lemma checked_facts a : parse_schema (show_ast a) = POk a -> okb (type_check iter_fwd a) = true -> accepted a.
Proof. intros H1 H2. apply accepted_fwd; [by apply parsed_legal|by apply okb_ok]. Qed.

Lemma export_ill e : e ∈ ["ArrayBuffer"] -> accepted (export_schema e) /\ plain_names (export_schema e) /\
  for_text (export_schema e) (fun ds k => k_name k = e /\ ~ well_typed ds k).
Proof.
  intros ->%elem_of_list_singleton. split; [apply checked_facts; by vm_compute|]. split; [solve_plain|].
  eapply for_text_mono; [|exact (declared_types _)]. intros ds k (He & _). injection He as He. split; [done|]. intros [_ _ [H _]]. apply H. rewrite <- He. 
  apply (bool_decide_unpack _). by vm_compute.
Qed.
Lemma field_ill f : f ∈ ["write"; "constructor"] -> accepted (name_schema f) /\ plain_names (name_schema f) /\
  for_text (name_schema f) (fun ds k => f ∈ (k_params k).*1 /\ ~ well_typed ds k).
Proof.
  intros Hin. assert (accepted (name_schema f) /\ plain_names (name_schema f)) as [H1 H2].
  { repeat (apply elem_of_cons in Hin as [->|Hin]; [split; [apply checked_facts; by vm_compute|solve_plain]|]). by apply elem_of_nil in Hin. }
  split; [done|]. split; [done|]. apply for_text_intro. intros iter r titer Hf Hn Hr Ht.
  assert (f ∈ (k_params (class_of (r_export r))).*1) as Hp.
  { destruct (params_inv _ _ _ Hf Hn Hr) as (fs & dd & Hd & Hpm & ->).
    assert (fs = [(f, plain "uint8")]) as ->.
    { unfold declares_struct, name_schema in Hd. apply elem_of_cons in Hd as [E|[E|E]%elem_of_cons]; [by injection E|done|by apply elem_of_nil in E]. }
    apply Permutation_singleton_r in Hpm as ->. left. }
  split; [done|]. intros [_ _ _ HM]. rewrite Forall_forall in HM. exact (HM _ Hp Hin).
Qed.
Lemma enum_ill n : n ∈ ["read"; "prototype"] -> accepted (tag_schema n) /\ plain_names (tag_schema n) /\
  for_text (tag_schema n) (fun ds k => (exists vs, DEnum n vs ∈ ds) /\ ~ well_typed ds k).
Proof.
  intros Hin. assert (accepted (tag_schema n) /\ plain_names (tag_schema n) /\ n ∉ builtin_names /\ n ≠ "P") as (H1 & H2 & H3 & H4).
  { repeat (apply elem_of_cons in Hin as [->|Hin]; [split; [apply checked_facts; by vm_compute|split; [solve_plain|apply (bool_decide_unpack _); by vm_compute]]|]). by apply elem_of_nil in Hin. }
  split; [done|]. split; [done|]. apply for_text_intro. intros iter r titer Hf Hn Hr Ht.
  pose proof (type_check_result _ _ _ Hf Hn Hr) as (He & _). injection He as He.
  assert (exists vs, DEnum n vs ∈ m_decls (module_of "" "" titer r)) as [vs Hd].
  { destruct (decls_declare _ _ _ Hf Hn Hr titer Ht n) as (d & Hd & E); [by rewrite <- He|done| |].
    { rewrite <- He. apply rtc_once. exists [("t", plain n)], "t", (plain n). split; [right; left|]. split; [left|done]. }
    pose proof (decls_inv _ _ _ Hf Hn Hr titer Ht _ Hd) as (_ & _ & _ & HD). rewrite E in HD.
    destruct HD as [(vs & _ & ->)|(fs & dd & Hdd & _)]; [by eexists|]. exfalso. unfold declares_struct, tag_schema in Hdd.
    apply elem_of_cons in Hdd as [?|Hdd]; [done|]. apply elem_of_cons in Hdd as [[= ? _]|Hdd]; [done|]. apply elem_of_list_singleton in Hdd as [=]. }
  split; [by eexists|]. intros [_ _ _ _ HS]. rewrite Forall_forall in HS. exact (HS _ Hd Hin).
Qed.
Lemma type_ill n : n ∈ ["any"; "unknown"; "never"; "number"; "bigint"; "boolean"; "symbol"; "void"; "object"; "undefined"] ->
  accepted (type_schema n) /\ plain_names (type_schema n) /\
  for_text (type_schema n) (fun ds k => n ∈ decl_name <$> ds /\ ~ well_typed ds k).
Proof.
  intros Hin. assert (n ∈ ts_reserved) as Hres.
  { revert Hin. unfold ts_reserved. set_solver. }
  assert (n ∈ ts_type_reserved) as Hin'.
  { revert Hin. unfold ts_type_reserved. set_solver. }
  destruct (type_named n Hin') as [H1 H2]. split; [done|]. split.
  { clear - Hin'. unfold ts_type_reserved in Hin'. repeat (apply elem_of_cons in Hin' as [->|Hin']; [solve_plain|]). by apply elem_of_nil in Hin'. }
  eapply for_text_mono; [|exact H2]. intros ds k Hd. split; [done|]. intros [_ (_ & HN & _)]. rewrite Forall_forall in HN.
  apply elem_of_list_fmap in Hd as (d & -> & Hd). apply (HN _ Hd). apply elem_of_app. by right.
Qed.

Lemma types_ill :
  (accepted (export_schema "ArrayBuffer") /\ plain_names (export_schema "ArrayBuffer") /\
   for_text (export_schema "ArrayBuffer") (fun ds k => k_name k = "ArrayBuffer" /\ ~ well_typed ds k)) /\
  (forall f, f ∈ ["write"; "constructor"] -> accepted (name_schema f) /\ plain_names (name_schema f) /\
     for_text (name_schema f) (fun ds k => f ∈ (k_params k).*1 /\ ~ well_typed ds k)) /\
  (forall n, n ∈ ["read"; "prototype"] -> accepted (tag_schema n) /\ plain_names (tag_schema n) /\
     for_text (tag_schema n) (fun ds k => (exists vs, DEnum n vs ∈ ds) /\ ~ well_typed ds k)) /\
  (forall n, n ∈ ["any"; "unknown"; "never"; "number"; "bigint"; "boolean"; "symbol"; "void"; "object"; "undefined"] ->
     accepted (type_schema n) /\ plain_names (type_schema n) /\
     for_text (type_schema n) (fun ds k => n ∈ decl_name <$> ds /\ ~ well_typed ds k)).
Proof. split; [apply export_ill; left|]. split; [exact field_ill|]. split; [exact enum_ill|exact type_ill]. Qed.

(** a checker for [type_names] of a concrete schema *)
Ltac solve_types := constructor;
  [let H := fresh in intros ? H; cbn [decl_names] in H; repeat (apply elem_of_cons in H as [->|H]; [apply (bool_decide_unpack _); by vm_compute|]); by apply elem_of_nil in H
  |decl_cases; apply (bool_decide_unpack _); by vm_compute
  |intros ? H; injection H as <-; done
  |let H := fresh in intros ? ? H; injection H as <-; unfold declares_struct; intros H;
    repeat (apply elem_of_cons in H as [H|H]; [first [discriminate H|injection H as ->]|]); try (by apply elem_of_nil in H);
    apply (bool_decide_unpack _); by vm_compute].
Lemma demo_types : type_names demo_schema.
Proof. solve_types. Qed.
(** the checker rejects the code without the annotations [: any] *)
Definition unannotated1 (s : simple) : simple := match s with Let _ x e => Let false x e | s => s end.
Fixpoint unannotated (s : stmt) : stmt :=
  match s with
  | SSimple s => SSimple (unannotated1 s)
  | SIf c b1 b2 => SIf c (List.map unannotated b1) (List.map unannotated b2)
  | SIfLine c s1 s2 => SIfLine c (unannotated1 s1) (unannotated1 s2)
  | SFor i n b => SFor i n (List.map unannotated b)
  | SSwitch e s b => SSwitch e (unannotated1 s) (List.map unannotated b)
  end.
Definition demo_result : resolved := match type_check iter_fwd demo_schema with Ok r => r | _ => Resolved (Export_ "" []) ∅ end.
Definition demo_decls : list decl := m_decls (module_of "" "" types_fwd demo_result).
Definition demo_class : cls := class_of (r_export demo_result).
Example demo_well_typed : well_typed demo_decls demo_class.
Proof. apply (bool_decide_unpack _). vm_compute. exact I. Qed.
Example unannotated_ill_typed : ~ well_typed demo_decls (Cls (k_name demo_class) (k_params demo_class) (List.map unannotated (k_read demo_class)) (k_write demo_class)).
Proof. apply (bool_decide_unpack _). vm_compute. exact I. Qed.
(** ... and code that writes an optional field without a check, or a member that is not declared *)
Example optional_ill_typed : ~ well_typed demo_decls (Cls "Outer" (k_params demo_class) (k_read demo_class)
  [SSimple (Write "float" (EProp (EProp (EProp (EVar "this") "inner") "pos") "x"))]).
Proof. apply (bool_decide_unpack _). vm_compute. exact I. Qed.
Example member_ill_typed : ~ well_typed demo_decls (Cls "Outer" (k_params demo_class) (k_read demo_class) [SSimple (Write "uint8" (EProp (EVar "this") "inne"))]).
Proof. apply (bool_decide_unpack _). vm_compute. exact I. Qed.

(** ** the criterion *)
Lemma computed_typed a : legal_ast a ->
  match type_check iter_fwd a with Ok r => bool_decide (well_typed (m_decls (module_of "" "" types_fwd r)) (class_of (r_export r))) | _ => false end = true ->
  accepted a /\ typed_names a.
Proof.
  intros Hl H. destruct (type_check iter_fwd a) as [r| | |] eqn:Hr; try done. apply bool_decide_eq_true in H. split; [apply accepted_fwd; [done|by rewrite Hr; eexists]|].
  eapply typed_back; [apply fair_fwd|by apply legal_no_builtin|exact Hr|exact fair_types_fwd|exact H].
Qed.
(** a type that is not needed may be called as it likes *)
Definition spare_schema : ast := [NDecl "number" (AEnum ["A"]); NDecl "P" (AStruct [("x", plain "uint8")]); NExport "P"].
Lemma criterion_types :
  (accepted spare_schema /\ typed_names spare_schema /\ ~ type_names spare_schema) /\
  (forall f, f ∈ ["__proto__"; "prototype"; "length"; "name"; "caller"] -> accepted (name_schema f) /\ typed_names (name_schema f) /\ ~ plain_names (name_schema f)) /\
  (accepted demo_schema /\ typed_names demo_schema) /\
  (accepted (tag_schema "read") /\ ~ typed_names (tag_schema "read")).
Proof.
  split; [|split; [|split]].
  - destruct (computed_typed spare_schema) as [H1 H2]; [apply parsed_legal; by vm_compute|by vm_compute|]. split; [done|]. split; [done|].
    intros [H _]. apply (H "number"); [left|]. apply (bool_decide_unpack _). by vm_compute.
  - intros f Hf. assert (forall f, f ∈ ["__proto__"; "prototype"; "length"; "name"; "caller"] -> accepted (name_schema f) /\ typed_names (name_schema f)) as HA.
    { clear. intros f Hin. repeat (apply elem_of_cons in Hin as [->|Hin]; [apply computed_typed; [apply parsed_legal; by vm_compute|by vm_compute]|]). by apply elem_of_nil in Hin. }
    destruct (HA f Hf) as [H1 H2]. split; [done|]. split; [done|]. intros [_ H3 H4].
    assert (declares_struct (name_schema f) "P" [(f, plain "uint8")]) as Hd by left. apply elem_of_cons in Hf as [->|Hf].
    + destruct (H3 "P" "P" _ eq_refl (rtc_refl _ _) Hd) as [_ H]. apply H. left.
    + specialize (H4 "P" _ eq_refl Hd). apply Forall_inv in H4. apply H4. clear - Hf. unfold readonly_names. set_solver.
  - split; [apply demo_facts|]. apply plain_typed; [apply demo_facts|exact demo_types].
  - split; [apply enum_ill; apply (bool_decide_unpack _); by vm_compute|]. intros [_ _ H _ _ _].
    apply (H "P" "read" ["a"; "b"]); [done| |left|left]. apply rtc_once. exists [("t", plain "read")], "t", (plain "read"). split; [right; left|]. split; [left|done].
Qed.
