(** Names that the compiler accepts and that spoil the emitted module (C45, C46). *)
From Verif Require Export CompileProofs.

(** Names that TypeScript does not allow for an interface or an enum (checkTypeNameIsReserved). *)
Definition ts_type_reserved : list string :=
  ["any"; "unknown"; "never"; "number"; "bigint"; "boolean"; "symbol"; "void"; "object"; "undefined"].
(** the words of [js_reserved] that a schema can use as names *)
Definition usable_words : list string :=
  List.filter (fun w => forallb (fun k => negb (starts_with k w)) ("export" :: reserved_list)) js_reserved.

Definition word_list : list string := Eval vm_compute in usable_words.
Lemma usable_words_eq : usable_words = word_list.
Proof. vm_compute. reflexivity. Qed.
Lemma usable_reserved w : w ∈ usable_words -> w ∈ js_reserved.
Proof. unfold usable_words. rewrite !elem_of_list_In, filter_In. by intros [? _]. Qed.
(** ** C45: an export called [e] *)
Definition export_schema (e : string) : ast := [NDecl e (AStruct [("x", plain "uint8")]); NExport e].
Definition export_named (e : string) : export := Export_ e [SField "x" "uint8" (TBuiltin Uint8) false false].
Definition bad_exports : list string := word_list ++ ["Reader"; "Writer"; "Object"; "output"].
Lemma named_facts e : e ∈ bad_exports ->
  legal_ast (export_schema e) /\ export_of (export_schema e) = Ok (export_named e) /\ all_fixed (export_schema e).
Proof.
  intros He. assert (parse_schema (show_ast (export_schema e)) = POk (export_schema e) /\ export_of (export_schema e) = Ok (export_named e)) as [Hl Hx].
  { unfold bad_exports, word_list in He. cbn [app] in He. repeat (apply elem_of_cons in He as [->|He]; [split; by vm_compute|]). by apply elem_of_nil in He. }
  split; [by apply parsed_legal|]. split; [done|]. apply single_fixed.
  assert (forall n fs, declares_struct (export_schema e) n fs -> fs = [("x", plain "uint8")]) as H; [|intros n fs ->%H; cbn; lia].
  unfold declares_struct, export_schema. intros n fs [E|[E|E]%elem_of_cons]%elem_of_cons; [by injection E|done|by apply elem_of_nil in E].
Qed.
(** the module does not load *)
Lemma export_breaks_module e : e ∈ usable_words ++ ["Reader"; "Writer"] -> accepted (export_schema e) /\
  for_code (export_schema e) (fun k t => ~ loads k).
Proof.
  intros He. destruct (named_facts e) as (H1 & H3 & H4).
  { rewrite usable_words_eq in He. unfold bad_exports. apply elem_of_app in He as [He|He]; apply elem_of_app; [by left|right].
    apply elem_of_cons in He as [->|He]; [left|]. apply elem_of_list_singleton in He as ->. right. left. }
  split; [by eapply accepted_export|]. eapply for_code_export; [done..|]. intros [(_ & _ & Hr & Hi) _].
  apply elem_of_app in He as [He|He]; [|exact (Hi He)]. exact (Hr (usable_reserved e He)).
Qed.
(** read throws *)
Lemma export_breaks_read e rt : e ∈ ["Object"; "output"] -> accepted (export_schema e) /\
  for_code (export_schema e) (fun k t => loads k /\ forall h data, exists x, reads rt k h data (Throws x)).
Proof.
  intros He. destruct (named_facts e) as (H1 & H3 & H4).
  { apply elem_of_app. right. right. by right. }
  split; [by eapply accepted_export|]. eapply for_code_export; [done..|].
  assert (loads (class_of (export_named e))) as Hl.
  { repeat (apply elem_of_cons in He as [->|He]; [apply (bool_decide_unpack _); by vm_compute|]). by apply elem_of_nil in He. }
  split; [done|]. intros h data.
  assert (exists x, prologue (class_of (export_named e)) = Throws x) as [x Hx].
  { repeat (apply elem_of_cons in He as [->|He]; [eexists; by vm_compute|]). by apply elem_of_nil in He. }
  exists x, 0. intros n _. unfold call_read. rewrite decide_True by done. by rewrite Hx.
Qed.

(** ** C46 *)
Lemma field_facts f : f ∈ usable_words -> legal_ast (name_schema f) /\
  export_of (name_schema f) = Ok (name_export f) /\ all_fixed (name_schema f).
Proof.
  intros He. assert (parse_schema (show_ast (name_schema f)) = POk (name_schema f) /\ export_of (name_schema f) = Ok (name_export f)) as [Hl Hx].
  { rewrite usable_words_eq in He. unfold word_list in He. repeat (apply elem_of_cons in He as [->|He]; [split; by vm_compute|]). by apply elem_of_nil in He. }
  split; [by apply parsed_legal|]. split; [done|]. apply single_fixed.
  assert (forall n fs, declares_struct (name_schema f) n fs -> fs = [(f, plain "uint8")]) as H; [|intros n fs ->%H; cbn; lia].
  unfold declares_struct, name_schema. intros n fs [E|[E|E]%elem_of_cons]%elem_of_cons; [by injection E|done|by apply elem_of_nil in E].
Qed.
Lemma field_breaks_module f : f ∈ usable_words -> accepted (name_schema f) /\ for_code (name_schema f) (fun k t => ~ loads k).
Proof.
  intros Hf. destruct (field_facts f Hf) as (H1 & H3 & H4). split; [by eapply accepted_export|]. eapply for_code_export; [done..|].
  intros [(Hp & _) _]. apply Forall_cons in Hp as [Hp _]. exact (Hp (usable_reserved f Hf)).
Qed.
Definition type_schema (n : string) : ast := [NDecl n (AStruct [("x", plain "uint8")]); NDecl "P" (AStruct [("t", plain n)]); NExport "P"].
Lemma type_named n : n ∈ ts_type_reserved -> accepted (type_schema n) /\
  for_text (type_schema n) (fun ds k => n ∈ decl_name <$> ds).
Proof.
  intros Hn. assert (parse_schema (show_ast (type_schema n)) = POk (type_schema n) /\ okb (type_check iter_fwd (type_schema n)) = true /\ n ∉ builtin_names /\ n ≠ "P") as (Hl & Hx & Hb & HP).
  { unfold ts_type_reserved in Hn. repeat (apply elem_of_cons in Hn as [->|Hn]; [split; [by vm_compute|split; [by vm_compute|apply (bool_decide_unpack _); by vm_compute]]|]). by apply elem_of_nil in Hn. }
  split; [apply accepted_fwd; [by apply parsed_legal|by apply okb_ok]|]. eapply for_text_mono; [|exact (declared_types _)].
  intros ds k (He & _ & Hd). apply Hd. injection He as <-. split; [done|]. split; [done|]. apply rtc_once.
  exists [("t", plain n)], "t", (plain n). split; [right; left|]. split; [left|done].
Qed.

(** ** C53: identifiers as names *)
Definition identifier (w : string) : Prop := Forall name_char (txt w) /\ exists c w', txt w = c :: w' /\ start_char c.
Definition declarable (w : string) : Prop := exists s a t, parse_schema s = POk a /\ NDecl w t ∈ a.
Lemma reserved_prefix w k : k ∈ "export" :: reserved_list -> txt k `prefix_of` txt w -> ~ declarable w.
Proof.
  intros Hk Hp (s & a & t & Ha & Hin). apply parse_legal in Ha. unfold legal_ast in Ha. rewrite Forall_forall in Ha.
  destruct (Ha _ Hin) as ((_ & _ & Hr) & He & _). apply elem_of_cons in Hk as [->|Hk]; [done|]. by apply (Hr k).
Qed.
Lemma no_prefix_declarable w : identifier w -> (forall k, k ∈ "export" :: reserved_list -> ~ txt k `prefix_of` txt w) -> declarable w.
Proof.
  intros [H1 H2] H3. assert (legal_ast [NDecl w (AStruct [])]) as Hl.
  { apply Forall_cons. split; [|apply Forall_nil; exact I]. split; [|split].
    - split; [done|]. split; [done|]. intros k Hk. apply H3. by right.
    - apply H3. left.
    - apply Forall_nil. exact I. }
  exists (show_ast [NDecl w (AStruct [])]), [NDecl w (AStruct [])], (AStruct []). split; [by apply parse_show|left].
Qed.
Lemma identifier_check w : forallb (fun c => bool_decide (c ∈ letters ++ digits)) (txt w) = true -> (exists c w', txt w = c :: w' /\ c ∈ letters) -> identifier w.
Proof.
  intros H1 H2. split; [|done]. apply Forall_forall. intros c Hc. rewrite forallb_forall in H1. specialize (H1 c). rewrite bool_decide_eq_true in H1.
  unfold name_char. apply elem_of_app, H1. by apply elem_of_list_In.
Qed.
Lemma floaty : identifier "floaty" /\ "floaty" ∉ reserved_list /\ ~ declarable "floaty".
Proof.
  split; [|split].
  - apply identifier_check; [by vm_compute|]. eexists _, _. split; [reflexivity|]. apply (bool_decide_unpack _). by vm_compute.
  - apply (bool_decide_unpack _). by vm_compute.
  - apply (reserved_prefix _ "float"); [right; apply (bool_decide_unpack _); by vm_compute|]. exists ["y"%char]. reflexivity.
Qed.

(** an export that is hidden by a local of read *)
Definition hidden_schema : ast := [NDecl "output_name_len" (AStruct [("name", plain "string")]); NExport "output_name_len"].
Lemma hidden_facts : ~ module_names hidden_schema /\ accepted hidden_schema.
Proof.
  split.
  - intros H. apply (mn_hidden _ H "output_name_len" [("name", plain "string")] "name" (plain "string") "_len"); [done|by left|by left| |done].
    apply rl_len; [done|by right].
  - apply accepted_fwd; [solve_legal|]. vm_compute. eexists. reflexivity.
Qed.
(** parameters *)
Lemma code_params a : for_code a (fun k t =>
  Forall (fun x => x ∉ js_reserved) (k_params k).*1 /\ NoDup (k_params k).*1 <->
  forall fs, declares_struct a (k_name k) fs -> NoDup fs.*1 /\ Forall (fun f => f ∉ js_reserved) fs.*1).
Proof.
  apply for_code_intro. intros iter r Hf Hn Hr. destruct (export_declared _ _ _ Hf Hn Hr) as (fs & He & Hd & Hp & Hu & _). rewrite Hp. split.
  - intros [H1 H2] fs' Hd'. by destruct (Hu _ _ He Hd') as [_ ->].
  - intros H. by destruct (H _ Hd).
Qed.
