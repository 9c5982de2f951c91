(** Concrete file systems for refutations and Examples. *)
From Verif Require Export WireWitness CliProofs.

Definition has_slash (n : string) : bool := existsb (fun c => bool_decide (c = SLASH)) (txt n).
Definition proper_nameb (n : string) : bool := negb (bool_decide (n = "" \/ n = "." \/ n = "..")) && negb (has_slash n).
Lemma proper_nameb_spec n : proper_nameb n = true -> proper_name n.
Proof.
  unfold proper_nameb. rewrite andb_true_iff, !negb_true_iff, bool_decide_eq_false. intros [H1 H2]. split; [|split; [|split]]; try naive_solver.
  intros H. apply not_true_iff_false in H2. apply H2. apply existsb_exists. exists SLASH. split; [by apply elem_of_list_In|]. by apply bool_decide_eq_true.
Qed.
Definition treeb (f : fs) : bool :=
  forallb (fun p => match rev p.1 with
                    | [] => false
                    | _ :: r => forallb proper_nameb p.1 && bool_decide (entry_at f (rev r) = Some Dir)
                    end) (map_to_list f).
Lemma treeb_spec f : treeb f = true -> tree f.
Proof.
  intros H. unfold treeb in H. rewrite forallb_forall in H.
  assert (forall l e, f !! l = Some e -> exists m n, l = m ++ [n] /\ Forall proper_name l /\ entry_at f m = Some Dir) as Hall.
  { intros l e Hl. specialize (H (l, e)). cbn in H. destruct (rev l) as [|n r] eqn:R.
    - exfalso. assert (false = true); [|done]. apply H. by apply elem_of_list_In, elem_of_map_to_list.
    - assert (l = rev r ++ [n]) as Heq by by rewrite <- (rev_involutive l), R. exists (rev r), n. split; [done|].
      assert (forallb proper_nameb l && bool_decide (entry_at f (rev r) = Some Dir) = true) as Hb by (apply H; by apply elem_of_list_In, elem_of_map_to_list).
      apply andb_true_iff in Hb as [Hb1 Hb2]. split; [|by apply bool_decide_eq_true in Hb2]. rewrite forallb_forall in Hb1. apply Forall_forall. intros x Hx. apply proper_nameb_spec, Hb1. by apply elem_of_list_In. }
  split.
  - destruct (f !! []) as [e|] eqn:E; [|done]. destruct (Hall _ _ E) as (m & n & E' & _). by destruct m.
  - intros l e Hl. by destruct (Hall _ _ Hl) as (m & n & _ & ? & _).
  - intros l n e Hl. destruct (Hall _ _ Hl) as (m & n' & Heq & _ & He). by apply app_inj_2 in Heq as [-> _].
Qed.
(** no failures, everything in order *)
Definition calm : env :=
  {| cwd := []; fault := fun _ _ => false; blind := fun _ _ => false; torn := fun _ => None; listing := fun _ l => l;
     hash1 := fun _ => iter_fwd; hash2 := fun _ => types_fwd; version := "0"; clock := fun _ => "now" |}.
(** a directory that cannot be inspected *)
Definition dim : env :=
  {| cwd := []; fault := fun _ _ => false; blind := fun _ l => bool_decide (l = ["in"; "sub"]); torn := fun _ => None; listing := fun _ l => l;
     hash1 := fun _ => iter_fwd; hash2 := fun _ => types_fwd; version := "0"; clock := fun _ => "now" |}.
(** the disk is full at operation [n] *)
Definition full (n : nat) : env :=
  {| cwd := []; fault := fun _ _ => false; blind := fun _ _ => false; torn := fun k => if decide (k = n) then Some 6 else None; listing := fun _ l => l;
     hash1 := fun _ => iter_fwd; hash2 := fun _ => types_fwd; version := "0"; clock := fun _ => "now" |}.
Lemma calm_sane f : treeb f = true -> sane calm f.
Proof. intros H. split; [by apply treeb_spec|done|done|intros; apply fair_fwd|intros; apply fair_types_fwd]. Qed.
Lemma dim_sane f : treeb f = true -> sane dim f.
Proof. intros H. split; [by apply treeb_spec|done|done|intros; apply fair_fwd|intros; apply fair_types_fwd]. Qed.
Lemma full_sane n f : treeb f = true -> sane (full n) f.
Proof. intros H. split; [by apply treeb_spec|done|done|intros; apply fair_fwd|intros; apply fair_types_fwd]. Qed.

Definition good_text : text := show_ast [NDecl "A" (AStruct [("x", plain "uint8")]); NExport "A"].
Definition bad_text : text := txt "nonsense".
Lemma good_compiles : compiles good_text.
Proof.
  assert (utf8 good_text) as Hu by (apply from_utf8_spec; by vm_compute). split; [done|].
  apply (compile_code iter_fwd "0" "now" types_fwd fair_fwd good_text Hu). eexists. vm_compute. reflexivity.
Qed.
Lemma bad_compiles : ~ compiles bad_text.
Proof.
  intros [Hu Ha]. apply (compile_code iter_fwd "0" "now" types_fwd fair_fwd bad_text Hu) in Ha as [t Ht]. vm_compute in Ht. discriminate.
Qed.

Definition some_tree : fs := list_to_map
  [(["in"], Dir); (["in"; "a.pkt"], File good_text); (["in"; "sub"], Dir); (["in"; "sub"; "b.c.pkt"], File good_text); (["in"; "note.md"], File bad_text); (["in"; ".pkt"], File bad_text)].
Definition bad_tree : fs := list_to_map
  [(["in"], Dir); (["in"; "a.pkt"], File good_text); (["in"; "sub"], Dir); (["in"; "sub"; "b.pkt"], File bad_text)].
Definition clash_tree : fs := list_to_map
  [(["in"], Dir); (["in"; "x.pkt"], File good_text); (["in"; "x.ts"], Dir); (["in"; "x.ts"; "y.pkt"], File good_text)].
Definition odd_name : string := String (ascii_of_nat 255) "".
Definition odd_tree : fs := list_to_map [(["in"], Dir); (["in"; odd_name], Dir)].
Definition dots_tree : fs := list_to_map [(["in"], Dir); (["in"; "a.b.pkt"], File good_text)].

(** what is at a place after a run, and how it ended *)
Definition kind_at (f : fs) (l : location) : option bool := match f !! l with Some (File _) => Some true | Some Dir => Some false | None => None end.
Definition ended_ok (r : res unit) : option bool := match r with Ok _ => Some true | Err _ => Some false | _ => None end.
(** all schemas of a tree, found by listing it *)
Lemma schemas_of f base dirs s c (P : location -> text -> Prop) : schema_at f base dirs s c -> Forall (fun p => match p.2 with File c => P p.1 c | Dir => True end) (map_to_list f) -> P (base ++ dirs ++ [s +:+ ".pkt"]) c.
Proof. intros [_ H] Hall. rewrite Forall_forall in Hall. apply (Hall (_, File c)). by apply elem_of_map_to_list. Qed.
Global Instance file_dec (P : text -> Prop) `{forall c, Decision (P c)} (p : location * entry) : Decision (match p.2 with File c => P c | Dir => True end).
Proof. destruct p as [l [c|]]; cbn; apply _. Defined.
Lemma clash_compiles dirs s c : schema_at clash_tree ["in"] dirs s c -> compiles c.
Proof.
  intros H. cut (c = good_text); [intros ->; apply good_compiles|].
  apply (schemas_of _ _ _ _ _ (fun _ c => c = good_text) H). apply (bool_decide_unpack _). by vm_compute.
Qed.

Lemma some_in : input_dir calm some_tree "in" ["in"].
Proof. split; by vm_compute. Qed.
Lemma some_first : schema_at some_tree ["in"] [] "a" good_text.
Proof. split; [done|by vm_compute]. Qed.
Lemma some_second : schema_at some_tree ["in"] ["sub"] "b.c" good_text.
Proof. split; [done|by vm_compute]. Qed.
Lemma bad_in E : cwd E = [] -> input_dir E bad_tree "in" ["in"].
Proof. intros H. unfold input_dir, resolve. rewrite H. split; by vm_compute. Qed.
Lemma bad_schema : schema_at bad_tree ["in"] ["sub"] "b" bad_text.
Proof. split; [done|by vm_compute]. Qed.
Lemma dim_run : (run dim "in" "out" bad_tree).2 = Ok ().
Proof. by vm_compute. Qed.
Lemma blind_refuted : ~ forall E f path out base f' r, sane E f -> input_dir E f path base -> fault E 0 base = false -> run E path out f = (f', r) ->
  (exists dirs s c, schema_at f base dirs s c /\ ~ compiles c) -> f' = f /\ r ≠ Ok ().
Proof.
  intros H. destruct (run dim "in" "out" bad_tree) as [f' r] eqn:R.
  destruct (H dim bad_tree "in" "out" ["in"] f' r) as [_ Hr]; [apply dim_sane; by vm_compute|by apply bad_in|done|done| |].
  - exists ["sub"], "b", bad_text. split; [apply bad_schema|apply bad_compiles].
  - apply Hr. pose proof dim_run as D. by rewrite R in D.
Qed.
Lemma clash_in : input_dir calm clash_tree "in" ["in"].
Proof. split; by vm_compute. Qed.
Lemma named_check f base : forallb (fun p : location * entry => forallb (fun n => from_utf8 (txt n)) p.1) (map_to_list f) = true -> dirs_named f base /\ files_named f base.
Proof.
  intros H. rewrite forallb_forall in H.
  assert (forall l e, f !! l = Some e -> Forall (fun n => utf8 (txt n)) l) as Hw.
  { intros l e Hl%elem_of_map_to_list%elem_of_list_In%H. cbn in Hl. rewrite forallb_forall in Hl. apply Forall_forall. intros n Hn%elem_of_list_In%Hl. by apply from_utf8_spec. }
  split; [intros dirs Hd|intros dirs s c [_ Hl]].
  - apply Hw in Hd. by apply Forall_app in Hd as [_ Hd].
  - apply Hw in Hl. rewrite !Forall_app in Hl. destruct Hl as (_ & _ & Hl). apply Forall_cons in Hl as [Hl _]. by apply utf8_stem.
Qed.
Lemma clash_names : dirs_named clash_tree ["in"] /\ files_named clash_tree ["in"].
Proof. apply named_check. by vm_compute. Qed.
Lemma clash_sane : sane calm clash_tree.
Proof. apply calm_sane; by vm_compute. Qed.
Lemma clash_calm : fault calm 0 ["in"] = false.
Proof. done. Qed.
Lemma clash_blind : no_blind calm.
Proof. done. Qed.
Lemma clash_first : schema_at clash_tree ["in"] [] "x" good_text.
Proof. split; [done|by vm_compute]. Qed.
Lemma clash_second : schema_at clash_tree ["in"] ([] ++ ("x" +:+ ".ts") :: []) "y" good_text.
Proof. split; [done|by vm_compute]. Qed.
Lemma succeeds_refuted : ~ forall E f path out base, sane E f -> input_dir E f path base -> no_fault E -> no_blind E -> (forall n, torn E n = None) -> dirs_named f base -> files_named f base -> utf8 (txt path) ->
  (forall dirs s c, schema_at f base dirs s c -> compiles c) -> (forall x, f !! (leads_to E out ++ x) = None) -> exists f', run E path out f = (f', Ok ()).
Proof.
  intros H. destruct (H calm clash_tree "in" "out" ["in"]) as [f' Hrun]; [apply calm_sane; by vm_compute|apply clash_in|done|done|done|apply clash_names|apply clash_names|apply from_utf8_spec; by vm_compute|exact clash_compiles| |].
  - intros x. destruct (clash_tree !! (leads_to calm "out" ++ x)) as [e|] eqn:Hc; [exfalso|done]. assert (Forall (fun p => head p.1 = Some "in") (map_to_list clash_tree)) as Hall by (apply (bool_decide_unpack _); by vm_compute).
    rewrite Forall_forall in Hall. specialize (Hall (["out"] ++ x, e)). cbn in Hall. enough (Some "out" = Some "in") by done. apply Hall. by apply elem_of_map_to_list.
  - exact (clash calm clash_tree "in" "out" ["in"] [] "x" good_text [] "y" good_text f' clash_sane clash_in clash_calm clash_blind clash_first clash_second Hrun).
Qed.
Lemma odd_panics : exists f m, sane calm f /\ run calm "in" "out" f = (f, Panic m).
Proof. exists odd_tree. eexists. split; [apply calm_sane; by vm_compute|]. vm_compute. reflexivity. Qed.
Lemma single_mode_refuted : ~ forall E f path out l s c f', sane E f -> s ≠ "" -> input_file E f path (l ++ [s +:+ ".pkt"]) c -> fault E 0 (l ++ [s +:+ ".pkt"]) = false ->
  run E path out f = (f', Ok ()) -> exists t, code_for E c t /\ f' !! target E out [] s = Some (File (txt t)).
Proof.
  intros H. destruct (run calm "in/a.b.pkt" "out" dots_tree) as [f' r] eqn:R.
  assert (f' !! target calm "out" [] "a.b" = None /\ r = Ok ()) as [H1 ->].
  { replace f' with (run calm "in/a.b.pkt" "out" dots_tree).1 by by rewrite R. replace r with (run calm "in/a.b.pkt" "out" dots_tree).2 by by rewrite R. clear. split; by vm_compute. }
  destruct (H calm dots_tree "in/a.b.pkt" "out" ["in"] "a.b" good_text f') as (t & _ & Ht); [apply calm_sane; by vm_compute|done|split; by vm_compute|done|done|].
  by rewrite H1 in Ht.
Qed.

Definition size_at (f : fs) (l : location) : option nat := match f !! l with Some (File c) => Some (length c) | _ => None end.
Lemma tree_differs (f g : fs) l : kind_at f l ≠ kind_at g l -> f ≠ g.
Proof. intros H ->. by apply H. Qed.
