(** Links in the output directory. *)
From Verif Require Export CliLinkRunProofs CliWitness.

Definition in_dirsb (f : lfs) : bool := bool_decide (f !! [] = None) && forallb (fun p => match rev p.1 with [] => true | _ :: r => match node_at f (rev r) with Some LDir => true | _ => false end end) (map_to_list f).
Lemma in_dirs_check f : in_dirsb f = true -> in_dirs f.
Proof.
  unfold in_dirsb. rewrite andb_true_iff, bool_decide_eq_true, forallb_forall. intros [H0 H]. split; [done|]. intros l n e Hl%elem_of_map_to_list%elem_of_list_In.
  specialize (H _ Hl). cbn [fst] in H. rewrite rev_app_distr in H. cbn in H. rewrite rev_involutive in H. by destruct (node_at f l) as [[]|].
Qed.
Definition first_text : text := good_text.
Definition second_text : text := show_ast [NDecl "B" (AStruct [("y", plain "string")]); NExport "B"].
(** the output is a link to the schema *)
Definition snare : lfs := <[["in"] := LDir]> (<[["in"; "a.pkt"] := LFile first_text]> (<[["out"] := LDir]> (<[["out"; "a.ts"] := LLink "../in/a.pkt"]> ∅))).
(** two output directories are one *)
Definition merged : lfs := <[["in"] := LDir]> (<[["in"; "a.pkt"] := LFile first_text]> (<[["in"; "x"] := LDir]> (<[["in"; "x"; "a.pkt"] := LFile second_text]>
  (<[["out"] := LDir]> (<[["out"; "x"] := LLink "."]> ∅))))).
(** the output directory is a link *)
Definition apart : lfs := <[["in"] := LDir]> (<[["in"; "a.pkt"] := LFile first_text]> (<[["out"] := LLink "/disk"]> (<[["disk"] := LDir]> ∅))).
Definition keep (_ : string) (names : list string) : list string := names.

Definition has_code (n : option lnode) (c : text) : bool := match n, compiler calm "in" c with Some (LFile t), Ok code => bool_decide (t = txt code) | _, _ => false end.
Definition ended {A} (r : res A) : bool := match r with Ok _ => true | _ => false end.
Lemma schemas_lost : ~ forall links here order E path out f f' r x s c, in_dirs f -> node_at f here = Some LDir -> (forall d names, order d names ≡ₚ names) ->
  lrun links here order (compiler E) path out f = (f', r) -> f !! (x ++ [s +:+ ".pkt"]) = Some (LFile c) -> f' !! (x ++ [s +:+ ".pkt"]) = Some (LFile c).
Proof.
  intros H. specialize (H 40 [] keep calm "in" "out" snare). destruct (lrun 40 [] keep (compiler calm) "in" "out" snare) as [f' r] eqn:E.
  specialize (H f' r ["in"] "a" first_text (in_dirs_check snare ltac:(by vm_compute)) eq_refl (fun _ _ => reflexivity _) eq_refl ltac:(by vm_compute)).
  assert (match f' !! ["in"; "a.pkt"] with Some (LFile c) => bool_decide (c = first_text) | _ => false end = false) as Hne.
  { change f' with (f', r).1. rewrite <- E. by vm_compute. }
  change (f' !! ["in"; "a.pkt"] = Some (LFile first_text)) in H. rewrite H in Hne. by rewrite bool_decide_eq_true_2 in Hne.
Qed.
Lemma outputs_lost : ~ forall links here order E path out f f' x s c t, in_dirs f -> node_at f here = Some LDir -> (forall d names, order d names ≡ₚ names) ->
  path_to links here f path links (here ++ [path]) -> lrun links here order (compiler E) path out f = (f', Ok ()) -> f !! (here ++ path :: x ++ [s +:+ ".pkt"]) = Some (LFile c) ->
  compiler E path c = Ok t -> exists y, f' !! y = Some (LFile (txt t)).
Proof.
  intros H. specialize (H 40 [] keep calm "in" "out" merged). destruct (lrun 40 [] keep (compiler calm) "in" "out" merged) as [f' r] eqn:E.
  assert (r = Ok ()) as ->. { change r with (f', r).2. rewrite <- E. by vm_compute. }
  destruct (compiler calm "in" first_text) as [t1| | |] eqn:C1; [|by vm_compute in C1..]. destruct (compiler calm "in" second_text) as [t2| | |] eqn:C2; [|by vm_compute in C2..].
  pose proof (fun x s c t => H f' x s c t (in_dirs_check merged ltac:(by vm_compute)) eq_refl (fun _ _ => reflexivity _) ltac:(apply lead_path; by vm_compute) eq_refl) as H'.
  destruct (H' [] "a" first_text t1 eq_refl C1) as [y1 Y1]. destruct (H' ["x"] "a" second_text t2 eq_refl C2) as [y2 Y2].
  assert (existsb (fun p => match p.2 with LFile c => match compiler calm "in" first_text with Ok t => bool_decide (c = txt t) | _ => false end | _ => false end) (map_to_list f') &&
          existsb (fun p => match p.2 with LFile c => match compiler calm "in" second_text with Ok t => bool_decide (c = txt t) | _ => false end | _ => false end) (map_to_list f') = false) as Hno.
  { change f' with (f', Ok ()).1. rewrite <- E. by vm_compute. }
  apply andb_false_iff in Hno as [Hno|Hno].
  - rewrite C1 in Hno. apply not_true_iff_false in Hno. apply Hno. apply existsb_exists. exists (y1, LFile (txt t1)). split; [by apply elem_of_list_In, elem_of_map_to_list|]. cbn. by apply bool_decide_eq_true.
  - rewrite C2 in Hno. apply not_true_iff_false in Hno. apply Hno. apply existsb_exists. exists (y2, LFile (txt t2)). split; [by apply elem_of_list_In, elem_of_map_to_list|]. cbn. by apply bool_decide_eq_true.
Qed.
Lemma apart_links : no_ts_links apart.
Proof.
  intros l s to Hs H. unfold apart in H. rewrite !lookup_insert_Some, lookup_empty in H. destruct H as [[_ ?]|[_ [[_ ?]|[_ [[H _]|[_ [[_ ?]|[_ ?]]]]]]]]; [done..| |done|done].
  destruct l as [|a [|]]; cbn in H; [|done..]. injection H as H. destruct s as [|? [|? [|? [|? ?]]]]; by cbn in H.
Qed.
Lemma tree_check (f : lfs) : in_dirs f -> forallb (fun x => forallb proper_nameb x.1 && forallb (fun n => from_utf8 (txt n)) x.1) (map_to_list f) = true -> ltree f.
Proof.
  intros [H1 H2] H. split; [done| |done]. intros l e Hl. rewrite forallb_forall in H. apply elem_of_map_to_list, elem_of_list_In, H in Hl. cbn [fst] in Hl.
  apply andb_true_iff in Hl as [L1 L2]. rewrite forallb_forall in L1, L2. split; apply Forall_forall; intros n Hn%elem_of_list_In.
  - by apply proper_nameb_spec, L1.
  - by apply from_utf8_spec, L2.
Qed.
Lemma apart_tree : ltree apart.
Proof. apply tree_check; [apply in_dirs_check; by vm_compute|by vm_compute]. Qed.
Lemma apart_finds : finds apart 40 ["in"] ["a.pkt"].
Proof. apply finds_found. eapply (found_file _ _ _ _ "a"); [by eexists| |done|done]. intros k' l' H. vm_compute in H. injection H as <- <-. by vm_compute. Qed.
(** one of two schemas is a link that leads nowhere *)
Definition astray : lfs := <[["in"] := LDir]> (<[["in"; "a.pkt"] := LFile first_text]> (<[["in"; "b.pkt"] := LLink "c.pkt"]> ∅)).
Lemma astray_tree : ltree astray.
Proof. apply tree_check; [apply in_dirs_check; by vm_compute|by vm_compute]. Qed.
Lemma astray_finds : finds astray 40 ["in"] ["b.pkt"].
Proof. apply finds_found. eapply (found_file _ _ _ _ "b"); [by eexists| |done|done]. intros k' l' H. vm_compute in H. injection H as <- <-. by vm_compute. Qed.
Lemma astray_bad k' x c t : path_to 40 [] astray (foldl push "in" ["b.pkt"]) k' x -> astray !! x = Some (LFile c) -> utf8 c -> compiler calm (foldl push "in" ["b.pkt"]) c ≠ Ok t.
Proof. intros H%lead_path. vm_compute in H. injection H as <- <-. by vm_compute. Qed.
