(** Schemas whose Rust compiles, and schemas whose Rust does not. *)
From Verif Require Export RsWitness RsCheckProofs.

Lemma not_ready a refs : (forall e, exports a = [e] -> ~ rust_ready refs a e) -> for_rust a (fun m t => compiles refs m = false).
Proof.
  intros H iter r version now titer H1 H2 H3 H4 H5 H6. destruct (rust_compiles a refs iter r version now titer H1 H2 H3 H4 H5 H6) as (t & m & ty & G1 & G2 & G3 & G4 & G5).
  exists t, m, ty. repeat (split; [done|]). destruct (compiles refs m); [|done]. destruct (H _ G3). by apply G5.
Qed.
Lemma ready a refs : (forall e, exports a = [e] -> rust_ready refs a e) -> for_rust a (fun m t => compiles refs m = true).
Proof.
  intros H iter r version now titer H1 H2 H3 H4 H5 H6. destruct (rust_compiles a refs iter r version now titer H1 H2 H3 H4 H5 H6) as (t & m & ty & G1 & G2 & G3 & G4 & G5).
  exists t, m, ty. repeat (split; [done|]). by apply G5, H.
Qed.

(** a struct with one field *)
Definition one_field (ds : ast) (f : string) (u : unresolved) : ast := ds ++ [NDecl "P" (AStruct [(f, u)]); NExport "P"].
Lemma one_field_decl ds f u : declares_struct (one_field ds f u) "P" [(f, u)].
Proof. unfold declares_struct, one_field. apply elem_of_app. right. left. Qed.

(** ** arrays of enums *)
Definition enums_schema : ast := one_field [NDecl "Flag" (AEnum ["A"; "B"])] "flags" (Unresolved "Flag" true false).
Lemma enum_arrays : accepted enums_schema /\ forall refs, for_rust enums_schema (fun m t => compiles refs m = false).
Proof.
  split; [eapply accepted_export; [solve_legal|by vm_compute]|]. intros refs. apply not_ready. intros e [= <-] [_ H _].
  destruct (H "P" _ ltac:(constructor) (one_field_decl _ _ _)) as [_ [[_ [_ _ He]] _]%Forall_cons]. cbn [fst snd u_name u_array] in *. by destruct (He ["A"; "B"] ltac:(left)).
Qed.
(** ** optional strings *)
Definition opt_string_schema : ast := one_field [] "name" (Unresolved "string" false true).
Lemma optional_strings : accepted opt_string_schema /\ forall refs, for_rust opt_string_schema (fun m t => compiles refs m = false).
Proof.
  split; [eapply accepted_export; [solve_legal|by vm_compute]|]. intros refs. apply not_ready. intros e [= <-] [_ H _].
  destruct (H "P" _ ltac:(constructor) (one_field_decl _ _ _)) as [_ [[_ [_ Hs _]] _]%Forall_cons]. by apply Hs.
Qed.
(** ** 32 variants *)
Lemma variants_32 vs : length vs = 32 -> NoDup vs -> Forall (fun v => legal_name (txt v)) vs ->
  accepted (enum_schema vs) /\ forall refs, for_rust (enum_schema vs) (fun m t => compiles refs m = false).
Proof.
  intros Hl Hnd Hlegal. split; [apply enum_schema_accepted; [lia|done..]|]. intros refs. apply not_ready. intros e [= <-] [_ _ H].
  destruct (H "E" vs) as [Hlt _]; [|left|lia]. eapply rtc_l; [|constructor]. eexists _, _, _. split; [right; left|]. split; [left|done].
Qed.
Lemma negative_arm vs : length vs = 32 -> NoDup vs -> Forall (fun v => legal_name (txt v)) vs ->
  accepted (enum_schema vs) /\ for_rust (enum_schema vs) (fun m t => exists repr ws d arms v, IEnum "E" repr ws d arms ∈ rm_items m /\
    repr = "u32" /\ ws !! 31 = Some (v, 31) /\ arms !! 31 = Some (- 2 ^ 31, v)%Z).
Proof.
  intros Hl Hnd Hlegal. split; [apply enum_schema_accepted; [lia|done..]|].
  intros iter r version now titer H1 H2 H3 H4 H5 H6. destruct (rust_declared _ iter r version now titer H1 H2 H3 H4 H5 H6) as (t & m & ty & G1 & G2 & G3 & G4 & _ & G5 & G6).
  exists t, m, ty. repeat (split; [done|]). injection G3 as G3.
  assert ("E" ∈ item_name <$> rm_items m) as (i & Ei & Hi)%elem_of_list_fmap.
  { apply G5. split; [solve_names|]. rewrite <- G3. eapply rtc_l; [|constructor]. eexists _, _, _. split; [right; left|]. split; [left|done]. }
  rewrite Forall_forall in G6. specialize (G6 _ Hi). destruct i as [n fs|n repr ws d arms]; cbn [item_name] in Ei; subst n.
  - destruct G6 as (ds & Hd & _). unfold declares_struct in Hd. repeat (apply elem_of_cons in Hd as [Hd|Hd]; [discriminate Hd|]). by apply elem_of_nil in Hd.
  - destruct G6 as (names & rp & Hd & Hrp & -> & -> & _ & _ & _ & Ha).
    assert (names = vs) as ->. { unfold declares_enum in Hd. repeat (apply elem_of_cons in Hd as [Hd|Hd]; [first [discriminate Hd|by injection Hd as ->]|]). by apply elem_of_nil in Hd. }
    destruct (lookup_lt_is_Some_2 vs 31 ltac:(lia)) as [v Hv]. exists (rust_repr rp), (imap (fun i v => (v, i)) vs), d, arms, v. split; [done|].
    split; [|split; [by rewrite list_lookup_imap, Hv|by apply Ha]]. destruct Hrp as [Hle _]. rewrite Hl in Hle. destruct rp; cbn in Hle; [lia|lia|done].
Qed.
(** ** names *)
Definition name_schemas : list ast :=
  [one_field [] "type" (plain "uint8");
   one_field [NDecl "Status" (AEnum ["Fine"; "Error"])] "status" (plain "Status");
   one_field [NDecl "Status" (AEnum ["pending"; "try_from"])] "status" (plain "Status");
   one_field [NDecl "Vec" (AStruct [("x", plain "float"); ("y", plain "float")])] "place" (plain "Vec")].
Lemma bad_names : Forall (fun a => accepted a /\ forall refs, for_rust a (fun m t => compiles refs m = false)) name_schemas.
Proof.
  assert (forall ds f u, refers (one_field ds f u) "P" (u_name u)) as Href. { intros ds f u. eexists _, _, _. split; [apply one_field_decl|]. split; [left|done]. }
  assert (forall ds f u, needed (one_field ds f u) "P" (u_name u)) as Hneed by (intros; eapply rtc_l; [apply Href|constructor]).
  apply Forall_forall. intros a Ha. repeat (apply elem_of_cons in Ha as [->|Ha]); [..|by apply elem_of_nil in Ha];
    (split; [eapply accepted_export; [solve_legal|by vm_compute]|]); intros refs; apply not_ready; intros e [= <-] [H1 H2 H3].
  - destruct (H2 "P" _ ltac:(constructor) (one_field_decl _ _ _)) as [_ [[Hn _] _]%Forall_cons]. apply Hn. cbn [fst]. solve_names.
  - destruct (H3 "Status" ["Fine"; "Error"] (Hneed _ _ (plain "Status")) ltac:(left)) as [_ [_ [Hn _]%Forall_cons]%Forall_cons]. apply Hn. left.
  - destruct (H2 "P" _ ltac:(constructor) (one_field_decl _ _ _)) as [_ [[_ [_ _ He]] _]%Forall_cons]. cbn [fst snd plain u_name] in *.
    destruct (He ["pending"; "try_from"] ltac:(left)) as (_ & Hn & _). apply Hn. right. left.
  - apply (H1 "Vec" (Hneed _ _ (plain "Vec"))); solve_names.
Qed.
(** ** and one that compiles *)
Lemma needed_known a e n : valid_schema a -> exports a = [e] -> needed a e n -> n ∈ builtin_names \/ n ∈ decl_names a.
Proof.
  intros Hv He Hn. apply rtc_inv_r in Hn as [<-|(m & _ & fs & f & u & Hd & Hin & <-)].
  - right. destruct (vs_export _ Hv) as (e' & fs & He' & Hd). rewrite He in He'. injection He' as <-. by eapply decl_names_elem.
  - by apply (vs_types _ Hv m fs f u).
Qed.
Lemma demo_compiles refs : for_rust demo_schema (fun m t => compiles refs m = true).
Proof.
  apply ready. intros e [= <-].
  assert (forall n fs, declares_struct demo_schema n fs -> NoDup fs.*1 /\ Forall (fun f => f.1 ∉ rust_keywords /\ (u_array f.2 = true -> u_name f.2 ∉ number_names) /\
    (u_opt f.2 = true -> u_name f.2 ≠ "string") /\ (u_array f.2 = true -> u_name f.2 ≠ "Flag")) fs) as Hs.
  { decl_cases; (split; [solve_names|]); repeat (apply Forall_cons; split; [cbn [fst snd u_array u_opt u_name plain]; repeat split; first [solve_names|intros _; solve_names|done]|]); apply Forall_nil; exact I. }
  assert (forall n vs, declares_enum demo_schema n vs -> n = "Flag" /\ vs = ["A"; "B"]) as He by (decl_cases; done).
  constructor.
  - intros n Hn Hb. assert (n ∈ decl_names demo_schema \/ n ∈ builtin_names) as [Hd|]; [|assert (Forall (fun n => n ∉ rust_keywords ++ rust_taken) (decl_names demo_schema)) as H by solve_names; rewrite Forall_forall in H; by apply H|done].
    assert (valid_schema demo_schema) as Hv. { apply (type_check_valid iter_fwd); [apply fair_fwd|apply legal_no_builtin, demo_facts|]. by eexists; vm_compute. }
    destruct (needed_known _ _ _ Hv eq_refl Hn) as [|]; [by right|by left].
  - intros n fs _ Hd. destruct (Hs _ _ Hd) as [H1 H2]. split; [done|]. eapply Forall_impl; [exact H2|]. intros f (G1 & G2 & G3 & G4). split; [done|]. constructor; [intros; by destruct G2|done|].
    intros vs [E ->]%He. split; [destruct (u_array f.2); [by destruct G4|done]|]. split; [solve_names|]. intros _. solve_names.
  - intros n vs _ [-> ->]%He. split; [cbn; lia|]. solve_names.
Qed.
