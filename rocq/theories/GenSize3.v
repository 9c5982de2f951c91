(** The length of the generated text against the length of the schema. *)
From Verif Require Export GenSize2 TsTextGen.

Lemma str_length w : sl (str w) = length w.
Proof. induction w as [|c w IH]; [done|]. unfold str in *. cbn. by rewrite IH. Qed.
Lemma name_size w s r : name w s r -> length s = length w + length r /\ 1 <= length w.
Proof. intros (-> & (_ & (c & w' & -> & _) & _) & _). rewrite app_length. cbn. lia. Qed.

(** the size of a schema, without blanks and punctuation *)
Definition fsize (f : string * unresolved) : nat := sl f.1 + sl (u_name f.2) + 1.
Definition tsize (t : atype) : nat :=
  match t with AEnum vs => sum_list (List.map (fun v => sl v + 1) vs) | AStruct fs => sum_list (List.map fsize fs) end.
Definition nsize (n : node) : nat := match n with NExport e => sl e + 1 | NDecl n t => sl n + 1 + tsize t end.
Definition asize (a : ast) : nat := sum_list (List.map nsize a).
Lemma variants_size vs s r : variants vs s r -> sum_list (List.map (fun v => sl v + 1) vs) + 2 * length r <= 2 * length s.
Proof.
  induction 1 as [r|v c vs s r1 r2 r3 r4 r H1%name_size H2%skip_len H3%perhaps_len H4%skip_len _ IH]; [cbn; lia|].
  cbn [List.map]. rewrite sum_cons, str_length. lia.
Qed.
Lemma fields_size fs s r : fields fs s r -> sum_list (List.map fsize fs) + 2 * length r <= 2 * length s.
Proof.
  induction 1 as [r|fs s r1 r2 r H1%remark_len H2%skip_len _ IH|n o t a c fs s r1 r2 r3 r4 r5 r6 r7 r8 r9 r10 r H1%name_size H2%skip_len H3%perhaps_len H4%lit_len H5%skip_len H6%word_len H7%perhaps_len H8%skip_len H9%perhaps_len H10%skip_len _ IH]; [cbn; lia|lia|].
  cbn [List.map]. rewrite sum_cons. change (fsize (str n, Unresolved (str t) a o)) with (sl (str n) + sl (str t) + 1). rewrite !str_length. change (length (txt ":")) with 1 in H4. lia.
Qed.
Lemma body_size t s r : body t s r -> tsize t + 2 * length r <= 2 * length s.
Proof.
  destruct 1 as [vs s r1 r2 r3 r4 r5 r H1%lit_len H2%skip_len H3%lit_len H4%skip_len H5%variants_size H6%lit_len|fs s r1 r2 r3 r4 r5 r H1%lit_len H2%skip_len H3%lit_len H4%skip_len H5%fields_size H6%lit_len]; cbn [tsize]; lia.
Qed.
Lemma lines_size a s : lines a s -> asize a <= 2 * length s.
Proof.
  induction 1 as [|a s r1 r2 r H1%skip_len H2%remark_len H3%skip_len _ IH|e a s r1 r2 r3 r4 r H1%skip_len H2%lit_len H3%skip_len H4%word_len H5%skip_len _ IH
    |n t a s r1 r2 r3 r4 r5 r6 r H1%skip_len H2%name_size _ H3%skip_len H4%lit_len H5%skip_len H6%body_size H7%skip_len _ IH]; unfold asize in *; cbn [List.map].
  - cbn. lia.
  - lia.
  - rewrite sum_cons. cbn [nsize]. rewrite str_length. change (length (txt "export")) with 6 in H2. lia.
  - rewrite sum_cons. cbn [nsize]. rewrite str_length. change (length (txt ":")) with 1 in H4. lia.
Qed.
Lemma layout_size a s : layout a s -> asize a <= 2 * length s.
Proof. intros (r & H1%skip_len & H2%lines_size). lia. Qed.

Lemma sum_perm l k : l ≡ₚ k -> sum_list l = sum_list k.
Proof. induction 1; rewrite ?sum_cons; lia. Qed.
Lemma sum_sub l k : l ⊆+ k -> sum_list l <= sum_list k.
Proof. induction 1; rewrite ?sum_cons; lia. Qed.
Lemma map_sub {A B} (g : A -> B) l k : l ⊆+ k -> List.map g l ⊆+ List.map g k.
Proof. induction 1; cbn; try (by constructor). by etrans. Qed.
Lemma node_le a n : n ∈ a -> nsize n <= asize a.
Proof. intros Hn. unfold asize. assert ([n] ⊆+ a) as H. { apply NoDup_submseteq; [apply NoDup_singleton|]. by intros x ->%elem_of_list_singleton. } apply (map_sub nsize), sum_sub in H. cbn in H. lia. Qed.

(** ** Declarations *)
Lemma decl_length a types e n t : entry_matches a types n t -> (forall n vs, declares_enum a n vs -> length vs <= 32) ->
  sum_list (List.map (fun d => sl (print_decl d)) (decl_of e (n, (n, t)))) <= 0 \/
  exists u, NDecl n u ∈ a /\ sum_list (List.map (fun d => sl (print_decl d)) (decl_of e (n, (n, t)))) <= 50 * nsize (NDecl n u).
Proof.
  intros Hm Hen. cbn [decl_of]. destruct (n =? e)%string; [by left|]. destruct Hm as [(b & _ & ->)|[(vs & r & Hd & _ & ->)|(fs & ds & rs & Hd & Hp & Hf & ->)]]; [by left|right..].
  - exists (AEnum vs). split; [done|]. cbn [List.map e_variants]. rewrite sum_cons. cbn [print_decl]. unfold line. rewrite !slength_app, concat_str_length, !List.map_map, !sl_tab, !sl_NL. cbn [sl nsize tsize].
    match goal with |- context [sum_list (List.map ?g (imap ?h vs))] => set (G := g); assert (sum_list (List.map G (imap h vs)) <= 50 * sum_list (List.map (fun v => sl v + 1) vs)) as HG end.
    { pose proof (Hen n vs Hd) as Hlen. assert (forall k, k + length vs <= 32 -> sum_list (List.map G (imap (fun i v => EnumVariant v (k + i)) vs)) <= 50 * sum_list (List.map (fun v => sl v + 1) vs)) as H; [|by apply (H 0)].
      clear Hlen Hd. induction vs as [|v vs IH]; intros k Hk; [cbn; lia|]. cbn [imap List.map]. rewrite !sum_cons.
      assert (imap ((fun i v => EnumVariant v (k + i)) ∘ S) vs = imap (fun i v => EnumVariant v (S k + i)) vs) as -> by (apply imap_ext; intros i x _; cbn; f_equal; lia).
      cbn [length] in Hk. assert (S k + length vs <= 32) as Hk' by lia. apply IH in Hk'. 
      assert (G (EnumVariant v (k + 0)) <= 50 * (sl v + 1)); [|lia].
      unfold G. cbn [ev_name ev_value]. unfold line. rewrite !slength_app. assert (k + 0 < 32) as Hn%nat_length by lia. rewrite !sl_tab, sl_NL. cbn [sl]. lia. }
    cbn [sum_list sum_list_with]. lia.
  - exists (AStruct fs). split; [done|]. cbn [List.map]. rewrite sum_cons. cbn [print_decl]. unfold line. rewrite !slength_app, concat_str_length, !List.map_map, !sl_tab, !sl_NL. cbn [sl nsize tsize].
    match goal with |- context [sum_list (List.map ?g rs)] => set (G := g); assert (sum_list (List.map G rs) <= 50 * sum_list (List.map fsize fs)) as HG end.
    { rewrite <- (sum_perm (List.map fsize ds) (List.map fsize fs)) by (by apply Permutation_map). clear Hp Hd. induction Hf as [|d r ds rs Hdr _ IH]; [cbn; lia|]. cbn [List.map]. rewrite !sum_cons.
      assert (G r <= 50 * fsize d); [|lia]. destruct Hdr as (E1 & E2 & _). unfold G, fsize, line. rewrite !slength_app, E1, E2, !sl_tab, sl_NL.
      assert (sl (ts_type (u_name d.2) (f_ty r)) <= sl (u_name d.2) + 6) by (unfold ts_type; destruct (f_ty r) as [[]| |]; cbn [sl]; lia).
      destruct (f_opt r), (f_array r); cbn [sl]; lia. }
    cbn [sum_list sum_list_with]. lia.
Qed.
Lemma decls_length a types e (L : list (string * (string * rtype))) : NoDup (L.*1) -> (forall n vs, declares_enum a n vs -> length vs <= 32) ->
  (forall n m t, (n, (m, t)) ∈ L -> m = n /\ entry_matches a types n t) ->
  sum_list (List.map (fun d => sl (print_decl d)) (List.concat (List.map (decl_of e) L))) <= 50 * asize a.
Proof.
  intros Hnd Hen HL. enough (exists N : ast, N ⊆+ a /\ sum_list (List.map (fun d => sl (print_decl d)) (List.concat (List.map (decl_of e) L))) <= 50 * asize N) as (N & HN & Hle).
  { etrans; [exact Hle|]. apply Nat.mul_le_mono_l. unfold asize. by apply sum_sub, map_sub. }
  assert (exists N : ast, NoDup N /\ (forall x, x ∈ N -> x ∈ a /\ exists n t, x = NDecl n t /\ n ∈ L.*1) /\
    sum_list (List.map (fun d => sl (print_decl d)) (List.concat (List.map (decl_of e) L))) <= 50 * asize N) as (N & HN1 & HN2 & HN3).
  { induction L as [|[n [m t]] L IH]; [exists []; split; [constructor|]; split; [by intros ? ?%elem_of_nil|cbn; lia]|]. cbn [fmap list_fmap] in Hnd. apply NoDup_cons in Hnd as [Hn Hnd]. cbn [fst] in Hn.
    destruct IH as (N & H1 & H2 & H3); [done|intros; apply HL; by right|]. destruct (HL n m t) as [-> Hm]; [by left|].
    cbn [List.map List.concat]. rewrite List.map_app. assert (forall l k, sum_list (l ++ k) = sum_list l + sum_list k) as Happ by (intros l k; induction l as [|x l IHl]; [done|cbn [app]; rewrite !sum_cons; lia]). rewrite Happ.
    destruct (decl_length a types e n t Hm Hen) as [H0|(u & Hu & H0)].
    - exists N. split; [done|]. split; [|lia]. intros x Hx. destruct (H2 x Hx) as (? & k & v & -> & Hk). split; [done|]. exists k, v. split; [done|]. by right.
    - exists (NDecl n u :: N). split; [|split].
      + apply NoDup_cons. split; [|done]. intros Hx. destruct (H2 _ Hx) as (_ & k & v & [= <- <-] & Hk). done.
      + intros x [->|Hx]%elem_of_cons; [split; [done|]; exists n, u; split; [done|by left]|]. destruct (H2 x Hx) as (? & k & v & -> & Hk). split; [done|]. exists k, v. split; [done|]. by right.
      + unfold asize. cbn [List.map]. rewrite sum_cons. unfold asize in H3. lia. }
  exists N. split; [|done]. apply NoDup_submseteq; [done|]. intros x Hx. by apply HN2.
Qed.

(** ** Unfolding *)
Lemma Forall2_perm {A B} (P : A -> B -> Prop) l k l' : Forall2 P l k -> l ≡ₚ l' -> exists k', k ≡ₚ k' /\ Forall2 P l' k'.
Proof.
  intros H Hp. revert k H. induction Hp as [|x l l' _ IH|x y l|l1 l2 l3 _ IH1 _ IH2]; intros k H.
  - inversion H; subst. by exists [].
  - inversion H as [|? y ? k0 Hx Hk]; subst. destruct (IH _ Hk) as (k' & Hp & Hk'). exists (y :: k'). split; [by constructor|by constructor].
  - inversion H as [|? x' ? k0 Hx Hk]; subst. inversion Hk as [|? y' ? k1 Hy Hk1]; subst. exists (y' :: x' :: k1). split; [by constructor|by repeat constructor].
  - destruct (IH1 _ H) as (k2 & H12 & H2). destruct (IH2 _ H2) as (k3 & H23 & H3). exists k3. split; [by etrans|done].
Qed.
Lemma rsize_unfolded a (types : tymap) : (forall n m t, types !! n = Some (m, t) -> m = n /\ entry_matches a types n t) ->
  forall t n d, types !! n = Some (n, t) -> unfolded a d n (rsize d t).
Proof.
  intros Hty. induction t as [b|e|rs IH] using rtype_ind'; intros n d Hn; destruct (Hty _ _ _ Hn) as [_ [(b' & Hb & E)|[(vs & r & Hd & _ & E)|(fs & ds & rs' & Hd & Hp & Hf & E)]]]; try discriminate; cbn [rsize].
  - apply unfolded_leaf. left. by eapply builtin_of_name_in.
  - apply unfolded_leaf. right. eauto.
  - injection E as <-.
    assert (Forall2 (fun f k => unfolded a (d + 1 + sl f.1) (u_name f.2) k) ds (List.map (fun f => rsize (d + 1 + sl (f_name f)) (f_ty f)) rs)) as HF.
    { clear Hp Hd Hn. induction Hf as [|x r ds rs (E1 & E2 & E3 & E4 & E5) _ IHf]; [constructor|]. apply Forall_cons in IH as [IH1 IH2]. cbn [List.map]. constructor; [|by apply IHf]. rewrite E1. by apply IH1. }
    destruct (Forall2_perm _ _ _ _ HF Hp) as (ks & Hk & HF'). rewrite (sum_perm _ _ Hk). by eapply unfolded_struct.
Qed.

Section bound.
  Context s a iter r version now titer t (Hs : parse_schema s = POk a) (Hf : fair_order iter) (Hr : type_check iter a = Ok r)
    (Ht : fair_types titer) (Hg : generate version now titer r = Ok t).
  Lemma bound_names : no_builtin_decl a.
  Proof. by eapply legal_no_builtin, parse_legal. Qed.
  Let e := x_name (r_export r).
  Let fs := x_fields (r_export r).
  Lemma bound_export : exports a = [e] /\ unfolded a 1 e (rsize 1 (TStruct fs)).
  Proof.
    destruct (type_check_result _ _ _ Hf bound_names Hr) as (H1 & H2 & _ & H3). split; [done|]. by eapply rsize_unfolded.
  Qed.
  Lemma bound_fields : exists ds, declares_struct a e ds /\ sum_list (List.map (fun f => sl (f_name f) + sl (f_tname f) + 1) fs) = sum_list (List.map fsize ds).
  Proof.
    destruct (type_check_result _ _ _ Hf bound_names Hr) as (H1 & H2 & _ & H3).
    destruct (H3 _ _ _ H2) as [_ [(b' & _ & [=])|[(vs & ? & _ & _ & [=])|(ds & ds' & rs' & Hd & Hp & Hfm & [= E])]]]. exists ds. split; [done|].
    fold fs in E. rewrite <- (sum_perm (List.map fsize ds') (List.map fsize ds)) by (by apply Permutation_map). rewrite <- E in Hfm. clear -Hfm.
    induction Hfm as [|x r' ds' rs (E1 & E2 & _) _ IH]; [done|]. cbn [List.map]. rewrite !sum_cons, IH. unfold fsize. by rewrite E1, E2.
  Qed.
  Lemma bound_text : sl t <= 3200 * ((sl e + 1) * length s + rsize 1 (TStruct fs)) + sl version + sl now.
  Proof.
    pose proof bound_names as Hnb. rewrite (generate_ok _ _ _ _ _ _ Hf Hnb Hr) in Hg. injection Hg as <-.
    pose proof (layout_size _ _ (proj1 (parse_schema_ok a s) Hs)) as Ha.
    destruct (type_check_result _ _ _ Hf Hnb Hr) as (H1 & H2 & _ & H3). fold e in H1, H2. fold fs in H2.
    destruct bound_fields as (ds & Hd & Efs). pose proof (node_le _ _ Hd) as Hds. cbn [nsize tsize] in Hds.
    pose proof (rsize_pos 1 (TStruct fs)) as Hpos.
    unfold print_module, module_of. cbn [m_version m_now m_decls m_class]. rewrite !slength_app, concat_str_length, List.map_map.
    assert (sum_list (List.map (fun d => sl (print_decl d)) (List.concat (List.map (decl_of e) (titer (r_types r))))) <= 50 * asize a) as HD.
    { apply (decls_length a (r_types r)).
      - rewrite (Ht (r_types r)). apply NoDup_fst_map_to_list.
      - intros n vs Hv. by destruct (vs_enums _ (result_valid _ _ _ Hf Hnb Hr) n vs Hv) as [[_ ?] _].
      - intros n m u. rewrite (Ht (r_types r)), elem_of_map_to_list. apply H3. }
    pose proof (class_length e fs (export_checked _ _ _ Hf Hnb Hr)) as HC. rewrite Efs in HC.
    assert (sl (k_name (class_of (r_export r))) = sl e) as Ek by done. unfold header, import_line, line. rewrite !slength_app, Ek, !sl_NL. cbn [sl].
    replace (class_of (Export_ e fs)) with (class_of (r_export r)) in HC by (unfold e, fs; by destruct (r_export r)).
    assert ((sl e + 1) * sum_list (List.map fsize ds) <= 2 * ((sl e + 1) * length s)) as HQ by nia.
    fold e. set (X := (sl e + 1) * length s) in *. set (Y := (sl e + 1) * sum_list (List.map fsize ds)) in *. assert (length s <= X) by (subst X; nia). clearbody X Y.
    set (DD := sum_list (List.map (fun d => sl (print_decl d)) _)) in *. clearbody DD. lia.
  Qed.
  Lemma bound_flat : flat a e -> rsize 1 (TStruct fs) <= 2 + 6 * length s.
  Proof.
    intros Hflat. pose proof (layout_size _ _ (proj1 (parse_schema_ok a s) Hs)) as Ha. pose proof bound_names as Hnb.
    destruct (type_check_result _ _ _ Hf Hnb Hr) as (H1 & H2 & _ & H3). fold e in H1, H2. fold fs in H2.
    destruct bound_fields as (ds & Hd & Efs). pose proof (node_le _ _ Hd) as Hds. cbn [nsize tsize] in Hds. cbn [rsize].
    assert (sum_list (List.map (fun f => rsize (1 + 1 + sl (f_name f)) (f_ty f)) fs) <= 3 * sum_list (List.map (fun f => sl (f_name f) + sl (f_tname f) + 1) fs)) as HB; [|lia].
    apply sum_list_bound. intros f Hin. destruct (entry_struct _ _ _ Hf Hnb Hr _ _ _ H2 Hin) as (fs' & u & Hd' & Hu & E1 & E2 & E3 & E4).
    assert (is_struct (f_ty f) = false) as Hns.
    { pose proof (Hflat _ _ Hd' Hu) as Hl. cbn [snd] in Hl. rewrite <- E1 in Hl. destruct (H3 _ _ _ E4) as [_ [(b' & _ & ->)|[(vs & ? & _ & _ & ->)|(gs & gs' & rs' & Hgs & _ & _ & _)]]]; [done..|exfalso].
      destruct Hl as [Hl|[vs Hl]]; [by apply (Hnb (f_tname f)); [eapply decl_names_elem|]|].
      pose proof (decl_unique _ _ _ _ (vs_decls _ (result_valid _ _ _ Hf Hnb Hr)) Hgs Hl). done. }
    destruct (f_ty f); [cbn [rsize]; lia..|done].
  Qed.
End bound.
Lemma size_unfolded : exists K, forall s a iter r version now titer t, parse_schema s = POk a -> fair_order iter -> type_check iter a = Ok r -> fair_types titer ->
  generate version now titer r = Ok t ->
  exists e k, exports a = [e] /\ unfolded a 1 e k /\ sl t <= K * ((sl e + 1) * length s + k) + sl version + sl now.
Proof.
  exists 3200. intros s a iter r version now titer t Hs Hf Hr Ht Hg. eexists _, _. destruct (bound_export s a iter r Hs Hf Hr) as [H1 H2]. split; [exact H1|]. split; [exact H2|].
  by eapply bound_text.
Qed.
Lemma size_flat : exists K, forall s a e iter r version now titer t, parse_schema s = POk a -> exports a = [e] -> flat a e -> fair_order iter -> type_check iter a = Ok r -> fair_types titer ->
  generate version now titer r = Ok t -> sl t <= K * ((sl e + 1) * length s) + sl version + sl now.
Proof.
  exists (3200 + 3200 * 8). intros s a e iter r version now titer t Hs He Hfl Hf Hr Ht Hg. destruct (bound_export s a iter r Hs Hf Hr) as [H1 H2]. rewrite He in H1. injection H1 as ->.
  pose proof (bound_text s a iter r version now titer t Hs Hf Hr Ht Hg) as HB. pose proof (bound_flat s a iter r Hs Hf Hr Hfl) as HF.
  assert (1 <= length s) as Hs1 by (destruct s; [|cbn; lia]; assert (a = []) as -> by (by injection Hs); done).
  revert HB HF. set (N := rsize 1 _). set (E := sl (x_name (r_export r)) + 1). assert (1 <= E) by (subst E; lia). clearbody N E. intros HB HF.
  assert (length s <= E * length s) by nia. set (X := E * length s) in *. clearbody X. nia.
Qed.

(** ** Even without nested structs the length is not linear: the export's name is repeated for every enum field *)
Definition wide_fields (m : nat) : list (string * unresolved) := List.map (fun i => (nm i, Unresolved "E" false false)) (seq 0 m).
Definition wide (m : nat) : ast := [NDecl "E" (AEnum ["A"]); NDecl (nm (m * m)) (AStruct (wide_fields m)); NExport (nm (m * m))].
Lemma nm_not_E i : nm i ≠ "E".
Proof. by destruct i. Qed.
Lemma wide_in m n t : NDecl n t ∈ wide m <-> (n = "E" /\ t = AEnum ["A"]) \/ (n = nm (m * m) /\ t = AStruct (wide_fields m)).
Proof. unfold wide. rewrite !elem_of_cons, elem_of_nil. naive_solver. Qed.
Lemma wide_field m f u : (f, u) ∈ wide_fields m <-> exists i, i < m /\ f = nm i /\ u = Unresolved "E" false false.
Proof.
  unfold wide_fields. rewrite elem_of_list_In, in_map_iff. split.
  - intros (i & [= <- <-] & Hi%in_seq). exists i. split; [lia|done].
  - intros (i & Hi & -> & ->). exists i. split; [done|]. apply in_seq. lia.
Qed.
Lemma wide_valid m : valid_schema (wide m).
Proof.
  split.
  - exists (nm (m * m)), (wide_fields m). split; [done|]. apply wide_in. by right.
  - cbn. repeat constructor; rewrite ?elem_of_cons, ?elem_of_nil; [|naive_solver]. intros [E|?]; [|done]. by apply (nm_not_E (m * m)).
  - intros n vs [[-> [= ->]]|[_ [=]]]%wide_in. split; [cbn; lia|apply NoDup_singleton].
  - intros n fs f u [[_ [=]]|[-> [= ->]]]%wide_in (i & _ & -> & ->)%wide_field. right. cbn. by left.
  - intros n fs f u [[_ [=]]|[-> [= ->]]]%wide_in (i & _ & -> & ->)%wide_field. naive_solver.
  - assert (forall x y, refers (wide m) x y -> y = "E") as Hr.
    { intros x y (fs & f & u & [[_ [=]]|[-> [= ->]]]%wide_in & (i & _ & -> & ->)%wide_field & <-). done. }
    assert (forall y, ~ refers (wide m) "E" y) as HE.
    { intros y (fs & f & u & [[_ [=]]|[E _]]%wide_in & _). by apply (nm_not_E (m * m)). }
    intros n Hn. assert (forall x y, tc (refers (wide m)) x y -> x ≠ "E" /\ y = "E") as H; [|by destruct (H _ _ Hn)].
    induction 1 as [x y Hxy|x y z Hxy Hyz [IH1 IH2]].
    + split; [|by eapply Hr]. intros ->. by apply HE in Hxy.
    + apply Hr in Hxy as ->. done.
  - intros n fs [[_ [=]]|[-> [= ->]]]%wide_in. unfold wide_fields. destruct m as [|m]; [constructor|]. cbn [seq List.map compared_names u_name].
    rewrite decide_False by (by apply (bool_decide_unpack _); vm_compute). apply NoDup_singleton.
Qed.
Lemma legal_E : legal_name (txt "E").
Proof.
  split; [|split]; [apply (bool_decide_unpack _); vm_compute; exact I|eexists _, _; split; [reflexivity|apply (bool_decide_unpack _); vm_compute; exact I]|].
  intros k Hk [l Hl]. unfold reserved_list in Hk. repeat (apply elem_of_cons in Hk as [->|Hk]; [by vm_compute in Hl|]). by apply elem_of_nil in Hk.
Qed.
Lemma wide_legal m : legal_ast (wide m).
Proof.
  unfold wide. constructor; [|constructor; [|constructor; [|constructor]]].
  - split; [apply legal_E|]. split; [intros [l Hl]; done|]. apply Forall_singleton. apply (legal_nm 0).
  - split; [apply legal_nm|]. split; [apply not_export_nm|]. apply Forall_forall. intros [f u] (i & _ & -> & ->)%wide_field. split; [apply legal_nm|apply legal_E].
  - apply (legal_nm (m * m)).
Qed.
Lemma wide_flat m : flat (wide m) (nm (m * m)).
Proof. intros fs [f u] [[_ [=]]|[_ [= ->]]]%wide_in (i & _ & -> & ->)%wide_field. right. exists ["A"]. by left. Qed.
Lemma wide_distinct m n fs : declares_struct (wide m) n fs -> NoDup fs.*1.
Proof.
  intros [[_ [=]]|[_ [= ->]]]%wide_in. unfold wide_fields. assert (forall l, ((fun i => (nm i, Unresolved "E" false false)) <$> l).*1 = nm <$> l) as E by (intros l; induction l; cbn; congruence).
  change (List.map (fun i => (nm i, Unresolved "E" false false)) (seq 0 m)) with ((fun i => (nm i, Unresolved "E" false false)) <$> seq 0 m). rewrite E.
  apply NoDup_fmap_2_strong; [intros; by apply nm_inj|]. apply NoDup_seq.
Qed.
Lemma wide_short m : length (show_ast (wide m)) <= 60 + 20 * (m * m + m).
Proof.
  unfold wide, show_ast. cbn [map concat show_node show_type]. rewrite !app_length, !txt_length, nm_length. cbn [sl length app show_variant].
  assert (forall k l, length (concat (map show_field (List.map (fun i => (nm i, Unresolved "E" false false)) (seq k l)))) <= (k + l + 6) * l) as H.
  { intros k l. revert k. induction l as [|l IH]; intros k; [cbn; lia|]. cbn [seq List.map map concat]. rewrite app_length. specialize (IH (S k)).
    assert (length (show_field (nm k, Unresolved "E" false false)) = k + 5) as ->; [|nia].
    unfold show_field. cbn [fst snd u_opt u_array u_name]. rewrite !app_length, !txt_length, nm_length. cbn. lia. }
  specialize (H 0 m). fold (wide_fields m) in H. change (length (show_variant "A")) with 3. nia.
Qed.
Lemma params_length e fs : (forall f, f ∈ fs -> exists x, f_ty f = TEnum x) ->
  sl e * length fs <= sl (print_class (class_of (Export_ e fs))).
Proof.
  intros H. unfold print_class, class_of. cbn [k_name k_params k_read k_write x_name x_fields]. rewrite List.map_map. unfold line. rewrite !slength_app, concat_str_length, List.map_map.
  set (P := sum_list (List.map (fun x => _) fs)). enough (sl e * length fs <= P) by lia. unfold P. clear P. induction fs as [|f fs IH]; [cbn; lia|]. cbn [List.map length]. rewrite sum_cons.
  assert (sl e * length fs <= sum_list (List.map (fun x => sl ((tab +:+ tab) +:+ ("public " +:+ f_name x +:+ ": " +:+ field_ctor_type (f_tname x) (f_ty x) e (f_array x) (f_opt x) +:+ ",") +:+ NL)) fs)) by (apply IH; intros; apply H; by right).
  destruct (H f) as [x E]; [by left|]. rewrite E. unfold field_ctor_type at 1. rewrite !slength_app. lia.
Qed.
Lemma flat_refuted K version now titer : fair_types titer -> exists s a e iter r t, parse_schema s = POk a /\ exports a = [e] /\ flat a e /\ (forall n fs, declares_struct a n fs -> NoDup fs.*1) /\
  fair_order iter /\ type_check iter a = Ok r /\ generate version now titer r = Ok t /\ K * length s < sl t.
Proof.
  intros Hti. set (m := K * 100 + 1). assert (is_ok (type_check iter_fwd (wide m))) as [r Hr].
  { apply type_check_valid; [apply fair_fwd|apply legal_no_builtin, wide_legal|apply wide_valid]. }
  pose proof (legal_no_builtin _ (wide_legal m)) as Hnb.
  pose proof (generate_ok _ _ _ version now titer fair_fwd Hnb Hr) as Hg.
  eexists (show_ast (wide m)), (wide m), _, iter_fwd, r, _. split; [apply parse_show, wide_legal|]. split; [reflexivity|]. split; [apply wide_flat|]. split; [apply wide_distinct|].
  split; [apply fair_fwd|]. split; [done|]. split; [exact Hg|].
  destruct (type_check_result _ _ _ fair_fwd Hnb Hr) as (Hx & He & _ & Hent). injection Hx as Hx. rewrite <- Hx in He.
  destruct (Hent _ _ _ He) as [_ [(b' & _ & [=])|[(vs & ? & _ & _ & [=])|(ds & ds' & rs' & Hd & Hp & Hfm & [= E])]]]. rewrite E in *.
  apply wide_in in Hd as [[_ [=]]|[_ [= ->]]].
  assert (sl (nm (m * m)) * length rs' <= sl (print_class (class_of (Export_ (nm (m * m)) rs')))) as HC.
  { apply params_length. intros f Hf. apply elem_of_list_lookup in Hf as [i Hi]. destruct (Forall2_lookup_r _ _ _ _ _ Hfm Hi) as ([fn u] & Hdi & H1 & H2 & H3 & H4 & H5).
    apply elem_of_list_lookup_2 in Hdi. rewrite Hp in Hdi. apply wide_field in Hdi as (j & _ & -> & ->). cbn in H5.
    destruct (Hent _ _ _ H5) as [_ [(b' & Hb & _)|[(vs & rp & _ & _ & ->)|(gs & gs' & rs & Hgs & _ & _ & _)]]]; [done|by eexists|].
    apply wide_in in Hgs as [[_ [=]]|[E' _]]. by destruct (nm_not_E (m * m)). }
  assert (length rs' = m) as Hlen. { rewrite <- (Forall2_length _ _ _ Hfm), (Permutation_length Hp). unfold wide_fields. by rewrite map_length, seq_length. }
  rewrite nm_length, Hlen in HC. unfold print_module, module_of. cbn [m_class]. rewrite !slength_app.
  replace (r_export r) with (Export_ (nm (m * m)) rs') by (rewrite Hx, <- E; by destruct (r_export r)).
  pose proof (wide_short m) as HS. assert (1 <= m) by (subst m; lia).
  assert (60 + 20 * (m * m + m) <= 100 * (m * m)) by nia. assert (K * length (show_ast (wide m)) <= (K * 100) * (m * m)) by nia.
  assert ((K * 100) * (m * m) < m * (m * m)) by (subst m; nia). nia.
Qed.
