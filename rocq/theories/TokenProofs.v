(** An accepted schema is determined by the words and signs of its text (C75). *)
From Verif Require Import ParserProofs2 LayoutProofs CheckProofs3.
From Verif Require Export LayoutSpec.

Notation tk d := (tokens d false []).

Lemma tk_split d u w r : Forall name_char w -> stops name_char r ->
  tokens d false u (w ++ r) = tokens d false u w ++ tk d r.
Proof.
  intros HF Hr. revert u. induction HF as [|c w Hc HF IH]; intros u.
  - simpl. destruct r as [|c r]; simpl; [unfold flush at 3; by rewrite app_nil_r|].
    rewrite (bool_decide_false (name_char c)) by done. done.
  - simpl. rewrite (bool_decide_true (name_char c)) by done. case_bool_decide; simpl; by rewrite IH.
Qed.
Lemma tk_whole d u w : Forall name_char w -> u ++ w ≠ [] -> (d = 0 -> ~ txt "export" `prefix_of` u ++ w) ->
  tokens d false u w = [u ++ w].
Proof.
  intros HF. revert u. induction HF as [|c w Hc HF IH]; intros u Hne Hx.
  - simpl. unfold flush. rewrite app_nil_r in *. by rewrite decide_False.
  - simpl. rewrite (bool_decide_true (name_char c)) by done. rewrite bool_decide_false.
    + rewrite IH; rewrite <-?app_assoc; done.
    + intros [-> E]. apply Hx; [done|]. exists w. transitivity ((u ++ [c]) ++ w); [by rewrite <-app_assoc|by rewrite E].
Qed.
Lemma tk_word d w r : Forall name_char w -> w ≠ [] -> stops name_char r -> (d = 0 -> ~ txt "export" `prefix_of` w) ->
  tk d (w ++ r) = w :: tk d r.
Proof. intros H1 H2 H3 H4. rewrite tk_split by done. by rewrite (tk_whole d [] w). Qed.
Lemma tk_space_char d c s : space_char c -> tk d (c :: s) = tk d s.
Proof.
  intros H. simpl. rewrite (bool_decide_false (name_char c)) by by apply space_not_name.
  rewrite (bool_decide_true (space_char c \/ _)) by by left. done.
Qed.
Lemma tk_spaces d w s : Forall space_char w -> tk d (w ++ s) = tk d s.
Proof. induction 1 as [|c w Hc HF IH]; [done|]. rewrite <-IH. by apply tk_space_char. Qed.
Lemma tk_skip_space d s r : skip space_char s r -> tk d s = tk d r.
Proof. intros (w & -> & HF & _). by apply tk_spaces. Qed.
Lemma tk_skip_blank d s r : skip blank_char s r -> tk d s = tk d r.
Proof. intros (w & -> & HF & _). apply tk_spaces. eapply Forall_impl; [exact HF|by left]. Qed.
Lemma tk_skip_newline d s r : skip newline_char s r -> tk d s = tk d r.
Proof. intros (w & -> & HF & _). apply tk_spaces. eapply Forall_impl; [exact HF|by right]. Qed.
Lemma tk_comment d s r : remark s r -> tk d s = tk d r.
Proof.
  intros (b & -> & HF & He).
  assert (tokens d true [] (b ++ r) = tk d r) as K.
  { induction HF as [|c b Hc HF IH].
    - destruct He as [->|[r' ->]]; [done|]. symmetry. by apply (tk_space_char d lf), lf_space.
    - simpl. by rewrite (bool_decide_true (c ≠ lf)). }
  rewrite <-K. reflexivity.
Qed.
Definition sign (c : ascii) : Prop := c ∈ txt "?:[]{}".
Lemma sign_spec c : sign c -> ~ name_char c /\ ~ (space_char c \/ c = ","%char) /\ c ≠ "#"%char.
Proof.
  revert c. apply (ascii_all (fun c => sign c -> ~ name_char c /\ ~ (space_char c \/ c = ","%char) /\ c ≠ "#"%char)).
  apply (bool_decide_unpack _). vm_compute. exact I.
Qed.
Lemma tk_sign d c s : sign c -> tk d (c :: s) = [c] :: tk (depth d c) s.
Proof.
  intros (H1 & H2 & H3)%sign_spec. simpl. rewrite bool_decide_false by done. rewrite bool_decide_false by done.
  by rewrite bool_decide_false.
Qed.
Lemma tk_comma d b s r : perhaps "," b s r -> tk d s = tk d r.
Proof.
  destruct b; simpl; [intros ->; reflexivity|by intros [-> _]].
Qed.

(** What the tokens of a schema are. *)
Definition type_tokens (t : string) : list text := flush (txt t).
Definition field_tokens (f : string * unresolved) : list text :=
  [txt f.1] ++ (if u_opt f.2 then [txt "?"] else []) ++ [txt ":"] ++ type_tokens (u_name f.2) ++
  (if u_array f.2 then [txt "["; txt "]"] else []).
Definition fields_tokens (fs : list (string * unresolved)) : list text := concat (map field_tokens fs).
Definition body_tokens (t : atype) : list text :=
  match t with
  | AEnum vs => [txt "enum"; txt "{"] ++ map txt vs ++ [txt "}"]
  | AStruct fs => [txt "struct"; txt "{"] ++ fields_tokens fs ++ [txt "}"]
  end.
Definition node_tokens (n : node) : list text :=
  match n with
  | NExport e => txt "export" :: tk 0 (txt e)
  | NDecl n t => txt n :: txt ":" :: body_tokens t
  end.
Definition schema_tokens (a : ast) : list text := concat (map node_tokens a).

Lemma legal_name_ne w : legal_name w -> w ≠ [].
Proof. intros (_ & (c & w' & -> & _) & _). done. Qed.
Lemma tk_name d n s r : name n s r -> (d = 0 -> ~ txt "export" `prefix_of` n) -> tk d s = n :: tk d r.
Proof. intros (-> & Hn & Hs) Hx. apply tk_word; try done; [apply Hn|by apply legal_name_ne]. Qed.
Lemma variants_tk vs s r : variants vs s r -> tk 1 s = map txt vs ++ tk 1 r.
Proof.
  induction 1 as [|v c vs s r1 r2 r3 r4 r H1 H2 H3 H4 Hv IH]; [done|].
  rewrite (tk_name 1 _ _ _ H1) by done. rewrite (tk_skip_space _ _ _ H2), (tk_comma _ _ _ _ H3), (tk_skip_space _ _ _ H4), IH.
  simpl. by rewrite txt_str.
Qed.
Lemma perhaps_sign d c s r b : sign c -> depth d c = d -> perhaps (String c "") b s r -> tk d s = (if b then [[c]] else []) ++ tk d r.
Proof.
  intros Hc Hd. destruct b; simpl; [|by intros [-> _]]. intros ->. simpl txt. rewrite <-app_comm_cons, app_nil_l, tk_sign by done. by rewrite Hd.
Qed.
Lemma sign_in c : bool_decide (sign c) = true -> sign c.
Proof. apply bool_decide_eq_true. Qed.
Lemma tk_lit d c s r : bool_decide (sign c) = true -> lit (String c "") s r -> tk d s = [c] :: tk (depth d c) r.
Proof. intros Hc ->. simpl. by apply tk_sign, sign_in. Qed.
Lemma fields_tk fs s r : fields fs s r -> tk 1 s = fields_tokens fs ++ tk 1 r.
Proof.
  induction 1 as [|fs s r1 r2 r H1 H2 Hv IH
    |n o t a c fs s r1 r2 r3 r4 r5 r6 r7 r8 r9 r10 r H1 H2 H3 H4 H5 H6 H7 H8 H9 H10 Hv IH]; [done|..].
  - by rewrite (tk_comment _ _ _ H1), (tk_skip_space _ _ _ H2).
  - rewrite (tk_name 1 _ _ _ H1) by done.
    rewrite (tk_skip_blank _ _ _ H2), (perhaps_sign 1 "?"%char _ _ _ (sign_in "?" eq_refl) eq_refl H3), (tk_lit _ ":"%char _ _ eq_refl H4),
      (tk_skip_blank _ _ _ H5).
    destruct H6 as (-> & HF & Hs). rewrite tk_split by done. unfold fields_tokens. simpl. rewrite txt_str.
    assert (tokens (depth 1 ":"%char) false [] t = type_tokens (str t)) as ->.
    { unfold type_tokens. rewrite txt_str. unfold flush. case_decide as Ht; [by subst t|]. by apply tk_whole. }
    assert (tk 1 r6 = (if a then [txt "["; txt "]"] else []) ++ tk 1 r7) as Ea.
    { destruct a; simpl in H7; [|by destruct H7 as [-> _]]. unfold lit in H7. subst r6. simpl txt.
      rewrite <-!app_comm_cons. rewrite app_nil_l, (tk_sign _ "["%char), (tk_sign _ "]"%char) by (apply sign_in; reflexivity). done. }
    change (depth 1 ":"%char) with 1. rewrite Ea, (tk_skip_space _ _ _ H8), (tk_comma _ _ _ _ H9), (tk_skip_space _ _ _ H10), IH.
    rewrite <-!app_assoc. simpl. by rewrite <-!app_assoc.
Qed.
Lemma body_tk t s r : body t s r -> tk 0 s = body_tokens t ++ tk 0 r.
Proof.
  assert (forall l s r1 r2 r3, Forall name_char (txt l) -> txt l ≠ [] -> ~ txt "export" `prefix_of` txt l ->
    lit l s r1 -> skip blank_char r1 r2 -> lit "{" r2 r3 -> tk 0 s = txt l :: txt "{" :: tk 1 r3) as K.
  { intros l s' r1 r2 r3 HF Hne Hx -> H2 H3. rewrite tk_word; try done.
    - rewrite (tk_skip_blank _ _ _ H2), (tk_lit _ "{"%char _ _ eq_refl H3). done.
    - destruct H2 as (w & -> & HFw & _). unfold lit in H3. subst r2. destruct HFw as [|c w Hc].
      + apply (bool_decide_unpack _). vm_compute. exact I.
      + simpl. apply space_not_name. by left. }
  destruct 1 as [vs s r1 r2 r3 r4 r5 r H1 H2 H3 H4 H5 H6|fs s r1 r2 r3 r4 r5 r H1 H2 H3 H4 H5 H6].
  - rewrite (K "enum" s r1 r2 r3); try done; try (apply (bool_decide_unpack _); vm_compute; exact I).
    rewrite (tk_skip_space _ _ _ H4), (variants_tk _ _ _ H5), (tk_lit _ "}"%char _ _ eq_refl H6). simpl. by rewrite <-app_assoc.
  - rewrite (K "struct" s r1 r2 r3); try done; try (apply (bool_decide_unpack _); vm_compute; exact I).
    rewrite (tk_skip_space _ _ _ H4), (fields_tk _ _ _ H5), (tk_lit _ "}"%char _ _ eq_refl H6). simpl. by rewrite <-app_assoc.
Qed.
Lemma lines_tk a s : lines a s -> tk 0 s = schema_tokens a.
Proof.
  induction 1 as [|a s r1 r2 r H1 H2 H3 Hl IH|e a s r1 r2 r3 r4 r H1 H2 H3 H4 H5 Hl IH
      |n t a s r1 r2 r3 r4 r5 r6 r H1 H2 Hx H3 H4 H5 H6 H7 Hl IH]; [done|..].
  - by rewrite (tk_skip_blank _ _ _ H1), (tk_comment _ _ _ H2), (tk_skip_newline _ _ _ H3).
  - rewrite (tk_skip_blank _ _ _ H1). unfold lit in H2. subst r1.
    assert (tk 0 (txt "export" ++ r2) = txt "export" :: tk 0 r2) as -> by reflexivity.
    rewrite (tk_skip_blank _ _ _ H3). destruct H4 as (-> & HF & Hs). rewrite tk_split by done.
    rewrite (tk_skip_newline _ _ _ H5), IH. unfold schema_tokens. simpl. by rewrite txt_str.
  - rewrite (tk_skip_blank _ _ _ H1), (tk_name 0 _ _ _ H2) by done.
    rewrite (tk_skip_blank _ _ _ H3), (tk_lit _ ":"%char _ _ eq_refl H4), (tk_skip_blank _ _ _ H5).
    change (depth 0 ":"%char) with 0. rewrite (body_tk _ _ _ H6), (tk_skip_space _ _ _ H7), IH.
    unfold schema_tokens. simpl. by rewrite txt_str.
Qed.
Lemma layout_tokens a s : layout a s -> tokens_of s = schema_tokens a.
Proof. intros (r & H1 & H2). unfold tokens_of. rewrite (tk_skip_newline _ _ _ H1). by apply lines_tk. Qed.

(** ** Tokens determine the schema *)
Definition wordy (w : text) : Prop := Forall name_char w /\ w ≠ [].
Lemma wordy_sign w c : wordy w -> sign c -> w ≠ [c].
Proof. intros [HF _] (Hc & _)%sign_spec ->. apply Forall_cons in HF as [? _]. done. Qed.
Lemma legal_wordy w : legal_name w -> wordy w.
Proof. intros H. split; [apply H|by apply legal_name_ne]. Qed.
Lemma wordy_punct w l : wordy w -> l ∈ ["?"; ":"; "["; "]"; "{"; "}"] -> w ≠ txt l.
Proof.
  intros Hw Hl. assert (exists c, txt l = [c] /\ sign c) as (c & -> & Hc); [|by apply wordy_sign].
  repeat (apply elem_of_cons in Hl as [->|Hl]; [eexists; split; [reflexivity|by apply sign_in]|]). by apply elem_of_nil in Hl.
Qed.
Lemma cons_inv {A} (x y : A) s t : x :: s = y :: t -> x = y /\ s = t.
Proof. by intros [= -> ->]. Qed.
Lemma txt_inj s t : txt s = txt t -> s = t.
Proof. intros E. rewrite <-(str_txt s), <-(str_txt t). by rewrite E. Qed.
Lemma variants_inj vs vs' x x' : Forall (fun v => legal_name (txt v)) vs -> Forall (fun v => legal_name (txt v)) vs' ->
  map txt vs ++ txt "}" :: x = map txt vs' ++ txt "}" :: x' -> vs = vs' /\ x = x'.
Proof.
  intros H. revert vs'. induction H as [|v vs Hv H IH]; intros vs' H' E; destruct H' as [|v' vs' Hv' H'];
    rewrite ?map_cons, <-?app_comm_cons in E; apply cons_inv in E as [E1 E2].
  - done.
  - exfalso. by apply (wordy_punct (txt v') "}"); [by apply legal_wordy|set_solver|].
  - exfalso. by apply (wordy_punct (txt v) "}"); [by apply legal_wordy|set_solver|].
  - destruct (IH vs' H' E2) as [-> ->]. apply txt_inj in E1 as ->. done.
Qed.

Definition legal_field (f : string * unresolved) : Prop := legal_name (txt f.1) /\ Forall name_char (txt (u_name f.2)).
(** The first token of what follows a type. *)
Definition after (l : list text) : Prop := match l with [] => False | w :: _ => wordy w \/ w = txt "}" end.
Lemma fields_after fs x : Forall legal_field fs -> after (fields_tokens fs ++ txt "}" :: x).
Proof. destruct 1 as [|[n u] fs [Hn _] H]; [by right|]. left. by apply legal_wordy. Qed.
Lemma after_not l k x : after l -> k ∈ ["?"; ":"; "["; "]"; "{"] -> l ≠ txt k :: x.
Proof.
  intros Hl Hk ->. destruct Hl as [Hl|E].
  - by apply (wordy_punct _ k Hl); [set_solver|].
  - apply txt_inj in E as ->. revert Hk. apply (bool_decide_unpack _). vm_compute. exact I.
Qed.
Lemma fields_inj fs fs' x x' : Forall legal_field fs -> Forall legal_field fs' -> Forall (fun f => u_name f.2 ≠ "") fs ->
  fields_tokens fs ++ txt "}" :: x = fields_tokens fs' ++ txt "}" :: x' -> fs = fs' /\ x = x'.
Proof.
  intros H. revert fs'. induction H as [|[n [t a o]] fs [Hn Ht] H IH]; intros fs' H' HN E; destruct H' as [|[n' [t' a' o']] fs' [Hn' Ht'] H'].
  - by apply cons_inv in E as [_ ->].
  - exfalso. apply cons_inv in E as [E _]. by apply (wordy_punct (txt n') "}"); [by apply legal_wordy|set_solver|].
  - exfalso. apply cons_inv in E as [E _]. by apply (wordy_punct (txt n) "}"); [by apply legal_wordy|set_solver|].
  - apply Forall_cons in HN as [Ht0 HN]. cbn [fst snd u_name u_array u_opt] in *.
    unfold fields_tokens in E. rewrite !map_cons in E. cbn [concat] in E. fold (fields_tokens fs) (fields_tokens fs') in E.
    unfold field_tokens in E. cbn [fst snd u_name u_array u_opt] in E. rewrite <-!app_assoc in E.
    apply cons_inv in E as [E1 E]. apply txt_inj in E1 as ->.
    pose proof (fields_after fs x H) as A. pose proof (fields_after fs' x' H') as A'.
    set (r := fields_tokens fs ++ txt "}" :: x) in *. set (r' := fields_tokens fs' ++ txt "}" :: x') in *.
    assert (o = o' /\ type_tokens t ++ (if a then [txt "["; txt "]"] else []) ++ r =
      type_tokens t' ++ (if a' then [txt "["; txt "]"] else []) ++ r') as [-> E2].
    { destruct o, o'; apply cons_inv in E as [E1 E]; first [by apply cons_inv in E as [_ E]|done|by apply txt_inj in E1]. }
    assert (wordy (txt t)) as Wt.
    { split; [done|]. intros E0. destruct Ht0. apply txt_inj. by rewrite E0. }
    assert (type_tokens t = [txt t]) as Et by (unfold type_tokens, flush; rewrite decide_False; [done|apply Wt]).
    rewrite Et in E2.
    assert (forall l b, txt t :: (if b : bool then [txt "["; txt "]"] else []) ++ l = (if a' then [txt "["; txt "]"] else []) ++ r' ->
      after l -> False) as Kempty.
    { intros l b E0 Al. destruct a'.
      - apply cons_inv in E0 as [E0 _]. by apply (wordy_punct _ "[" Wt); [set_solver|].
      - rewrite app_nil_l in E0. unfold r' in E0. destruct H' as [|[n2 [t2 a2 o2]] fs2 [Hn2 _] H'].
        + apply cons_inv in E0 as [E0 _]. by apply (wordy_punct _ "}" Wt); [set_solver|].
        + apply cons_inv in E0 as [_ E0].
          assert (exists y k, k ∈ ["?"; ":"] /\ (if b then [txt "["; txt "]"] else []) ++ l = txt k :: y) as (y & k & Hk & E1).
          { rewrite E0. unfold field_tokens. cbn [fst snd u_opt]. destruct o2; eexists _, _; (split; [|reflexivity]); set_solver. }
          destruct b.
          * apply cons_inv in E1 as [E1 _]. apply txt_inj in E1. subst k. revert Hk. apply (bool_decide_unpack _). vm_compute. exact I.
          * rewrite app_nil_l in E1. by apply (after_not l k y); [|set_solver|]. }
    assert (type_tokens t' = [txt t']) as Et'.
    { unfold type_tokens, flush. case_decide as Hd; [|done]. exfalso. unfold type_tokens, flush in E2.
      rewrite decide_True in E2 by done. exact (Kempty r a E2 A). }
    rewrite Et' in E2. apply cons_inv in E2 as [E1 E2]. apply txt_inj in E1 as ->.
    assert (a = a' /\ r = r') as [-> E3].
    { destruct a, a'; cbn [app] in E2.
      - by apply cons_inv in E2 as [_ [_ E2]%cons_inv].
      - exfalso. by eapply (after_not r' "["); [done|set_solver|].
      - exfalso. by eapply (after_not r "["); [done|set_solver|].
      - done. }
    destruct (IH fs' H' HN E3) as [-> ->]. done.
Qed.

Definition named (n : node) : Prop :=
  match n with
  | NExport e => e ≠ "" /\ ~ txt "export" `prefix_of` txt e
  | NDecl _ (AStruct fs) => Forall (fun f => u_name f.2 ≠ "") fs
  | _ => True
  end.
Lemma body_inj t t' x x' : legal_type t -> legal_type t' -> named (NDecl "" t) ->
  body_tokens t ++ x = body_tokens t' ++ x' -> t = t' /\ x = x'.
Proof.
  intros H H' HN E. destruct t as [vs|fs], t' as [vs'|fs']; cbn [body_tokens] in E; rewrite <-!app_assoc in E;
    apply cons_inv in E as [E1 [_ E]%cons_inv]; try (by apply txt_inj in E1).
  - destruct (variants_inj vs vs' x x') as [-> ->]; done.
  - destruct (fields_inj fs fs' x x') as [-> ->]; done.
Qed.
Lemma schema_head a : legal_ast a -> schema_tokens a = [] \/ exists w x, schema_tokens a = w :: x /\ wordy w.
Proof.
  destruct 1 as [|n a Hn H]; [by left|]. right. destruct n as [n t|e]; eexists _, _; (split; [reflexivity|]).
  - apply legal_wordy, Hn.
  - split; [|done]. apply (bool_decide_unpack _). vm_compute. exact I.
Qed.
Lemma tk_export_word e : Forall name_char (txt e) ->
  e = "" /\ tk 0 (txt e) = [] \/ (exists x, tk 0 (txt e) = txt "export" :: x) \/ e ≠ "" /\ tk 0 (txt e) = [txt e].
Proof.
  intros HF. destruct (decide (e = "")) as [->|Hne]; [by left|]. right.
  assert (txt e ≠ []) as Hne' by (intros E; destruct Hne; apply txt_inj; by rewrite E).
  destruct (decide (txt "export" `prefix_of` txt e)) as [[x ->]|Hx].
  - left. eexists. reflexivity.
  - right. split; [done|]. by apply tk_whole.
Qed.
Lemma schema_inj a a' : legal_ast a -> legal_ast a' -> Forall named a -> schema_tokens a = schema_tokens a' -> a = a'.
Proof.
  intros H. revert a'. induction H as [|n a Hn H IH]; intros a' H' HN E; destruct H' as [|n' a' Hn' H']; [done|..].
  - exfalso. destruct n' as [n' t'|e']; discriminate E.
  - exfalso. destruct n as [n t|e]; discriminate E.
  - apply Forall_cons in HN as [HN1 HN]. unfold schema_tokens in E. rewrite !map_cons in E. cbn [concat] in E.
    fold (schema_tokens a) (schema_tokens a') in E.
    destruct n as [n t|e], n' as [n' t'|e']; cbn [node_tokens] in E; rewrite <-!app_comm_cons in E;
      apply cons_inv in E as [E1 E].
    + apply txt_inj in E1 as ->. apply cons_inv in E as [_ E]. destruct Hn as (_ & _ & Ht), Hn' as (_ & _ & Ht').
      destruct (body_inj t t' _ _ Ht Ht' HN1 E) as [-> E2]. by rewrite (IH a').
    + exfalso. destruct Hn as (_ & Hx & _). apply Hx. by rewrite E1.
    + exfalso. destruct Hn' as (_ & Hx & _). apply Hx. by rewrite <-E1.
    + destruct HN1 as [Hne Hx]. simpl in Hn, Hn'.
      destruct (tk_export_word e Hn) as [[? _]|[[x Ex]|[_ Ee]]]; [done| |].
      { exfalso. rewrite (tk_whole 0 [] (txt e)) in Ex; [|done| |done].
        - apply cons_inv in Ex as [Ex _]. apply Hx. simpl in Ex. by rewrite Ex.
        - intros E0. apply Hne, txt_inj. exact E0. }
      rewrite Ee in E. cbn [app] in E.
      destruct (tk_export_word e' Hn') as [[-> Ee']|[[x Ee']|[_ Ee']]]; rewrite Ee' in E; cbn [app] in E.
      * exfalso. destruct H' as [|[n2 t2|e2] a2 Hn2 H2]; [discriminate E|..].
        -- apply cons_inv in E as [_ E]. destruct (schema_head a H) as [E0|(w & y & E0 & W)]; rewrite E0 in E; [discriminate E|].
           apply cons_inv in E as [E _]. by apply (wordy_punct w ":" W); [set_solver|].
        -- apply cons_inv in E as [E _]. apply Hx. by rewrite E.
      * exfalso. apply cons_inv in E as [E _]. apply Hx. by rewrite E.
      * apply cons_inv in E as [E1' E]. apply txt_inj in E1' as ->. by rewrite (IH a').
Qed.
Lemma exports_in a e : NExport e ∈ a -> e ∈ exports a.
Proof.
  induction a as [|n a IH]; [by intros ?%elem_of_nil|]. intros [<-|H]%elem_of_cons; [by left|].
  destruct n; simpl; [auto|right; auto].
Qed.
Lemma decl_names_in a n : n ∈ decl_names a -> exists t, NDecl n t ∈ a.
Proof.
  induction a as [|m a IH]; [by intros ?%elem_of_nil|]. destruct m as [m t|e]; simpl.
  - intros [->|H]%elem_of_cons; [exists t; by left|]. destruct (IH H) as [t' ?]. exists t'. by right.
  - intros H. destruct (IH H) as [t' ?]. exists t'. by right.
Qed.
Lemma valid_named a : legal_ast a -> valid_schema a -> Forall named a.
Proof.
  intros Hl Hv. assert (forall n t, NDecl n t ∈ a -> n ≠ "" /\ ~ txt "export" `prefix_of` txt n) as Hd.
  { intros n t Hin. apply (proj1 (Forall_forall _ _) Hl) in Hin as (Hn & Hx & _).
    split; [|done]. intros ->. by apply legal_name_ne in Hn. }
  apply Forall_forall. intros [n [vs|fs]|e] Hin; simpl; [done|..].
  - apply Forall_forall. intros [f u] Hf. destruct (vs_types _ Hv n fs f u Hin Hf) as [Hb|Hb].
    + simpl. intros E. rewrite E in Hb. revert Hb. apply (bool_decide_unpack _). vm_compute. exact I.
    + apply decl_names_in in Hb as [t Hb]. by apply (Hd _ t).
  - destruct (vs_export _ Hv) as (e' & fs & He & Hs). apply exports_in in Hin. rewrite He in Hin.
    apply elem_of_list_singleton in Hin as ->. by apply (Hd _ _ Hs).
Qed.
Lemma legal_builtin a : legal_ast a -> no_builtin_decl a.
Proof.
  intros Hl n [t Hin]%decl_names_in Hb. apply (proj1 (Forall_forall _ _) Hl) in Hin as ((_ & _ & Hr) & _).
  apply (Hr n); [|done]. revert Hb. unfold builtin_names, reserved_list. set_solver.
Qed.
Lemma tokens_determine iter a a' s s' : fair_order iter -> is_ok (type_check iter a) ->
  tokens_of s = tokens_of s' -> parse_schema s = POk a -> parse_schema s' = POk a' -> a' = a.
Proof.
  intros Hf Ha E Hs Hs'. pose proof (parse_legal _ _ Hs) as Hl. pose proof (parse_legal _ _ Hs') as Hl'. symmetry.
  apply schema_inj; [done..| |].
  - apply valid_named; [done|]. by apply (type_check_valid iter); [|apply legal_builtin|].
  - apply parse_schema_ok, layout_tokens in Hs, Hs'. by rewrite <-Hs, <-Hs'.
Qed.

(** ** Additions at the end of a line *)
Lemma tk_in_comment d b q : one_line b -> tokens d true [] (b ++ lf :: q) = tk d q.
Proof.
  induction 1 as [|c b Hc HF IH]; [done|]. simpl. by rewrite (bool_decide_true (c ≠ lf)).
Qed.
Lemma blank_flush d w n q : Forall blank_char n -> n ≠ [] -> tokens d false w (n ++ q) = flush w ++ tk d q.
Proof.
  intros HF Hne. destruct HF as [|c n Hc HF]; [done|]. assert (space_char c) as Hs by by left.
  rewrite <-app_comm_cons. cbn [tokens]. rewrite (bool_decide_false (name_char c)) by by apply space_not_name.
  rewrite (bool_decide_true (space_char c \/ _)) by by left. f_equal. apply tk_spaces. eapply Forall_impl; [exact HF|by left].
Qed.
Lemma line_rest_one x : line_rest x -> one_line x.
Proof.
  assert (forall n, Forall blank_char n -> one_line n) as B.
  { intros n HF. eapply Forall_impl; [exact HF|]. intros c Hc ->. apply (nl_not_blank lf); [by left|done]. }
  destruct 1 as [n HF|n b HF Hb]; [by apply B|]. apply Forall_app. split; [by apply B|]. apply Forall_app. split; [|done].
  apply (bool_decide_unpack _). vm_compute. exact I.
Qed.
Lemma tokens_line_rest x q d com w p : line_rest x -> (com = true -> w = []) ->
  tokens d com w (p ++ x ++ lf :: q) = tokens d com w (p ++ lf :: q).
Proof.
  intros Hx. revert d com w. induction p as [|c p IH]; intros d com w Hw.
  - rewrite !app_nil_l. destruct com.
    + rewrite Hw by done. rewrite tk_in_comment by by apply line_rest_one. done.
    + assert (tokens d false w (lf :: q) = flush w ++ tk d q) as -> by reflexivity.
      assert (forall n, Forall blank_char n -> tokens d false w (n ++ lf :: q) = flush w ++ tk d q) as B.
      { intros n HF. destruct (decide (n = [])) as [->|Hne]; [done|]. rewrite blank_flush by done. done. }
      destruct Hx as [n HF|n b HF Hb]; [by apply B|]. rewrite <-!app_assoc.
      assert (forall w, tokens d false w (txt "#" ++ b ++ lf :: q) = flush w ++ tk d q) as C.
      { intros w'. transitivity (flush w' ++ tokens d true [] (b ++ lf :: q)); [done|]. by rewrite tk_in_comment. }
      destruct (decide (n = [])) as [->|Hne]; [apply C|]. rewrite blank_flush by done. by rewrite C.
  - rewrite <-!app_comm_cons. cbn [tokens]. destruct com; [by apply IH|].
    case_bool_decide; [case_bool_decide; [f_equal|]; by apply IH|]. f_equal.
    case_bool_decide; [by apply IH|]. case_bool_decide; [by apply IH|]. f_equal. by apply IH.
Qed.
Lemma parse_line_rest iter a a' p x q : fair_order iter -> is_ok (type_check iter a) -> line_rest x ->
  parse_schema (p ++ [lf] ++ q) = POk a -> parse_schema (p ++ x ++ [lf] ++ q) = POk a' -> a' = a.
Proof.
  intros Hf Ha Hx. apply (tokens_determine iter); [done..|]. symmetry. by apply tokens_line_rest.
Qed.

(** ** C77: characters that are not used by schemas *)
Lemma tokens_foreign c q : ~ schema_char c -> c ≠ "#"%char -> forall p d com w, (com = true -> w = []) ->
  [c] ∈ tokens d com w (p ++ c :: q) \/ in_comment p \/ (com = true /\ one_line p).
Proof.
  intros Hc Hh. induction p as [|x p IH]; intros d com w Hw; cbn [app tokens].
  - destruct com; [right; right; split; [done|constructor]|]. left.
    assert (~ name_char c) as H1 by (intros ?; apply Hc; by left).
    assert (~ (space_char c \/ c = ","%char)) as H2.
    { intros [?| ->]; apply Hc; [by right; left|]. right; right. apply (bool_decide_unpack _). by vm_compute. }
    rewrite (bool_decide_false _ H1), (bool_decide_false _ H2), (bool_decide_false _ Hh). apply elem_of_app. right. left.
  - assert (in_comment p -> in_comment (x :: p)) as Hin. { intros (p1 & p2 & -> & H). by exists (x :: p1), p2. }
    destruct com.
    { destruct (IH d (bool_decide (x ≠ lf)) [] ltac:(done)) as [H|[H|[H1 H2]]]; [by left|right; left; by apply Hin|].
      right; right. split; [done|]. constructor; [by apply bool_decide_eq_true in H1|done]. }
    assert (forall d' w', [c] ∈ tokens d' false w' (p ++ c :: q) \/ in_comment (x :: p)) as IH'.
    { intros d' w'. destruct (IH d' false w' ltac:(done)) as [H|[H|[H1 _]]]; [by left|right; by apply Hin|done]. }
    case_bool_decide.
    { case_bool_decide.
      - destruct (IH' d []) as [H'|H']; [left; by right|by right; left].
      - destruct (IH' d (w ++ [x])) as [H'|H']; [by left|by right; left]. }
    case_bool_decide.
    { destruct (IH' d []) as [H'|H']; [left; apply elem_of_app; by right|by right; left]. }
    case_bool_decide.
    { destruct (IH d true [] ltac:(done)) as [H'|[H'|[_ H']]]; [left; apply elem_of_app; by right|right; left; by apply Hin|].
      right; left. exists [], p. split; [by subst x|done]. }
    destruct (IH' (depth d x) []) as [H'|H']; [left; apply elem_of_app; right; by right|by right; left].
Qed.
Definition plain_token (w : text) : Prop := Forall schema_char w.
Lemma name_plain w : Forall name_char w -> plain_token w.
Proof. intros H. eapply Forall_impl; [exact H|]. intros c Hc. by left. Qed.
Lemma punct_plain l : bool_decide (Forall (fun c => c ∈ txt "?:[]{},") (txt l)) = true -> plain_token (txt l).
Proof. intros H%bool_decide_eq_true. eapply Forall_impl; [exact H|]. intros c Hc. by right; right. Qed.
Lemma words_plain d s : Forall name_char s -> forall w, Forall name_char w -> Forall plain_token (tokens d false w s).
Proof.
  induction 1 as [|c s Hc Hs IH]; intros w Hw; cbn [tokens].
  - unfold flush. case_decide; [constructor|]. constructor; [by apply name_plain|constructor].
  - rewrite (bool_decide_true _ Hc). case_bool_decide.
    + constructor; [|by apply IH]. apply name_plain. apply (bool_decide_unpack _). vm_compute. exact I.
    + apply IH. apply Forall_app. split; [done|by constructor].
Qed.
Lemma schema_tokens_plain a : legal_ast a -> Forall plain_token (schema_tokens a).
Proof.
  intros Ha. unfold schema_tokens. induction Ha as [|n a Hn _ IH]; [constructor|]. cbn [map concat]. apply Forall_app. split; [|exact IH]. clear IH.
  assert (forall l, l ∈ ["export"; "enum"; "struct"] -> plain_token (txt l)) as Hk.
  { intros l Hl. apply name_plain. repeat (apply elem_of_cons in Hl as [->|Hl]; [apply (bool_decide_unpack _); vm_compute; exact I|]). by apply elem_of_nil in Hl. }
  assert (forall w, legal_name w -> plain_token w) as Hnm by (intros w [Hw _]; by apply name_plain).
  destruct n as [d t|e]; cbn [node_tokens].
  - destruct Hn as (Hd & _ & Ht). constructor; [by apply Hnm|]. constructor; [by apply punct_plain|]. destruct t as [vs|fs]; cbn [body_tokens app].
    + constructor; [apply Hk; right; left|]. constructor; [by apply punct_plain|]. apply Forall_app. split.
      * apply Forall_fmap. eapply Forall_impl; [exact Ht|]. intros v. apply Hnm.
      * constructor; [by apply punct_plain|constructor].
    + constructor; [apply Hk; right; right; left|]. constructor; [by apply punct_plain|]. apply Forall_app. split; [|constructor; [by apply punct_plain|constructor]].
      unfold fields_tokens. cbn [legal_type] in Ht. induction Ht as [|f fs [H1 H2] _ IH]; [constructor|]. cbn [map concat]. apply Forall_app. split; [|exact IH].
      unfold field_tokens. repeat (apply Forall_app; split).
      * constructor; [by apply Hnm|constructor].
      * destruct (u_opt f.2); [|constructor]. constructor; [by apply punct_plain|constructor].
      * constructor; [by apply punct_plain|constructor].
      * unfold type_tokens, flush. case_decide; [constructor|]. constructor; [by apply name_plain|constructor].
      * destruct (u_array f.2); [|constructor]. constructor; [by apply punct_plain|]. constructor; [by apply punct_plain|constructor].
  - constructor; [apply Hk; left|]. by apply words_plain.
Qed.
Lemma foreign_chars s a : parse_schema s = POk a -> forall p c q, s = p ++ c :: q -> ~ schema_char c -> c ≠ "#"%char -> in_comment p.
Proof.
  intros Hp p c q -> Hc Hh. pose proof (parse_legal _ _ Hp) as Hl. apply parse_schema_ok in Hp. apply layout_tokens in Hp.
  destruct (tokens_foreign c q Hc Hh p 0 false [] ltac:(done)) as [H|[H|[? _]]]; [|done|done]. exfalso.
  fold (tokens_of (p ++ c :: q)) in H. rewrite Hp in H. pose proof (schema_tokens_plain a Hl) as HF. rewrite Forall_forall in HF.
  specialize (HF _ H). apply Forall_cons in HF as [HF _]. done.
Qed.
