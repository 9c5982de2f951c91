(** Proof of C19: brackets and indentation of generated text. *)
From Coq Require Import DecimalString.
From Verif Require Export GenProofs2 TsAst TsPlan GenSpec.

Definition wchar (c : ascii) : Prop := c ≠ "010"%char /\ c ≠ " "%char /\ ~ is_opener c /\ closer c = None.
Global Instance wchar_dec c : Decision (wchar c).
Proof. unfold wchar. apply _. Defined.
Fixpoint wchars (s : string) : Prop := match s with EmptyString => True | String c s' => wchar c /\ wchars s' end.
(** a non-empty word of harmless characters *)
Definition tok (s : string) : Prop := s ≠ "" /\ wchars s.

Lemma wchars_app a b : wchars (a +:+ b) <-> wchars a /\ wchars b.
Proof. induction a as [|c a IH]; [naive_solver|]. rewrite sapp_cons. cbn [wchars]. rewrite IH. naive_solver. Qed.
Lemma tok_app a b : tok a -> wchars b -> tok (a +:+ b).
Proof. intros [H1 H2] Hb. split; [by destruct a|]. by apply wchars_app. Qed.
Lemma wchars_plain s : wchars s -> plain_text s.
Proof. induction s as [|c s IH]; [done|]. cbn. unfold wchar. naive_solver. Qed.

Lemma name_char_wchar c : name_char c -> wchar c.
Proof. revert c. apply (ascii_all (fun c => name_char c -> wchar c)). apply (bool_decide_unpack _). vm_compute. exact I. Qed.
Lemma name_chars_wchars s : Forall name_char (txt s) -> wchars s.
Proof.
  induction s as [|c s IH]; [done|]. unfold txt. cbn [list_ascii_of_string wchars]. rewrite Forall_cons.
  intros [H1 H2]. split; [by apply name_char_wchar|by apply IH].
Qed.
Lemma legal_tok s : legal_name (txt s) -> tok s.
Proof. intros (H & (c & w & E & _) & _). split; [by destruct s|]. by apply name_chars_wchars. Qed.

(** ** the scan *)
Lemma scan_app a b s : scan (a +:+ b) s = match scan a s with Some s' => scan b s' | None => None end.
Proof.
  revert s. induction a as [|c a IH]; intros s; [done|]. rewrite sapp_cons. cbn [scan]. by destruct (scan1 c s).
Qed.
Definition neutral (s : string) : Prop := forall o l i, scan s (Scan o l i false) = Some (Scan o l i false).

Lemma scan1_plain c o l i : c ≠ "010"%char -> ~ is_opener c -> closer c = None ->
  scan1 c (Scan o l i false) = Some (Scan o l i false).
Proof.
  intros H1 H2 H3. unfold scan1. rewrite (decide_False _ _ H1) by done. cbn [andb].
  rewrite (decide_False _ _ H2). by rewrite H3.
Qed.
Lemma plain_neutral s : plain_text s -> neutral s.
Proof.
  induction s as [|c s IH]; intros Hs o l i; [done|]. cbn [scan plain_text] in *.
  destruct Hs as (H1 & H2 & H3 & H4). rewrite scan1_plain by done. by apply IH.
Qed.
Global Instance plain_dec s : Decision (plain_text s).
Proof. induction s as [|c s IH]; [left; exact I|]. cbn [plain_text]. unfold closer. apply _. Defined.
Lemma neutral_app a b : neutral a -> neutral b -> neutral (a +:+ b).
Proof. intros Ha Hb o l i. by rewrite scan_app, Ha. Qed.
Lemma scan_open c o l i : is_opener c -> scan1 c (Scan o l i false) = Some (Scan (Opened c i l :: o) l i false).
Proof.
  intros H. unfold scan1. assert (c ≠ "010"%char) as H1 by (destruct H as [->|[->| ->]]; done).
  rewrite (decide_False _ _ H1). cbn [andb]. by rewrite (decide_True _ _ H).
Qed.
Lemma scan_close c c' o l i i0 l0 : closer c = Some c' -> l0 = l \/ i0 = i ->
  scan1 c (Scan (Opened c' i0 l0 :: o) l i false) = Some (Scan o l i false).
Proof.
  intros H Hli. unfold scan1.
  assert (c ≠ "010"%char) as H1 by (intros ->; vm_compute in H; done).
  assert (~ is_opener c) as H2 by (intros [->|[->| ->]]; vm_compute in H; done).
  rewrite (decide_False _ _ H1). cbn [andb]. rewrite (decide_False _ _ H2), H. cbn [o_char o_line o_indent].
  by rewrite decide_True.
Qed.
Lemma neutral_round s : neutral s -> neutral ("(" +:+ s +:+ ")").
Proof.
  intros Hs o l i. rewrite sapp_cons. cbn [scan]. rewrite scan_open by (by left). rewrite sapp_nil_l, scan_app, Hs. cbn [scan].
  rewrite scan_close; [done..|by left].
Qed.
Lemma neutral_square s : neutral s -> neutral ("[" +:+ s +:+ "]").
Proof.
  intros Hs o l i. rewrite sapp_cons. cbn [scan]. rewrite scan_open by (by right; left). rewrite sapp_nil_l, scan_app, Hs. cbn [scan].
  rewrite scan_close; [done..|by left].
Qed.
Lemma neutral_curly s : neutral s -> neutral ("{" +:+ s +:+ "}").
Proof.
  intros Hs o l i. rewrite sapp_cons. cbn [scan]. rewrite scan_open by (by right; right). rewrite sapp_nil_l, scan_app, Hs. cbn [scan].
  rewrite scan_close; [done..|by left].
Qed.
Lemma neutral_tok s : tok s -> neutral s.
Proof. intros [_ H]. by apply plain_neutral, wchars_plain. Qed.
Ltac lit := apply plain_neutral; apply (bool_decide_unpack _); vm_compute; exact I.

(** ** numbers *)
Lemma uint_plain u : wchars (NilEmpty.string_of_uint u).
Proof.
  assert (forall c s, wchar c -> wchars s -> wchars (String c s)) as H by done.
  induction u; cbn [NilEmpty.string_of_uint]; try (apply H; [apply (bool_decide_unpack _); vm_compute; exact I|done]). done.
Qed.
Lemma uint_zero_plain u : wchars (NilZero.string_of_uint u).
Proof. destruct u; try apply (uint_plain (_ _)). cbn. split; [apply (bool_decide_unpack _); vm_compute; exact I|done]. Qed.
Lemma Z_plain z : wchars (string_of_Z z).
Proof.
  unfold string_of_Z, NilZero.string_of_int. destruct (Z.to_int z); [apply uint_zero_plain|].
  cbn [wchars]. split; [apply (bool_decide_unpack _); vm_compute; exact I|]. apply uint_zero_plain.
Qed.
Lemma nat_plain n : wchars (string_of_nat n).
Proof. apply uint_zero_plain. Qed.

(** ** trees whose names are words *)
Fixpoint tidy_e (e : expr) : Prop :=
  match e with
  | EVar x => tok x
  | ENum _ | EUndef | EObj => True
  | EProp e f => tidy_e e /\ tok f
  | EElem e i => tidy_e e /\ tidy_e i
  | ERead m => tok m
  | EReadStr e | ENewArr e | EAs e => tidy_e e
  | ELe a b | EGt a b | EAnd a b => tidy_e a /\ tidy_e b
  end.
Fixpoint rooted (e : expr) : Prop :=
  match e with EVar _ => True | EProp e _ | EElem e _ => rooted e | _ => False end.
Definition tidy_s (s : simple) : Prop :=
  match s with
  | Let _ x e => tok x /\ tidy_e e
  | Assign l e => tidy_e l /\ rooted l /\ tidy_e e
  | Write m e => tok m /\ tidy_e e
  | Fail => True
  end.
Fixpoint tidy (s : stmt) : Prop :=
  match s with
  | SSimple s => tidy_s s
  | SIf c b1 b2 => tidy_e c /\ fold_right (fun s P => tidy s /\ P) True b1 /\ fold_right (fun s P => tidy s /\ P) True b2
  | SIfLine c s1 s2 => tidy_e c /\ tidy_s s1 /\ tidy_s s2
  | SFor i n b => tok i /\ tidy_e n /\ fold_right (fun s P => tidy s /\ P) True b
  | SSwitch e s b => tidy_e e /\ tidy_s s /\ fold_right (fun s P => tidy s /\ P) True b
  end.
Definition tidy_b (b : list stmt) : Prop := fold_right (fun s P => tidy s /\ P) True b.

Lemma neutral_expr e : tidy_e e -> neutral (print_expr e).
Proof.
  induction e; cbn [tidy_e print_expr]; intros H.
  - by apply neutral_tok.
  - apply plain_neutral, wchars_plain, Z_plain.
  - lit.
  - apply (neutral_curly ""). lit.
  - destruct H. apply neutral_app; [auto|]. apply neutral_app; [lit|by apply neutral_tok].
  - destruct H. apply neutral_app; [auto|]. apply neutral_square. auto.
  - replace ("reader.read_" +:+ m +:+ "()") with ("reader.read_" +:+ m +:+ ("(" +:+ "" +:+ ")")) by reflexivity.
    apply neutral_app; [lit|]. apply neutral_app; [by apply neutral_tok|]. apply neutral_round. lit.
  - change ("reader.read_string(" +:+ print_expr e +:+ ")") with ("reader.read_string" +:+ ("(" +:+ print_expr e +:+ ")")).
    apply neutral_app; [lit|]. apply neutral_round. auto.
  - change ("new Array(" +:+ print_expr e +:+ ")") with ("new Array" +:+ ("(" +:+ print_expr e +:+ ")")).
    apply neutral_app; [lit|]. apply neutral_round. auto.
  - destruct H. apply neutral_app; [auto|]. apply neutral_app; [lit|auto].
  - destruct H. apply neutral_app; [auto|]. apply neutral_app; [lit|auto].
  - destruct H. apply neutral_app; [auto|]. apply neutral_app; [lit|auto].
  - apply neutral_app; [auto|lit].
Qed.
Lemma neutral_simple s : tidy_s s -> neutral (print_simple s).
Proof.
  destruct s as [any x e|l e|m e|]; cbn [tidy_s print_simple].
  - intros [H1 H2]. apply neutral_app; [lit|]. apply neutral_app; [by apply neutral_tok|].
    apply neutral_app; [destruct any; lit|]. apply neutral_app; [lit|]. apply neutral_app; [by apply neutral_expr|lit].
  - intros (H1 & _ & H2). apply neutral_app; [by apply neutral_expr|]. apply neutral_app; [lit|]. apply neutral_app; [by apply neutral_expr|lit].
  - intros [H1 H2]. replace ("writer.write_" +:+ m +:+ "(" +:+ print_expr e +:+ ");") with
      ("writer.write_" +:+ m +:+ ("(" +:+ print_expr e +:+ ")") +:+ ";") by (rewrite !sapp_assoc; reflexivity).
    apply neutral_app; [lit|]. apply neutral_app; [by apply neutral_tok|]. apply neutral_app; [|lit]. apply neutral_round. by apply neutral_expr.
  - intros _. lit.
Qed.

(** ** lines *)
Definition starts (s : string) : Prop := match s with String c _ => c ≠ " "%char /\ c ≠ "010"%char | EmptyString => False end.
Lemma starts_app a b : starts a -> starts (a +:+ b).
Proof. by destruct a. Qed.
Lemma tok_starts s : tok s -> starts s.
Proof. intros [H1 H2]. destruct s; [done|]. destruct H2 as [(? & ? & _) _]. done. Qed.
Lemma starts_expr e : tidy_e e -> rooted e -> starts (print_expr e).
Proof.
  induction e; cbn [tidy_e rooted print_expr]; try done.
  - intros. by apply tok_starts.
  - intros [? ?] ?. apply starts_app. auto.
  - intros [? ?] ?. apply starts_app. auto.
Qed.
Lemma starts_simple s : tidy_s s -> starts (print_simple s).
Proof.
  destruct s as [any x e|l e|m e|]; cbn [tidy_s print_simple]; intros H; try done.
  apply starts_app. destruct H as (? & ? & _). by apply starts_expr.
Qed.

Definition indents (ind : string) (k : nat) : Prop :=
  forall o l i, scan ind (Scan o l i true) = Some (Scan o l (i + k) true).
Lemma indents_nil : indents "" 0.
Proof. intros o l i. cbn. by rewrite Nat.add_0_r. Qed.
Lemma indents_tab ind k : indents ind k -> indents (ind +:+ tab) (k + 4).
Proof.
  intros H o l i. rewrite scan_app, H. unfold tab. cbn [scan]. unfold scan1.
  repeat (rewrite decide_False by done; cbn [andb]; rewrite bool_decide_true by done). f_equal. f_equal. lia.
Qed.

Lemma scan_starts s o l i : starts s -> scan s (Scan o l i true) = scan s (Scan o l i false).
Proof.
  destruct s as [|c s]; [done|]. intros [H1 H2]. cbn [scan]. unfold scan1.
  rewrite bool_decide_false by done. by rewrite !andb_false_r.
Qed.
Lemma scan_line ind k s o l o' l' i' :
  indents ind k -> starts s -> scan s (Scan o l k false) = Some (Scan o' l' i' false) ->
  scan (line ind s) (Scan o l 0 true) = Some (Scan o' (S l') 0 true).
Proof.
  intros Hi Hst Hs. unfold line. rewrite scan_app, Hi, Nat.add_0_l, scan_app, scan_starts, Hs by done.
  reflexivity.
Qed.
Lemma line_neutral ind k s o l : indents ind k -> starts s -> neutral s ->
  scan (line ind s) (Scan o l 0 true) = Some (Scan o (S l) 0 true).
Proof. intros. eapply scan_line; eauto. Qed.
Lemma line_open ind k s c o l : indents ind k -> starts s -> neutral s -> is_opener c ->
  scan (line ind (s +:+ String c "")) (Scan o l 0 true) = Some (Scan (Opened c k l :: o) (S l) 0 true).
Proof.
  intros Hi Hs Hn Hc. eapply scan_line; [done|by apply starts_app|]. rewrite scan_app, Hn. cbn [scan].
  by rewrite scan_open.
Qed.
Lemma line_close ind k c c' s o l l0 : indents ind k -> closer c = Some c' -> neutral s ->
  scan (line ind (String c s)) (Scan (Opened c' k l0 :: o) l 0 true) = Some (Scan o (S l) 0 true).
Proof.
  intros Hi Hc Hs. eapply scan_line; [done| |].
  - split; intros ->; by vm_compute in Hc.
  - cbn [scan]. rewrite (scan_close c c') by auto. apply Hs.
Qed.

(** a text that starts at a line start, ends at one, and leaves the stack alone *)
Definition closed_lines (t : string) : Prop := forall o l, exists l', scan t (Scan o l 0 true) = Some (Scan o l' 0 true).
Lemma closed_app a b : closed_lines a -> closed_lines b -> closed_lines (a +:+ b).
Proof. intros Ha Hb o l. destruct (Ha o l) as [l1 H1]. destruct (Hb o l1) as [l2 H2]. exists l2. by rewrite scan_app, H1. Qed.
Lemma closed_nil : closed_lines "".
Proof. intros o l. by exists l. Qed.
Lemma closed_line ind k s : indents ind k -> starts s -> neutral s -> closed_lines (line ind s).
Proof. intros. intros o l. eexists. by eapply line_neutral. Qed.
Lemma closed_concat l : Forall closed_lines l -> closed_lines (concat_str l).
Proof. induction 1; [apply closed_nil|]. cbn [concat_str fold_right]. by apply closed_app. Qed.
(** an opened block, its contents, and its end *)
Lemma closed_block ind k s c c' body cl :
  indents ind k -> starts s -> neutral s -> closer c' = Some c -> closed_lines body -> neutral cl ->
  closed_lines (line ind (s +:+ String c "") +:+ body +:+ line ind (String c' cl)).
Proof.
  intros Hi Hs Hn Hc Hb Hcl o l. 
  assert (is_opener c) as Ho.
  { unfold closer in Hc. repeat case_decide; try discriminate; injection Hc as <-; unfold is_opener; auto. }
  rewrite scan_app, (line_open _ k) by done. destruct (Hb (Opened c k l :: o) (S l)) as [l1 H1].
  rewrite scan_app, H1. eexists. by eapply line_close.
Qed.

Lemma stmt_ind' (P : stmt -> Prop) :
  (forall s, P (SSimple s)) ->
  (forall c b1 b2, Forall P b1 -> Forall P b2 -> P (SIf c b1 b2)) ->
  (forall c s1 s2, P (SIfLine c s1 s2)) ->
  (forall i n b, Forall P b -> P (SFor i n b)) ->
  (forall e s b, Forall P b -> P (SSwitch e s b)) -> forall s, P s.
Proof.
  intros H1 H2 H3 H4 H5. fix IH 1. intros [s|c b1 b2|c s1 s2|i n b|e s b].
  - apply H1.
  - apply H2; [induction b1|induction b2]; constructor; auto.
  - apply H3.
  - apply H4. induction b; constructor; auto.
  - apply H5. induction b; constructor; auto.
Qed.

Lemma closed_print_block ind b :
  Forall (fun s => tidy s -> closed_lines (print_stmt ind s)) b -> tidy_b b -> closed_lines (print_block ind b).
Proof.
  unfold print_block. intros HF Ht. apply closed_concat.
  induction HF as [|s b Hs _ IH]; [constructor|]. destruct Ht. constructor; auto.
Qed.

Lemma closed_stmt s : forall ind k, indents ind k -> tidy s -> closed_lines (print_stmt ind s).
Proof.
  induction s as [s|c b1 b2 IH1 IH2|c s1 s2|i n b IH|e s b IH] using stmt_ind'; intros ind k Hi; cbn [print_stmt tidy]; fold_block; intros Ht.
  - eapply closed_line; [done|by apply starts_simple|by apply neutral_simple].
  - destruct Ht as (Hc & H1 & H2).
    assert (Forall (fun s => tidy s -> closed_lines (print_stmt (ind +:+ tab) s)) b1) as F1.
    { eapply Forall_impl; [exact IH1|]. intros s Hs. eapply Hs, indents_tab, Hi. }
    assert (Forall (fun s => tidy s -> closed_lines (print_stmt (ind +:+ tab) s)) b2) as F2.
    { eapply Forall_impl; [exact IH2|]. intros s Hs. eapply Hs, indents_tab, Hi. }
    apply closed_print_block in F1; [|done]. apply closed_print_block in F2; [|done].
    intros o l. replace ("if (" +:+ print_expr c +:+ ") {") with (("if " +:+ ("(" +:+ print_expr c +:+ ")") +:+ " ") +:+ "{")
      by (rewrite !sapp_assoc; reflexivity).
    rewrite scan_app, (line_open _ k); [|done|done| |by right; right].
    2: { apply neutral_app; [lit|]. apply neutral_app; [|lit]. by apply neutral_round, neutral_expr. }
    destruct (F1 (Opened "{" k l :: o) (S l)) as [l1 E1]. rewrite scan_app, E1, scan_app.
    rewrite (scan_line ind k _ _ _ (Opened "{" k l1 :: o) l1 k); [|done|done|].
    2: { cbn [scan]. rewrite (scan_close "}" "{") by auto. cbn [scan].
         do 6 (rewrite scan1_plain by (first [done | by intros [?|[?|?]]])). by rewrite scan_open by (by right; right). }
    destruct (F2 (Opened "{" k l1 :: o) (S l1)) as [l2 E2]. rewrite scan_app, E2.
    eexists. eapply line_close; [done|done|lit].
  - destruct Ht as (Hc & H1 & H2). apply closed_app; eapply closed_line; try done.
    + replace ("if (" +:+ print_expr c +:+ ") " +:+ print_simple s1) with ("if " +:+ ("(" +:+ print_expr c +:+ ")") +:+ " " +:+ print_simple s1)
        by (rewrite !sapp_assoc; reflexivity).
      apply neutral_app; [lit|]. apply neutral_app; [by apply neutral_round, neutral_expr|]. apply neutral_app; [lit|by apply neutral_simple].
    + apply neutral_app; [lit|by apply neutral_simple].
  - destruct Ht as (H1 & Hn & Hb).
    assert (Forall (fun s => tidy s -> closed_lines (print_stmt (ind +:+ tab) s)) b) as F1.
    { eapply Forall_impl; [exact IH|]. intros s Hs. eapply Hs, indents_tab, Hi. }
    apply closed_print_block in F1; [|done].
    replace ("for (let " +:+ i +:+ " = 0; " +:+ i +:+ " < " +:+ print_expr n +:+ "; ++" +:+ i +:+ ") {") with
      (("for " +:+ ("(" +:+ ("let " +:+ i +:+ " = 0; " +:+ i +:+ " < " +:+ print_expr n +:+ "; ++" +:+ i) +:+ ")") +:+ " ") +:+ "{")
      by (rewrite !sapp_assoc; reflexivity).
    apply (closed_block ind k _ "{" "}"); try done.
    apply neutral_app; [lit|]. apply neutral_app; [|lit]. apply neutral_round.
    repeat (apply neutral_app; [first [lit | by apply neutral_tok | by apply neutral_expr]|]). by apply neutral_tok.
  - destruct Ht as (He & Hs & Hb).
    assert (Forall (fun s => tidy s -> closed_lines (print_stmt (ind +:+ tab +:+ tab) s)) b) as F1.
    { eapply Forall_impl; [exact IH|]. intros s' Hs'. rewrite <- sapp_assoc. eapply Hs', indents_tab, indents_tab, Hi. }
    apply closed_print_block in F1; [|done].
    replace ("switch (" +:+ print_expr e +:+ ") {") with (("switch " +:+ ("(" +:+ print_expr e +:+ ")") +:+ " ") +:+ "{")
      by (rewrite !sapp_assoc; reflexivity).
    set (L1 := line (ind +:+ tab) _). set (L2 := line (ind +:+ tab) "default: {"). set (L3 := line (ind +:+ tab) "}").
    replace (L1 +:+ L2 +:+ print_block (ind +:+ tab +:+ tab) b +:+ L3 +:+ line ind "}")
      with ((L1 +:+ (L2 +:+ print_block (ind +:+ tab +:+ tab) b +:+ L3)) +:+ line ind "}") by (by rewrite !sapp_assoc).
    apply (closed_block ind k _ "{" "}"); try done.
    + apply neutral_app; [lit|]. apply neutral_app; [|lit]. by apply neutral_round, neutral_expr.
    + apply closed_app.
      * eapply closed_line; [by apply indents_tab|done|]. apply neutral_app; [lit|]. apply neutral_app; [by apply neutral_simple|lit].
      * apply (closed_block (ind +:+ tab) (k + 4) "default: " "{" "}"); [by apply indents_tab|done|lit|done|done|lit].
Qed.
Lemma closed_b ind k b : indents ind k -> tidy_b b -> closed_lines (print_block ind b).
Proof.
  intros Hi. apply closed_print_block. apply Forall_forall. intros s _ Hs. by eapply closed_stmt.
Qed.

(** ** the generator's trees are tidy *)
Lemma wchars_join st : Forall tok st -> wchars (join "_" st).
Proof.
  induction 1 as [|x [|y st] Hx _ IH]; [done|by destruct Hx|].
  change (join "_" (x :: y :: st)) with (x +:+ "_" +:+ join "_" (y :: st)).
  rewrite !wchars_app. split; [by destruct Hx|]. split; [|done]. split; [apply (bool_decide_unpack _); vm_compute; exact I|done].
Qed.
Lemma tok_bindname st : st ≠ [] -> Forall tok st -> tok (bindname st).
Proof.
  intros Hne HF. split; [|by apply wchars_join]. destruct HF as [|x [|y st] [Hx _] _]; [done|done|].
  unfold bindname. cbn [join]. by destruct x.
Qed.
Lemma tok_lit s : bool_decide (s ≠ "") = true -> forall H : plain_text s, wchars s -> tok s.
Proof. intros H%bool_decide_eq_true _ Hw. by split. Qed.
Global Instance wchars_dec s : Decision (wchars s).
Proof. induction s as [|c s IH]; [left; exact I|]. cbn [wchars]. apply _. Defined.
Global Instance tok_dec s : Decision (tok s).
Proof. unfold tok. apply _. Defined.
Ltac tokl := apply (bool_decide_unpack _); vm_compute; exact I.
Lemma tok_varname st x : Forall tok st -> tok x -> tok (varname st x).
Proof.
  intros HF [_ Hx]. unfold varname. split.
  - destruct (join "_" st); done.
  - rewrite !wchars_app. split; [by apply wchars_join|]. split; [tokl|done].
Qed.
Lemma tidy_path st : st ≠ [] -> Forall tok st -> tidy_e (path st) /\ rooted (path st).
Proof.
  intros Hne HF. destruct HF as [|x st Hx HF]; [done|]. cbn [path]. clear Hne.
  assert (forall e, tidy_e e /\ rooted e -> tidy_e (foldl EProp e st) /\ rooted (foldl EProp e st)) as H.
  { induction HF as [|y st Hy HF IH]; intros e He; [done|]. cbn [foldl]. apply IH. cbn. naive_solver. }
  by apply H.
Qed.
Lemma tidy_b_app a b : tidy_b (a ++ b) <-> tidy_b a /\ tidy_b b.
Proof. unfold tidy_b. induction a as [|s a IH]; [naive_solver|]. cbn [app fold_right]. rewrite IH. naive_solver. Qed.
Lemma tidy_b_concat l : (forall b, b ∈ l -> tidy_b b) -> tidy_b (List.concat l).
Proof.
  induction l as [|b l IH]; intros H; [done|]. cbn [List.concat]. apply tidy_b_app. split; [apply H; by left|].
  apply IH. intros. apply H. by right.
Qed.

Definition emits_tidy (p : emit) : Prop := forall st, st ≠ [] -> Forall tok st -> tidy_b (p st).
Lemma tidy_wrap_w ar op p : emits_tidy p -> emits_tidy (w_wrap ar op p).
Proof.
  intros Hp. unfold w_wrap.
  assert (emits_tidy (if ar then w_arr p else p)) as H.
  { destruct ar; [|done]. intros st Hne HF. destruct (tidy_path st Hne HF). unfold w_arr. cbn [tidy_b fold_right tidy tidy_s tidy_e].
    assert (tok (varname st "item")) by (apply tok_varname; [done|tokl]).
    assert (tok (varname st "index")) by (apply tok_varname; [done|tokl]).
    assert (tidy_b (p [varname st "item"])) as Hb by (apply Hp; [done|by apply Forall_singleton]).
    assert (tok "length") by tokl. assert (tok "uint32") by tokl. unfold tidy_b in Hb. tauto. }
  destruct op; [|done]. intros st Hne HF. destruct (tidy_path st Hne HF). unfold w_opt. cbn [tidy_b fold_right tidy tidy_s tidy_e].
  assert (tok (bindname st)) by by apply tok_bindname.
  assert (tidy_b ((if ar then w_arr p else p) [bindname st])) as Hb by (apply H; [done|by apply Forall_singleton]).
  assert (tok "uint8") by tokl. unfold tidy_b in Hb. tauto.
Qed.
Lemma tidy_wrap_r ar op i p : emits_tidy p -> emits_tidy (r_wrap ar op i p).
Proof.
  intros Hp. unfold r_wrap.
  assert (emits_tidy (if ar then r_arr i p else p)) as H.
  { destruct ar; [|done]. intros st Hne HF. destruct (tidy_path st Hne HF). unfold r_arr. cbn [tidy_b fold_right tidy tidy_s tidy_e].
    assert (tok (varname st "item")) by (apply tok_varname; [done|tokl]).
    assert (tok (varname st "index")) by (apply tok_varname; [done|tokl]).
    assert (tok (varname st "len")) by (apply tok_varname; [done|tokl]).
    assert (tidy_b (p [varname st "item"])) as Hb by (apply Hp; [done|by apply Forall_singleton]).
    assert (tok "uint32") by tokl.
    assert (tidy_e (if i then EObj else EUndef)) by by destruct i.
    split; [tauto|]. split; [cbn; tauto|]. split; [|done]. split; [done|]. split; [done|]. split; [tauto|].
    apply tidy_b_app. split; [done|]. cbn. tauto. }
  destruct op; [|done]. intros st Hne HF. destruct (tidy_path st Hne HF). unfold r_opt. cbn [tidy_b fold_right tidy tidy_s tidy_e].
  pose proof (H st Hne HF) as Hb. unfold tidy_b in Hb.
  assert (tok "uint8") by tokl. tauto.
Qed.

Definition field_tok (f : sfield) : Prop := tok (f_name f) /\ tok (f_tname f).
Lemma tidy_w_ty t : forall tn, tok tn -> all_fields field_tok t -> emits_tidy (w_ty t tn).
Proof.
  induction t as [b|e|fs IH] using rtype_ind'; intros tn Htn Hf st Hne HF; pose proof (tidy_path st Hne HF) as [? ?].
  - cbn [w_ty]. unfold w_builtin. assert (tok "uint32") by tokl. assert (tok "length") by tokl. assert (tok "string") by tokl.
    destruct b; cbn; tauto.
  - cbn [w_ty w_enum tidy_b fold_right tidy tidy_s tidy_e]. assert (tok (repr_name (e_repr e))) by (destruct (e_repr e); tokl). tauto.
  - cbn [w_ty]. apply tidy_b_concat. rewrite all_fields_struct in Hf. rewrite Forall_forall in IH.
    intros b (f & <- & Hin)%elem_of_list_In%in_map_iff. apply elem_of_list_In in Hin.
    destruct (Hf f Hin) as [[H1 H2] H3]. apply tidy_wrap_w.
    + by apply IH.
    + by destruct st.
    + apply Forall_app. split; [done|]. by apply Forall_singleton.
Qed.
Lemma tidy_r_ty t : forall tn init, tok tn -> all_fields field_tok t -> emits_tidy (r_ty t tn init).
Proof.
  induction t as [b|e|fs IH] using rtype_ind'; intros tn init Htn Hf st Hne HF; pose proof (tidy_path st Hne HF) as [? ?].
  - cbn [r_ty]. unfold r_builtin. assert (tok "uint32") by tokl. assert (tok (varname st "len")) by (apply tok_varname; [done|tokl]).
    destruct b; cbn; tauto.
  - cbn [r_ty r_enum tidy_b fold_right tidy tidy_s tidy_e]. assert (tok (repr_name (e_repr e))) by (destruct (e_repr e); tokl).
    assert (tok (varname st "temp")) by (apply tok_varname; [done|tokl]). tauto.
  - rewrite all_fields_struct in Hf. rewrite Forall_forall in IH.
    assert (emits_tidy (r_fields fs)) as HR.
    { intros st' Hne' HF'. apply tidy_b_concat.
      intros b (f & <- & Hin)%elem_of_list_In%in_map_iff. apply elem_of_list_In in Hin.
      destruct (Hf f Hin) as [[H1 H2] H3]. apply tidy_wrap_r.
      + by apply IH.
      + by destruct st'.
      + apply Forall_app. split; [done|]. by apply Forall_singleton. }
    cbn [r_ty]. destruct init; [|by apply HR].
    assert (tok (bindname st)) by by apply tok_bindname.
    change (tidy_b (SSimple (Let true (bindname st) EObj) :: r_fields fs [bindname st] ++ [SSimple (Assign (path st) (EVar (bindname st)))])).
    cbn [tidy_b fold_right]. split; [cbn; tauto|]. apply tidy_b_app. split; [apply HR; [done|by apply Forall_singleton]|].
    cbn. tauto.
Qed.

(** ** names of an accepted schema are words *)
Lemma legal_decl a n t : legal_ast a -> NDecl n t ∈ a -> tok n /\ legal_type t.
Proof.
  intros HL Hin. unfold legal_ast in HL. rewrite Forall_forall in HL. destruct (HL _ Hin) as (H1 & _ & H2).
  split; [by apply legal_tok|done].
Qed.
Lemma decl_name_in a n : n ∈ decl_names a -> exists t, NDecl n t ∈ a.
Proof.
  induction a as [|[m t|m] a IH]; cbn [decl_names]; intros H; [by apply elem_of_nil in H|..].
  - apply elem_of_cons in H as [->|H]; [exists t; by left|]. destruct (IH H) as [t' ?]. exists t'. by right.
  - destruct (IH H) as [t' ?]. exists t'. by right.
Qed.
Lemma builtin_tok n : n ∈ builtin_names -> tok n.
Proof. intros H. assert (Forall tok builtin_names) as HF by tokl. rewrite Forall_forall in HF. by apply HF. Qed.

Section result3.
  Context iter a r (Hfair : fair_order iter) (Hnb : no_builtin_decl a) (Hl : legal_ast a) (Hr : type_check iter a = Ok r).

  Lemma field_is_tok n rs f : r_types r !! n = Some (n, TStruct rs) -> f ∈ rs -> field_tok f.
  Proof.
    intros Hn Hf. destruct (entry_struct _ _ _ Hfair Hnb Hr _ _ _ Hn Hf) as (fs & u & Hd & Hu & E1 & E2 & E3 & E4).
    destruct (legal_decl _ _ _ Hl Hd) as [_ HT]. cbn in HT. rewrite Forall_forall in HT.
    destruct (HT _ Hu) as [H1 H2]. split; [by apply legal_tok|]. rewrite E1.
    destruct (vs_types _ (result_valid _ _ _ Hfair Hnb Hr) _ _ _ _ Hd Hu) as [H|H]; [by apply builtin_tok|].
    apply decl_name_in in H as [t Ht]. by eapply legal_decl.
  Qed.
  Lemma export_tok : tok (x_name (r_export r)).
  Proof.
    destruct (vs_export _ (result_valid _ _ _ Hfair Hnb Hr)) as (e & fs & He & Hd).
    destruct (type_check_result _ _ _ Hfair Hnb Hr) as (He' & _). rewrite He in He'. injection He' as <-.
    by eapply legal_decl.
  Qed.
End result3.

Lemma concat_lines {A} (f : A -> string) l : (forall x, x ∈ l -> closed_lines (f x)) -> closed_lines (concat_str (List.map f l)).
Proof.
  intros H. apply closed_concat. apply Forall_forall. intros s (x & <- & Hx)%elem_of_list_In%in_map_iff.
  apply H. by apply elem_of_list_In.
Qed.

Lemma tt2 : indents (tab +:+ tab) 8.
Proof. apply (indents_tab tab 4). apply (indents_tab "" 0), indents_nil. Qed.
Lemma tt1 : indents tab 4.
Proof. apply (indents_tab "" 0), indents_nil. Qed.

Definition neutral_dims (s : string) : Prop := neutral s.
Lemma neutral_suffix (b : bool) : neutral (if b then "[]" else "").
Proof. destruct b; [|done]. apply (neutral_square ""). lit. Qed.

Lemma closed_decl_enum n vs : tok n -> Forall (fun v => tok v.1) vs -> closed_lines (print_decl (DEnum n vs)).
Proof.
  intros Hn Hv. cbn [print_decl].
  replace ("export const enum " +:+ n +:+ " {") with (("export const enum " +:+ n +:+ " ") +:+ "{") by (rewrite !sapp_assoc; reflexivity).
  apply (closed_block tab 4 _ "{" "}"); [apply tt1|done| |done| |lit].
  - apply neutral_app; [lit|]. apply neutral_app; [by apply neutral_tok|lit].
  - apply concat_lines. intros [v k] Hin. rewrite Forall_forall in Hv. specialize (Hv _ Hin). simpl in Hv.
    eapply closed_line; [apply tt2|by apply starts_app, tok_starts|].
    apply neutral_app; [by apply neutral_tok|]. apply neutral_app; [lit|]. apply neutral_app; [|lit].
    apply plain_neutral, wchars_plain, nat_plain.
Qed.
Lemma closed_decl_interface n ms : tok n -> Forall (fun m => tok m.1.1 /\ neutral m.2) ms -> closed_lines (print_decl (DInterface n ms)).
Proof.
  intros Hn Hv. cbn [print_decl].
  replace ("export interface " +:+ n +:+ " {") with (("export interface " +:+ n +:+ " ") +:+ "{") by (rewrite !sapp_assoc; reflexivity).
  apply (closed_block tab 4 _ "{" "}"); [apply tt1|done| |done| |lit].
  - apply neutral_app; [lit|]. apply neutral_app; [by apply neutral_tok|lit].
  - apply concat_lines. intros [[m o] t] Hin. rewrite Forall_forall in Hv. destruct (Hv _ Hin) as [H1 H2]. simpl in *.
    eapply closed_line; [apply tt2|by apply starts_app, tok_starts|].
    apply neutral_app; [by apply neutral_tok|]. apply neutral_app; [destruct o; lit|]. apply neutral_app; [lit|].
    apply neutral_app; [done|lit].
Qed.

Lemma closed_class k : tok (k_name k) -> Forall (fun p => tok p.1 /\ neutral p.2) (k_params k) ->
  tidy_b (k_read k) -> tidy_b (k_write k) -> closed_lines (print_class k).
Proof.
  intros Hn Hp Hrd Hwr. unfold print_class.
  set (PS := concat_str _). set (RB := print_block _ (k_read k)). set (WB := print_block _ (k_write k)).
  replace ("export class " +:+ k_name k +:+ " {") with (("export class " +:+ k_name k +:+ " ") +:+ "{") by (rewrite !sapp_assoc; reflexivity).
  replace ("static read(data: ArrayBuffer): " +:+ k_name k +:+ " | null {") with
     (("static read" +:+ ("(" +:+ "data: ArrayBuffer" +:+ ")") +:+ ": " +:+ k_name k +:+ " | null ") +:+ "{") by (rewrite !sapp_assoc; reflexivity).
  replace ("let output = Object.create(" +:+ k_name k +:+ ");") with ("let output = Object.create" +:+ ("(" +:+ k_name k +:+ ")") +:+ ";")
     by (rewrite !sapp_assoc; reflexivity).
  set (C1 := line tab "constructor("). set (C2 := line tab ") {}").
  set (R1 := line tab (_ +:+ "{")). set (R2 := line (tab +:+ tab) "let reader = new Reader(data);"). set (R3 := line (tab +:+ tab) (_ +:+ (_ +:+ k_name k +:+ _) +:+ ";")).
  set (R4 := line (tab +:+ tab) "if (reader.failed) return null;"). set (R5 := line (tab +:+ tab) "return output;").
  set (E1 := line tab "}").
  set (W1 := line tab "write(buffer?: ArrayBuffer): ArrayBuffer {"). set (W2 := line (tab +:+ tab) "let writer = buffer ? new Writer(buffer) : new Writer();").
  set (W3 := line (tab +:+ tab) "return writer.finish();").
  match goal with |- closed_lines (?O +:+ ?B) => replace B with
    (((C1 +:+ PS +:+ C2) +:+ (R1 +:+ (R2 +:+ R3 +:+ RB +:+ R4 +:+ R5) +:+ E1) +:+ (W1 +:+ (W2 +:+ WB +:+ W3) +:+ E1)) +:+ line "" "}")
    by (rewrite !sapp_assoc; reflexivity) end.
  apply (closed_block "" 0 _ "{" "}"); [apply indents_nil|done| |done| |lit].
  { apply neutral_app; [lit|]. apply neutral_app; [by apply neutral_tok|lit]. }
  apply closed_app; [|apply closed_app].
  - apply (closed_block tab 4 "constructor" "(" ")"); [apply tt1|done|lit|done| |].
    + apply concat_lines. intros [x t] Hin. rewrite Forall_forall in Hp. destruct (Hp _ Hin) as [H1 H2]. simpl in *.
      eapply closed_line; [apply tt2|done|]. apply neutral_app; [lit|]. apply neutral_app; [by apply neutral_tok|].
      apply neutral_app; [lit|]. apply neutral_app; [done|lit].
    + apply (neutral_app " "); [lit|]. apply (neutral_curly ""). lit.
  - apply (closed_block tab 4 _ "{" "}"); [apply tt1|done| |done| |lit].
    + apply neutral_app; [lit|]. apply neutral_app; [apply neutral_round; lit|]. apply neutral_app; [lit|].
      apply neutral_app; [by apply neutral_tok|lit].
    + apply closed_app; [eapply closed_line; [apply tt2|done|]|].
      { apply (neutral_app "let reader = new Reader"); [lit|]. apply (neutral_app ("(" +:+ "data" +:+ ")") ";"); [|lit]. apply neutral_round. lit. }
      apply closed_app; [eapply closed_line; [apply tt2|done|]|].
      { apply neutral_app; [lit|]. apply neutral_app; [|lit]. by apply neutral_round, neutral_tok. }
      apply closed_app; [eapply closed_b; [apply tt2|done]|].
      apply closed_app; (eapply closed_line; [apply tt2|done|]); [|lit].
      apply (neutral_app "if "); [lit|]. apply (neutral_app ("(" +:+ "reader.failed" +:+ ")") " return null;"); [|lit]. apply neutral_round. lit.
  - apply (closed_block tab 4 "write(buffer?: ArrayBuffer): ArrayBuffer " "{" "}"); [apply tt1|done| |done| |lit].
    + apply (neutral_app "write"); [lit|]. apply (neutral_app ("(" +:+ "buffer?: ArrayBuffer" +:+ ")") ": ArrayBuffer "); [|lit]. apply neutral_round. lit.
    + apply closed_app; [eapply closed_line; [apply tt2|done|]|].
      { apply (neutral_app "let writer = buffer ? new Writer"); [lit|]. apply (neutral_app ("(" +:+ "buffer" +:+ ")") " : new Writer();"); [apply neutral_round; lit|].
        apply (neutral_app " : new Writer"); [lit|]. apply (neutral_app ("(" +:+ "" +:+ ")") ";"); [apply neutral_round; lit|lit]. }
      apply closed_app; [eapply closed_b; [apply tt2|done]|].
      eapply closed_line; [apply tt2|done|].
      apply (neutral_app "return writer.finish"); [lit|]. apply (neutral_app ("(" +:+ "" +:+ ")") ";"); [apply neutral_round; lit|lit].
Qed.

Lemma generated_well_bracketed iter a r version now titer t :
  fair_order iter -> no_builtin_decl a -> legal_ast a -> fair_types titer -> plain_text version -> plain_text now ->
  type_check iter a = Ok r -> generate version now titer r = Ok t -> well_bracketed t.
Proof.
  intros Hf Hnb Hl Ht Hv Hw Hr Hg. rewrite (generate_ok _ _ _ _ _ _ Hf Hnb Hr) in Hg. injection Hg as <-.
  pose proof (export_tok _ _ _ Hf Hnb Hl Hr) as He.
  assert (all_fields field_tok (TStruct (x_fields (r_export r)))) as Hx.
  { eapply entry_checked; [done..|by eapply field_is_tok|by eapply export_entry]. }
  assert (forall n t, r_types r !! n = Some (n, t) -> leaf_ok t n -> n ≠ "" -> True) as _ by done.
  assert (closed_lines (print_module (module_of version now titer r))) as Hc.
  { unfold print_module. cbn [module_of m_version m_now m_decls m_class k_name class_of].
    apply closed_app.
    { eapply closed_line; [apply indents_nil|done|]. apply neutral_app; [lit|]. apply neutral_app; [by apply plain_neutral|].
      apply neutral_app; [lit|by apply plain_neutral]. }
    apply closed_app.
    { eapply closed_line; [apply indents_nil|done|].
      change ("import { Reader, Writer } from " +:+ String """" "" +:+ "packet" +:+ String """" "" +:+ ";") with
        ("import " +:+ ("{" +:+ " Reader, Writer " +:+ "}") +:+ " from ""packet"";").
      apply neutral_app; [lit|]. apply neutral_app; [apply neutral_curly; lit|lit]. }
    rewrite <- (sapp_assoc (concat_str _)), <- sapp_assoc. apply closed_app.
    { replace ("export namespace " +:+ x_name (r_export r) +:+ " {") with (("export namespace " +:+ x_name (r_export r) +:+ " ") +:+ "{")
        by (rewrite !sapp_assoc; reflexivity).
      apply (closed_block "" 0 _ "{" "}"); [apply indents_nil|done| |done| |lit].
      { apply neutral_app; [lit|]. apply neutral_app; [by apply neutral_tok|lit]. }
      apply concat_lines. intros d Hd. pose proof (decls_inv _ _ _ Hf Hnb Hr _ Ht _ Hd) as (_ & _ & _ & HD).
      destruct HD as [(vs & Hdd & ->)|(fs & ds & Hdd & Hp & ->)].
      - destruct (legal_decl _ _ _ Hl Hdd) as [Hn HT]. apply closed_decl_enum; [done|].
        apply Forall_forall. intros [v i] Hin. simpl. cbn in HT. rewrite Forall_forall in HT.
        apply elem_of_list_lookup in Hin as [j Hj]. rewrite list_lookup_imap in Hj.
        destruct (vs !! j) eqn:E; [|done]. injection Hj as <- <-. apply legal_tok, HT. by eapply elem_of_list_lookup_2.
      - destruct (legal_decl _ _ _ Hl Hdd) as [Hn HT]. apply closed_decl_interface; [done|].
        apply Forall_forall. intros m ([f u] & <- & Hin)%elem_of_list_In%in_map_iff. simpl.
        apply elem_of_list_In in Hin. rewrite Hp in Hin. cbn in HT. rewrite Forall_forall in HT. destruct (HT _ Hin) as [H1 _].
        split; [by apply legal_tok|]. apply neutral_app; [|apply neutral_suffix].
        assert (tok (u_name u)) as Hu.
        { destruct (vs_types _ (result_valid _ _ _ Hf Hnb Hr) _ _ _ _ Hdd Hin) as [H|H]; [by apply builtin_tok|].
          apply decl_name_in in H as [t' ?]. by eapply legal_decl. }
        unfold ts_name. repeat case_decide; [lit|lit|by apply neutral_tok]. }
    apply closed_class; [done| | |].
    - destruct (params_inv _ _ _ Hf Hnb Hr) as (fs & ds & Hdd & Hp & ->). apply Forall_forall.
      intros p ([f u] & <- & Hin)%elem_of_list_In%in_map_iff. simpl. apply elem_of_list_In in Hin. rewrite Hp in Hin.
      destruct (legal_decl _ _ _ Hl Hdd) as [Hn HT]. cbn in HT. rewrite Forall_forall in HT. destruct (HT _ Hin) as [H1 _].
      split; [by apply legal_tok|]. unfold param_type.
      assert (tok (u_name u)) as Hu.
      { destruct (vs_types _ (result_valid _ _ _ Hf Hnb Hr) _ _ _ _ Hdd Hin) as [H|H]; [by apply builtin_tok|].
        apply decl_name_in in H as [t' ?]. by eapply legal_decl. }
      apply neutral_app.
      + case_decide; [unfold ts_name; repeat case_decide; [lit|lit|by apply neutral_tok]|].
        apply neutral_app; [by apply neutral_tok|]. apply neutral_app; [lit|by apply neutral_tok].
      + apply neutral_app; [apply neutral_suffix|]. destruct (u_opt u); lit.
    - apply (tidy_r_ty (TStruct (x_fields (r_export r))) "x" false); [tokl|done|done|]. apply Forall_singleton. tokl.
    - apply (tidy_w_ty (TStruct (x_fields (r_export r))) "x"); [tokl|done|done|]. apply Forall_singleton. tokl. }
  destruct (Hc [] 0) as [l Hl']. by exists l, 0, true.
Qed.
