(** The reader of TsText.v inverts the printer of TsAst.v on modules whose names are swords. *)
From Coq Require Import DecimalString DecimalNat DecimalZ.
From Verif Require Export TsText TsPlan GenBrackets.

(** ** Scanning *)
Lemma scan_from_app st a b : scan_from st (a +:+ b) =
  let x := scan_from st a in let y := scan_from x.2 b in (x.1 ++ y.1, y.2).
Proof.
  revert st. induction a as [|c a IH]; intros st; [rewrite sapp_nil_l; cbn; by destruct (scan_from st b)|].
  rewrite sapp_cons. cbn [scan_from]. rewrite IH. cbn. by rewrite (assoc_L (++)).
Qed.
Definition soft_state (st : lstate) : Prop := match st with L0 | LId _ | LNum _ => True | _ => False end.
Definition shut (s : string) (ts : list token) : Prop := scan_from L0 s = (ts, L0).
Definition soft (s : string) (ts : list token) : Prop :=
  exists t0 st, scan_from L0 s = (t0, st) /\ soft_state st /\ ts = t0 ++ flush st.
Definition brk (s : string) : bool := match s with String c _ => negb (js_part c) | EmptyString => false end.

Lemma feed_brk st c : soft_state st -> js_part c = false -> feed st c = (flush st ++ (feed0 c).1, (feed0 c).2).
Proof. intros Hs Hc. destruct st; try done; cbn; rewrite ?Hc; [by destruct (feed0 c)|done..]. Qed.
Lemma scan_brk st s : soft_state st -> brk s = true -> scan_from st s = (flush st ++ (scan_from L0 s).1, (scan_from L0 s).2).
Proof.
  intros Hs Hb. destruct s as [|c s]; [done|]. cbn in Hb. apply negb_true_iff in Hb. cbn [scan_from].
  rewrite (feed_brk _ _ Hs Hb). cbn. by rewrite (assoc_L (++)).
Qed.
Lemma shut_soft s ts : shut s ts -> soft s ts.
Proof. intros H. exists ts, L0. cbn. by rewrite app_nil_r. Qed.
Lemma shut_shut a b ta tb : shut a ta -> shut b tb -> shut (a +:+ b) (ta ++ tb).
Proof. unfold shut. intros Ha Hb. rewrite scan_from_app, Ha. cbn. by rewrite Hb. Qed.
Lemma shut_soft_app a b ta tb : shut a ta -> soft b tb -> soft (a +:+ b) (ta ++ tb).
Proof.
  unfold shut. intros Ha (t0 & st & Hb & Hs & ->). exists (ta ++ t0), st. rewrite scan_from_app, Ha. cbn. rewrite Hb.
  by rewrite (assoc_L (++)).
Qed.
Lemma soft_shut a b ta tb : soft a ta -> shut b tb -> brk b = true -> shut (a +:+ b) (ta ++ tb).
Proof.
  intros (t0 & st & Ha & Hs & ->) Hb Hk. unfold shut in *. rewrite scan_from_app, Ha. cbn [fst snd].
  rewrite scan_brk, Hb by done. cbn. by rewrite (assoc_L (++)).
Qed.
Lemma soft_soft a b ta tb : soft a ta -> soft b tb -> brk b = true -> soft (a +:+ b) (ta ++ tb).
Proof.
  intros (t0 & st & Ha & Hs & ->) (t1 & st1 & Hb & Hs1 & ->) Hk. exists (t0 ++ flush st ++ t1), st1.
  rewrite scan_from_app, Ha. cbn [fst snd]. rewrite scan_brk, Hb by done. cbn. by rewrite !(assoc_L (++)).
Qed.
Lemma soft_tokens s ts : soft s ts -> tokens s = ts.
Proof. intros (t0 & st & H & _ & ->). unfold tokens. by rewrite H. Qed.
Lemma brk_app a b : brk a = true -> brk (a +:+ b) = true.
Proof. by destruct a. Qed.
Lemma shut_nil : shut "" [].
Proof. done. Qed.

(** swords *)
Fixpoint parts (s : string) : Prop := match s with EmptyString => True | String c s => js_part c = true /\ parts s end.
Definition iword (s : string) : Prop := match s with EmptyString => False | String c s => js_start c = true /\ parts s end.
Fixpoint all_digits (s : string) : Prop := match s with EmptyString => True | String c s => js_digit c = true /\ all_digits s end.
Lemma parts_app a b : parts (a +:+ b) <-> parts a /\ parts b.
Proof. induction a as [|c a IH]; [naive_solver|]. rewrite sapp_cons. cbn [parts]. rewrite IH. naive_solver. Qed.
Lemma iword_app a b : iword a -> parts b -> iword (a +:+ b).
Proof. destruct a as [|c a]; [done|]. intros [H1 H2] Hb. rewrite sapp_cons. split; [done|]. by apply parts_app. Qed.
Lemma start_part c : js_start c = true -> js_part c = true.
Proof. unfold js_part. by intros ->. Qed.
Lemma digit_part c : js_digit c = true -> js_part c = true.
Proof. unfold js_part. intros ->. apply orb_true_r. Qed.
Lemma digits_parts s : all_digits s -> parts s.
Proof. induction s as [|c s IH]; [done|]. intros [H1 H2]. split; [by apply digit_part|auto]. Qed.
Lemma word_parts s : iword s -> parts s.
Proof. destruct s as [|c s]; [done|]. intros [H1 H2]. split; [by apply start_part|done]. Qed.
Lemma scan_parts_id s acc : parts s -> scan_from (LId acc) s = ([], LId (acc +:+ s)).
Proof.
  revert acc. induction s as [|c s IH]; intros acc; [by rewrite sapp_nil_r|]. intros [H1 H2]. cbn [scan_from feed].
  rewrite H1. cbn. rewrite IH by done. cbn. by rewrite sapp_assoc.
Qed.
Lemma scan_parts_num s acc : parts s -> scan_from (LNum acc) s = ([], LNum (acc +:+ s)).
Proof.
  revert acc. induction s as [|c s IH]; intros acc; [by rewrite sapp_nil_r|]. intros [H1 H2]. cbn [scan_from feed].
  rewrite H1. cbn. rewrite IH by done. cbn. by rewrite sapp_assoc.
Qed.
Lemma ascii_ind' (f : ascii -> bool) : forallb f (List.map ascii_of_nat (seq 0 256)) = true -> forall c, f c = true.
Proof.
  intros H c. rewrite forallb_forall in H. apply H. rewrite <- (ascii_nat_embedding c). apply in_map.
  apply in_seq. split; [lia|]. cbn [Nat.add]. apply nat_ascii_bounded.
Qed.
Lemma start_feed c : js_start c = true -> feed0 c = ([], LId (chr c)).
Proof.
  intros H. unfold feed0. pose proof (ascii_ind' (fun c => implb (js_start c) (negb (js_space c))) (eq_refl true) c) as Hs. cbv beta in Hs.
  rewrite H in Hs. cbn [implb] in Hs. apply negb_true_iff in Hs. by rewrite Hs, H.
Qed.
Lemma digit_feed c : js_digit c = true -> feed0 c = ([], LNum (chr c)).
Proof.
  intros H. unfold feed0. pose proof (ascii_ind' (fun c => implb (js_digit c) (negb (js_space c) && negb (js_start c))) (eq_refl true) c) as Hs. cbv beta in Hs.
  rewrite H in Hs. cbn [implb] in Hs. apply andb_true_iff in Hs as [H1%negb_true_iff H2%negb_true_iff]. by rewrite H1, H2, H.
Qed.
Lemma soft_word s : iword s -> soft s [TId s].
Proof.
  destruct s as [|c s]; [done|]. intros [H1 H2]. exists [], (LId (String c s)). split; [|done].
  cbn [scan_from feed]. rewrite start_feed by done. cbn. by rewrite scan_parts_id.
Qed.
Lemma soft_digits s : s ≠ "" -> all_digits s -> soft s [TNum s].
Proof.
  destruct s as [|c s]; [done|]. intros _ [H1 H2]. exists [], (LNum (String c s)). split; [|done].
  cbn [scan_from feed]. rewrite digit_feed by done. cbn. by rewrite scan_parts_num by by apply digits_parts.
Qed.

(** numbers *)
Lemma digits_nil_empty u : all_digits (NilEmpty.string_of_uint u).
Proof.
  assert (forall c s, js_digit c = true -> all_digits s -> all_digits (String c s)) as H by done.
  induction u; cbn [NilEmpty.string_of_uint]; try (apply H; [reflexivity|done]). done.
Qed.
Lemma digits_uint u : NilZero.string_of_uint u ≠ "" /\ all_digits (NilZero.string_of_uint u).
Proof. destruct u; try (split; [done|apply (digits_nil_empty (_ _))]). split; [done|]. by split. Qed.
Lemma uint_read u : exists d, NilZero.uint_of_string (NilZero.string_of_uint u) = Some d /\ Z.of_uint d = Z.of_uint u /\ Nat.of_uint d = Nat.of_uint u.
Proof. destruct u; [by eexists|..]; (rewrite NilZero.usu by done; by eexists). Qed.
Definition toks_Z (z : Z) : list token :=
  match Z.to_int z with
  | Decimal.Pos u => [TNum (NilZero.string_of_uint u)]
  | Decimal.Neg u => [TSym "-"; TNum (NilZero.string_of_uint u)]
  end.
Lemma soft_Z z : soft (string_of_Z z) (toks_Z z).
Proof.
  unfold string_of_Z, toks_Z, NilZero.string_of_int. destruct (Z.to_int z) as [u|u]; destruct (digits_uint u) as [H1 H2].
  - by apply soft_digits.
  - destruct (NilZero.string_of_uint u) as [|c s]; [done|]. destruct H2 as [H2 H3].
    exists [TSym "-"], (LNum (String c s)). split; [|done].
    cbn [scan_from]. change (feed L0 "-") with (@nil token, LSym "-"). cbn [fst snd feed].
    pose proof (ascii_ind' (fun c => implb (js_digit c) (negb (bool_decide (chr "-" +:+ chr c ∈ pairs)))) (eq_refl true) c) as Hs. cbv beta in Hs.
    rewrite H2 in Hs. cbn [implb] in Hs. apply negb_true_iff in Hs.
    rewrite bool_decide_false by (intros [? ?]; done). unfold after.
    change (chr "-" +:+ chr c) with (String "-" (chr c)) in *. rewrite Hs. rewrite digit_feed by done. cbn.
    by rewrite scan_parts_num by by apply digits_parts.
Qed.
Definition toks_nat (n : nat) : list token := [TNum (string_of_nat n)].
Lemma soft_nat n : soft (string_of_nat n) (toks_nat n).
Proof. destruct (digits_uint (Nat.to_uint n)). by apply soft_digits. Qed.

(** ** Tokens of printed trees *)
Fixpoint toks_e (e : expr) : list token :=
  match e with
  | EVar x => [TId x]
  | ENum z => toks_Z z
  | EUndef => [TId "undefined"]
  | EObj => [TSym "{"; TSym "}"]
  | EProp e f => toks_e e ++ [TSym "."; TId f]
  | EElem e i => toks_e e ++ TSym "[" :: toks_e i ++ [TSym "]"]
  | ERead m => [TId "reader"; TSym "."; TId ("read_" +:+ m); TSym "("; TSym ")"]
  | EReadStr n => TId "reader" :: TSym "." :: TId "read_string" :: TSym "(" :: toks_e n ++ [TSym ")"]
  | ENewArr n => TId "new" :: TId "Array" :: TSym "(" :: toks_e n ++ [TSym ")"]
  | ELe a b => toks_e a ++ TSym "<=" :: toks_e b
  | EGt a b => toks_e a ++ TSym ">" :: toks_e b
  | EAnd a b => toks_e a ++ TSym "&&" :: toks_e b
  | EAs e => toks_e e ++ [TId "as"; TId "number"]
  end.
Definition toks_s (s : simple) : list token :=
  match s with
  | Let any x e => TId "let" :: TId x :: (if any then [TSym ":"; TId "any"] else []) ++ TSym "=" :: toks_e e ++ [TSym ";"]
  | Assign l e => toks_e l ++ TSym "=" :: toks_e e ++ [TSym ";"]
  | Write m e => TId "writer" :: TSym "." :: TId ("write_" +:+ m) :: TSym "(" :: toks_e e ++ [TSym ")"; TSym ";"]
  | Fail => [TId "reader"; TSym "."; TId "failed"; TSym "="; TId "true"; TSym ";"]
  end.
Fixpoint toks (s : stmt) : list token :=
  let block b := List.concat (List.map toks b) in
  match s with
  | SSimple s => toks_s s
  | SIf c b1 b2 => TId "if" :: TSym "(" :: toks_e c ++ TSym ")" :: TSym "{" :: block b1
      ++ TSym "}" :: TId "else" :: TSym "{" :: block b2 ++ [TSym "}"]
  | SIfLine c s1 s2 => TId "if" :: TSym "(" :: toks_e c ++ TSym ")" :: toks_s s1 ++ TId "else" :: toks_s s2
  | SFor i n b => TId "for" :: TSym "(" :: TId "let" :: TId i :: TSym "=" :: TNum "0" :: TSym ";" :: TId i :: TSym "<" :: toks_e n
      ++ TSym ";" :: TSym "++" :: TId i :: TSym ")" :: TSym "{" :: block b ++ [TSym "}"]
  | SSwitch e s b => TId "switch" :: TSym "(" :: toks_e e ++ TSym ")" :: TSym "{" ::
      TId "case" :: TId "undefined" :: TSym ":" :: TId "case" :: TId "null" :: TSym ":" :: toks_s s
      ++ TId "break" :: TSym ";" :: TId "default" :: TSym ":" :: TSym "{" :: block b ++ [TSym "}"; TSym "}"]
  end.
Definition toks_b (b : list stmt) : list token := List.concat (List.map toks b).

(** names in a tree *)
Fixpoint words_e (e : expr) : Prop :=
  match e with
  | EVar x => iword x
  | ENum _ | EUndef | EObj => True
  | EProp e f => words_e e /\ iword f
  | EElem e i => words_e e /\ words_e i
  | ERead m => parts m
  | EReadStr e | ENewArr e | EAs e => words_e e
  | ELe a b | EGt a b | EAnd a b => words_e a /\ words_e b
  end.
Definition words_s (s : simple) : Prop :=
  match s with
  | Let _ x e => iword x /\ words_e e
  | Assign l e => words_e l /\ words_e e
  | Write m e => parts m /\ words_e e
  | Fail => True
  end.
Fixpoint swords (s : stmt) : Prop :=
  match s with
  | SSimple s => words_s s
  | SIf c b1 b2 => words_e c /\ fold_right (fun s P => swords s /\ P) True b1 /\ fold_right (fun s P => swords s /\ P) True b2
  | SIfLine c s1 s2 => words_e c /\ words_s s1 /\ words_s s2
  | SFor i n b => iword i /\ words_e n /\ fold_right (fun s P => swords s /\ P) True b
  | SSwitch e s b => words_e e /\ words_s s /\ fold_right (fun s P => swords s /\ P) True b
  end.
Definition words_b (b : list stmt) : Prop := fold_right (fun s P => swords s /\ P) True b.

(** literal text *)
Lemma shut_lit s ts : scan_from L0 s = (ts, L0) -> shut s ts.
Proof. done. Qed.
Ltac clit := first [apply shut_nil | apply shut_lit; vm_compute; reflexivity].
Lemma eq_soft s ts ts' : soft s ts -> ts = ts' -> soft s ts'.
Proof. by intros H <-. Qed.
Lemma eq_shut s ts ts' : shut s ts -> ts = ts' -> shut s ts'.
Proof. by intros H <-. Qed.

Lemma soft_e e : words_e e -> soft (print_expr e) (toks_e e).
Proof.
  induction e; cbn [words_e print_expr toks_e]; intros H.
  - by apply soft_word.
  - apply soft_Z.
  - apply (soft_word "undefined"). by vm_compute.
  - apply shut_soft. clit.
  - destruct H. eapply eq_soft; [apply soft_soft; [by apply IHe|eapply shut_soft_app; [clit|by apply soft_word]|done]|done].
  - destruct H. eapply eq_soft; [apply shut_soft, soft_shut; [by apply IHe1| |by vm_compute]|done].
    eapply eq_shut; [eapply shut_shut; [clit|eapply soft_shut; [by apply IHe2|clit|done]]|done].
  - change ("reader.read_" +:+ m +:+ "()") with ("reader." +:+ ("read_" +:+ m) +:+ "()"). apply shut_soft.
    eapply eq_shut; [eapply shut_shut; [clit|eapply soft_shut; [apply soft_word, iword_app; [by vm_compute|done]|clit|done]]|done].
  - apply shut_soft. eapply eq_shut; [eapply shut_shut; [clit|eapply soft_shut; [by apply IHe|clit|done]]|done].
  - apply shut_soft. eapply eq_shut; [eapply shut_shut; [clit|eapply soft_shut; [by apply IHe|clit|done]]|done].
  - destruct H. eapply eq_soft; [apply soft_soft; [by apply IHe1|eapply shut_soft_app; [clit|by apply IHe2]|done]|done].
  - destruct H. eapply eq_soft; [apply soft_soft; [by apply IHe1|eapply shut_soft_app; [clit|by apply IHe2]|done]|done].
  - destruct H. eapply eq_soft; [apply soft_soft; [by apply IHe1|eapply shut_soft_app; [clit|by apply IHe2]|done]|done].
  - eapply soft_soft; [by apply IHe| |done]. exists [TId "as"], (LId "number"). by vm_compute.
Qed.
(** text that does not begin with part of a name *)
Ltac brkt := first [done | by vm_compute].
Ltac lnorm := cbn [app]; repeat (rewrite <- !(assoc_L (++)); cbn [app]); rewrite ?app_nil_r; try reflexivity.
Lemma shut_simple s : words_s s -> shut (print_simple s) (toks_s s).
Proof.
  destruct s as [any x e|l e|m e|]; cbn [words_s print_simple toks_s]; intros H.
  - destruct H as [Hx He]. destruct any.
    + eapply eq_shut; [eapply shut_shut; [clit|eapply soft_shut; [by apply soft_word| |brkt]]|].
      * eapply soft_shut; [exists [TSym ":"], (LId "any"); by vm_compute| |brkt].
        eapply shut_shut; [clit|eapply soft_shut; [by apply soft_e|clit|brkt]].
      * done.
    + rewrite sapp_nil_l. eapply eq_shut; [eapply shut_shut; [clit|eapply soft_shut; [by apply soft_word| |brkt]]|].
      * eapply shut_shut; [clit|eapply soft_shut; [by apply soft_e|clit|brkt]].
      * done.
  - destruct H as [Hl He].
    eapply eq_shut; [eapply soft_shut; [by apply soft_e|eapply shut_shut; [clit|eapply soft_shut; [by apply soft_e|clit|brkt]]|brkt]|done].
  - destruct H as [Hm He].
    change ("writer.write_" +:+ m +:+ "(" +:+ print_expr e +:+ ");") with ("writer." +:+ ("write_" +:+ m) +:+ "(" +:+ print_expr e +:+ ");").
    eapply eq_shut; [eapply shut_shut; [clit|eapply soft_shut; [apply soft_word, iword_app; [by vm_compute|done]| |brkt]]|].
    + eapply shut_shut; [clit|eapply soft_shut; [by apply soft_e|clit|brkt]].
    + done.
  - clit.
Qed.
Lemma shut_line ind s ts : shut ind [] -> soft s ts -> shut (line ind s) ts.
Proof.
  intros Hi Hs. unfold line. eapply eq_shut; [eapply shut_shut; [exact Hi|eapply soft_shut; [exact Hs| |]]|]; [clit|brkt|].
  by rewrite app_nil_r.
Qed.
Lemma shut_tab ind : shut ind [] -> shut (ind +:+ tab) [].
Proof. intros H. eapply eq_shut; [eapply shut_shut; [exact H|clit]|done]. Qed.
Lemma shut_concat l tl : Forall2 shut l tl -> shut (concat_str l) (List.concat tl).
Proof. induction 1 as [|s ts l tl Hs _ IH]; [clit|]. cbn [concat_str fold_right List.concat]. by apply shut_shut. Qed.
Lemma shut_map {A} (f : A -> string) (g : A -> list token) l :
  (forall x, x ∈ l -> shut (f x) (g x)) -> shut (concat_str (List.map f l)) (List.concat (List.map g l)).
Proof.
  intros H. apply shut_concat. induction l as [|x l IH]; [constructor|]. constructor; [apply H; by left|]. apply IH. intros. apply H. by right.
Qed.
Lemma words_b_in b s : words_b b -> s ∈ b -> swords s.
Proof.
  unfold words_b. induction b as [|x b IH]; intros H Hin; [by apply elem_of_nil in Hin|]. destruct H.
  apply elem_of_cons in Hin as [->|Hin]; auto.
Qed.

Lemma shut_stmt s : forall ind, shut ind [] -> swords s -> shut (print_stmt ind s) (toks s).
Proof.
  induction s as [s|c b1 b2 IH1 IH2|c s1 s2|i n b IH|e s b IH] using stmt_ind'; intros ind Hi; cbn [print_stmt swords toks]; intros Ht.
  - apply shut_line; [done|]. by apply shut_soft, shut_simple.
  - destruct Ht as (Hc & H1 & H2). rewrite Forall_forall in IH1, IH2.
    eapply eq_shut; [eapply shut_shut; [apply shut_line; [done|]|eapply shut_shut; [apply (shut_map _ toks)|eapply shut_shut; [apply shut_line; [done|]|eapply shut_shut; [apply (shut_map _ toks)|apply shut_line; [done|]]]]]|].
    + apply shut_soft. eapply shut_shut; [clit|]. eapply soft_shut; [by apply soft_e|clit|brkt].
    + intros s Hs. apply IH1; [done|by apply shut_tab|exact (words_b_in _ _ H1 Hs)].
    + apply shut_soft. clit.
    + intros s Hs. apply IH2; [done|by apply shut_tab|exact (words_b_in _ _ H2 Hs)].
    + apply shut_soft. clit.
    + lnorm.
  - destruct Ht as (Hc & H1 & H2).
    eapply eq_shut; [eapply shut_shut; apply shut_line; [done| |done|]|].
    + apply shut_soft. eapply shut_shut; [clit|]. eapply soft_shut; [by apply soft_e| |brkt]. eapply shut_shut; [clit|by apply shut_simple].
    + apply shut_soft. eapply shut_shut; [clit|by apply shut_simple].
    + lnorm.
  - destruct Ht as (Hi' & Hn & Hb). rewrite Forall_forall in IH.
    eapply eq_shut; [eapply shut_shut; [apply shut_line; [done|]|eapply shut_shut; [apply (shut_map _ toks)|apply shut_line; [done|]]]|].
    + apply shut_soft. eapply shut_shut; [clit|]. eapply soft_shut; [by apply soft_word| |brkt].
      eapply shut_shut; [clit|]. eapply soft_shut; [by apply soft_word| |brkt].
      eapply shut_shut; [clit|]. eapply soft_shut; [by apply soft_e| |brkt].
      eapply shut_shut; [clit|]. eapply soft_shut; [by apply soft_word|clit|brkt].
    + intros s Hs. apply IH; [done|by apply shut_tab|exact (words_b_in _ _ Hb Hs)].
    + apply shut_soft. clit.
    + lnorm.
  - destruct Ht as (He & Hs & Hb). rewrite Forall_forall in IH.
    eapply eq_shut; [eapply shut_shut; [apply shut_line; [done|]|eapply shut_shut; [apply shut_line; [by apply shut_tab|]|eapply shut_shut; [apply shut_line; [by apply shut_tab|]|
      eapply shut_shut; [apply (shut_map _ toks)|eapply shut_shut; apply shut_line; [by apply shut_tab| |done|]]]]]|].
    + apply shut_soft. eapply shut_shut; [clit|]. eapply soft_shut; [by apply soft_e|clit|brkt].
    + apply shut_soft. eapply shut_shut; [clit|]. eapply soft_shut; [by apply shut_soft, shut_simple|clit|brkt].
    + apply shut_soft. clit.
    + intros s' Hs'. apply IH; [done|rewrite <- sapp_assoc; by apply shut_tab, shut_tab|exact (words_b_in _ _ Hb Hs')].
    + apply shut_soft. clit.
    + apply shut_soft. clit.
    + lnorm.
Qed.
Lemma shut_block ind b : shut ind [] -> words_b b -> shut (print_block ind b) (toks_b b).
Proof. intros Hi Hb. apply (shut_map _ toks). intros s Hs. apply shut_stmt; [done|]. by eapply words_b_in. Qed.

(** types *)
Definition type_str (a : string) (b : option string) (c d : bool) : string :=
  a +:+ (match b with Some b => "." +:+ b | None => "" end) +:+ (if c then "[]" else "") +:+ (if d then " | undefined" else "").
Definition type_toks (a : string) (b : option string) (c d : bool) : list token :=
  TId a :: (match b with Some b => [TSym "."; TId b] | None => [] end) ++ (if c then [TSym "["; TSym "]"] else [])
  ++ (if d then [TSym "|"; TId "undefined"] else []).
Definition type_ok (t : string) : Prop :=
  exists a b c d, t = type_str a b c d /\ iword a /\ match b with Some b => iword b | None => True end.
Lemma soft_suffix d : d = false \/ brk (if d : bool then " | undefined" else "") = true.
Proof. destruct d; [by right|by left]. Qed.
Lemma soft_type a b c d : iword a -> match b with Some b => iword b | None => True end -> soft (type_str a b c d) (type_toks a b c d).
Proof.
  intros Ha Hb. unfold type_str, type_toks.
  assert (forall s ts, soft s ts -> soft (s +:+ (if d then " | undefined" else "")) (ts ++ (if d then [TSym "|"; TId "undefined"] else []))) as Hd.
  { intros s ts Hs. destruct d; [|by rewrite sapp_nil_r, app_nil_r]. eapply soft_soft; [done| |done].
    exists [TSym "|"], (LId "undefined"). by vm_compute. }
  assert (forall s ts, soft s ts -> soft (s +:+ (if c then "[]" else "")) (ts ++ (if c then [TSym "["; TSym "]"] else []))) as Hc.
  { intros s ts Hs. destruct c; [|by rewrite sapp_nil_r, app_nil_r]. apply shut_soft. eapply soft_shut; [done|clit|done]. }
  rewrite <- !sapp_assoc. rewrite app_comm_cons, !(assoc_L (++)). apply Hd, Hc.
  destruct b as [b|]; [|rewrite sapp_nil_r; by apply soft_word].
  change (TId a :: [TSym "."; TId b]) with ([TId a] ++ [TSym "."] ++ [TId b]).
  apply soft_soft; [by apply soft_word| |done]. eapply shut_soft_app; [clit|by apply soft_word].
Qed.
Lemma soft_type_ok t : type_ok t -> soft t (tokens t).
Proof. intros (a & b & c & d & -> & Ha & Hb). pose proof (soft_type a b c d Ha Hb) as H. by rewrite (soft_tokens _ _ H). Qed.

(** declarations and the class *)
Definition toks_param (p : string * string) : list token := TId "public" :: TId p.1 :: TSym ":" :: tokens p.2 ++ [TSym ","].
Definition toks_k (k : cls) : list token :=
  tokens "export class" ++ TId (k_name k) :: tokens "{ constructor(" ++ List.concat (List.map toks_param (k_params k))
  ++ tokens ") {} static read(data: ArrayBuffer):" ++ TId (k_name k) :: tokens "| null { let reader = new Reader(data); let output = Object.create("
  ++ TId (k_name k) :: tokens ");" ++ toks_b (k_read k)
  ++ tokens "if (reader.failed) return null; return output; } write(buffer?: ArrayBuffer): ArrayBuffer { let writer = buffer ? new Writer(buffer) : new Writer();"
  ++ toks_b (k_write k) ++ tokens "return writer.finish(); } }".
Definition toks_variant (v : string * nat) : list token := TId v.1 :: tokens "= 1 <<" ++ toks_nat v.2 ++ [TSym ","].
Definition toks_member (m : string * bool * string) : list token :=
  TId m.1.1 :: (if m.1.2 then [TSym "?"] else []) ++ TSym ":" :: tokens m.2 ++ [TSym ","].
Definition toks_d (d : decl) : list token :=
  match d with
  | DEnum n vs => tokens "export const enum" ++ TId n :: TSym "{" :: List.concat (List.map toks_variant vs) ++ [TSym "}"]
  | DInterface n ms => tokens "export interface" ++ TId n :: TSym "{" :: List.concat (List.map toks_member ms) ++ [TSym "}"]
  end.
Definition import_toks : list token := [TId "import"; TSym "{"; TId "Reader"; TSym ","; TId "Writer"; TSym "}"; TId "from"; TStr "packet"; TSym ";"].
Definition toks_m (ds : list decl) (k : cls) : list token :=
  import_toks ++ tokens "export namespace" ++ TId (k_name k) :: TSym "{" :: List.concat (List.map toks_d ds) ++ TSym "}" :: toks_k k.

Definition words_k (k : cls) : Prop :=
  iword (k_name k) /\ Forall (fun p => iword p.1 /\ type_ok p.2) (k_params k) /\ words_b (k_read k) /\ words_b (k_write k).
Definition words_d (d : decl) : Prop :=
  match d with
  | DEnum n vs => iword n /\ Forall (fun v => iword v.1) vs
  | DInterface n ms => iword n /\ Forall (fun m => iword m.1.1 /\ type_ok m.2) ms
  end.

Ltac toks_now := repeat match goal with |- context [tokens ?s] =>
  let t := eval vm_compute in (tokens s) in lazymatch t with context [scan_from] => fail | _ => change (tokens s) with t end end.

Lemma t1 : shut tab [].
Proof. clit. Qed.
Lemma t2 : shut (tab +:+ tab) [].
Proof. clit. Qed.
Lemma shut_param p : iword p.1 -> type_ok p.2 -> shut (line (tab +:+ tab) ("public " +:+ p.1 +:+ ": " +:+ p.2 +:+ ",")) (toks_param p).
Proof.
  intros H1 H2. apply shut_line; [apply t2|]. apply shut_soft. unfold toks_param.
  eapply eq_shut; [eapply shut_shut; [clit|eapply soft_shut; [by apply soft_word|eapply shut_shut; [clit|]|brkt]]|].
  - eapply soft_shut; [by apply soft_type_ok|clit|done].
  - done.
Qed.
Lemma shut_k k : words_k k -> shut (print_class k) (toks_k k).
Proof.
  intros (Hn & Hp & Hr & Hw). unfold print_class.
  eapply eq_shut.
  { eapply shut_shut; [apply shut_line; [clit|]; apply shut_soft; eapply shut_shut; [clit|]; eapply soft_shut; [by apply soft_word|clit|brkt]|].
    eapply shut_shut; [apply shut_line; [clit|]; apply shut_soft; clit|].
    eapply shut_shut; [apply (shut_map _ toks_param); intros [x t] Hin; rewrite Forall_forall in Hp; destruct (Hp _ Hin); by apply (shut_param (x, t))|].
    eapply shut_shut; [apply shut_line; [clit|]; apply shut_soft; clit|].
    eapply shut_shut; [apply shut_line; [clit|]; apply shut_soft; eapply shut_shut; [clit|]; eapply soft_shut; [by apply soft_word|clit|brkt]|].
    eapply shut_shut; [apply shut_line; [clit|]; apply shut_soft; clit|].
    eapply shut_shut; [apply shut_line; [clit|]; apply shut_soft; eapply shut_shut; [clit|]; eapply soft_shut; [by apply soft_word|clit|brkt]|].
    eapply shut_shut; [apply shut_block; [clit|done]|].
    eapply shut_shut; [apply shut_line; [clit|]; apply shut_soft; clit|].
    eapply shut_shut; [apply shut_line; [clit|]; apply shut_soft; clit|].
    eapply shut_shut; [apply shut_line; [clit|]; apply shut_soft; clit|].
    eapply shut_shut; [apply shut_line; [clit|]; apply shut_soft; clit|].
    eapply shut_shut; [apply shut_line; [clit|]; apply shut_soft; clit|].
    eapply shut_shut; [apply shut_block; [clit|done]|].
    eapply shut_shut; [apply shut_line; [clit|]; apply shut_soft; clit|].
    eapply shut_shut; [apply shut_line; [clit|]; apply shut_soft; clit|].
    apply shut_line; [clit|]; apply shut_soft; clit. }
  unfold toks_k. toks_now. lnorm.
Qed.
Lemma shut_d d : words_d d -> shut (print_decl d) (toks_d d).
Proof.
  destruct d as [n vs|n ms]; cbn [words_d print_decl toks_d]; intros [Hn H]; rewrite Forall_forall in H.
  - eapply eq_shut.
    { eapply shut_shut; [apply shut_line; [clit|]; apply shut_soft; eapply shut_shut; [clit|]; eapply soft_shut; [by apply soft_word|clit|brkt]|].
      eapply shut_shut; [apply (shut_map _ toks_variant)|apply shut_line; [clit|]; apply shut_soft; clit].
      intros [v k] Hin. pose proof (H _ Hin) as Hv. cbn in Hv. apply shut_line; [clit|]. apply shut_soft.
      eapply eq_shut; [eapply soft_shut; [by apply soft_word|eapply shut_shut; [clit|eapply soft_shut; [apply soft_nat|clit|brkt]]|brkt]|].
      unfold toks_variant. toks_now. done. }
    toks_now. lnorm.
  - eapply eq_shut.
    { eapply shut_shut; [apply shut_line; [clit|]; apply shut_soft; eapply shut_shut; [clit|]; eapply soft_shut; [by apply soft_word|clit|brkt]|].
      eapply shut_shut; [apply (shut_map _ toks_member)|apply shut_line; [clit|]; apply shut_soft; clit].
      intros [[m o] t] Hin. destruct (H _ Hin) as [Hm Ht]. cbn in Hm, Ht. apply shut_line; [clit|]. apply shut_soft. unfold toks_member. cbn [fst snd].
      destruct o; rewrite ?sapp_nil_l.
      - eapply eq_shut; [eapply soft_shut; [by apply soft_word|eapply shut_shut; [clit|eapply shut_shut; [clit|eapply soft_shut; [by apply soft_type_ok|clit|brkt]]]|brkt]|done].
      - eapply eq_shut; [eapply soft_shut; [by apply soft_word|eapply shut_shut; [clit|eapply soft_shut; [by apply soft_type_ok|clit|brkt]]|brkt]|done]. }
    toks_now. lnorm.
Qed.

(** the first line is a comment *)
Lemma scan_comment s : on_one_line s -> scan_from LComment s = ([], LComment).
Proof.
  unfold on_one_line. induction s as [|c s IH]; [done|]. cbn [list_ascii_of_string]. rewrite Forall_cons. intros [Hc Hs]. cbn [scan_from feed].
  assert (char_in 10 10 c || char_in 13 13 c = false) as ->; [|cbn; by rewrite IH].
  unfold char_in in *. apply andb_true_iff in Hc as [H1%Nat.leb_le H2%Nat.leb_le].
  apply orb_false_iff. split; apply andb_false_iff; right; apply Nat.leb_gt; lia.
Qed.
Lemma on_one_line_app a b : on_one_line a -> on_one_line b -> on_one_line (a +:+ b).
Proof.
  unfold on_one_line. intros Ha Hb. induction a as [|c a IH]; [done|]. rewrite sapp_cons. cbn [list_ascii_of_string] in *.
  inversion Ha; subst. constructor; auto.
Qed.
Lemma shut_header version now : on_one_line version -> on_one_line now -> shut (header version now) [].
Proof.
  intros Hv Hn. unfold header, line. rewrite sapp_nil_l.
  change ("// Generated by packetc v" +:+ version +:+ " at " +:+ now) with ("//" +:+ (" Generated by packetc v" +:+ version +:+ " at " +:+ now)).
  set (body := " Generated by packetc v" +:+ _). assert (on_one_line body) as Hb.
  { repeat apply on_one_line_app; try done; (apply (bool_decide_unpack _); vm_compute; exact I). }
  unfold shut. rewrite sapp_assoc, scan_from_app. change (scan_from L0 "//") with (@nil token, LComment). cbn [fst snd].
  rewrite scan_from_app, scan_comment by done. done.
Qed.
Lemma shut_m m : on_one_line (m_version m) -> on_one_line (m_now m) -> Forall words_d (m_decls m) -> words_k (m_class m) ->
  shut (print_module m) (toks_m (m_decls m) (m_class m)).
Proof.
  intros Hv Hn Hd Hk. unfold print_module. rewrite Forall_forall in Hd.
  eapply eq_shut.
  { eapply shut_shut; [by apply shut_header|].
    eapply shut_shut; [clit|].
    eapply shut_shut; [apply shut_line; [clit|]; apply shut_soft; eapply shut_shut; [clit|]; eapply soft_shut; [apply soft_word, Hk|clit|brkt]|].
    eapply shut_shut; [apply (shut_map _ toks_d); intros d Hin; by apply shut_d, Hd|].
    eapply shut_shut; [apply shut_line; [clit|]; apply shut_soft; clit|by apply shut_k]. }
  unfold toks_m. toks_now. lnorm.
Qed.
Lemma tokens_module m : on_one_line (m_version m) -> on_one_line (m_now m) -> Forall words_d (m_decls m) -> words_k (m_class m) ->
  tokens (print_module m) = toks_m (m_decls m) (m_class m).
Proof. intros. by apply soft_tokens, shut_soft, shut_m. Qed.
