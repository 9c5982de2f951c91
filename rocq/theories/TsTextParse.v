(** The reader accepts the tokens of printed trees and gives back the trees. *)
From Coq Require Import DecimalString DecimalNat DecimalZ.
From Verif Require Export TsTextProofs.

(** ** Steps *)
Lemma eats_app l r : eats l (l ++ r) = Some ((), r).
Proof. induction l as [|t l IH]; [by destruct r|]. cbn. by rewrite decide_True. Qed.
Lemma eat_step {A} s l (k : unit -> tparser A) r res : tokens s = l -> k () r = res -> tbind (eat s) k (l ++ r) = res.
Proof. intros <- H. unfold tbind, eat. by rewrite eats_app. Qed.
Lemma bind_step {A B} (p : tparser A) (k : A -> tparser B) ts a r res : p ts = Some (a, r) -> k a r = res -> tbind p k ts = res.
Proof. unfold tbind. by intros ->. Qed.
Lemma when_yes {A} s (p q : tparser A) ts res : next_is s ts = true -> p ts = res -> when s p q ts = res.
Proof. unfold when. by intros ->. Qed.
Lemma when_no {A} s (p q : tparser A) ts res : next_is s ts = false -> q ts = res -> when s p q ts = res.
Proof. unfold when. by intros ->. Qed.
Lemma next_ne s u l t ts : tokens s = u :: l -> u ≠ t -> next_is s (t :: ts) = false.
Proof. intros H Hne. unfold next_is, eat. rewrite H. cbn. by rewrite decide_False. Qed.
Lemma again_step {A} x (k : unit -> tparser A) r res : k () r = res -> tbind (again x) k (TId x :: r) = res.
Proof. unfold tbind, again. cbn. by rewrite decide_True. Qed.

Ltac lits := lazy; reflexivity.
(** consume fixed tokens *)
Ltac eatt := match goal with |- tbind (eat ?s) ?k _ = _ => let l := eval vm_compute in (tokens s) in refine (eat_step s l k _ _ eq_refl _) end; cbn beta.
Ltac idt := eapply bind_step; [reflexivity|]; cbn beta.
Ltac yes := apply when_yes; [lits|].
Ltac no := apply when_no; [lits|].
(** the next token is an a_name that is not one of the swords tested for *)
Definition root (x : string) : Prop := iword x /\ match x with String c _ => c = "o"%char \/ c = "t"%char | EmptyString => False end.
Lemma root_ne x s : root x -> match s with String c _ => c ≠ "o"%char /\ c ≠ "t"%char | EmptyString => True end -> TId s ≠ TId x.
Proof. intros [_ H] Hs E. injection E as ->. destruct x; [done|]. destruct Hs, H; done. Qed.
Lemma next_root s u l x ts : tokens s = u :: l -> root x ->
  match u with TId (String c _) => c ≠ "o"%char /\ c ≠ "t"%char | _ => True end -> next_is s (TId x :: ts) = false.
Proof.
  intros Ht Hx Hu. apply (next_ne _ _ _ _ _ Ht). destruct u; try discriminate. apply (root_ne x); [done|]. by destruct s0.
Qed.
Ltac noroot := apply when_no; [eapply next_root; [vm_compute; reflexivity|eassumption|cbn; try exact I; split; discriminate]|].

Definition heads (F : list token) (ts : list token) : Prop := match ts with t :: _ => t ∈ F | [] => False end.
Definition F3 : list token := [TSym ";"; TSym ")"; TSym "]"; TSym "="].
Definition F2 : list token := TSym "&&" :: F3.
Definition F1 : list token := TSym "<=" :: TSym ">" :: F2.
Definition F0 : list token := TId "as" :: F1.
Lemma heads_mono F G ts : F ⊆ G -> heads F ts -> heads G ts.
Proof. intros H. destruct ts; [done|]. apply H. Qed.
Lemma heads_in F t ts : bool_decide (t ∈ F) = true -> heads F (t :: ts).
Proof. intros H%bool_decide_eq_true. done. Qed.
Ltac hd := apply heads_in; vm_compute; reflexivity.
Ltac heads_cases H := let t := fresh "t" in match type of H with heads _ ?r => destruct r as [|t ?]; [done|]; cbn [heads] in H;
  repeat (apply elem_of_cons in H as [->|H]); [..|by apply elem_of_nil in H] end.

(** ** Expressions *)
Section level.
  Context (Q : expr -> Prop) (p : tparser expr).
  Context (Hp : forall e rest, Q e -> heads F3 rest -> p (toks_e e ++ rest) = Some (e, rest)).

  Fixpoint member (e : expr) : Prop :=
    match e with EVar x => root x | EProp e f => member e /\ iword f | EElem e i => member e /\ Q i | _ => False end.
  Definition primary (e : expr) : Prop :=
    match e with
    | ENum _ | EObj | EUndef => True
    | ENewArr e | EReadStr e => Q e
    | ERead m => parts m /\ m ≠ "string"
    | _ => member e
    end.
  Definition unitary (e : expr) : Prop := match e with EAs e => primary e | _ => primary e end.
  Definition comparison (e : expr) : Prop := match e with ELe a b | EGt a b => unitary a /\ unitary b | _ => unitary e end.
  Definition conjunction (e : expr) : Prop := match e with EAnd a b => comparison a /\ comparison b | _ => comparison e end.

  Fixpoint msize (e : expr) : nat := match e with EProp e _ | EElem e _ => S (msize e) | _ => 0 end.
  Fixpoint mroot (e : expr) : string := match e with EVar x => x | EProp e _ | EElem e _ => mroot e | _ => "" end.
  Fixpoint mtail (e : expr) : list token :=
    match e with EProp e f => mtail e ++ [TSym "."; TId f] | EElem e i => mtail e ++ TSym "[" :: toks_e i ++ [TSym "]"] | _ => [] end.
  Lemma member_toks e : member e -> toks_e e = TId (mroot e) :: mtail e /\ root (mroot e) /\ msize e <= length (mtail e).
  Proof.
    induction e; cbn [member toks_e mroot mtail msize]; try done.
    - intros [H _]. destruct (IHe H) as (-> & Hr & Hl). split; [done|]. split; [done|]. rewrite app_length. cbn. lia.
    - intros [H _]. destruct (IHe1 H) as (-> & Hr & Hl). split; [done|]. split; [done|]. rewrite app_length. cbn. lia.
  Qed.
  Lemma p_members_steps e : member e -> forall n rest,
    p_members (msize e + n) p (EVar (mroot e)) (mtail e ++ rest) = p_members n p e rest.
  Proof.
    induction e; cbn [member mroot mtail msize]; try done; intros [H1 H2] n rest.
    - rewrite <- (assoc_L (++)). replace (S (msize e) + n) with (msize e + S n) by lia. rewrite IHe by done. cbn [app p_members].
      yes. eatt. idt. reflexivity.
    - rewrite <- (assoc_L (++)). replace (S (msize e1) + n) with (msize e1 + S n) by lia. rewrite IHe1 by done. cbn [app p_members].
      no. yes. eatt. rewrite <- (assoc_L (++)). eapply bind_step; [apply Hp; [done|hd]|]. cbn beta. cbn [app]. eatt. reflexivity.
  Qed.
  Lemma p_members_stop n e rest : heads F0 rest -> p_members (S n) p e rest = Some (e, rest).
  Proof. intros H. cbn [p_members]. heads_cases H; (apply when_no; [lits|apply when_no; [lits|reflexivity]]). Qed.

  Definition p_primary : tparser expr :=
    when "-" (get _ <- eat "-"; get z <- integer; tret (ENum (- z)))
    (when "{" (get _ <- eat "{}"; tret EObj)
    (when "undefined" (get _ <- eat "undefined"; tret EUndef)
    (when "new" (get _ <- eat "new Array("; get e <- p; get _ <- eat ")"; tret (ENewArr e))
    (when "reader." (get _ <- eat "reader."; p_call p)
    (fun ts => match ts with
               | TId x :: ts => p_members (S (length ts)) p (EVar x) ts
               | _ => (get z <- integer; tret (ENum z)) ts
               end))))).
  Lemma integer_step {A} u (k : Z -> tparser A) r res : k (Z.of_uint u) r = res -> tbind integer k (TNum (NilZero.string_of_uint u) :: r) = res.
  Proof. intros H. unfold tbind, integer. destruct (uint_read u) as (d & -> & -> & _). done. Qed.
  Lemma without_app a s : without a (a +:+ s) = Some s.
  Proof. induction a as [|c a IH]; [by destruct s|]. rewrite sapp_cons. cbn. by rewrite decide_True. Qed.
  Lemma member_case e rest : member e -> heads F0 rest -> p_primary (toks_e e ++ rest) = Some (e, rest).
  Proof.
    intros He Hr. destruct (member_toks e He) as (-> & Hx & Hl). cbn [app]. unfold p_primary.
    apply when_no; [by eapply next_ne; [vm_compute; reflexivity|]|].
    apply when_no; [by eapply next_ne; [vm_compute; reflexivity|]|].
    do 3 noroot.
    rewrite app_length. replace (S (length (mtail e) + length rest)) with (msize e + S (length (mtail e) - msize e + length rest)) by lia.
    rewrite p_members_steps by done. by apply p_members_stop.
  Qed.
  Lemma primary_case e rest : primary e -> heads F0 rest -> p_primary (toks_e e ++ rest) = Some (e, rest).
  Proof.
    destruct e as [x|z| | |e f|e i|m|e|e|a b|a b|a b|e]; try (intros He; by apply member_case); cbn [primary toks_e]; intros He Hr.
    - unfold toks_Z, p_primary. pose proof (DecimalZ.of_to z) as Hz. destruct (Z.to_int z) as [u|u]; cbn in Hz; cbn [app].
      + do 5 no. apply integer_step. by rewrite Hz.
      + yes. eatt. apply integer_step. by rewrite Hz.
    - unfold p_primary. do 2 no. yes. cbn [app]. eatt. reflexivity.
    - unfold p_primary. no. yes. cbn [app]. eatt. reflexivity.
    - unfold p_primary. cbn [app]. do 4 no. yes. eatt. unfold p_call. idt.
      change (String.append "read_" m) with ("read_" +:+ m). rewrite without_app. rewrite decide_False by apply He. eatt. reflexivity.
    - unfold p_primary. cbn [app]. do 4 no. yes. eatt. unfold p_call. idt.
      change (without "read_" "read_string") with (Some "string"). cbn [decide]. rewrite decide_True by done. eatt.
      rewrite <- (assoc_L (++)). eapply bind_step; [apply Hp; [done|hd]|]. cbn beta. cbn [app]. eatt. reflexivity.
    - unfold p_primary. cbn [app]. do 3 no. yes. eatt.
      rewrite <- (assoc_L (++)). eapply bind_step; [apply Hp; [done|hd]|]. cbn beta. cbn [app]. eatt. reflexivity.
  Qed.
  Definition p_unit : tparser expr := get e <- p_primary; when "as number" (get _ <- eat "as number"; tret (EAs e)) (tret e).
  Lemma unit_case e rest : unitary e -> heads F1 rest -> p_unit (toks_e e ++ rest) = Some (e, rest).
  Proof.
    intros He Hr. assert (heads F0 rest) as H0 by (eapply heads_mono; [|exact Hr]; by constructor).
    assert (forall e, primary e -> p_unit (toks_e e ++ rest) = Some (e, rest)) as H.
    { intros e' He'. unfold p_unit. eapply bind_step; [by apply primary_case|]. cbn beta.
      heads_cases Hr; (apply when_no; [lits|reflexivity]). }
    destruct e; try (by apply H). cbn [unitary toks_e] in *. rewrite <- (assoc_L (++)). cbn [app]. unfold p_unit.
    eapply bind_step; [apply primary_case; [done|hd]|]. cbn beta. yes. eatt. reflexivity.
  Qed.
  Definition p_compare : tparser expr :=
    get a <- p_unit;
    when "<=" (get _ <- eat "<="; get b <- p_unit; tret (ELe a b))
    (when ">" (get _ <- eat ">"; get b <- p_unit; tret (EGt a b)) (tret a)).
  Lemma compare_case e rest : comparison e -> heads F2 rest -> p_compare (toks_e e ++ rest) = Some (e, rest).
  Proof.
    intros He Hr. assert (heads F1 rest) as H0 by (eapply heads_mono; [|exact Hr]; do 2 constructor; done).
    assert (forall e, unitary e -> p_compare (toks_e e ++ rest) = Some (e, rest)) as H.
    { intros e' He'. unfold p_compare. eapply bind_step; [by apply unit_case|]. cbn beta.
      heads_cases Hr; (apply when_no; [lits|apply when_no; [lits|reflexivity]]). }
    destruct e; try (by apply H); cbn [comparison toks_e] in *.
    - destruct He. rewrite <- (assoc_L (++)). unfold p_compare. eapply bind_step; [apply unit_case; [done|hd]|]. cbn beta. cbn [app].
      yes. eatt. eapply bind_step; [by apply unit_case|]. reflexivity.
    - destruct He. rewrite <- (assoc_L (++)). unfold p_compare. eapply bind_step; [apply unit_case; [done|hd]|]. cbn beta. cbn [app].
      no. yes. eatt. eapply bind_step; [by apply unit_case|]. reflexivity.
  Qed.
  Definition p_and : tparser expr :=
    get a <- p_compare; when "&&" (get _ <- eat "&&"; get b <- p_compare; tret (EAnd a b)) (tret a).
  Lemma and_case e rest : conjunction e -> heads F3 rest -> p_and (toks_e e ++ rest) = Some (e, rest).
  Proof.
    intros He Hr. assert (heads F2 rest) as H0 by (eapply heads_mono; [|exact Hr]; constructor; done).
    assert (forall e, comparison e -> p_and (toks_e e ++ rest) = Some (e, rest)) as H.
    { intros e' He'. unfold p_and. eapply bind_step; [by apply compare_case|]. cbn beta.
      heads_cases Hr; (apply when_no; [lits|reflexivity]). }
    destruct e; try (by apply H); cbn [conjunction toks_e] in *.
    destruct He. rewrite <- (assoc_L (++)). unfold p_and. eapply bind_step; [apply compare_case; [done|hd]|]. cbn beta. cbn [app].
    yes. eatt. eapply bind_step; [by apply compare_case|]. reflexivity.
  Qed.
End level.
Fixpoint level_ok (n : nat) : expr -> Prop := match n with O => fun _ => False | S n => conjunction (level_ok n) end.
Lemma p_expr_case n : forall e rest, level_ok n e -> heads F3 rest -> p_expr n (toks_e e ++ rest) = Some (e, rest).
Proof.
  induction n as [|n IH]; [done|]. intros e rest He Hr. change (p_expr (S n)) with (p_and (p_expr n)). eapply and_case; [exact IH|done|done].
Qed.
Definition expr_ok : expr -> Prop := level_ok 3.
Lemma expression_step {A} e (k : expr -> tparser A) rest res : expr_ok e -> heads F3 rest -> k e rest = res -> tbind expression k (toks_e e ++ rest) = res.
Proof. intros He Hr H. eapply bind_step; [by apply p_expr_case|done]. Qed.

(** ** Statements *)
Definition place_ok (e : expr) : Prop := member (level_ok 2) e.
Lemma place_expr e : place_ok e -> expr_ok e.
Proof. destruct e; by cbn. Qed.
Definition simple_ok (s : simple) : Prop :=
  match s with
  | Let _ _ e | Write _ e => expr_ok e
  | Assign l e => place_ok l /\ expr_ok e
  | Fail => True
  end.
Lemma simple_case s rest : simple_ok s -> p_simple (toks_s s ++ rest) = Some (s, rest).
Proof.
  destruct s as [any x e|l e|m e|]; cbn [simple_ok toks_s]; intros H; unfold p_simple.
  - destruct any; cbn [app].
    + yes. eatt. idt. eapply bind_step; [yes; eatt; reflexivity|]. cbn beta. eatt. rewrite <- (assoc_L (++)).
      apply expression_step; [done|hd|]. cbn [app]. eatt. reflexivity.
    + yes. eatt. idt. eapply bind_step; [no; reflexivity|]. cbn beta. eatt. rewrite <- (assoc_L (++)).
      apply expression_step; [done|hd|]. cbn [app]. eatt. reflexivity.
  - destruct H as [Hl He]. destruct (member_toks _ _ Hl) as (E & Hx & _). rewrite <- (assoc_L (++)).
    apply when_no; [rewrite E; eapply next_root; [vm_compute; reflexivity|eassumption|by cbn]|].
    apply when_no; [rewrite E; eapply next_root; [vm_compute; reflexivity|eassumption|by cbn]|].
    apply when_no; [rewrite E; eapply next_root; [vm_compute; reflexivity|eassumption|by cbn]|].
    apply expression_step; [by apply place_expr|hd|]. cbn [app]. eatt. rewrite <- (assoc_L (++)).
    apply expression_step; [done|hd|]. cbn [app]. eatt. reflexivity.
  - cbn [app]. no. yes. eatt. idt. change (String.append "write_" m) with ("write_" +:+ m). rewrite without_app. eatt. rewrite <- (assoc_L (++)).
    apply expression_step; [done|hd|]. cbn [app]. eatt. reflexivity.
  - cbn [app]. do 2 no. yes. eatt. reflexivity.
Qed.
(** the first token of a simple statement *)
Lemma simple_head s : simple_ok s -> exists x l, toks_s s = TId x :: l /\ (root x \/ x ∈ ["let"; "writer"; "reader"]).
Proof.
  destruct s as [any x e|l e|m e|]; cbn [simple_ok toks_s]; intros H.
  - do 2 eexists. split; [done|]. right. apply (bool_decide_unpack _). by vm_compute.
  - destruct H as [Hl He]. destruct (member_toks _ _ Hl) as (-> & Hx & _). do 2 eexists. split; [done|]. by left.
  - do 2 eexists. split; [done|]. right. apply (bool_decide_unpack _). by vm_compute.
  - do 2 eexists. split; [done|]. right. apply (bool_decide_unpack _). by vm_compute.
Qed.
Lemma simple_not s t u l rest : simple_ok s -> tokens t = u :: l ->
  match u with TId y => y ∉ ["let"; "writer"; "reader"] /\ match y with String c _ => c ≠ "o"%char /\ c ≠ "t"%char | EmptyString => True end | _ => True end ->
  next_is t (toks_s s ++ rest) = false.
Proof.
  intros Hs Ht Hu. destruct (simple_head s Hs) as (x & l' & -> & Hx). cbn [app]. apply (next_ne _ _ _ _ _ Ht). intros ->.
  destruct Hu as [H1 H2]. destruct Hx as [Hx|Hx]; [|done]. exact (root_ne x x Hx H2 eq_refl).
Qed.
Ltac nosimple := apply when_no; [eapply simple_not; [eassumption|vm_compute; reflexivity|cbn; first [exact I|split; [apply (bool_decide_unpack _); vm_compute; exact I|split; discriminate]]]|].

Fixpoint stmt_ok (s : stmt) : Prop :=
  match s with
  | SSimple s => simple_ok s
  | SIf c b1 b2 => expr_ok c /\ fold_right (fun s P => stmt_ok s /\ P) True b1 /\ fold_right (fun s P => stmt_ok s /\ P) True b2
  | SIfLine c s1 s2 => expr_ok c /\ simple_ok s1 /\ simple_ok s2
  | SFor i n b => expr_ok n /\ fold_right (fun s P => stmt_ok s /\ P) True b
  | SSwitch e s b => expr_ok e /\ simple_ok s /\ fold_right (fun s P => stmt_ok s /\ P) True b
  end.
Definition block_ok (b : list stmt) : Prop := fold_right (fun s P => stmt_ok s /\ P) True b.
Lemma block_ok_in b s : block_ok b -> s ∈ b -> stmt_ok s.
Proof.
  unfold block_ok. induction b as [|x b IH]; intros H Hin; [by apply elem_of_nil in Hin|]. destruct H.
  apply elem_of_cons in Hin as [->|Hin]; auto.
Qed.
Fixpoint depth (s : stmt) : nat :=
  let deepest b := fold_right (fun s n => max (depth s) n) 0 b in
  match s with
  | SSimple _ | SIfLine _ _ _ => 1
  | SIf _ b1 b2 => S (max (deepest b1) (deepest b2))
  | SFor _ _ b | SSwitch _ _ b => S (deepest b)
  end.
Definition deepest (b : list stmt) : nat := fold_right (fun s n => max (depth s) n) 0 b.
Lemma deepest_in b s : s ∈ b -> depth s <= deepest b.
Proof.
  unfold deepest. induction b as [|x b IH]; intros Hin; [by apply elem_of_nil in Hin|]. cbn [fold_right].
  apply elem_of_cons in Hin as [->|Hin]; [lia|]. specialize (IH Hin). lia.
Qed.
Lemma depth_toks s : stmt_ok s -> depth s <= length (toks s).
Proof.
  assert (forall b, Forall (fun s => stmt_ok s -> depth s <= length (toks s)) b -> block_ok b -> deepest b <= length (toks_b b)) as HB.
  { unfold deepest, toks_b. induction 1 as [|x b Hx _ IH]; [done|]. intros [H1 H2]. cbn [fold_right List.map List.concat].
    rewrite app_length. specialize (Hx H1). specialize (IH H2). lia. }
  induction s as [s|c b1 b2 IH1 IH2|c s1 s2|i n b IH|e s b IH] using stmt_ind'; cbn [stmt_ok depth toks].
  - intros H. destruct (simple_head s H) as (x & l & -> & _). cbn. lia.
  - intros (_ & H1 & H2). specialize (HB _ IH1 H1) as G1. specialize (HB _ IH2 H2) as G2. unfold deepest, toks_b in *.
    cbn [length]. rewrite app_length. cbn [length]. rewrite app_length. cbn [length]. rewrite app_length. lia.
  - intros _. cbn [length]. lia.
  - intros (_ & H). specialize (HB _ IH H) as G. unfold deepest, toks_b in *.
    cbn [length]. rewrite app_length. cbn [length]. rewrite app_length. lia.
  - intros (_ & _ & H). specialize (HB _ IH H) as G. unfold deepest, toks_b in *.
    cbn [length]. rewrite app_length. cbn [length]. rewrite app_length. cbn [length]. rewrite app_length. lia.
Qed.

Lemma many_case {A} (tk : A -> list token) stop (p : tparser A) l rest k :
  (forall a r, a ∈ l -> p (tk a ++ r) = Some (a, r) /\ stop (tk a ++ r) = false) -> stop rest = true -> length l <= k ->
  many k stop p (List.concat (List.map tk l) ++ rest) = Some (l, rest).
Proof.
  intros H Hs. revert k. induction l as [|a l IH]; intros k Hk.
  - cbn [List.map List.concat app]. destruct k; cbn [many]; by rewrite Hs.
  - cbn [List.map List.concat]. rewrite <- (assoc_L (++)). destruct k as [|k]; [cbn in Hk; lia|]. cbn [many].
    destruct (H a (List.concat (List.map tk l) ++ rest)) as [H1 H2]; [by left|]. rewrite H2.
    eapply bind_step; [exact H1|]. cbn beta. eapply bind_step; [apply IH; [|cbn in Hk; lia]|reflexivity]. intros. apply H. by right.
Qed.
Lemma length_concat {A} (tk : A -> list token) l rest : (forall a, a ∈ l -> tk a ≠ []) -> length l <= length (List.concat (List.map tk l) ++ rest).
Proof.
  intros H. induction l as [|a l IH]; [cbn; lia|]. cbn [List.map List.concat length]. rewrite <- (assoc_L (++)), app_length.
  assert (tk a ≠ []) as Ha by (apply H; by left). destruct (tk a); [done|]. cbn [length].
  assert (length l <= length (List.concat (List.map tk l) ++ rest)) by (apply IH; intros; apply H; by right). lia.
Qed.

(** a condition is not the test of the epilogue *)
Definition failtest : list token := [TId "reader"; TSym "."; TId "failed"; TSym ")"].
Lemma not_failtest e : expr_ok e -> forall r, eats failtest (toks_e e ++ r) = None.
Proof.
  assert (forall Q e, primary Q e -> forall r, eats failtest (toks_e e ++ r) = None) as H1.
  { intros Q e' He r. assert (member Q e' -> eats failtest (toks_e e' ++ r) = None) as Hm.
    { intros Hm. destruct (member_toks _ _ Hm) as (-> & Hx & _). cbn [app eats failtest]. rewrite decide_False; [done|]. by apply root_ne. }
    destruct e'; try (by apply Hm); cbn [toks_e].
    - unfold toks_Z. destruct (Z.to_int z); cbn [app eats failtest]; by rewrite decide_False.
    - lits.
    - lits.
    - lits.
    - lits.
    - lits. }
  assert (forall Q e, unitary Q e -> forall r, eats failtest (toks_e e ++ r) = None) as H2.
  { intros Q e' He r. destruct e'; try (by apply (H1 Q)). cbn [toks_e]. rewrite <- (assoc_L (++)). by apply (H1 Q). }
  assert (forall Q e, comparison Q e -> forall r, eats failtest (toks_e e ++ r) = None) as H3.
  { intros Q e' He r. destruct e'; try (by apply (H2 Q)); cbn [toks_e]; rewrite <- (assoc_L (++)); by apply (H2 Q), He. }
  intros He r. unfold expr_ok in He. cbn [level_ok] in He.
  destruct e; try (by apply (H3 (level_ok 2))); cbn [toks_e]; rewrite <- (assoc_L (++)). by apply (H3 (level_ok 2)), He.
Qed.

Lemma ends_not_simple s rest : simple_ok s -> block_ends (toks_s s ++ rest) = false.
Proof.
  intros H. unfold block_ends.
  assert (forall y, y ∉ ["let"; "writer"; "reader"] -> match y with String c _ => c ≠ "o"%char /\ c ≠ "t"%char | EmptyString => True end ->
    forall t l, tokens t = TId y :: l -> next_is t (toks_s s ++ rest) = false) as G by (intros; by eapply simple_not).
  rewrite (G "return" ltac:(apply (bool_decide_unpack _); vm_compute; exact I) ltac:(split; discriminate) "return" [] eq_refl).
  rewrite (G "if" ltac:(apply (bool_decide_unpack _); vm_compute; exact I) ltac:(split; discriminate) "if (reader.failed)" (TSym "(" :: failtest) eq_refl).
  rewrite (simple_not s "}" (TSym "}") [] rest); done.
Qed.
Lemma ends_not s rest : stmt_ok s -> block_ends (toks s ++ rest) = false.
Proof.
  assert (forall c l, expr_ok c -> block_ends (TId "if" :: TSym "(" :: toks_e c ++ l) = false) as Hif.
  { intros c l Hc. unfold block_ends, next_is, eat.
    change (tokens "}") with [TSym "}"]. change (tokens "return") with [TId "return"].
    change (tokens "if (reader.failed)") with (TId "if" :: TSym "(" :: failtest). cbn [eats].
    rewrite (decide_False (P := TSym "}" = TId "if")) by done. rewrite (decide_False (P := TId "return" = TId "if")) by done.
    rewrite !decide_True by done. by rewrite not_failtest. }
  destruct s as [s|c b1 b2|c s1 s2|i n b|e s b]; cbn [stmt_ok toks]; intros H.
  - by apply ends_not_simple.
  - cbn [app]. rewrite <- (assoc_L (++)). apply Hif, H.
  - cbn [app]. rewrite <- (assoc_L (++)). apply Hif, H.
  - lits.
  - lits.
Qed.
Lemma toks_nonempty s : stmt_ok s -> toks s ≠ [].
Proof.
  destruct s as [s|c b1 b2|c s1 s2|i n b|e s b]; cbn [stmt_ok toks]; intros H; try done.
  destruct (simple_head s H) as (x & l & -> & _). done.
Qed.

Lemma block_case n b rest : (forall s r, s ∈ b -> p_stmt n (toks s ++ r) = Some (s, r)) -> block_ok b -> block_ends rest = true ->
  many (length (toks_b b ++ rest)) block_ends (p_stmt n) (toks_b b ++ rest) = Some (b, rest).
Proof.
  intros H Hb Hr. apply many_case; [|done|].
  - intros s r Hs. split; [by apply H|]. apply ends_not. by eapply block_ok_in.
  - apply length_concat. intros s Hs. apply toks_nonempty. by eapply block_ok_in.
Qed.
Lemma stmt_case s : forall n rest, stmt_ok s -> depth s <= n -> p_stmt n (toks s ++ rest) = Some (s, rest).
Proof.
  induction s as [s|c b1 b2 IH1 IH2|c s1 s2|i m b IH|e s b IH] using stmt_ind'; intros [|n] rest Hs Hn;
    try (cbn [depth] in Hn; lia); cbn [p_stmt stmt_ok toks depth] in *.
  - do 3 nosimple. eapply bind_step; [by apply simple_case|reflexivity].
  - destruct Hs as (Hc & H1 & H2). rewrite Forall_forall in IH1, IH2.
    fold (deepest b1) in Hn. fold (deepest b2) in Hn. fold (toks_b b1). fold (toks_b b2).
    lnorm. yes. eatt. apply expression_step; [done|hd|]. eatt. yes. eatt.
    eapply bind_step; [apply block_case; [|exact H1|lits]|].
    { intros s r Hin. apply IH1; [done|exact (block_ok_in _ _ H1 Hin)|]. pose proof (deepest_in _ _ Hin). lia. }
    cbn beta. eatt. eapply bind_step; [apply block_case; [|exact H2|lits]|].
    { intros s r Hin. apply IH2; [done|exact (block_ok_in _ _ H2 Hin)|]. pose proof (deepest_in _ _ Hin). lia. }
    cbn beta. eatt. reflexivity.
  - destruct Hs as (Hc & H1 & H2). lnorm. yes. eatt. apply expression_step; [done|hd|]. eatt. nosimple.
    eapply bind_step; [by apply simple_case|]. cbn beta. eatt. eapply bind_step; [by apply simple_case|]. reflexivity.
  - destruct Hs as (Hm & H1). rewrite Forall_forall in IH. fold (deepest b) in Hn. fold (toks_b b).
    lnorm. no. yes. eatt. idt. eatt. apply again_step. eatt. apply expression_step; [done|hd|]. eatt. apply again_step. eatt.
    eapply bind_step; [apply block_case; [|exact H1|lits]|].
    { intros s r Hin. apply IH; [done|exact (block_ok_in _ _ H1 Hin)|]. pose proof (deepest_in _ _ Hin). lia. }
    cbn beta. eatt. reflexivity.
  - destruct Hs as (He & Hs & H1). rewrite Forall_forall in IH. fold (deepest b) in Hn. fold (toks_b b).
    lnorm. do 2 no. yes. eatt. apply expression_step; [done|hd|]. eatt. eapply bind_step; [by apply simple_case|]. cbn beta. eatt.
    eapply bind_step; [apply block_case; [|exact H1|lits]|].
    { intros s' r Hin. apply IH; [done|exact (block_ok_in _ _ H1 Hin)|]. pose proof (deepest_in _ _ Hin). lia. }
    cbn beta. eatt. reflexivity.
Qed.
Lemma statements_step {A} b (k : list stmt -> tparser A) rest res : block_ok b -> block_ends rest = true -> k b rest = res ->
  tbind statements k (toks_b b ++ rest) = res.
Proof.
  intros Hb Hr H. eapply bind_step; [|exact H]. unfold statements. apply block_case; [|done|done].
  intros s r Hs. apply stmt_case; [by eapply block_ok_in|]. 
  assert (stmt_ok s) as Hok by by eapply block_ok_in.
  transitivity (length (toks s)); [by apply depth_toks|]. rewrite app_length. unfold toks_b. clear H Hr Hok Hb.
  induction b as [|x b IH]; [by apply elem_of_nil in Hs|]. cbn [List.map List.concat]. rewrite app_length.
  apply elem_of_cons in Hs as [->|Hs]; [lia|]. specialize (IH Hs). lia.
Qed.

(** ** Class, declarations, module *)
Lemma type_step {A} t (k : string -> tparser A) rest res : type_ok t -> k t (TSym "," :: rest) = res -> tbind p_type k (tokens t ++ TSym "," :: rest) = res.
Proof.
  intros (a & b & c & d & -> & Ha & Hb) H. rewrite (soft_tokens _ _ (soft_type a b c d Ha Hb)).
  eapply bind_step; [|exact H]. unfold type_toks, p_type. cbn [app]. idt.
  destruct b as [b|].
  - cbn [app]. eapply bind_step; [yes; eatt; idt; reflexivity|]. cbn beta. destruct c; cbn [app].
    + eapply bind_step; [yes; eatt; reflexivity|]. cbn beta. destruct d; cbn [app].
      * eapply bind_step; [yes; eatt; reflexivity|]. reflexivity.
      * eapply bind_step; [no; reflexivity|]. reflexivity.
    + destruct d; cbn [app].
      * eapply bind_step; [no; reflexivity|]. cbn beta. eapply bind_step; [yes; eatt; reflexivity|]. reflexivity.
      * eapply bind_step; [no; reflexivity|]. cbn beta. eapply bind_step; [no; reflexivity|]. reflexivity.
  - cbn [app]. destruct c; cbn [app].
    + eapply bind_step; [no; reflexivity|]. cbn beta. eapply bind_step; [yes; eatt; reflexivity|]. cbn beta. destruct d; cbn [app].
      * eapply bind_step; [yes; eatt; reflexivity|]. reflexivity.
      * eapply bind_step; [no; reflexivity|]. reflexivity.
    + destruct d; cbn [app].
      * eapply bind_step; [no; reflexivity|]. cbn beta. eapply bind_step; [no; reflexivity|]. cbn beta. eapply bind_step; [yes; eatt; reflexivity|]. reflexivity.
      * eapply bind_step; [no; reflexivity|]. cbn beta. eapply bind_step; [no; reflexivity|]. cbn beta. eapply bind_step; [no; reflexivity|]. reflexivity.
Qed.
Definition class_ok (k : cls) : Prop := words_k k /\ block_ok (k_read k) /\ block_ok (k_write k).
Lemma param_case p r : type_ok p.2 -> p_param (toks_param p ++ r) = Some (p, r).
Proof.
  intros Ht. unfold p_param, toks_param. lnorm. eatt. idt. eatt. apply type_step; [done|]. eatt. by destruct p.
Qed.
Lemma class_case k rest : class_ok k -> p_class (toks_k k ++ rest) = Some (k, rest).
Proof.
  intros [(Hn & Hp & _) [Hr Hw]]. unfold toks_k, p_class. rewrite Forall_forall in Hp.
  toks_now. lnorm. eatt. idt. eatt.
  eapply bind_step; [apply (many_case toks_param)|].
  { intros p r Hin. split; [apply param_case; by destruct (Hp _ Hin)|]. destruct p. lits. }
  { lits. }
  { by apply length_concat. }
  cbn beta. eatt. apply again_step. eatt. apply again_step. eatt.
  apply statements_step; [done|lits|]. eatt. apply statements_step; [done|lits|]. eatt. by destruct k.
Qed.
Lemma natural_step {A} n (k : nat -> tparser A) r res : k n r = res -> tbind natural k (TNum (string_of_nat n) :: r) = res.
Proof.
  intros H. unfold tbind, natural, string_of_nat. destruct (uint_read (Nat.to_uint n)) as (d & -> & _ & ->).
  by rewrite DecimalNat.Unsigned.of_to.
Qed.
Lemma variant_case v r : p_variant (toks_variant v ++ r) = Some (v, r).
Proof. unfold p_variant, toks_variant, toks_nat. toks_now. lnorm. idt. eatt. apply natural_step. eatt. by destruct v. Qed.
Lemma member_line_case m r : type_ok m.2 -> p_member (toks_member m ++ r) = Some (m, r).
Proof.
  intros Ht. destruct m as [[m o] t]. unfold p_member, toks_member. cbn [fst snd] in *. lnorm. idt. destruct o; lnorm.
  - eapply bind_step; [yes; eatt; reflexivity|]. cbn beta. eatt. apply type_step; [done|]. eatt. reflexivity.
  - eapply bind_step; [no; reflexivity|]. cbn beta. eatt. apply type_step; [done|]. eatt. reflexivity.
Qed.
Lemma decl_case d r : words_d d -> p_decl (toks_d d ++ r) = Some (d, r).
Proof.
  destruct d as [n vs|n ms]; cbn [words_d toks_d]; intros [Hn H]; unfold p_decl; toks_now; lnorm.
  - yes. eatt. idt. eatt. eapply bind_step; [apply (many_case toks_variant)|].
    { intros v r' _. split; [apply variant_case|]. destruct v. lits. }
    { lits. }
    { by apply length_concat. }
    cbn beta. eatt. reflexivity.
  - no. eatt. idt. eatt. rewrite Forall_forall in H. eapply bind_step; [apply (many_case toks_member)|].
    { intros m r' Hin. split; [apply member_line_case; by destruct (H _ Hin)|]. destruct m as [[??]?]. lits. }
    { lits. }
    { by apply length_concat. }
    cbn beta. eatt. reflexivity.
Qed.
Lemma module_case ds k : Forall words_d ds -> class_ok k -> p_module (toks_m ds k) = Some (ds, k, []).
Proof.
  intros Hd Hk. unfold p_module, toks_m. rewrite Forall_forall in Hd.
  eapply bind_step; [apply eats_app|]. cbn beta. toks_now. lnorm. eatt. idt. eatt.
  eapply bind_step; [apply (many_case toks_d)|].
  { intros d r Hin. split; [by apply decl_case, Hd|]. destruct d; cbn [toks_d]; toks_now; lits. }
  { lits. }
  { apply length_concat. intros [] _; cbn [toks_d]; toks_now; done. }
  cbn beta. eatt. rewrite <- (app_nil_r (toks_k k)). eapply bind_step; [by apply class_case|]. cbn beta. by rewrite decide_True.
Qed.
Lemma read_printed m : on_one_line (m_version m) -> on_one_line (m_now m) -> Forall words_d (m_decls m) -> class_ok (m_class m) ->
  read_ts (print_module m) = Some (m_decls m, m_class m).
Proof.
  intros Hv Hn Hd Hk. unfold read_ts. rewrite tokens_module by (try done; apply Hk). by rewrite module_case.
Qed.
