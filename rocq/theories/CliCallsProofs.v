(** Proofs for C113. *)
From Verif Require Export CliCallsSpec.

Lemma texts_read_app a b : texts_read (a ++ b) = texts_read a ++ texts_read b.
Proof. apply omap_app. Qed.
Lemma texts_written_app a b : texts_written (a ++ b) = texts_written a ++ texts_written b.
Proof. apply omap_app. Qed.
(** [m] makes calls that satisfy [P] with the result, or [F] if it fails *)
Definition does {A : Type} (m : oio A) (F : list call -> Prop) (P : list call -> A -> Prop) : Prop := forall tr tr' r, m tr = (tr', r) -> exists ev, tr' = tr ++ ev /\ match r with Ok a => P ev a | _ => F ev end.
Lemma does_lift {A : Type} (r : res A) (F : list call -> Prop) (P : list call -> A -> Prop) : match r with Ok a => P [] a | _ => F [] end -> does (olift r) F P.
Proof. intros H tr tr' r' [= <- <-]. exists []. by rewrite app_nil_r. Qed.
Lemma does_ret {A : Type} (a : A) (F : list call -> Prop) (P : list call -> A -> Prop) : P [] a -> does (oret a) F P.
Proof. intros H. by apply (does_lift (Ok a)). Qed.
Lemma does_bind {A B : Type} (m : oio A) (k : A -> oio B) (F1 F2 F : list call -> Prop) (P : list call -> A -> Prop) (Q : A -> list call -> B -> Prop) (S : list call -> B -> Prop) :
  does m F1 P -> (forall a, does (k a) F2 (Q a)) -> (forall ev, F1 ev -> F ev) -> (forall ev1 ev2 a, P ev1 a -> F2 ev2 -> F (ev1 ++ ev2)) -> (forall ev1 ev2 a b, P ev1 a -> Q a ev2 b -> S (ev1 ++ ev2) b) -> does (obind m k) F S.
Proof.
  intros H1 H2 Hf Hf2 Hs tr tr' r. unfold obind. destruct (m tr) as [tr1 r1] eqn:M. destruct (H1 _ _ _ M) as (ev1 & -> & P1). destruct r1 as [a| | |]; [|intros [= <- <-]; exists ev1; (split; [done|]); by apply Hf..].
  intros K. destruct (H2 a _ _ _ K) as (ev2 & -> & P2). exists (ev1 ++ ev2). rewrite app_assoc. split; [done|]. destruct r; [by eapply Hs|by eapply Hf2..].
Qed.
Lemma does_weaken {A : Type} (m : oio A) (F F' : list call -> Prop) (P P' : list call -> A -> Prop) : does m F P -> (forall ev, F ev -> F' ev) -> (forall ev a, P ev a -> P' ev a) -> does m F' P'.
Proof. intros H H1 H2 tr tr' r M. destruct (H _ _ _ M) as (ev & -> & HP). exists ev. split; [done|]. destruct r; [by apply H2|by apply H1..]. Qed.

(** all calls but the last are fine *)
Definition halted (ev : list call) : Prop := Forall no_error (removelast ev).
Lemma fine_halted ev : Forall no_error ev -> halted ev.
Proof.
  intros H. unfold halted. destruct ev as [|c ev] using rev_ind; [constructor|]. rewrite removelast_last. by apply Forall_app in H as [? _].
Qed.
Lemma halted_app a b : Forall no_error a -> halted b -> halted (a ++ b).
Proof.
  intros Ha Hb. destruct (decide (b = [])) as [->|Hn]; [rewrite app_nil_r; by apply fine_halted|]. unfold halted. rewrite removelast_app by done. by apply Forall_app.
Qed.
(** the calls are among [R]; they are fine, all but the last if it fails *)
Definition good_end (R : call -> Prop) (ev : list call) : Prop := Forall R ev /\ Forall no_error ev.
Definition bad_end (R : call -> Prop) (ev : list call) : Prop := Forall R ev /\ halted ev.
Lemma good_bad R ev : good_end R ev -> bad_end R ev.
Proof. intros [H1 H2]. split; [done|by apply fine_halted]. Qed.
Lemma good_app R a b : good_end R a -> good_end R b -> good_end R (a ++ b).
Proof. intros [] []. split; by apply Forall_app. Qed.
Lemma bad_app R a b : good_end R a -> bad_end R b -> bad_end R (a ++ b).
Proof. intros [] []. split; [by apply Forall_app|by apply halted_app]. Qed.
Lemma good_nil R : good_end R []. Proof. split; constructor. Qed.
Lemma bad_nil R : bad_end R []. Proof. apply good_bad, good_nil. Qed.
Lemma good_one (R : call -> Prop) c : R c -> no_error c -> good_end R [c].
Proof. intros. split; by apply Forall_singleton. Qed.
Lemma bad_one (R : call -> Prop) c : R c -> bad_end R [c].
Proof. intros. split; [by apply Forall_singleton|]. constructor. Qed.

Section calls.
  Context (O : os) (E : env).
  Section look.
  Context (base : string) (dir : bool).
  Notation L := (looks base dir).
  Definition silent {A : Type} (ev : list call) (a : A) : Prop := good_end L ev /\ texts_read ev = [].
  Definition compiled (rd : string * text) (s : schema) : Prop := s_path s = rd.1 /\ code_for E rd.2 (s_generated s).
  Definition looked (ev : list call) (found : list schema) : Prop := good_end L ev /\ Forall2 compiled (texts_read ev) found.
  Lemma does_metadata s : under base s -> does (ometadata O s) (bad_end L) silent.
  Proof. intros H tr tr' r [= <- <-]. eexists. split; [done|]. destruct (o_meta O tr s); cbn; [split; [by apply good_one|done]|by apply bad_one]. Qed.
  Lemma does_is_dir s : under base s -> does (ois_dir O s) (bad_end L) silent.
  Proof. intros H tr tr' r [= <- <-]. eexists. split; [done|]. split; [by apply good_one|done]. Qed.
  Lemma does_read_dir s : under base s -> does (oread_dir O s) (bad_end L) silent.
  Proof. intros H tr tr' r [= <- <-]. eexists. split; [done|]. destruct (o_list O tr s); cbn; [split; [by apply good_one|done]|by apply bad_one]. Qed.
  Lemma does_next s : under base s -> does (onext O s) (bad_end L) silent.
  Proof. intros H tr tr' r [= <- <-]. eexists. split; [done|]. destruct (o_next O tr s); cbn; [split; [by apply good_one|done]|by apply bad_one]. Qed.
  Lemma does_run_one s : L (Reads s None) -> does (orun_one O E s) (bad_end L) (fun ev x => good_end L ev /\ Forall2 compiled (texts_read ev) [x]).
  Proof.
    intros Hs. assert (forall a, L (Reads s a)) as Ha by (intros a; exact Hs).
    eapply (does_bind _ _ (bad_end L) (bad_end L) _ (fun ev c => good_end L ev /\ texts_read ev = [(s, c)]) (fun c ev x => good_end L ev /\ texts_read ev = [] /\ s_path x = s /\ code_for E c (s_generated x))).
    - intros tr tr' r [= <- <-]. eexists. split; [done|]. destruct (o_read O tr s) as [c|]; [destruct (from_utf8 c)|]; cbn; [split; [by apply good_one|done]|by apply bad_one..].
    - intros c. eapply (does_bind _ _ (bad_end L) (bad_end L) _ (fun ev t => ev = [] /\ code_for E c t) (fun t ev x => ev = [] /\ x = Schema s t)).
      + intros tr tr' r. unfold ocompile, compile_io, tick. cbn [w_op w_fs snd]. intros [= <- <-]. exists []. split; [by rewrite app_nil_r|].
        destruct (compile _ _ _ _ c) as [[t| |]| | |] eqn:C; try (apply bad_nil). split; [done|]. by exists (o_time O tr).
      + intros t. by apply does_ret.
      + done.
      + by intros ev1 ev2 t [-> _] H.
      + intros ev1 ev2 t x [-> H] [-> ->]. split; [apply good_nil|done].
    - done.
    - intros ev1 ev2 c [H _] H2. by apply bad_app.
    - intros ev1 ev2 c x [H1 R1] (H2 & R2 & Hp & Hc). split; [by apply good_app|]. rewrite texts_read_app, R1, R2. cbn [app]. constructor; [by split|constructor].
  Qed.
  Lemma silent_bind {A B : Type} (m : oio A) (k : A -> oio B) (P : list call -> B -> Prop) : does m (bad_end L) silent -> (forall a, does (k a) (bad_end L) P) -> (forall ev1 ev2 b, silent ev1 () -> P ev2 b -> P (ev1 ++ ev2) b) -> does (obind m k) (bad_end L) P.
  Proof.
    intros H1 H2 H3. eapply (does_bind _ _ (bad_end L) (bad_end L) _ silent (fun _ => P)); [done|done|done| |].
    - intros ev1 ev2 a [H _] Hb. by apply bad_app.
    - intros ev1 ev2 a b H Hb. by apply H3.
  Qed.
  Lemma silent_looked ev1 ev2 found : silent ev1 () -> looked ev2 found -> looked (ev1 ++ ev2) found.
  Proof. intros [H1 R1] [H2 R2]. split; [by apply good_app|]. by rewrite texts_read_app, R1. Qed.
  Lemma under_push d n : under base d -> under base (push d n).
  Proof. intros [names ->]. exists (names ++ [n]). by rewrite foldl_app. Qed.
  Lemma does_entries visit d names : dir = true -> under base d -> (forall n, does (visit (push d n)) (bad_end L) looked) -> does (ovisit_entries O E visit d names) (bad_end L) looked.
  Proof.
    intros Hdir Hd Hv. induction names as [|n names IH]; [apply does_ret; split; [apply good_nil|constructor]|]. cbn [ovisit_entries].
    apply silent_bind; [by apply does_next|intros _|apply silent_looked]. cbn zeta. apply silent_bind; [by apply does_is_dir, under_push|intros b|apply silent_looked].
    eapply (does_bind _ _ (bad_end L) (bad_end L) _ looked (fun found ev more => exists l, more = found ++ l /\ looked ev l)).
    - destruct b; [destruct (to_str_ok _); [apply Hv|apply does_lift, bad_nil]|]. destruct (decide _) as [Hx|]; [|apply does_ret; split; [apply good_nil|constructor]].
      destruct (to_str_ok _); [|apply does_lift, bad_nil].
      eapply (does_bind _ _ (bad_end L) (bad_end L) _ (fun ev x => good_end L ev /\ Forall2 compiled (texts_read ev) [x]) (fun x ev l => ev = [] /\ l = [x])); [|intros x; by apply does_ret|done| |].
      + apply does_run_one. unfold looks. rewrite Hdir. split; [by apply under_push|done].
      + intros ev1 ev2 x [H _] H2. by apply bad_app.
      + intros ev1 ev2 x l H [-> ->]. by rewrite app_nil_r.
    - intros found. eapply (does_bind _ _ (bad_end L) (bad_end L) _ looked (fun more ev l => ev = [] /\ l = found ++ more)); [apply IH|intros more; by apply does_ret|done| |].
      + intros ev1 ev2 more [H _] H2. by apply bad_app.
      + intros ev1 ev2 more l H [-> ->]. rewrite app_nil_r. by exists more.
    - done.
    - intros ev1 ev2 found [H _] H2. by apply bad_app.
    - intros ev1 ev2 found more [H1 R1] (l & -> & H2 & R2). split; [by apply good_app|]. rewrite texts_read_app. by apply Forall2_app.
  Qed.
  Lemma does_visit fuel : dir = true -> forall d, under base d -> does (ovisit_files O E fuel d) (bad_end L) looked.
  Proof.
    intros Hdir. induction fuel as [|fuel IH]; intros d Hd; [apply does_lift, bad_nil|]. cbn [ovisit_files]. apply silent_bind; [by apply does_metadata|intros b|apply silent_looked].
    destruct b; [|apply does_ret; split; [apply good_nil|constructor]]. apply silent_bind; [by apply does_read_dir|intros names|apply silent_looked]. apply does_entries; [done|done|]. intros n. by apply IH, under_push.
  Qed.
  End look.
  Section save.
  Context (base out : string) (dir : bool) (texts : list (string * text)).
  Notation V := (saves base out dir texts).
  Definition made (ev : list call) (_ : ()) : Prop := good_end V ev /\ texts_written ev = [].
  Definition spoiled (ev : list call) : Prop := bad_end V ev /\ texts_written ev = [].
  Context (s : string) (t : text) (p : string) (Hin : (s, t) ∈ texts) (Hp : format_path s base out dir = Ok p).
  Lemma above_call c : match c with Prints q _ | Writes q _ _ => q = p | Makes q _ | IsDir q _ => tc (fun a b => parent a = Some b) p q | _ => False end -> V c.
  Proof. intros H. right. by exists s, t, p. Qed.
  Lemma does_there q : tc (fun a b => parent a = Some b) p q -> does (obind (ois_dir O q) (fun d : bool => if d then oret () else olift (Err "I/O error"))) spoiled made.
  Proof.
    intros Hq tr tr' r. unfold obind, ois_dir. destruct (o_is_dir O tr q); intros [= <- <-]; eexists; (split; [done|]); (split; [|done]); [apply good_one|apply bad_one]; try done; by apply above_call.
  Qed.
  Lemma does_mkdir q : tc (fun a b => parent a = Some b) p q -> does (omkdir O q) spoiled (fun ev _ => made ev ()).
  Proof. intros Hq tr tr' r [= <- <-]. eexists. split; [done|]. split; [|done]. apply good_one; [|done]. by apply above_call. Qed.
  Lemma made_bind {A : Type} (m : oio A) (k : A -> oio ()) : does m spoiled (fun ev _ => made ev ()) -> (forall a, does (k a) spoiled made) -> does (obind m k) spoiled made.
  Proof.
    intros H1 H2. eapply (does_bind _ _ spoiled spoiled _ (fun ev _ => made ev ()) (fun _ => made)); [done|done|done| |].
    - intros ev1 ev2 a [G1 W1] [G2 W2]. split; [by apply bad_app|]. by rewrite texts_written_app, W1, W2.
    - intros ev1 ev2 a [] [G1 W1] [G2 W2]. split; [by apply good_app|]. by rewrite texts_written_app, W1, W2.
  Qed.
  Lemma does_create fuel : forall q, tc (fun a b => parent a = Some b) p q -> does (ocreate_dir_all O fuel q) spoiled made.
  Proof.
    assert (spoiled []) as Hs by (split; [apply bad_nil|done]). assert (made [] ()) as Hm by (split; [apply good_nil|done]).
    induction fuel as [|fuel IH]; intros q Hq; [by apply does_lift|]. cbn [ocreate_dir_all]. cbn zeta. destruct (decide _); [by apply does_ret|].
    apply made_bind; [by apply does_mkdir|]. intros []; [by apply does_ret| |by apply does_there]. apply made_bind.
    - destruct (parent q) as [q'|] eqn:Hq'; [|by apply does_lift]. eapply does_weaken; [apply IH; by eapply tc_r|done|by intros ev []].
    - intros _. apply made_bind; [by apply does_mkdir|]. intros []; [by apply does_ret|by apply does_there..].
  Qed.
  (** a failing save may have tried to write *)
  Lemma does_save g : does (osave_one O (Schema s g) p) (fun ev => bad_end V ev /\ (texts_written ev = [] \/ texts_written ev = [(p, txt g)])) (fun ev _ => good_end V ev /\ texts_written ev = [(p, txt g)]).
  Proof.
    unfold osave_one. cbn [s_generated]. eapply (does_bind _ _ spoiled (fun ev => bad_end V ev /\ (texts_written ev = [] \/ texts_written ev = [(p, txt g)])) _ made (fun _ ev _ => good_end V ev /\ texts_written ev = [(p, txt g)])).
    - intros tr tr' r. unfold oprint. destruct (o_print O tr p); intros [= <- <-]; eexists; (split; [done|]); (split; [|done]); [apply good_one|apply bad_one]; try done; by apply above_call.
    - intros _. eapply (does_bind _ _ spoiled (fun ev => bad_end V ev /\ (texts_written ev = [] \/ texts_written ev = [(p, txt g)])) _ made (fun _ ev _ => good_end V ev /\ texts_written ev = [(p, txt g)])).
      + destruct (parent p) as [q|] eqn:Hq; [|apply does_ret; split; [apply good_nil|done]]. apply does_create. by apply tc_once.
      + intros _ tr tr' r. unfold owrite. destruct (o_write O tr p _); intros [= <- <-]; eexists; (split; [done|]); [split; [|done]; apply good_one; [by apply above_call|done]|split; [|by right]; apply bad_one; by apply above_call].
      + intros ev [H1 H2]. split; [done|by left].
      + intros ev1 ev2 [] [G1 W1] [G2 W2]. split; [by apply bad_app|]. by rewrite texts_written_app, W1.
      + intros ev1 ev2 [] [] [G1 W1] [G2 W2]. split; [by apply good_app|]. by rewrite texts_written_app, W1.
    - intros ev [H1 H2]. split; [done|by left].
    - intros ev1 ev2 [] [G1 W1] [G2 W2]. split; [by apply bad_app|]. by rewrite texts_written_app, W1.
    - intros ev1 ev2 [] [] [G1 W1] [G2 W2]. split; [by apply good_app|]. by rewrite texts_written_app, W1.
  Qed.
  End save.
  Definition saved (base out : string) (dir : bool) (s : schema) (wr : string * text) : Prop := format_path (s_path s) base out dir = Ok wr.1 /\ wr.2 = txt (s_generated s).
  Lemma does_save_all base out texts found : (forall s, s ∈ found -> exists t, (s_path s, t) ∈ texts) -> does (osave_all O base out found)
    (fun ev => bad_end (saves base out true texts) ev /\ exists k, Forall2 (saved base out true) (take k found) (texts_written ev)) (fun ev _ => good_end (saves base out true texts) ev /\ Forall2 (saved base out true) found (texts_written ev)).
  Proof.
    induction found as [|s found IH]; intros Hf; [apply does_ret; split; [apply good_nil|constructor]|]. cbn [osave_all]. unfold obind at 1, olift. intros tr tr' r.
    destruct (format_path (s_path s) base out true) as [p| | |] eqn:F; [|intros [= <- <-]; exists []; rewrite app_nil_r; (split; [done|]); (split; [apply bad_nil|exists 0; constructor])..]. revert tr tr' r.
    destruct (Hf s) as [t Ht]; [by left|]. assert (s = Schema (s_path s) (s_generated s)) as Es by by destruct s.
    assert (saved base out true s (p, txt (s_generated s))) as Hsaved by done.
    eapply (does_bind _ _ _ _ _ _ (fun _ ev _ => good_end (saves base out true texts) ev /\ Forall2 (saved base out true) found (texts_written ev))).
    - rewrite Es at 1. by eapply does_save.
    - intros _. apply IH. intros s' Hs'. apply Hf. by right.
    - intros ev [H1 [H2|H2]]; (split; [done|]); rewrite H2; [exists 0; constructor|exists 1]. cbn [take]. rewrite take_0. constructor; [done|constructor].
    - intros ev1 ev2 [] [G1 W1] [G2 [k W2]]. split; [by apply bad_app|]. exists (S k). rewrite texts_written_app, W1. cbn [take app]. by constructor.
    - intros ev1 ev2 [] [] [G1 W1] [G2 W2]. split; [by apply good_app|]. rewrite texts_written_app, W1. cbn [app]. by constructor.
  Qed.
  (** nothing found is left out *)
  Definition closed (ev : list call) : Prop := Forall (pursued ev) ev.
  Lemma pursued_mono (a b : list call) c : a ⊆ b -> pursued a c -> pursued b c.
  Proof.
    intros Hs. destruct c as [s [[]|]|s []|s [names|]| | | | |]; cbn; try done.
    - intros [n H]. exists n. by apply Hs.
    - intros [n H]. exists n. by apply Hs.
    - intros H Hx. destruct (H Hx) as [n Hn]. exists n. by apply Hs.
    - intros H n Hn. destruct (H n Hn) as [b' Hb]. exists b'. by apply Hs.
  Qed.
  Lemma closed_app a b : closed a -> closed b -> closed (a ++ b).
  Proof. intros Ha Hb. apply Forall_app. split; (eapply Forall_impl; [done|]); intros c; apply pursued_mono; set_solver. Qed.
  Lemma closed_cons c a : pursued (c :: a) c -> closed a -> closed (c :: a).
  Proof. intros Hc Ha. constructor; [done|]. eapply Forall_impl; [done|]. intros c'. apply pursued_mono. set_solver. Qed.
  Notation anyhow := (fun _ : list call => True).
  Lemma finds_one s : does (orun_one O E s) anyhow (fun ev _ => closed ev /\ exists t, Reads s (Some t) ∈ ev).
  Proof.
    eapply (does_bind _ _ anyhow anyhow _ (fun ev t => ev = [Reads s (Some t)]) (fun _ ev _ => ev = [])); [| |done|done|].
    - intros tr tr' r [= <- <-]. eexists. split; [done|]. by destruct (o_read O tr s) as [c|]; [destruct (from_utf8 c)|].
    - intros c. eapply (does_bind _ _ anyhow anyhow _ (fun ev _ => ev = []) (fun _ ev _ => ev = [])); [|intros t; by apply does_ret|done|done|by intros ev1 ev2 t x -> ->].
      intros tr tr' r [= <- <-]. exists []. rewrite app_nil_r. split; [done|]. by case_match.
    - intros ev1 ev2 t x -> ->. rewrite app_nil_r. split; [by repeat constructor|]. exists t. by left.
  Qed.
  Lemma finds_entries visit d names : (forall s, does (visit s) anyhow (fun ev _ => closed ev /\ exists b, Meta s (Some b) ∈ ev)) ->
    does (ovisit_entries O E visit d names) anyhow (fun ev _ => closed ev /\ forall n, n ∈ names -> exists b, IsDir (push d n) b ∈ ev).
  Proof.
    intros Hv. induction names as [|n names IH]; [apply does_ret; split; [constructor|set_solver]|]. cbn [ovisit_entries].
    eapply (does_bind _ _ anyhow anyhow _ (fun ev _ => ev = [Next d true]) (fun _ ev _ => closed ev /\ forall n', n' ∈ n :: names -> exists b, IsDir (push d n') b ∈ ev)); [| |done|done|].
    { intros tr tr' r [= <- <-]. eexists. split; [done|]. by destruct (o_next O tr d). }
    2:{ intros ev1 ev2 _ _ -> [H1 H2]. split; [by apply closed_cons|]. intros n' Hn'. destruct (H2 n' Hn') as [b Hb]. exists b. by right. }
    intros _. cbn zeta. eapply (does_bind _ _ anyhow anyhow _ (fun ev b => ev = [IsDir (push d n) b])
      (fun b ev _ => closed ev /\ (forall n', n' ∈ names -> exists b, IsDir (push d n') b ∈ ev) /\ pursued ev (IsDir (push d n) b))); [| |done|done|].
    { intros tr tr' r [= <- <-]. eexists. by split. }
    2:{ intros ev1 ev2 b _ -> (H1 & H2 & H3). split; [apply closed_cons; [|done]; eapply pursued_mono; [|exact H3]; set_solver|].
      intros n' [->|Hn']%elem_of_cons; [exists b; by left|]. destruct (H2 n' Hn') as [b' Hb]. exists b'. by right. }
    intros b. eapply (does_bind _ _ anyhow anyhow _ (fun ev _ => closed ev /\ pursued ev (IsDir (push d n) b)) (fun _ ev _ => closed ev /\ forall n', n' ∈ names -> exists b, IsDir (push d n') b ∈ ev)); [| |done|done|].
    - destruct b; [destruct (to_str_ok _); [apply Hv|by apply does_lift]|]. destruct (decide _) as [Hx|Hx]; [|apply does_ret; split; [constructor|by intros ?]].
      destruct (to_str_ok _); [|by apply does_lift].
      eapply (does_bind _ _ anyhow anyhow _ (fun ev _ => closed ev /\ exists t, Reads (push d n) (Some t) ∈ ev) (fun _ ev _ => ev = [])); [apply finds_one|intros x; by apply does_ret|done|done|].
      intros ev1 ev2 _ _ [H1 H2] ->. rewrite app_nil_r. split; [done|]. by intros ?.
    - intros found. eapply (does_bind _ _ anyhow anyhow _ (fun ev _ => closed ev /\ forall n', n' ∈ names -> exists b, IsDir (push d n') b ∈ ev) (fun _ ev _ => ev = [])); [apply IH|intros x; by apply does_ret|done|done|].
      intros ev1 ev2 _ _ H1 ->. by rewrite app_nil_r.
    - intros ev1 ev2 _ _ [H1 H2] [H3 H4]. split; [by apply closed_app|]. split; [|eapply pursued_mono; [|done]; set_solver].
      intros n' Hn'. destruct (H4 n' Hn') as [b' Hb]. exists b'. apply elem_of_app. by right.
  Qed.
  Lemma finds_all fuel : forall d, does (ovisit_files O E fuel d) anyhow (fun ev _ => closed ev /\ exists b, Meta d (Some b) ∈ ev).
  Proof.
    induction fuel as [|fuel IH]; intros d; [by apply does_lift|]. cbn [ovisit_files].
    eapply (does_bind _ _ anyhow anyhow _ (fun ev b => ev = [Meta d (Some b)]) (fun b ev _ => closed ev /\ pursued ev (Meta d (Some b)))); [| |done|done|].
    - intros tr tr' r [= <- <-]. eexists. split; [done|]. by destruct (o_meta O tr d).
    - intros []; [|apply does_ret; split; [constructor|done]].
      eapply (does_bind _ _ anyhow anyhow _ (fun ev names => ev = [Lists d (Some names)]) (fun names ev _ => closed ev /\ forall n, n ∈ names -> exists b, IsDir (push d n) b ∈ ev)); [| |done|done|].
      + intros tr tr' r [= <- <-]. eexists. split; [done|]. by destruct (o_list O tr d).
      + intros names. by apply finds_entries.
      + intros ev1 ev2 names _ -> [H1 H2]. split; [|exists names; by left]. apply closed_cons; [|done]. intros n Hn. destruct (H2 n Hn) as [b Hb]. exists b. by right.
    - intros ev1 ev2 b _ -> [H1 H2]. split; [|exists b; by left]. apply closed_cons; [|done]. eapply pursued_mono; [|exact H2]. set_solver.
  Qed.
  Definition account (path out : string) (tr : list call) (r : res unit) : Prop :=
    exists dir look act k, tr = Meta path (Some dir) :: look ++ act /\ Forall (looks path dir) look /\ Forall (saves path out dir (texts_read look)) act /\
      (act ≠ [] \/ r = Ok () -> found_all path dir look) /\ (act ≠ [] -> forall s c, (s, c) ∈ texts_read look -> exists t, code_for E c t) /\ Forall2 (output_for E path out dir) (take k (texts_read look)) (texts_written act) /\ (r = Ok () -> k = length (texts_read look)) /\
      Forall no_error (removelast tr) /\ (r = Ok () -> Forall no_error tr).
  Lemma run_calls fuel path out tr r : orun O E fuel path out = (tr, r) -> (tr = [Meta path None] /\ r = Ok ()) \/ account path out tr r.
  Proof.
    unfold orun, omain, ometadata. cbn [app]. destruct (o_meta O [] path) as [dir|]; cbn [or_fail]; [|intros [= <- <-]; by left]. intros H. right.
    assert (forall ev2 found ev3 r3 k, found_all path dir ev2 -> good_end (looks path dir) ev2 -> Forall2 compiled (texts_read ev2) found -> bad_end (saves path out dir (texts_read ev2)) ev3 -> Forall2 (saved path out dir) (take k found) (texts_written ev3) -> (r3 = Ok () -> Forall no_error ev3 /\ length found <= k) ->
      account path out (([Meta path (Some dir)] ++ ev2) ++ ev3) r3) as Hend.
    { intros ev2 found ev3 r3 k Hall [L2 G2] R2 [S3 B3] W3 Hok. pose proof (Forall2_length _ _ _ R2) as Hlen. exists dir, ev2, ev3, (k `min` length (texts_read ev2)). split_and!; [done|done|done|done| | | | |].
      - intros _ s c Hs. destruct (elem_of_list_lookup_1 _ _ Hs) as [i Hi]. destruct (Forall2_lookup_l _ _ _ _ _ R2 Hi) as (x & _ & _ & Hc). by eexists.
      - assert (take (k `min` length (texts_read ev2)) (texts_read ev2) = take k (texts_read ev2)) as -> by by rewrite <- take_take, firstn_all.
        pose proof (Forall2_take _ _ _ k R2) as Rk. revert W3. generalize (texts_written ev3). revert Rk. generalize (take k (texts_read ev2)) (take k found). clear. intros l l' Rk ws W. revert l Rk.
        induction W as [|x w l' ws [H1 H2] _ IH]; intros l Rk; [apply Forall2_nil_inv_r in Rk as ->; constructor|]. apply Forall2_cons_inv_r in Rk as (rd & l1 & [H3 H4] & Rk & ->). constructor; [|by apply IH].
        exists (s_generated x). rewrite <- H3. by split_and!.
      - intros Hr. destruct (Hok Hr) as [_ Hk]. lia.
      - rewrite <- app_assoc. cbn [app]. change (halted ([Meta path (Some dir)] ++ ev2 ++ ev3)). apply halted_app; [by apply Forall_singleton|]. by apply halted_app.
      - intros Hr. destruct (Hok Hr) as [Hk _]. rewrite <- app_assoc. apply Forall_app. split; [by apply Forall_singleton|]. by apply Forall_app. }
    assert (forall ev2 r2, r2 ≠ Ok () -> bad_end (looks path dir) ev2 -> account path out ([Meta path (Some dir)] ++ ev2) r2) as Hfail.
    { intros ev2 r2 Hr [L2 B2]. exists dir, ev2, [], 0. rewrite app_nil_r. split_and!; [done|done|constructor|by intros []|done|constructor|done| |done]. apply (halted_app [_]); [by apply Forall_singleton|done]. }
    assert (under path path) as Hu by by exists [].
    destruct dir.
    - unfold obind in H. destruct (ovisit_files O E fuel path _) as [tr2 r2] eqn:V. destruct (does_visit path true fuel eq_refl path Hu _ _ _ V) as (ev2 & -> & P2).
      destruct r2 as [found| | |]; [|injection H as <- <-; by apply Hfail..]. destruct P2 as [G2 R2].
      assert (found_all path true ev2) as Hall.
      { destruct (finds_all fuel path _ _ _ V) as (ev & He & Hc). apply app_inv_head in He as <-. exact Hc. }
      destruct (does_save_all path out (texts_read ev2) found) with (tr := [Meta path (Some true)] ++ ev2) (tr' := tr) (r := r) as (ev3 & -> & P3); [|exact H|].
      { intros s Hs. destruct (elem_of_list_lookup_1 _ _ Hs) as [i Hi]. destruct (Forall2_lookup_r _ _ _ _ _ R2 Hi) as ([s' c] & He & [E1 _]). exists c. cbn in E1. rewrite E1. by eapply elem_of_list_lookup_2. }
      destruct r as [[]| | |].
      + destruct P3 as [G3 W3]. eapply (Hend ev2 found ev3 (Ok ()) (length found)); [done|done|done|by apply good_bad|by rewrite firstn_all|]. intros _. split; [apply G3|done].
      + destruct P3 as [G3 [k W3]]. by eapply (Hend ev2 found ev3 _ k).
      + destruct P3 as [G3 [k W3]]. by eapply (Hend ev2 found ev3 _ k).
      + destruct P3 as [G3 [k W3]]. by eapply (Hend ev2 found ev3 _ k).
    - unfold obind at 1 in H. destruct (orun_one O E path _) as [tr2 r2] eqn:V. destruct (does_run_one path false path eq_refl _ _ _ V) as (ev2 & -> & P2).
      destruct r2 as [s| | |]; [|injection H as <- <-; by apply Hfail..]. destruct P2 as [G2 R2].
      assert (found_all path false ev2) as Hall.
      { destruct (finds_one path _ _ _ V) as (ev & He & Hc). apply app_inv_head in He as <-. exact Hc. }
      apply Forall2_cons_inv_r in R2 as ([s' c] & l1 & [E1 Hc] & R2 & Er). apply Forall2_nil_inv_r in R2 as ->. cbn in E1. subst s'.
      assert (does (obind (oprint O out) (fun _ => obind (olift (format_path (s_path s) path out false)) (fun p => osave_one O s p))) 
        (fun ev => bad_end (saves path out false (texts_read ev2)) ev /\ exists k, Forall2 (saved path out false) (take k [s]) (texts_written ev)) (fun ev _ => good_end (saves path out false (texts_read ev2)) ev /\ Forall2 (saved path out false) [s] (texts_written ev))) as D.
      { eapply (does_bind _ _ (fun ev => bad_end (saves path out false (texts_read ev2)) ev /\ texts_written ev = []) (fun ev => bad_end (saves path out false (texts_read ev2)) ev /\ exists k, Forall2 (saved path out false) (take k [s]) (texts_written ev)) _
          (fun ev _ => good_end (saves path out false (texts_read ev2)) ev /\ texts_written ev = []) (fun _ ev _ => good_end (saves path out false (texts_read ev2)) ev /\ Forall2 (saved path out false) [s] (texts_written ev))).
        - intros u u' x. unfold oprint. assert (forall a, saves path out false (texts_read ev2) (Prints out a)) as Hpr by (intros a; left; split; [done|by exists a]). destruct (o_print O u out); intros [= <- <-]; eexists; (split; [done|]); (split; [|done]); [by apply good_one|by apply bad_one].
        - intros _ u u' x. unfold obind, olift. destruct (format_path (s_path s) path out false) as [p| | |] eqn:F; [|intros [= <- <-]; exists []; rewrite app_nil_r; (split; [done|]); (split; [apply bad_nil|exists 0; constructor])..]. revert u u' x.
          assert (s = Schema (s_path s) (s_generated s)) as Es by by destruct s. assert (saved path out false s (p, txt (s_generated s))) as Hsaved by done.
          change (does (osave_one O s p) (fun ev => bad_end (saves path out false (texts_read ev2)) ev /\ exists k, Forall2 (saved path out false) (take k [s]) (texts_written ev)) (fun ev _ => good_end (saves path out false (texts_read ev2)) ev /\ Forall2 (saved path out false) [s] (texts_written ev))).
          rewrite Es at 1. eapply does_weaken; [apply (does_save path out false (texts_read ev2) (s_path s) c p); [rewrite Er; by left|done]| |].
          + intros ev [H1 [H2|H2]]; (split; [done|]); rewrite H2; [exists 0; constructor|exists 1]. constructor; [done|constructor].
          + intros ev _ [H1 H2]. split; [done|]. rewrite H2. constructor; [done|constructor].
        - intros ev [H1 H2]. split; [done|]. rewrite H2. exists 0. constructor.
        - intros ev1 ev3 _ [H1 H2] [H3 [k H4]]. split; [by apply bad_app|]. exists k. by rewrite texts_written_app, H2.
        - intros ev1 ev3 _ _ [H1 H2] [H3 H4]. split; [by apply good_app|]. by rewrite texts_written_app, H2. }
      destruct (D _ _ _ H) as (ev3 & -> & P3). assert (Forall2 compiled (texts_read ev2) [s]) as R3 by (rewrite Er; constructor; [done|constructor]).
      destruct r as [[]| | |].
      + destruct P3 as [G3 W3]. eapply (Hend ev2 [s] ev3 (Ok ()) 1); [done|done|done|by apply good_bad|done|]. intros _. split; [apply G3|done].
      + destruct P3 as [G3 [k W3]]. by eapply (Hend ev2 [s] ev3 _ k).
      + destruct P3 as [G3 [k W3]]. by eapply (Hend ev2 [s] ev3 _ k).
      + destruct P3 as [G3 [k W3]]. by eapply (Hend ev2 [s] ev3 _ k).
  Qed.
  Definition no_write (c : call) : Prop := match c with Writes _ _ _ => False | _ => True end.
  Lemma no_write_prepared ev : Forall no_write ev -> prepared ev.
  Proof. intros H i s c a Hi. by pose proof (Forall_lookup_1 _ _ _ _ H Hi). Qed.
  Lemma looks_prepared base dir ev : Forall (looks base dir) ev -> prepared ev.
  Proof. intros H. apply no_write_prepared. eapply Forall_impl; [exact H|]. by intros []. Qed.
  Lemma prepared_app a b : prepared a -> prepared b -> prepared (a ++ b).
  Proof.
    intros Ha Hb i s c x Hi. apply lookup_app_Some in Hi as [Hi|[Hl Hi]].
    - rewrite take_app_le by (apply lookup_lt_Some in Hi; lia). by eapply Ha.
    - assert (take i (a ++ b) = a ++ take (i - length a) b) as -> by (rewrite firstn_app; f_equal; apply take_ge; lia). destruct (Hb _ _ _ _ Hi) as [H1 H2]. split; [apply elem_of_app; by right|].
      intros d Hd. destruct (H2 d Hd) as [?|[?|?]]; [by left|right; left; apply elem_of_app; by right|right; right; apply elem_of_app; by right].
  Qed.
  Definition there (q : string) (ev : list call) : Prop := q = "" \/ Makes q Made ∈ ev \/ IsDir q true ∈ ev.
  Lemma there_r q a b : there q b -> there q (a ++ b).
  Proof. intros [?|[?|?]]; [by left|right; left; apply elem_of_app; by right|right; right; apply elem_of_app; by right]. Qed.
  Lemma calm_bind {A B : Type} (m : oio A) (k : A -> oio B) (S : list call -> Prop) : does m (Forall no_write) (fun ev _ => Forall no_write ev) -> (forall a, does (k a) (Forall no_write) (fun ev _ => Forall no_write ev /\ S ev)) -> (forall a b, S b -> S (a ++ b)) ->
    does (obind m k) (Forall no_write) (fun ev _ => Forall no_write ev /\ S ev).
  Proof.
    intros H1 H2 HS. eapply (does_bind _ _ (Forall no_write) (Forall no_write) _ (fun ev _ => Forall no_write ev) (fun _ ev _ => Forall no_write ev /\ S ev)); [done|done|done| |].
    - intros ev1 ev2 a G1 G2. by apply Forall_app.
    - intros ev1 ev2 a b G1 [G2 W2]. split; [by apply Forall_app|by apply HS].
  Qed.
  Lemma there_is_dir q : does (obind (ois_dir O q) (fun d : bool => if d then oret () else olift (Err "I/O error"))) (Forall no_write) (fun ev _ => Forall no_write ev /\ there q ev).
  Proof.
    intros tr tr' r. unfold obind, ois_dir. destruct (o_is_dir O tr q); intros [= <- <-]; eexists; (split; [done|]); [split; [by apply Forall_singleton|right; right; by left]|by apply Forall_singleton].
  Qed.
  Lemma mkdir_calm q : does (omkdir O q) (Forall no_write) (fun ev r => Forall no_write ev /\ (r = Made -> there q ev)).
  Proof. intros tr tr' r [= <- <-]. eexists. split; [done|]. split; [by apply Forall_singleton|]. intros ->. right; left. by left. Qed.
  Lemma mkdir_then q (k : mkdir_result -> oio ()) : k Made = oret () -> (forall x, x ≠ Made -> does (k x) (Forall no_write) (fun ev _ => Forall no_write ev /\ there q ev)) -> does (obind (omkdir O q) k) (Forall no_write) (fun ev _ => Forall no_write ev /\ there q ev).
  Proof.
    intros Hk H. eapply (does_bind _ _ (Forall no_write) (Forall no_write) _ (fun ev r => Forall no_write ev /\ (r = Made -> there q ev)) (fun x ev _ => Forall no_write ev /\ (x = Made /\ ev = [] \/ there q ev))); [apply mkdir_calm| |done| |].
    - intros []; [rewrite Hk; apply does_ret; split; [constructor|by left]|..]; (eapply does_weaken; [by apply H|done|]); intros ev _ [? ?]; (split; [done|by right]).
    - intros ev1 ev2 a [G1 _] G2. by apply Forall_app.
    - intros ev1 ev2 a b [G1 W1] [G2 W2]. split; [by apply Forall_app|]. destruct W2 as [[Ha ->]|W2]; [rewrite app_nil_r; by apply W1|by apply there_r].
  Qed.
  Lemma there_create fuel : forall q, does (ocreate_dir_all O fuel q) (Forall no_write) (fun ev _ => Forall no_write ev /\ there q ev).
  Proof.
    induction fuel as [|fuel IH]; intros q; [apply does_lift; constructor|]. cbn [ocreate_dir_all]. cbn zeta. destruct (decide (q = "")); [apply does_ret; split; [constructor|by left]|].
    apply mkdir_then; [done|]. intros [] Hx; [done| |apply there_is_dir]. apply calm_bind; [|intros _|intros a b; apply there_r].
    - destruct (parent q) as [q'|]; [|apply does_lift; constructor]. eapply does_weaken; [apply IH|done|by intros ev _ []].
    - apply mkdir_then; [done|]. intros [] Hy; [done|apply there_is_dir..].
  Qed.
  Lemma prepared_save s p : does (osave_one O s p) prepared (fun ev _ => prepared ev).
  Proof.
    intros tr tr' r. unfold osave_one, obind at 1, oprint. destruct (o_print O tr p); [|intros [= <- <-]; eexists; split; [done|]; apply no_write_prepared; by apply Forall_singleton].
    assert (does match parent p with Some q => ocreate_dir_all O (S (String.length q)) q | None => oret () end (Forall no_write) (fun ev _ => Forall no_write ev /\ forall d, parent p = Some d -> there d ev)) as H.
    { destruct (parent p) as [q|]; [|apply does_ret; split; [constructor|done]]. eapply does_weaken; [apply there_create|done|]. intros ev _ [H1 H2]. split; [done|]. by intros d [= <-]. }
    unfold obind. destruct (_ (tr ++ [Prints p true])) as [tr1 r1] eqn:M. destruct (H _ _ _ M) as (ev & -> & P).
    assert (forall ev', prepared (Prints p true :: ev ++ ev') -> exists ev0, ((tr ++ [Prints p true]) ++ ev) ++ ev' = tr ++ ev0 /\ prepared ev0) as Hw by (intros ev' ?; exists (Prints p true :: ev ++ ev'); split; [by rewrite <- !app_assoc|done]).
    destruct r1 as [[]| | |]; [|intros [= <- <-]; destruct (Hw []) as (ev0 & H1 & H2); [rewrite app_nil_r; apply no_write_prepared; by constructor|rewrite app_nil_r in H1; by exists ev0]..].
    destruct P as [P1 P2]. unfold owrite. intros [= <- <-]. match goal with |- context [Writes p ?c ?a] => destruct (Hw [Writes p c a]) as (ev0 & H1 & H2) end.
    - intros i s' c a Hi. change (Prints p true :: ev ++ ?x) with ((Prints p true :: ev) ++ x) in Hi |- *. apply lookup_app_Some in Hi as [Hi|[Hl Hi]].
      + exfalso. assert (Forall no_write (Prints p true :: ev)) as Hf by by constructor. by pose proof (Forall_lookup_1 _ _ _ _ Hf Hi).
      + apply list_lookup_singleton_Some in Hi as [Hi [= <- <- <-]]. assert (i = length (Prints p true :: ev)) as -> by lia. rewrite take_app. split; [by left|]. intros d Hd. by apply (there_r d [_]), P2.
    - exists ev0. split; [done|]. by destruct (o_write _ _ _ _).
  Qed.
  Lemma prepared_bind {A B : Type} (m : oio A) (k : A -> oio B) : does m prepared (fun ev _ => prepared ev) -> (forall a, does (k a) prepared (fun ev _ => prepared ev)) -> does (obind m k) prepared (fun ev _ => prepared ev).
  Proof.
    intros H1 H2. eapply (does_bind _ _ prepared prepared _ (fun ev _ => prepared ev) (fun _ ev _ => prepared ev)); [done|done|done| |]; intros; by apply prepared_app.
  Qed.
  Lemma prepared_nil : prepared []. Proof. by intros []. Qed.
  Lemma prepared_save_all base out found : does (osave_all O base out found) prepared (fun ev _ => prepared ev).
  Proof.
    induction found as [|s found IH]; [apply does_ret, prepared_nil|]. cbn [osave_all]. apply prepared_bind; [apply does_lift; case_match; apply prepared_nil|]. intros p. apply prepared_bind; [apply prepared_save|done].
  Qed.
  Lemma run_prepared fuel path out tr r : orun O E fuel path out = (tr, r) -> prepared tr.
  Proof.
    unfold orun, omain, ometadata. cbn [app]. destruct (o_meta O [] path) as [dir|]; cbn [or_fail]; [|intros [= <- <-]; apply no_write_prepared; by apply Forall_singleton].
    assert (prepared [Meta path (Some dir)]) as Hm by (apply no_write_prepared; by apply Forall_singleton).
    assert (under path path) as Hu by by exists [].
    destruct dir; intros H.
    - assert (does (obind (ovisit_files O E fuel path) (fun found => osave_all O path out found)) prepared (fun ev _ => prepared ev)) as D.
      { apply prepared_bind; [|intros found; apply prepared_save_all]. eapply does_weaken; [by apply (does_visit path true)|intros ev [H1 _]; by eapply looks_prepared|intros ev a [[H1 _] _]; by eapply looks_prepared]. }
      destruct (D _ _ _ H) as (ev & -> & P). apply prepared_app; [done|]. by destruct r.
    - assert (does (obind (orun_one O E path) (fun s => obind (oprint O out) (fun _ => obind (olift (format_path (s_path s) path out false)) (fun p => osave_one O s p)))) prepared (fun ev _ => prepared ev)) as D.
      { apply prepared_bind; [eapply does_weaken; [by apply (does_run_one path false)|intros ev [H1 _]; by eapply looks_prepared|intros ev a [[H1 _] _]; by eapply looks_prepared]|]. intros s. apply prepared_bind.
        - intros u u' x [= <- <-]. eexists. split; [done|]. case_match; apply no_write_prepared; by apply Forall_singleton.
        - intros _. apply prepared_bind; [apply does_lift; case_match; apply prepared_nil|]. intros p. apply prepared_save. }
      destruct (D _ _ _ H) as (ev & -> & P). apply prepared_app; [done|]. by destruct r.
  Qed.
End calls.
Lemma calls_in_order O E fuel path out tr r : orun O E fuel path out = (tr, r) -> (tr = [Meta path None] /\ r = Ok ()) \/
  exists dir look act k, tr = Meta path (Some dir) :: look ++ act /\ Forall (looks path dir) look /\ Forall (saves path out dir (texts_read look)) act /\
    (act ≠ [] \/ r = Ok () -> found_all path dir look) /\ (act ≠ [] -> forall s c, (s, c) ∈ texts_read look -> exists t, code_for E c t) /\
    Forall2 (output_for E path out dir) (take k (texts_read look)) (texts_written act) /\ (r = Ok () -> k = length (texts_read look)).
Proof.
  intros H. destruct (run_calls O E _ _ _ _ _ H) as [?|(dir & look & act & k & H1 & H2 & H3 & H4 & H5 & H6 & H7 & _)]; [by left|]. right. by exists dir, look, act, k.
Qed.
Lemma calls_fine O E fuel path out tr r : orun O E fuel path out = (tr, r) -> tr ≠ [Meta path None] -> Forall no_error (removelast tr) /\ (r = Ok () -> Forall no_error tr).
Proof. intros H Hn. by destruct (run_calls O E _ _ _ _ _ H) as [[? _]|(? & ? & ? & ? & _ & _ & _ & _ & _ & _ & _ & ?)]. Qed.
