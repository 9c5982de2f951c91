(** A single input file: where its output goes and when the command succeeds. *)
From Verif Require Export CliOneSpec CliWitness.

Lemma shortened_stem s x : shortened s x -> name_stem s = x.
Proof.
  intros [[-> H]|(Hx & b & Hb & ->)].
  - unfold name_stem. destruct (split_last_dot x) as [[b a]|] eqn:E; [|done]. apply split_last_dot_some in E as [E _].
    assert (x = b +:+ "." +:+ a) as E' by by rewrite E, sapp_cons, sapp_nil_l. apply H in E' as ->. by rewrite decide_True.
  - unfold name_stem. rewrite split_last_dot_ext by done. by rewrite decide_False.
Qed.
Lemma split_dot a b : split_last_dot (a +:+ "." +:+ b) ≠ None.
Proof.
  rewrite sapp_cons, sapp_nil_l. induction a as [|c a IH]; [rewrite sapp_nil_l|rewrite sapp_cons]; cbn [split_last_dot].
  - destruct (split_last_dot b) as [[]|]; [done|]. by rewrite decide_True.
  - by destruct (split_last_dot _) as [[]|].
Qed.
Lemma split_dot_first a b b' : split_last_dot (a +:+ "." +:+ b) = Some ("", b') -> a = "".
Proof.
  rewrite sapp_cons, sapp_nil_l. destruct a as [|c a]; [done|]. rewrite sapp_cons. cbn [split_last_dot]. pose proof (split_dot a b) as H. rewrite sapp_cons, sapp_nil_l in H.
  destruct (split_last_dot (a +:+ _)) as [[]|]; done.
Qed.
Lemma stem_shortened s : shortened s (name_stem s).
Proof.
  unfold name_stem. destruct (split_last_dot s) as [[b a]|] eqn:E.
  - destruct (decide (b = "")) as [->|Hb].
    + left. split; [done|]. intros a' b' ->. by apply split_dot_first in E.
    + apply split_last_dot_some in E as [-> Ha]. right. split; [done|]. exists a. split; [done|]. by rewrite sapp_cons, sapp_nil_l.
  - left. split; [done|]. intros a b ->. by apply split_dot in E.
Qed.

Lemma shortened_same s x : shortened s x -> (x = s <-> forall a b, s = a +:+ "." +:+ b -> a = "").
Proof.
  intros [[-> H]|(Hx & b & Hb & ->)]; [done|]. split.
  - intros Heq. exfalso. apply (f_equal (fun y => length (txt y))) in Heq. rewrite !txt_app, !app_length in Heq. cbn in Heq. lia.
  - intros H. by rewrite (H x b eq_refl) in Hx.
Qed.

(** ** C106 *)
Section single.
  Context (E : env) (f : fs) (path out : string) (l : location) (s : string) (c : text).
  Context (Hs : sane E f) (Hp : proper_name s) (Hi : input_file E f path (l ++ [s +:+ ".pkt"]) c).

  Lemma single_out f' r : fault E 0 (l ++ [s +:+ ".pkt"]) = false -> run E path out f = (f', r) -> compiles c ->
    (r = Ok () -> exists t, code_for E c t /\ f' !! target E out [] (name_stem s) = Some (File (txt t))) /\
    (forall x, x ≠ target E out [] (name_stem s) -> f' !! x = f !! x \/ made_dir f f' x /\ on_way E out [] x).
  Proof.
    intros Hf Hrun Hc. pose proof (file_output E f path out l _ c f' r Hs Hi) as H. rewrite (stem_pkt s (proj1 Hp)) in H. by apply H.
  Qed.
  Lemma out_ne x : leads_to E out ≠ target E out [] x.
  Proof. unfold target. intros H. apply (f_equal length) in H. rewrite !app_length in H. cbn in H. lia. Qed.
  Lemma named_place f' r : fault E 0 (l ++ [s +:+ ".pkt"]) = false -> run E path out f = (f', r) ->
    f' !! leads_to E out = f !! leads_to E out \/ made_dir f f' (leads_to E out).
  Proof.
    intros Hf Hrun. destruct (file_run E f path out l _ c f' r Hs Hi Hf Hrun) as [[-> _]|[Hc _]]; [by left|].
    destruct (single_out f' r Hf Hrun Hc) as [_ H]. destruct (H _ (out_ne _)) as [|[]]; [by left|by right].
  Qed.
  Lemma run_ok_compiles f' : fault E 0 (l ++ [s +:+ ".pkt"]) = false -> run E path out f = (f', Ok ()) -> compiles c.
  Proof. intros Hf Hrun. by destruct (file_run E f path out l _ c f' _ Hs Hi Hf Hrun) as [[_ [? ?]]|[Hc _]]. Qed.
  Lemma single_place f' r x : fault E 0 (l ++ [s +:+ ".pkt"]) = false -> run E path out f = (f', r) -> shortened s x ->
    (r = Ok () -> exists t, code_for E c t /\ f' !! target E out [] x = Some (File (txt t))) /\
    (forall y, y ≠ target E out [] x -> f' !! y = f !! y \/ made_dir f f' y /\ on_way E out [] y) /\
    (x = s <-> forall a b, s = a +:+ "." +:+ b -> a = "").
  Proof.
    intros Hf Hrun Hx. pose proof (shortened_same s x Hx) as Hsame. assert (forall A B C : Prop, (A /\ B) -> C -> A /\ B /\ C) as Hand by tauto. apply Hand; [|done]. apply shortened_stem in Hx as <-.
    destruct (file_run E f path out l _ c f' r Hs Hi Hf Hrun) as [[-> [m ->]]|[Hc _]]; [|by apply single_out]. split; [done|]. by left.
  Qed.
  Lemma saved_path t sc op w r : code_for E c t -> s_generated sc = t ->
    save_one E sc (with_extension (collect (components out ++ [Normal s])) "ts") (World f op) = (w, r) ->
    saved (origin E out) f (Job (names_of out ++ []) (name_stem s +:+ ".ts") (T t)) (w_fs w) r /\
      (torn E op = None -> torn E (S op) = None -> clear_for (origin E out) f (Job (names_of out ++ []) (name_stem s +:+ ".ts") (T t)) -> r = Ok ()).
  Proof.
    intros Hcode Hg Hsv. assert (name_stem s ≠ "") as Hne by apply name_stem_ne, Hp.
    assert (plainb (name_stem s)) as Hps. { destruct Hp as (_ & _ & _ & Hpl). destruct (name_stem_part s) as [e He]. rewrite He in Hpl. by apply plainb_app in Hpl as [? _]. }
    pose proof (collect_path E out [] s "ts" (Forall_nil_2 _) Hp plain_ts (proper_ts _ Hne Hps)) as H.
    apply (save_one_spec E (origin E out) f sc _ (Job (names_of out ++ []) (name_stem s +:+ "." +:+ "ts") (T t)) op) in Hsv; [done|apply Hs|apply Hs|done|by rewrite Hg].
  Qed.
  Lemma saved_single f' r : fault E 0 (l ++ [s +:+ ".pkt"]) = false -> run E path out f = (f', r) ->
    f' = f /\ (exists m, r = Err m) /\ ~ (no_fault E /\ compiles c) \/
    exists t op, code_for E c t /\ saved (origin E out) f (Job (names_of out ++ []) (name_stem s +:+ ".ts") (T t)) f' r /\
      (torn E op = None -> torn E (S op) = None -> clear_for (origin E out) f (Job (names_of out ++ []) (name_stem s +:+ ".ts") (T t)) -> r = Ok ()).
  Proof.
    intros Ff Hrun. destruct Hi as [R He]. unfold run, main, start, metadata, tick in Hrun. cbn [w_op w_fs] in Hrun. rewrite (inspect_eq E f 0 path _ _ R He), Ff in Hrun. cbn [rbind snd] in Hrun.
    unfold ibind at 1 in Hrun. destruct (run_one E path (World f 1)) as [[f1 op1] r1] eqn:R1. apply (run_one_spec E f Hs path (l ++ [s +:+ ".pkt"]) (File c)) in R1 as (A1 & _ & A2 & A3 & A4); [|done..].
    cbn [w_fs] in A1. subst f1. destruct r1 as [sc|m|m|].
    - destruct (A3 sc eq_refl) as (Hpath & _ & c' & [= <-] & Hc & Hcode). right. exists (s_generated sc), op1. split; [done|].
      unfold ibind at 1, ilift, format_path in Hrun. rewrite Hpath in Hrun.
      destruct (file_stem_some E f path _ c Hs (conj R He)) as (m & n' & pre & Heq & _ & _ & Hst). apply app_inj_2 in Heq as [_ Heq]; [|done]. injection Heq as <-.
      rewrite Hst, (stem_pkt s (proj1 Hp)) in Hrun. destruct (save_one E sc _ _) as [w2 r2] eqn:Sv. injection Hrun as <- <-. by eapply saved_path.
    - injection Hrun as <- <-. left. split; [done|]. split; [by eexists|]. intros [Hnf Hc]. by destruct (A4 Hnf c eq_refl Hc).
    - by destruct A2 as [[? ?]|[? ?]].
    - by destruct A2 as [[? ?]|[? ?]].
  Qed.
  Lemma becomes_dir f' : fault E 0 (l ++ [s +:+ ".pkt"]) = false -> run E path out f = (f', Ok ()) ->
    entry_at f' (leads_to E out) = Some Dir /\ exists x t, shortened s x /\ code_for E c t /\ f' !! (leads_to E out ++ [x +:+ ".ts"]) = Some (File (txt t)).
  Proof.
    intros Hf Hrun. pose proof (run_ok_compiles f' Hf Hrun) as Hc. destruct (single_out f' _ Hf Hrun Hc) as [H _]. destruct (H eq_refl) as (t & Ht & Hx).
    destruct (saved_single f' _ Hf Hrun) as [(_ & [m Hm] & _)|(t' & op & _ & Hsv & _)]; [done|]. split.
    - eapply tree_parent; [exact (s_tree _ _ _ _ _ Hsv)|]. exact Hx.
    - exists (name_stem s), t. split; [apply stem_shortened|]. done.
  Qed.
  Lemma file_there f' r : is_file f (leads_to E out) -> fault E 0 (l ++ [s +:+ ".pkt"]) = false -> run E path out f = (f', r) -> r ≠ Ok ().
  Proof.
    intros [c' Hc'] Hf Hrun ->. destruct (becomes_dir f' Hf Hrun) as [Hd _]. destruct (named_place f' _ Hf Hrun) as [H|[H _]]; [|by rewrite Hc' in H].
    destruct (leads_to E out) as [|a m] eqn:El.
    - by rewrite (tree_root f (sane_tree _ _ Hs)) in Hc'.
    - cbn in Hd. by rewrite H, Hc' in Hd.
  Qed.

  (** ** C55 for a single file *)
  Lemma single_iff x : shortened s x -> no_fault E -> (forall n, torn E n = None) ->
    (exists f', run E path out f = (f', Ok ())) <-> compiles c /\ clear_way E f out x.
  Proof.
    intros <-%shortened_stem Hnf Hnt. pose proof (Hnf 0 (l ++ [s +:+ ".pkt"])) as Hf.
    assert (forall t, clear_for (origin E out) f (Job (names_of out ++ []) (name_stem s +:+ ".ts") (T t)) <-> clear_way E f out (name_stem s)) as Hcl.
    { intros t. unfold clear_for, clear_way. rewrite (job_target E out [] _ (T t) (Forall_nil_2 _)). cbn [j_way]. rewrite (job_way E out [] _ (Forall_nil_2 _)).
      split; intros (H1 & H2 & H3); (split; [|done]).
      - intros y Hy Hne. destruct (H1 y) as [|]; [by apply job_way|done|done].
      - intros y Hy%job_way; [|done]. destruct (decide (y = [])) as [|Hne]; [by right|]. left. by apply H1. }
    split.
    - intros [f' Hrun]. pose proof (run_ok_compiles f' Hf Hrun) as Hc. split; [done|].
      destruct (saved_single f' _ Hf Hrun) as [(_ & [m Hm] & _)|(t & op & _ & Hsv & _)]; [done|]. apply (Hcl t). by apply (s_ok _ _ _ _ _ Hsv).
    - intros [Hc Hw]. destruct (run E path out f) as [f' r] eqn:Hrun.
      destruct (saved_single f' _ Hf Hrun) as [(_ & _ & [])|(t & op & _ & _ & Hok)]; [done|]. exists f'. f_equal. apply Hok; [done..|]. by apply Hcl.
  Qed.
End single.

(** ** Examples *)
Definition readme_tree : fs := list_to_map [(["test.pkt"], File good_text)].
Definition taken_tree : fs := list_to_map [(["test.pkt"], File good_text); (["test.ts"], File bad_text)].
Definition dot_tree : fs := list_to_map [(["..pkt"], File good_text)].
