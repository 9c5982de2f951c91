(** A walk that succeeds has met UTF-8 names only. *)
From Verif Require Export CliRead.

Lemma from_utf8_prefix u v : utf8 u -> from_utf8 (u ++ v) = from_utf8 v.
Proof. intros (gs & Hg & ->). induction Hg as [|g gs Hg _ IH]; [done|]. cbn [concat]. rewrite <- app_assoc, from_utf8_char by done. exact IH. Qed.
Lemma to_str_push_iff d n : proper_name n -> to_str_ok d = true -> to_str_ok (push d n) = from_utf8 (txt n).
Proof.
  intros Hn. unfold to_str_ok. change T with txt. rewrite from_utf8_spec. intros Hd. unfold push.
  rewrite (plain_no_root n) by apply Hn. destruct (decide _); rewrite !txt_app; [by apply from_utf8_prefix|].
  rewrite from_utf8_prefix by done. apply from_utf8_prefix. apply from_utf8_spec. by vm_compute.
Qed.
(** the name of a schema without its extension *)
Lemma utf8_stem s : utf8 (txt (s +:+ ".pkt")) -> utf8 (txt s).
Proof. rewrite txt_app. intros H. by apply ReportProofs.utf8_split in H as [H _]. Qed.
(** the pieces of a path *)
Lemma pieces_utf8 s : utf8 (txt s) -> Forall (fun p => utf8 (txt p)) (pieces s).
Proof.
  assert (forall u, utf8 (u ++ txt s) -> match pieces s with p :: ps => utf8 (u ++ txt p) /\ Forall (fun p => utf8 (txt p)) ps | [] => False end) as H.
  { induction s as [|c s IH]; intros u Hu; [split; [done|constructor]|]. cbn [pieces]. change (txt (String c s)) with (c :: txt s) in Hu.
    destruct (decide (c = SLASH)) as [->|Hc].
    - apply ReportProofs.utf8_split in Hu as [H1 H2]; [|by vm_compute]. apply ReportProofs.utf8_tail in H2; [|by apply Nat.leb_le; vm_compute].
      change (txt "") with (@nil ascii). rewrite app_nil_r. split; [done|]. specialize (IH [] H2). destruct (pieces s) as [|p ps]; [done|]. destruct IH. by constructor.
    - specialize (IH (u ++ [c])). rewrite <- app_assoc in IH. specialize (IH Hu). destruct (pieces s) as [|p ps]; [done|]. rewrite <- app_assoc in IH. exact IH. }
  intros Hs. specialize (H [] Hs). destruct (pieces s) as [|p ps]; [done|]. destruct H. by constructor.
Qed.
Lemma utf8_pieces s : Forall (fun p => utf8 (txt p)) (pieces s) -> utf8 (txt s).
Proof.
  assert (forall u, match pieces s with p :: ps => utf8 (u ++ txt p) /\ Forall (fun p => utf8 (txt p)) ps | [] => True end -> utf8 (u ++ txt s)) as H.
  { induction s as [|c s IH]; intros u; [by intros [H _]|]. cbn [pieces]. change (txt (String c s)) with (c :: txt s). destruct (decide (c = SLASH)) as [->|Hc].
    - change (txt "") with (@nil ascii). rewrite app_nil_r. intros [H1 H2]. apply utf8_append; [done|]. change (SLASH :: txt s) with ([SLASH] ++ txt s).
      apply utf8_append; [apply from_utf8_spec; by vm_compute|]. apply (IH []). destruct (pieces s) as [|p ps]; [done|]. by apply Forall_cons in H2.
    - specialize (IH (u ++ [c])). rewrite <- app_assoc in IH. intros H. apply IH. pose proof (pieces_ne s). destruct (pieces s) as [|p ps]; [done|]. rewrite <- app_assoc. exact H. }
  intros Hs. apply (H []). destruct (pieces s) as [|p ps]; [done|]. by apply Forall_cons in Hs.
Qed.
(** where the names of a place come from *)
Lemma descend_names ps l x n m : foldl descend l ps = x ++ n :: m -> (exists m', l = x ++ n :: m') \/ n ∈ ps.
Proof.
  revert m. induction ps as [|p ps IH] using rev_ind; intros m; [intros H; left; by exists m|]. rewrite foldl_app. cbn [foldl]. unfold descend at 1.
  assert (forall k, foldl descend l ps = x ++ n :: k -> (exists m', l = x ++ n :: m') \/ n ∈ ps ++ [p]) as Hk.
  { intros k [H|H]%IH; [by left|right]. apply elem_of_app. by left. }
  destruct (junk p); [apply Hk|]. destruct (decide _) as [Hp|Hp].
  - destruct (foldl descend l ps) as [|a y] eqn:Hy using rev_ind; [intros H; by destruct x|]. rewrite removelast_last. intros ->. apply (Hk (m ++ [a])). by rewrite <- app_assoc.
  - destruct m as [|b m _] using rev_ind; intros H.
    + apply app_inj_2 in H as [_ [= ->]]; [|done]. right. apply elem_of_app. right. by apply elem_of_list_singleton.
    + change (n :: m ++ [b]) with ((n :: m) ++ [b]) in H. rewrite app_assoc in H. apply app_inj_2 in H as [H _]; [|done]. by apply (Hk m).
Qed.

Section names.
  Context (E : env) (f : fs) (Hs : sane E f) (Hnb : no_blind E).
  Definition named (l : location) : Prop := dirs_named f l /\ files_named f l.
  Definition named_entry (l : location) (n : string) : Prop :=
    (entry_at f (l ++ [n]) = Some Dir -> utf8 (txt n) /\ named (l ++ [n])) /\
    (forall s c, n = s +:+ ".pkt" -> s ≠ "" -> entry_at f (l ++ [n]) = Some (File c) -> utf8 (txt s)).
  Lemma named_all l : (forall n, is_Some (entry_at f (l ++ [n])) -> named_entry l n) -> named l.
  Proof.
    intros H. assert (forall n more e, f !! (l ++ n :: more) = Some e -> is_Some (entry_at f (l ++ [n])) /\ (more ≠ [] -> entry_at f (l ++ [n]) = Some Dir)) as Hup.
    { intros n more e He. assert (l ++ n :: more = (l ++ [n]) ++ more) as Eq by by rewrite <- app_assoc.
      destruct more as [|m more]; [split; [rewrite entry_ne; by eexists|done]|].
      assert (entry_at f (l ++ [n]) = Some Dir) as Hd.
      { eapply (tree_up f _ (m :: more)); [apply Hs|done|]. rewrite <- Eq, entry_ne' by by destruct l. exact He. }
      split; [by eexists|done]. }
    split.
    - intros [|n dirs] Hd; [constructor|]. destruct (Hup _ _ _ Hd) as [Hx Hy]. destruct (H n Hx) as [H1 _].
      assert (entry_at f (l ++ [n]) = Some Dir) as Hn by (destruct dirs; [by rewrite entry_ne|by apply Hy]).
      destruct (H1 Hn) as [Hu [Hdn _]]. constructor; [done|]. apply Hdn. by rewrite <- app_assoc.
    - intros [|n dirs] s c [Hne Hl]; cbn [app] in Hl.
      + destruct (Hup _ _ _ Hl) as [Hx _]. destruct (H _ Hx) as [_ H2]. apply (H2 s c); [done|done|]. by rewrite entry_ne.
      + destruct (Hup _ _ _ Hl) as [Hx Hy]. destruct (H n Hx) as [H1 _]. destruct H1 as [_ [_ H1]]; [apply Hy; by destruct dirs|].
        apply (H1 dirs s c). split; [done|]. by rewrite <- app_assoc.
  Qed.
  Lemma entries_named fuel dir l op w found names :
    (forall d m op w found, to_str_ok d = true -> d ≠ "" -> resolve E f d = Some m -> entry_at f m = Some Dir ->
       visit_files E fuel d (World f op) = (w, Ok found) -> named m) ->
    to_str_ok dir = true -> dir ≠ "" -> resolve E f dir = Some l -> entry_at f l = Some Dir ->
    (forall n, n ∈ names -> is_Some (entry_at f (l ++ [n]))) ->
    visit_entries E (visit_files E fuel) dir names (World f op) = (w, Ok found) -> forall n, n ∈ names -> named_entry l n.
  Proof.
    intros IHf Hu Hd Hl Hdir. revert op w found. induction names as [|n names IH]; intros op w found Hex; [by intros _ n ?%elem_of_nil|].
    destruct (Hex n (elem_of_list_here _ _)) as [e He]. pose proof (child_proper E f Hs l n e He) as Hp.
    pose proof (resolve_push E f dir n l Hd Hp Hl Hdir) as Hpush.
    cbn [visit_entries]. unfold ibind at 1. unfold next_entry, tick. cbn [w_op w_fs]. rewrite (inspect_eq E f op dir l Dir Hl Hdir).
    destruct (fault E op l); cbn [rbind]; [done|].
    unfold ibind at 1. unfold is_dir, tick. cbn [w_op w_fs]. rewrite Hpush, He, Hnb.
    unfold ibind at 1.
    lazymatch goal with |- context [(if ?b then ?x else ?y) (World f (S (S op)))] => destruct ((if b then x else y) (World f (S (S op)))) as [w1 r1] eqn:H1 end.
    destruct r1 as [found1|x|x|]; [|done..].
    assert (w_fs w1 = f /\ named_entry l n) as [Hf1 Hn1].
    { destruct e as [c|]; cbn [negb] in H1.
      - unfold named_entry. rewrite He. destruct (decide (extension_of (push dir n) = Some "pkt")) as [Hx|Hx].
        + unfold ibind, visit_one in H1. rewrite to_str_push_iff in H1 by done. destruct (from_utf8 (txt n)) eqn:U; [|done]. apply from_utf8_spec in U.
          destruct (run_one E _ _) as [w2 r2] eqn:R. eapply (run_one_spec E f Hs) in R as (A & _); [|done..].
          assert (w_fs w1 = f) as Hf1 by (destruct r2; unfold iret in H1; simplify_eq; done). split; [done|]. split; [done|].
          intros s c' -> _ _. by apply utf8_stem.
        + unfold iret in H1. injection H1 as <- _. split; [done|]. split; [done|]. intros s c' -> Hne _. exfalso. apply Hx. rewrite extension_push by done.
          apply name_ext_spec; [by vm_compute|]. by exists s.
      - rewrite to_str_push_iff in H1 by done. destruct (from_utf8 (txt n)) eqn:U; [|done]. split.
        + eapply (visit_files_spec E f Hs) in H1 as [[O _ _ _ _ _] _]; [exact O|apply push_ne, Hp|done..].
        + unfold named_entry. rewrite He. split; [|done]. intros _. split; [by apply from_utf8_spec|].
          eapply IHf; [| | | |exact H1]; [by rewrite to_str_push_iff|apply push_ne, Hp|done..]. }
    destruct w1 as [f1 op1]. cbn in Hf1. subst f1. unfold ibind.
    destruct (visit_entries E (visit_files E fuel) dir names (World f op1)) as [w2 [more|x|x|]] eqn:H2; [|done..].
    intros _ m [->|Hm]%elem_of_cons; [done|]. eapply IH; [|exact H2|done]. intros k Hk. apply Hex. by right.
  Qed.
  Lemma visit_named fuel dir l op w found : to_str_ok dir = true -> dir ≠ "" -> resolve E f dir = Some l -> entry_at f l = Some Dir ->
    visit_files E fuel dir (World f op) = (w, Ok found) -> named l.
  Proof.
    revert dir l op w found. induction fuel as [|fuel IH]; intros dir l op w found Hu Hd Hl Hdir; [done|].
    cbn [visit_files]. unfold ibind at 1. unfold metadata, tick. cbn [w_op w_fs]. rewrite (inspect_eq E f op dir l Dir Hl Hdir).
    destruct (fault E op l); cbn [rbind snd]; [done|].
    unfold ibind, read_dir, tick. cbn [w_op w_fs]. rewrite (inspect_eq E f (S op) dir l Dir Hl Hdir).
    destruct (fault E (S op) l); cbn [rbind fst snd]; [done|].
    pose proof (sane_order E f Hs (S op) (children f l)) as Hperm. intros H. apply named_all. intros n Hn.
    eapply entries_named; [exact IH|exact Hu|exact Hd|exact Hl|exact Hdir| |exact H|].
    - intros m. by rewrite Hperm, elem_of_children, entry_ne.
    - by rewrite Hperm, elem_of_children, <- entry_ne.
  Qed.
  (** C55 *)
  Lemma ok_named path out base f' : input_dir E f path base -> fault E 0 base = false -> utf8 (txt path) -> run E path out f = (f', Ok ()) -> named base.
  Proof.
    intros [R He] Hf0 Hu Hrun. assert (path ≠ "") as Hne by by (intros ->).
    unfold run, main, start, metadata, tick in Hrun. cbn [w_op w_fs] in Hrun. rewrite (inspect_eq E f 0 path base _ R He), Hf0 in Hrun. cbn [rbind snd] in Hrun.
    unfold ibind at 1 in Hrun. destruct (run_all E path (World f 1)) as [w1 [found|m|m|]] eqn:R1; [|done..].
    unfold run_all in R1. eapply visit_named; [| | | |exact R1]; [by apply from_utf8_spec|done..].
  Qed.
End names.
