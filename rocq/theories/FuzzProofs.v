(** What gen_random_pkt.py writes compiles, if nothing collides (C71). *)
From Coq Require Import NArith.
From Verif Require Import Fuzz ParserProofs2 CheckProofs4 CheckWitness.

Ltac dec := apply (bool_decide_unpack _); vm_compute; exact I.
Ltac stop := simpl; dec.

(** ** Names *)
Lemma up_name c : name_char c -> name_char (upper_char c).
Proof. revert c. apply (ascii_all (fun c => name_char c -> name_char (upper_char c))). dec. Qed.
Lemma lo_name c : name_char c -> name_char (lower_char c).
Proof. revert c. apply (ascii_all (fun c => name_char c -> name_char (lower_char c))). dec. Qed.
Lemma up_start c : c ∈ lower_letters \/ c = underscore -> upper_char c ∈ upper_letters \/ upper_char c = underscore.
Proof.
  revert c. apply (ascii_all (fun c => c ∈ lower_letters \/ c = underscore -> upper_char c ∈ upper_letters \/ upper_char c = underscore)).
  dec.
Qed.
Lemma big_start c : c ∈ upper_letters \/ c = underscore -> start_char c.
Proof. revert c. apply (ascii_all (fun c => c ∈ upper_letters \/ c = underscore -> start_char c)). dec. Qed.
Lemma small_start c : c ∈ lower_letters \/ c = underscore -> start_char c.
Proof. revert c. apply (ascii_all (fun c => c ∈ lower_letters \/ c = underscore -> start_char c)). dec. Qed.
Lemma big_not_small c : c ∈ upper_letters \/ c = underscore -> c ∉ lower_letters.
Proof. revert c. apply (ascii_all (fun c => c ∈ upper_letters \/ c = underscore -> c ∉ lower_letters)). dec. Qed.
Lemma reserved_small : Forall (fun k => match txt k with d :: _ => d ∈ lower_letters | [] => False end) ("export" :: reserved_list).
Proof. repeat (constructor; [dec|]). constructor. Qed.
Lemma big_no_prefix c r k : c ∈ upper_letters \/ c = underscore -> k ∈ "export" :: reserved_list -> ~ txt k `prefix_of` c :: r.
Proof.
  intros Hc Hk [x E]. pose proof reserved_small as H. rewrite Forall_forall in H. specialize (H k Hk).
  destruct (txt k) as [|d l]; [done|]. injection E as -> _. by apply big_not_small in Hc.
Qed.
Lemma legal_big c r : c ∈ upper_letters \/ c = underscore -> Forall name_char r ->
  legal_name (c :: r) /\ ~ txt "export" `prefix_of` c :: r.
Proof.
  intros Hc Hr. split; [|apply big_no_prefix; [done|by left]]. split.
  - constructor; [by left; apply big_start|done].
  - split; [exists c, r; split; [done|by apply big_start]|]. intros k Hk. apply big_no_prefix; [done|by right].
Qed.
Lemma capitalize_legal t : identifier t -> legal_name (capitalize t) /\ ~ txt "export" `prefix_of` capitalize t.
Proof.
  intros (c & r & -> & Hc & Hr & _). apply legal_big; [by apply up_start|]. clear -Hr.
  induction Hr; constructor; [by apply lo_name|done].
Qed.
Lemma upper_legal t : identifier t -> legal_name (upper t).
Proof.
  intros (c & r & -> & Hc & Hr & _). apply (legal_big (upper_char c)); [by apply up_start|]. clear -Hr.
  induction Hr; constructor; [by apply up_name|done].
Qed.
Lemma variant_legal t : identifier t -> (forall k, k ∈ reserved_list -> ~ txt k `prefix_of` t) -> legal_name t.
Proof.
  intros (c & r & -> & Hc & Hr & _) Hk. split; [constructor; [by left; apply small_start|done]|].
  split; [exists c, r; split; [done|by apply small_start]|done].
Qed.

(** ** The texts of the definitions *)
Lemma wsn_space w : whitespace_with_newlines w -> Forall space_char w.
Proof. intros [H _]. eapply Forall_impl; [exact H|]. intros c [-> | ->]; [by left; left|by right; left]. Qed.
Lemma ws_blank w : whitespace w -> Forall blank_char w.
Proof. intros [H _]. eapply Forall_impl; [exact H|]. intros c ->. by left. Qed.
Lemma stops_name_space w X : Forall space_char w -> stops name_char X -> stops name_char (w ++ X).
Proof. destruct 1 as [|c w Hc Hw]; [done|]. intros _. simpl. by apply space_not_name. Qed.
Lemma skip_run (P : ascii -> Prop) w X : Forall P w -> stops P X -> skip P (w ++ X) X.
Proof. intros. by exists w. Qed.
Lemma legal_stops n r (P : ascii -> Prop) : legal_name n -> (forall c, name_char c -> ~ P c) -> stops P (n ++ r).
Proof. intros (HF & (c & n' & -> & _) & _) HP. simpl. apply HP. by apply Forall_cons in HF as [? _]. Qed.
Lemma name_not_space c : name_char c -> ~ space_char c.
Proof. intros H1 H2. by apply (space_not_name c). Qed.
Lemma name_not_nl c : name_char c -> ~ newline_char c.
Proof. intros H1 H2. apply (space_not_name c); [by right|done]. Qed.
Lemma name_not_blank c : name_char c -> ~ blank_char c.
Proof. intros H1 H2. apply (space_not_name c); [by left|done]. Qed.

Lemma variants_text vs rest :
  Forall (fun v : text * text => legal_name v.1 /\ Forall space_char v.2) vs -> vs ≠ [] ->
  variants (map (fun v => str v.1) vs) (tjoin (txt ",") (map (fun v => v.1 ++ v.2) vs) ++ txt "}" ++ rest) (txt "}" ++ rest).
Proof.
  induction 1 as [|[v w] vs [Hv Hw] HF IH]; [done|]. intros _. cbn [map fst snd] in *. destruct vs as [|v' vs].
  - cbn [map tjoin]. rewrite <-app_assoc.
    apply (variants_more v false [] _ (w ++ txt "}" ++ rest) (txt "}" ++ rest) (txt "}" ++ rest) (txt "}" ++ rest));
      [split; [done|]; split; [done|]; apply stops_name_space; [done|stop]|apply skip_run; [done|stop]| | |constructor].
    + split; [done|]. intros r E. discriminate E.
    + apply skip_id. stop.
  - set (R := tjoin (txt ",") (map (fun v => v.1 ++ v.2) (v' :: vs))) in *.
    change (tjoin (txt ",") ((v ++ w) :: map _ (v' :: vs))) with ((v ++ w) ++ txt "," ++ R). rewrite <-!app_assoc.
    assert (stops space_char (R ++ txt "}" ++ rest)) as HR.
    { apply Forall_cons in HF as [[Hv' _] _]. unfold R. destruct vs; cbn [map tjoin]; rewrite <-!app_assoc;
        (apply legal_stops; [done|apply name_not_space]). }
    eapply (variants_more v true _ _ (w ++ txt "," ++ R ++ txt "}" ++ rest) (txt "," ++ R ++ txt "}" ++ rest)
      (R ++ txt "}" ++ rest) (R ++ txt "}" ++ rest));
      [split; [done|]; split; [done|]; apply stops_name_space; [done|stop]|apply skip_run; [done|stop]|done|by apply skip_id|].
    by apply IH.
Qed.

Definition field_of (f : text * text * bool) : string * unresolved := (str (upper f.1.1), Unresolved (str f.1.2) f.2 false).
Lemma fields_text fs op rest : Forall space_char op ->
  Forall (fun f : text * text * bool => identifier f.1.1 /\ Forall name_char f.1.2) fs -> fs ≠ [] ->
  exists r, skip space_char (op ++ tjoin (txt "," ++ [lf]) (map field_text fs) ++ txt "}" ++ rest) r /\
    fields (map field_of fs) r (txt "}" ++ rest).
Proof.
  intros Hop HF Hne. revert op Hop Hne. induction HF as [|[[n t] b] fs [Hn Ht] HF IH]; [done|]. intros op Hop _.
  cbn [fst snd] in Hn, Ht. pose proof (upper_legal n Hn) as Hu.
  destruct fs as [|f fs].
  - exists (upper n ++ txt ": " ++ t ++ (if b then txt "[]" else []) ++ txt "}" ++ rest). split.
    + cbn [map tjoin]. unfold field_text. cbn [fst snd]. rewrite <-!app_assoc. rewrite app_assoc. apply skip_run.
      * apply Forall_app. split; [done|]. dec.
      * apply legal_stops; [done|apply name_not_space].
    + apply (fields_more (upper n) false t b false [] _ (txt ": " ++ t ++ (if b then txt "[]" else []) ++ txt "}" ++ rest)
        (txt ": " ++ t ++ (if b then txt "[]" else []) ++ txt "}" ++ rest)
        (txt ": " ++ t ++ (if b then txt "[]" else []) ++ txt "}" ++ rest)
        (txt " " ++ t ++ (if b then txt "[]" else []) ++ txt "}" ++ rest)
        (t ++ (if b then txt "[]" else []) ++ txt "}" ++ rest)
        ((if b then txt "[]" else []) ++ txt "}" ++ rest) (txt "}" ++ rest) (txt "}" ++ rest) (txt "}" ++ rest) (txt "}" ++ rest)).
      * split; [done|]. split; [done|]. stop.
      * apply skip_id. stop.
      * split; [done|]. intros r E. discriminate E.
      * done.
      * apply skip_run; [dec|]. destruct t as [|c t]; [destruct b; stop|]. simpl. apply Forall_cons in Ht as [Hc _]. by apply name_not_blank.
      * split; [done|]. split; [done|]. destruct b; stop.
      * destruct b; [done|]. split; [done|]. intros r E. discriminate E.
      * apply skip_id. stop.
      * split; [done|]. intros r E. discriminate E.
      * apply skip_id. stop.
      * constructor.
  - destruct (IH [lf]) as (r & H1 & H2); [dec|done|].
    set (R := tjoin (txt "," ++ [lf]) (map field_text (f :: fs))) in *.
    exists (upper n ++ txt ": " ++ t ++ (if b then txt "[]" else []) ++ txt "," ++ [lf] ++ R ++ txt "}" ++ rest). split.
    + change (map field_text ((n, t, b) :: f :: fs)) with (field_text (n, t, b) :: map field_text (f :: fs)).
      change (tjoin (txt "," ++ [lf]) (field_text (n, t, b) :: map field_text (f :: fs))) with
        (field_text (n, t, b) ++ (txt "," ++ [lf]) ++ R). unfold field_text. cbn [fst snd].
      rewrite <-!app_assoc. rewrite app_assoc. apply skip_run.
      * apply Forall_app. split; [done|]. dec.
      * apply legal_stops; [done|apply name_not_space].
    + set (X := [lf] ++ R ++ txt "}" ++ rest) in *.
      apply (fields_more (upper n) false t b true (map field_of (f :: fs)) _ (txt ": " ++ t ++ (if b then txt "[]" else []) ++ txt "," ++ X)
        (txt ": " ++ t ++ (if b then txt "[]" else []) ++ txt "," ++ X)
        (txt ": " ++ t ++ (if b then txt "[]" else []) ++ txt "," ++ X)
        (txt " " ++ t ++ (if b then txt "[]" else []) ++ txt "," ++ X)
        (t ++ (if b then txt "[]" else []) ++ txt "," ++ X)
        ((if b then txt "[]" else []) ++ txt "," ++ X) (txt "," ++ X) (txt "," ++ X) X r).
      * split; [done|]. split; [done|]. stop.
      * apply skip_id. stop.
      * split; [done|]. intros r' E. discriminate E.
      * done.
      * apply skip_run; [dec|]. destruct t as [|c t]; [destruct b; stop|]. simpl. apply Forall_cons in Ht as [Hc _]. by apply name_not_blank.
      * split; [done|]. split; [done|]. destruct b; stop.
      * destruct b; [done|]. split; [done|]. intros r' E. discriminate E.
      * apply skip_id. stop.
      * done.
      * exact H1.
      * exact H2.
Qed.

(** ** The file *)
Definition nodes (d : defn) : ast :=
  match d with
  | FComment _ => []
  | FEnum _ _ _ _ vs id => [NDecl (str (capitalize id)) (AEnum (map (fun v => str v.1) vs))]
  | FStruct _ _ _ _ fs id => [NDecl (str (capitalize id)) (AStruct (map field_of fs))]
  end.
Definition file (ds : list defn) : text := concat (map (fun d => fline d ++ [lf]) ds).
Definition words (types : list text) : Prop := Forall (Forall name_char) types.

Lemma comment_no_lf t : Forall (fun c => c ∈ lower_letters \/ c ∈ upper_letters \/ c ∈ digits \/ blank_char c) t -> Forall (fun c => c ≠ lf) t.
Proof.
  intros H. eapply Forall_impl; [exact H|].
  apply (ascii_all (fun c => c ∈ lower_letters \/ c ∈ upper_letters \/ c ∈ digits \/ blank_char c -> c ≠ lf)). dec.
Qed.
Lemma add_words types d : words types -> possible types d -> words (add_type types d).
Proof.
  intros Hw Hp. unfold add_type. destruct d as [t|op cl w1 w2 vs id|op cl w1 w2 fs id]; simpl; [done|..];
    (apply Forall_app; split; [done|]; constructor; [|done]); apply capitalize_legal; apply Hp.
Qed.
Lemma body_of types d X : words types -> possible types d -> tidy d ->
  match d with
  | FComment _ => True
  | FEnum op cl w1 w2 vs id => body (AEnum (map (fun v => str v.1) vs))
      (txt "enum" ++ w2 ++ (txt "{" ++ op) ++ tjoin (txt ",") (map (fun v => v.1 ++ v.2) vs) ++ (txt "}" ++ cl) ++ X) (cl ++ X)
  | FStruct op cl w1 w2 fs id => body (AStruct (map field_of fs))
      (txt "struct" ++ w2 ++ (txt "{" ++ op) ++ tjoin (txt "," ++ [lf]) (map field_text fs) ++ (txt "}" ++ cl) ++ X) (cl ++ X)
  end.
Proof.
  intros Hty Hp Ht. destruct d as [t|op cl w1 w2 vs id|op cl w1 w2 fs id]; [done|..]; rewrite <-!app_assoc.
  - destruct Hp as (H1%wsn_space & H2%wsn_space & H3%ws_blank & H4%ws_blank & Hid & HF & Hl).
    destruct Ht as (_ & Hnd & Hres).
    assert (Forall (fun v : text * text => legal_name v.1 /\ Forall space_char v.2) vs) as HF'.
    { apply Forall_forall. intros v Hv. rewrite Forall_forall in HF. destruct (HF v Hv) as [Hi Hw%wsn_space].
      split; [|done]. apply variant_legal; [done|]. intros k. apply Hres. by apply elem_of_list_fmap_1. }
    assert (vs ≠ []) as Hne by (destruct vs; simpl in Hl; [lia|done]).
    eapply body_enum; [done|apply skip_run; [exact H4|stop]|done| |apply variants_text; [exact HF'|exact Hne]|done].
    apply skip_run; [done|]. destruct vs as [|v vs]; [done|]. apply Forall_cons in HF' as [[Hv _] _].
    destruct vs; cbn [map tjoin]; rewrite <-!app_assoc; (apply legal_stops; [done|apply name_not_space]).
  - destruct Hp as (H1%wsn_space & H2%wsn_space & H3%ws_blank & H4%ws_blank & Hid & HF & Hnd & Hl).
    assert (Forall (fun f : text * text * bool => identifier f.1.1 /\ Forall name_char f.1.2) fs) as HF'.
    { eapply Forall_impl; [exact HF|]. intros f [Hi Hf]. split; [done|]. unfold words in Hty. rewrite Forall_forall in Hty. by apply Hty. }
    assert (fs ≠ []) as Hne by (destruct fs; simpl in Hl; [lia|done]).
    destruct (fields_text fs op (cl ++ X) H1 HF' Hne) as (r & K1 & K2).
    eapply body_struct; [done|apply skip_run; [exact H4|stop]|done|exact K1|exact K2|done].
Qed.
(** The rest of a file: what follows a comment, and what follows a declaration. *)
Definition reads (a : ast) (s : text) : Prop :=
  (exists r, skip newline_char s r /\ lines a r) /\ (exists r, skip space_char s r /\ lines a r).
Lemma reads_export e : Forall name_char e -> reads [NExport (str e)] ([lf] ++ txt " export " ++ e).
Proof.
  intros He.
  assert (forall w, Forall blank_char w -> lines [NExport (str e)] (w ++ txt "export " ++ e)) as H.
  { intros w Hw. eapply (lines_export e [] _ (txt "export " ++ e) (txt " " ++ e) e [] []);
      [apply skip_run; [done|stop]|done| | |apply skip_id; done|constructor].
    - apply skip_run; [dec|]. destruct e as [|c e]; [done|]. simpl. apply Forall_cons in He as [? _]. by apply name_not_blank.
    - split; [by rewrite app_nil_r|]. done. }
  split.
  - exists (txt " " ++ txt "export " ++ e). split; [|apply H; dec]. apply (skip_run _ [lf]); [dec|stop].
  - exists ([] ++ txt "export " ++ e). split; [|by apply H]. apply (skip_run _ ([lf] ++ txt " ")); [dec|stop].
Qed.
Lemma reads_stops a s : stops space_char s -> lines a s -> reads a s.
Proof.
  intros Hs Hl. split; exists s; (split; [|done]); apply skip_id; [|done].
  destruct s; [done|]. simpl in *. intros ?. apply Hs. by right.
Qed.
Lemma reads_defn types d a X : words types -> possible types d -> tidy d -> reads a X -> reads (nodes d ++ a) (fline d ++ [lf] ++ X).
Proof.
  intros Hty Hp Ht [(r1 & HX1 & Hl1) (r2 & HX2 & Hl2)]. pose proof (body_of types d ([lf] ++ X) Hty Hp Ht) as Hb.
  assert (forall cl, whitespace_with_newlines cl -> skip space_char (cl ++ [lf] ++ X) r2) as Hsk.
  { intros cl Hcl%wsn_space. destruct HX2 as (w & -> & HF & Hs). rewrite !app_assoc. apply skip_run; [|done].
    repeat (apply Forall_app; split); [done|dec|done]. }
  destruct d as [t|op cl w1 w2 vs id|op cl w1 w2 fs id].
  - destruct Hp as [HF _]. apply reads_stops; [stop|]. cbn [nodes fline app].
    eapply (lines_comment a _ _ ([lf] ++ X) r1); [apply skip_id; stop| | |done].
    + exists t. split; [by rewrite <-?app_assoc|]. split; [by apply comment_no_lf|]. right. by exists X.
    + destruct HX1 as (w & -> & HFw & Hs). rewrite app_assoc. apply skip_run; [|done]. constructor; [by left|done].
  - destruct Hp as (H1 & H2 & H3%ws_blank & H4%ws_blank & Hid & _). destruct (capitalize_legal id Hid) as [Hn Hx].
    apply reads_stops; cbn [nodes fline app]; rewrite <-!app_assoc in *; [apply legal_stops; [done|apply name_not_space]|].
    eapply (lines_decl (capitalize id)); [apply skip_id, legal_stops; [done|apply name_not_blank]|split; [done|]; split; [done|stop]|done|
      apply skip_id; stop|done|apply skip_run; [done|stop]|exact Hb|by apply Hsk|done].
  - destruct Hp as (H1 & H2 & H3%ws_blank & H4%ws_blank & Hid & _). destruct (capitalize_legal id Hid) as [Hn Hx].
    apply reads_stops; cbn [nodes fline app]; rewrite <-!app_assoc in *; [apply legal_stops; [done|apply name_not_space]|].
    eapply (lines_decl (capitalize id)); [apply skip_id, legal_stops; [done|apply name_not_blank]|split; [done|]; split; [done|stop]|done|
      apply skip_id; stop|done|apply skip_run; [done|stop]|exact Hb|by apply Hsk|done].
Qed.
Lemma reads_file ds : forall types e, words types -> possible_run types ds -> Forall tidy ds -> Forall name_char e ->
  reads (concat (map nodes ds) ++ [NExport (str e)]) (file ds ++ [lf] ++ txt " export " ++ e).
Proof.
  induction ds as [|d ds IH]; intros types e Hty Hp Ht He; [by apply reads_export|].
  destruct Hp as [Hd Hp]. apply Forall_cons in Ht as [Htd Ht]. unfold file. cbn [map concat]. rewrite <-!app_assoc.
  eapply reads_defn; [exact Hty|done|done|]. eapply IH; [|exact Hp|done..]. by apply add_words.
Qed.
Lemma words_pkt : words pkt_types.
Proof. unfold words. dec. Qed.

(** ** The schema is valid *)
Lemma floop_file ds : forall size out exp out' exp', floop ds size out exp = (out', exp') ->
  exists ds1 ds2, ds = ds1 ++ ds2 /\ out' = out ++ file ds1 /\
    (exp' = exp \/ exists d, d ∈ ds1 /\ occurs (txt "struct") (fline d ++ [lf]) = true /\ exp' = Some (fname d)).
Proof.
  induction ds as [|d ds IH]; intros size out exp out' exp'; cbn [floop].
  - injection 1 as <- <-. exists [], []. split; [done|]. split; [by rewrite app_nil_r|by left].
  - destruct (1048576 <=? size)%N.
    + injection 1 as <- <-. exists [], (d :: ds). split; [done|]. split; [by rewrite app_nil_r|by left].
    + intros E. apply IH in E as (ds1 & ds2 & -> & -> & Hexp). exists (d :: ds1), ds2. split; [done|].
      split; [by rewrite <-app_assoc|]. destruct Hexp as [->|(d' & Hd & Ho & ->)].
      * destruct (occurs (txt "struct") (fline d ++ [lf])) eqn:Ho; [|by left]. right. exists d. split; [by left|done].
      * right. exists d'. split; [by right|done].
Qed.
Lemma possible_app ds1 : forall ds2 types, possible_run types (ds1 ++ ds2) -> possible_run types ds1.
Proof. induction ds1 as [|d ds1 IH]; intros ds2 types; [done|]. intros [H1 H2]. split; [done|]. by eapply IH. Qed.
Lemma possible_at ds : forall types i d, possible_run types ds -> ds !! i = Some d ->
  exists types', possible types' d /\
    forall t, t ∈ types' -> t ∈ types \/ exists j d', j < i /\ ds !! j = Some d' /\ fname d' = Some t.
Proof.
  induction ds as [|d0 ds IH]; intros types i d Hp Hi; [done|]. destruct Hp as [Hd Hp]. destruct i as [|i]; simplify_eq/=.
  - exists types. split; [done|]. intros t Ht. by left.
  - destruct (IH _ i d Hp Hi) as (types' & H1 & H2). exists types'. split; [done|]. intros t Ht.
    destruct (H2 t Ht) as [H|(j & d' & Hj & Hd' & Hn)].
    + unfold add_type in H. destruct (fname d0) as [n|] eqn:En; [|by left].
      apply elem_of_app in H as [H|H]; [by left|]. apply elem_of_list_singleton in H as ->. right. exists 0, d0. split; [lia|done].
    + right. exists (S j), d'. split; [lia|done].
Qed.
Lemma fname_at ds : NoDup (omap fname ds) -> forall i j d d' n, ds !! i = Some d -> ds !! j = Some d' ->
  fname d = Some n -> fname d' = Some n -> i = j.
Proof.
  assert (forall (ds : list defn) i d n, ds !! i = Some d -> fname d = Some n -> n ∈ omap fname ds) as Hin.
  { intros ds' i d n Hi Hn. apply elem_of_list_omap. exists d. split; [by eapply elem_of_list_lookup_2|done]. }
  induction ds as [|d0 ds IH]; intros Hnd i j d d' n Hi Hj Hn Hn'; [done|].
  destruct i as [|i], j as [|j]; simplify_eq/=; [done|..].
  - rewrite Hn in Hnd. apply NoDup_cons in Hnd as [Hnd _]. destruct Hnd. by eapply Hin.
  - rewrite Hn' in Hnd. apply NoDup_cons in Hnd as [Hnd _]. destruct Hnd. by eapply Hin.
  - f_equal. eapply IH; [|done..]. destruct (fname d0); [by apply NoDup_cons in Hnd as [_ ?]|done].
Qed.
Lemma str_inj (s t : text) : str s = str t -> s = t.
Proof. intros E. by rewrite <-(txt_str s), E, txt_str. Qed.
Lemma nodup_str (l : list text) : NoDup l -> NoDup (map str l).
Proof. intros H. apply NoDup_fmap_2_strong; [|done]. intros x y _ _. apply str_inj. Qed.
Lemma exports_app a b : exports (a ++ b) = exports a ++ exports b.
Proof. induction a as [|[] a IH]; [done|done|]. cbn. by rewrite IH. Qed.
Lemma decl_names_app a b : decl_names (a ++ b) = decl_names a ++ decl_names b.
Proof. induction a as [|[] a IH]; [done| |done]. cbn. by rewrite IH. Qed.
Lemma compared_nodup fs : NoDup (map fst fs) -> NoDup (compared_names fs).
Proof.
  assert (forall fs x, x ∈ compared_names fs -> x ∈ map fst fs) as Hin.
  { clear fs. induction fs as [|[f u] fs IH]; intros x; simpl; [done|]. rewrite !elem_of_cons.
    intros [->|H]; [by left|]. right. case_decide; [by apply IH|by apply elem_of_nil in H]. }
  induction fs as [|[f u] fs IH]; simpl; intros H; [constructor|]. apply NoDup_cons in H as [H1 H2].
  constructor; [|case_decide; [by apply IH|constructor]]. case_decide; [|by apply not_elem_of_nil].
  intros Hf. by apply H1, Hin.
Qed.

Section valid.
Context (ds : list defn) (d0 : defn) (e : text).
Context (Hrun : possible_run pkt_types ds) (Hnd : NoDup (omap fname ds)) (Ht : Forall tidy ds).
Context (Hd0 : d0 ∈ ds) (Ho : occurs (txt "struct") (fline d0 ++ [lf]) = true) (He : fname d0 = Some e).
Let a : ast := concat (map nodes ds) ++ [NExport (str e)].

Lemma node_in n t : NDecl n t ∈ a <-> exists i d tn, ds !! i = Some d /\ fname d = Some tn /\ n = str tn /\ nodes d = [NDecl n t].
Proof.
  unfold a. rewrite elem_of_app. split.
  - intros [H|H]; [|apply elem_of_list_singleton in H; discriminate].
    apply elem_of_list_In, in_concat in H as (l & Hl & Hx). apply in_map_iff in Hl as (d & <- & Hd).
    apply elem_of_list_In, elem_of_list_lookup in Hd as [i Hi]. exists i, d.
    destruct d as [t'|? ? ? ? vs id|? ? ? ? fs id]; simpl in Hx; [done|..]; (destruct Hx as [Hx|[]]; injection Hx as <- <-);
      by eexists.
  - intros (i & d & tn & Hi & _ & _ & Hd). left. apply elem_of_list_In, in_concat. exists (nodes d). split; [|rewrite Hd; by left].
    apply in_map, elem_of_list_In. by eapply elem_of_list_lookup_2.
Qed.
Lemma a_names : decl_names a = map str (omap fname ds).
Proof.
  unfold a. rewrite decl_names_app, app_nil_r. clear. induction ds as [|d l IH]; [done|].
  cbn [map concat]. rewrite decl_names_app, IH. by destruct d.
Qed.
Lemma a_exports : exports a = [str e].
Proof.
  unfold a. rewrite exports_app. assert (exports (concat (map nodes ds)) = []) as ->; [|done]. clear.
  induction ds as [|d l IH]; [done|]. cbn [map concat]. rewrite exports_app, IH. by destruct d.
Qed.
Lemma a_legal i d n : ds !! i = Some d -> fname d = Some n -> legal_name n.
Proof.
  intros Hi Hn. destruct (possible_at ds _ _ _ Hrun Hi) as (ty & Hp & _).
  destruct d as [t'|? ? ? ? vs id|? ? ? ? fs id]; simpl in Hn; [done|..]; injection Hn as <-;
    apply capitalize_legal; apply Hp.
Qed.
Lemma legal_no_builtin' n : legal_name n -> str n ∉ builtin_names.
Proof.
  intros (_ & _ & H) Hin. apply (H (str n)); [|rewrite txt_str; done].
  assert (forall k, k ∈ builtin_names -> k ∈ reserved_list) as HH; [|by apply HH].
  apply Forall_forall. dec.
Qed.
Lemma a_no_builtin : no_builtin_decl a.
Proof.
  intros n. rewrite a_names. intros Hn. apply elem_of_list_fmap in Hn as (t & -> & Hin).
  apply elem_of_list_omap in Hin as (d & Hd & Hn). apply elem_of_list_lookup in Hd as [i Hi].
  by eapply legal_no_builtin', a_legal.
Qed.
Lemma struct_at n fs : declares_struct a n fs -> exists i op cl w1 w2 gs id,
  ds !! i = Some (FStruct op cl w1 w2 gs id) /\ n = str (capitalize id) /\ fs = map field_of gs.
Proof.
  intros H. apply node_in in H as (i & d & tn & Hi & _ & _ & Hd). destruct d as [t'|? ? ? ? vs id|op cl w1 w2 gs id]; simpl in Hd; [done|done|].
  injection Hd as <- <-. by exists i, op, cl, w1, w2, gs, id.
Qed.
Lemma enum_at n vs : declares_enum a n vs -> exists i op cl w1 w2 us id,
  ds !! i = Some (FEnum op cl w1 w2 us id) /\ vs = map (fun v => str v.1) us.
Proof.
  intros H. apply node_in in H as (i & d & tn & Hi & _ & _ & Hd). destruct d as [t'|op cl w1 w2 us id|? ? ? ? fs id]; simpl in Hd; [done| |done].
  injection Hd as <- <-. by exists i, op, cl, w1, w2, us, id.
Qed.
Lemma a_refers n m : refers a n m -> exists i d tn, ds !! i = Some d /\ fname d = Some tn /\ n = str tn /\
  (m ∈ builtin_names \/ exists j d' tm, j < i /\ ds !! j = Some d' /\ fname d' = Some tm /\ m = str tm).
Proof.
  intros (fs & f & u & (i & op & cl & w1 & w2 & gs & id & Hi & -> & ->)%struct_at & Hf & <-).
  exists i, (FStruct op cl w1 w2 gs id), (capitalize id). split; [done|]. split; [done|]. split; [done|].
  destruct (possible_at ds _ _ _ Hrun Hi) as (ty & Hp & Hty). destruct Hp as (_ & _ & _ & _ & _ & HF & _).
  apply elem_of_list_fmap in Hf as ([[x t] b] & [= -> ->] & Hg). rewrite Forall_forall in HF. destruct (HF _ Hg) as [_ Hin].
  cbn [fst snd u_name] in *. destruct (Hty t Hin) as [H|(j & d' & Hj & Hd' & Hn)].
  - left. unfold pkt_types in H. apply elem_of_list_fmap in H as (k & -> & Hk). by rewrite str_txt.
  - right. by exists j, d', t.
Qed.
Lemma a_tc n m : tc (refers a) n m -> exists i d tn, ds !! i = Some d /\ fname d = Some tn /\ n = str tn /\
  (m ∈ builtin_names \/ exists j d' tm, j < i /\ ds !! j = Some d' /\ fname d' = Some tm /\ m = str tm).
Proof.
  induction 1 as [n m H|n k m H Hkm IH]; [by apply a_refers|].
  destruct (a_refers n k H) as (i & d & tn & Hi & Hd & -> & Hk).
  destruct IH as (i' & d' & tk & Hi' & Hd' & -> & Hm). exists i, d, tn. split; [done|]. split; [done|]. split; [done|].
  destruct Hk as [Hk|(j & d2 & tm & Hj & Hd2 & Hn2 & E)].
  - exfalso. eapply legal_no_builtin'; [|exact Hk]. exact (a_legal _ _ _ Hi' Hd').
  - apply str_inj in E as <-. assert (i' = j) as -> by (eapply (fname_at ds Hnd); eassumption).
    destruct Hm as [Hm|(j' & d3 & tm & Hj' & ?)]; [by left|]. right. exists j', d3, tm. split; [lia|done].
Qed.
Lemma a_valid : valid_schema a.
Proof.
  split.
  - apply elem_of_list_lookup in Hd0 as [i Hi]. destruct d0 as [t|op cl w1 w2 vs id|op cl w1 w2 fs id].
    + done.
    + rewrite Forall_forall in Ht. assert (tidy (FEnum op cl w1 w2 vs id)) as (K & _) by (apply Ht; by eapply elem_of_list_lookup_2).
      congruence.
    + exists (str e), (map field_of fs). split; [apply a_exports|]. apply node_in.
      exists i, (FStruct op cl w1 w2 fs id), e. split; [done|]. split; [done|]. split; [done|].
      simpl. by injection He as <-.
  - rewrite a_names. by apply nodup_str.
  - intros n vs (i & op & cl & w1 & w2 & us & id & Hi & ->)%enum_at.
    destruct (possible_at ds _ _ _ Hrun Hi) as (ty & Hp & _). destruct Hp as (_ & _ & _ & _ & _ & _ & Hl).
    rewrite map_length. split; [done|].
    rewrite Forall_forall in Ht. assert (tidy (FEnum op cl w1 w2 us id)) as (_ & K & _) by (apply Ht; by eapply elem_of_list_lookup_2).
    rewrite <-(map_map fst str). by apply nodup_str.
  - intros n fs f u Hs Hf. assert (refers a n (u_name u)) as (i & d & tn & Hi & Hd & -> & [H|(j & d' & tm & Hj & Hd' & Hn & E)])%a_refers
      by (by exists fs, f, u); [by left|]. right. rewrite a_names, E. apply elem_of_list_fmap_1, elem_of_list_omap.
    exists d'. split; [by eapply elem_of_list_lookup_2|done].
  - intros n fs f u (i & op & cl & w1 & w2 & gs & id & Hi & -> & ->)%struct_at Hf.
    apply elem_of_list_fmap in Hf as ([[x t] b] & [= -> ->] & Hg). by intros [_ ?].
  - intros n (i & d & tn & Hi & Hd & -> & [H|(j & d' & tm & Hj & Hd' & Hn & E)])%a_tc.
    + eapply legal_no_builtin'; [|exact H]. exact (a_legal _ _ _ Hi Hd).
    + apply str_inj in E as <-. assert (i = j) by (eapply (fname_at ds Hnd); eassumption). lia.
  - intros n fs (i & op & cl & w1 & w2 & gs & id & Hi & -> & ->)%struct_at.
    rewrite Forall_forall in Ht. assert (tidy (FStruct op cl w1 w2 gs id)) as K by (apply Ht; by eapply elem_of_list_lookup_2).
    simpl in K. apply compared_nodup. rewrite map_map. cbn [field_of fst].
    rewrite <-(map_map (fun f : text * text * bool => upper f.1.1) str). by apply nodup_str.
Qed.
End valid.

Lemma script_compiles ds s : a_run ds -> no_collisions ds -> script ds = Some s ->
  exists a, parse_schema s = POk a /\ forall iter, fair_order iter -> is_ok (type_check iter a).
Proof.
  intros [_ Hrun] [Hnd Ht]. unfold script. destruct (floop ds 0 [] None) as [out exp] eqn:E.
  apply floop_file in E as (ds1 & ds2 & -> & -> & [-> | (d & Hd & Ho & ->)]); [done|].
  destruct (fname d) as [e|] eqn:He; [|done]. injection 1 as <-.
  apply possible_app in Hrun. apply Forall_app in Ht as [Ht _]. rewrite omap_app in Hnd. apply NoDup_app in Hnd as [Hnd _].
  exists (concat (map nodes ds1) ++ [NExport (str e)]). split.
  - apply parse_schema_ok. apply (reads_file ds1 pkt_types e words_pkt Hrun Ht).
    apply elem_of_list_lookup in Hd as [i Hi]. by destruct (a_legal ds1 Hrun i d e Hi He) as [? _].
  - intros iter Hf. apply type_check_valid; [done|by apply a_no_builtin|by apply (a_valid ds1 d)].
Qed.

(** ** Runs that go wrong *)
Definition blanks_run (n : nat) : list defn := repeat (FComment []) n.
Lemma blanks_possible types n : possible_run types (blanks_run n).
Proof. revert types. induction n as [|n IH]; intros types; [done|]. split; [split; [done|simpl; lia]|]. apply IH. Qed.
Definition simple_struct (field ty id : string) : defn := FStruct [] [] [] [] [(txt field, txt ty, false)] (txt id).
Definition simple_enum (v id : string) : defn := FEnum [] [] [] [] [(txt v, [])] (txt id).
Ltac ident := eexists _, _; split; [reflexivity|]; split; [first [left; dec|right; reflexivity]|]; split; [dec|simpl; lia].
Lemma empty_wsn : whitespace_with_newlines [].
Proof. split; [done|simpl; lia]. Qed.
Lemma empty_ws : whitespace [].
Proof. split; [done|simpl; lia]. Qed.
Lemma simple_struct_possible types field ty id : identifier (txt field) -> identifier (txt id) -> txt ty ∈ types ->
  possible types (simple_struct field ty id).
Proof.
  intros H1 H2 H3. split_and!; [apply empty_wsn|apply empty_wsn|apply empty_ws|apply empty_ws|done| | |simpl; lia|simpl; lia].
  - constructor; [done|constructor].
  - apply NoDup_singleton.
Qed.
Lemma simple_enum_possible types v id : identifier (txt v) -> identifier (txt id) -> possible types (simple_enum v id).
Proof.
  intros H1 H2. split_and!; [apply empty_wsn|apply empty_wsn|apply empty_ws|apply empty_ws|done| |simpl; lia|simpl; lia].
  constructor; [|constructor]. split; [done|apply empty_wsn].
Qed.
(** No struct at all. *)
Definition run_none : list defn := blanks_run 100.
(** A variant begins with the name of a builtin type. *)
Definition run_reserved : list defn := simple_struct "ab" "uint8" "first" :: simple_enum "int8_flag" "flags" :: blanks_run 98.
(** The text of an enum contains "struct". *)
Definition run_enum : list defn := simple_struct "ab" "uint8" "first" :: simple_enum "destruct" "flags" :: blanks_run 98.
(** Two names differ in case only. *)
Definition run_case : list defn := simple_struct "ab" "uint8" "first" :: simple_struct "ab" "uint8" "fIRST" :: blanks_run 98.
(** A run without collisions. *)
Definition run_fine : list defn :=
  simple_enum "on" "flags" :: FComment (txt "a b") :: simple_struct "ab" "Flags" "first" ::
  FStruct [lf] [] (txt "  ") [] [(txt "xy", txt "First", true); (txt "yz", txt "int8", false)] (txt "second") :: blanks_run 96.
Lemma run_none_ok : a_run run_none.
Proof. split; [done|apply blanks_possible]. Qed.
Lemma run_reserved_ok : a_run run_reserved.
Proof.
  split; [done|]. split; [apply simple_struct_possible; [ident|ident|dec]|]. split; [apply simple_enum_possible; ident|apply blanks_possible].
Qed.
Lemma run_enum_ok : a_run run_enum.
Proof.
  split; [done|]. split; [apply simple_struct_possible; [ident|ident|dec]|]. split; [apply simple_enum_possible; ident|apply blanks_possible].
Qed.
Lemma run_case_ok : a_run run_case.
Proof.
  split; [done|]. split; [apply simple_struct_possible; [ident|ident|dec]|].
  split; [apply simple_struct_possible; [ident|ident|dec]|apply blanks_possible].
Qed.
Lemma run_fine_ok : a_run run_fine.
Proof.
  split; [done|]. split; [apply simple_enum_possible; ident|]. split; [split; [dec|simpl; lia]|].
  split; [apply simple_struct_possible; [ident|ident|dec]|]. split; [|apply blanks_possible].
  split_and!; [split; [dec|simpl; lia]|apply empty_wsn|split; [dec|simpl; lia]|apply empty_ws|ident| |dec|simpl; lia|simpl; lia].
  constructor; [split; [ident|dec]|]. constructor; [split; [ident|dec]|constructor].
Qed.
Lemma run_fine_tidy : no_collisions run_fine /\ exists s, script run_fine = Some s.
Proof.
  split; [split; [dec|]|by eexists; vm_compute].
  constructor; [split; [done|]; split; [apply NoDup_singleton|]|].
  { intros v k Hv Hk. apply elem_of_list_singleton in Hv as ->. revert k Hk. apply Forall_forall. dec. }
  constructor; [done|]. constructor; [apply NoDup_singleton|]. constructor; [cbn [tidy]; dec|].
  apply Forall_forall. intros d Hd. apply elem_of_list_In, repeat_spec in Hd as ->. done.
Qed.
Lemma exported_not_struct iter a e : fair_order iter -> no_builtin_decl a -> exports a = [e] ->
  Forall (fun n => match n with NDecl m (AStruct _) => m ≠ e | _ => True end) a -> ~ is_ok (type_check iter a).
Proof.
  intros Hf Hnb He HF Hok. apply type_check_valid in Hok as [(e' & fs & E & Hd) _ _ _ _ _ _]; [|done..].
  rewrite He in E. injection E as <-. rewrite Forall_forall in HF. by destruct (HF _ Hd).
Qed.
Lemma ways_to_fail :
  script run_none = None /\
  (exists s o, script run_reserved = Some s /\ parse_schema s = PErr o) /\
  (exists s a, script run_enum = Some s /\ parse_schema s = POk a /\ forall iter, fair_order iter -> ~ is_ok (type_check iter a)) /\
  (exists s a, script run_case = Some s /\ parse_schema s = POk a /\ forall iter, fair_order iter -> ~ is_ok (type_check iter a)).
Proof.
  split; [by vm_compute|]. split; [eexists _, _; split; [by vm_compute|by vm_compute]|]. split.
  - eexists _, _. split; [by vm_compute|]. split; [by vm_compute|]. intros iter Hf.
    apply (exported_not_struct iter _ "Flags"); [done| |done|].
    + unfold no_builtin_decl. apply Forall_forall. dec.
    + repeat constructor. done.
  - eexists _, _. split; [by vm_compute|]. split; [by vm_compute|]. intros iter Hf Hok.
    apply type_check_valid in Hok as [_ Hnd _ _ _ _ _]; [|done|unfold no_builtin_decl; apply Forall_forall; dec].
    revert Hnd. dec.
Qed.
Lemma script_refuted : ~ forall ds, a_run ds ->
  exists s a, script ds = Some s /\ parse_schema s = POk a /\ forall iter, fair_order iter -> is_ok (type_check iter a).
Proof.
  intros H. destruct (H run_reserved run_reserved_ok) as (s & a & H1 & H2 & _).
  destruct ways_to_fail as (_ & (s' & o & K1 & K2) & _). rewrite H1 in K1. injection K1 as <-. congruence.
Qed.
