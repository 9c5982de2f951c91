(** Proofs for C23: which locals the generated functions declare. *)
From Verif Require Export TsStatic GenProofs GenSpec.

(** ** joining *)
Definition tails (l : list string) : string := concat_str (List.map (fun x => "_" +:+ x) l).
Lemma join_app st l : st ≠ [] -> join "_" (st ++ l) = join "_" st +:+ tails l.
Proof.
  intros Hne. destruct st as [|x st]; [done|]. clear Hne. revert x. induction st as [|y st IH]; intros x.
  - cbn [app]. revert x. induction l as [|y l IHl]; intros x; [cbn; by rewrite sapp_nil_r|].
    change (join "_" (x :: y :: l)) with (x +:+ "_" +:+ join "_" (y :: l)). rewrite IHl. unfold tails.
    cbn [List.map concat_str fold_right join]. by rewrite !sapp_assoc.
  - change ((x :: y :: st) ++ l) with (x :: y :: (st ++ l)).
    change (join "_" (x :: y :: st ++ l)) with (x +:+ "_" +:+ join "_" ((y :: st) ++ l)). rewrite IH.
    change (join "_" (x :: y :: st)) with (x +:+ "_" +:+ join "_" (y :: st)). by rewrite !sapp_assoc.
Qed.
Lemma sapp_inj_l a b c : a +:+ b = a +:+ c -> b = c.
Proof. induction a as [|x a IH]; [done|]. rewrite !sapp_cons. intros [= H]. auto. Qed.
(** what may follow a field's name in the name of a local *)
Definition rest_of_name (s : string) : Prop := s = "" \/ exists s', s = "_" +:+ s'.
Lemma tails_cons x k : tails (x :: k) = "_" +:+ x +:+ tails k.
Proof. unfold tails. cbn [List.map concat_str fold_right]. by rewrite sapp_assoc. Qed.
Lemma tails_rest k : rest_of_name (tails k).
Proof. destruct k as [|x k]; [by left|]. right. eexists. apply tails_cons. Qed.
Lemma same_start x y s t : rest_of_name s -> rest_of_name t -> x +:+ s = y +:+ t ->
  (x = y /\ s = t) \/ (exists z, y = x +:+ "_" +:+ z /\ s = "_" +:+ z +:+ t) \/
  (exists z, x = y +:+ "_" +:+ z /\ t = "_" +:+ z +:+ s).
Proof.
  revert y. induction x as [|c x IH]; intros [|d y] Hs Ht E.
  - left. by split.
  - right. left. rewrite sapp_cons, sapp_nil_l in E. destruct Hs as [->|[s' ->]]; [done|].
    change ("_" +:+ s') with (String "_" s') in E |- *. injection E as <- E. exists y. split; [done|].
    change ("_" +:+ y +:+ t) with (String "_" (y +:+ t)). by rewrite E.
  - right. right. rewrite sapp_cons, sapp_nil_l in E. destruct Ht as [->|[t' ->]]; [done|].
    change ("_" +:+ t') with (String "_" t') in E |- *. injection E as -> E. exists x. split; [done|].
    change ("_" +:+ x +:+ s) with (String "_" (x +:+ s)). by rewrite E.
  - rewrite !sapp_cons in E. injection E as <- E.
    destruct (IH y Hs Ht E) as [[-> ->]|[(z & -> & ->)|(z & -> & ->)]]; [by left|right; left|right; right]; by exists z.
Qed.

(** ** lets *)
Lemma lets_app a b : lets (a ++ b) = lets a ++ lets b.
Proof. unfold lets. by rewrite List.map_app, List.concat_app. Qed.
Lemma lets_concat l : lets (List.concat l) = List.concat (List.map lets l).
Proof. induction l as [|b l IH]; [done|]. cbn [List.concat List.map]. by rewrite lets_app, IH. Qed.
Definition inners (b : list stmt) : Prop := fold_right (fun s P => inner_ok s /\ P) True b.
Lemma inners_app a b : inners (a ++ b) <-> inners a /\ inners b.
Proof. unfold inners. induction a as [|s a IH]; [naive_solver|]. cbn [app fold_right]. rewrite IH. naive_solver. Qed.
Lemma inners_concat l : inners (List.concat l) <-> forall b, b ∈ l -> inners b.
Proof.
  induction l as [|b l IH]; [split; [by intros _ b ?%elem_of_nil|done]|]. cbn [List.concat]. rewrite inners_app, IH. split.
  - intros [H1 H2] b' [->|Hb]%elem_of_cons; [done|by apply H2].
  - intros H. split; [apply H; by left|]. intros b' Hb. apply H. by right.
Qed.

(** The names that code for a type declares at its own level, as suffixes of the name stack. *)
Notation keys := (list (list string)).
Definition name_of (st : list string) (k : list string) : string := join "_" (st ++ k).
Definition at_level (st : list string) (ks : keys) : list string := List.map (name_of st) ks.

Lemma name_rebind st k x : st ≠ [] -> name_of [name_of st x] k = name_of st (x ++ k).
Proof.
  intros H. unfold name_of. rewrite (join_app [join "_" (st ++ x)]) by done. rewrite app_assoc, (join_app (st ++ x)) by (by destruct st). done.
Qed.
Lemma bindname_name st : bindname st = name_of st [].
Proof. unfold bindname, name_of. by rewrite app_nil_r. Qed.
Lemma varname_name st x : st ≠ [] -> varname st x = name_of st [x].
Proof.
  intros H. unfold varname, name_of. rewrite join_app by done. unfold tails. cbn [List.map concat_str fold_right]. by rewrite sapp_nil_r.
Qed.

Lemma at_level_rebind st x ks : st ≠ [] -> at_level [name_of st x] ks = at_level st (List.map (app x) ks).
Proof.
  intros H. unfold at_level. rewrite List.map_map. apply List.map_ext. intros k. by apply name_rebind.
Qed.
Lemma at_level_push st f ks : at_level (st ++ [f]) ks = at_level st (List.map (cons f) ks).
Proof.
  unfold at_level. rewrite List.map_map. apply List.map_ext. intros k. unfold name_of. by rewrite <- app_assoc.
Qed.
(** keys with different spellings *)
Definition fine (ks : keys) : Prop := NoDup (List.map tails ks).
Lemma fine_nil : fine [].
Proof. constructor. Qed.
Lemma fine_one k : fine [k].
Proof. apply NoDup_singleton. Qed.
Lemma nodup_map_inj {A B} (f : A -> B) (l : list A) : (forall x y, f x = f y -> x = y) -> NoDup (List.map f l) <-> NoDup l.
Proof.
  intros Hf. induction l as [|x l IH]; [split; constructor|]. cbn [List.map]. rewrite !NoDup_cons, IH. f_equiv. f_equiv.
  rewrite !elem_of_list_In, in_map_iff. split; [by intros (y & <-%Hf & ?)|]. intros H. by exists x.
Qed.
Lemma at_level_nodup st ks : st ≠ [] -> NoDup (at_level st ks) <-> fine ks.
Proof.
  intros Hne. unfold at_level, fine. rewrite <- (nodup_map_inj (fun s => join "_" st +:+ s) (List.map tails ks)) by apply sapp_inj_l.
  rewrite List.map_map. replace (List.map (name_of st) ks) with (List.map (fun k => join "_" st +:+ tails k) ks); [done|].
  apply List.map_ext. intros k. unfold name_of. by rewrite join_app.
Qed.

(** no key is empty *)
Definition proper (ks : keys) : Prop := [] ∉ ks.
Lemma fine_own ks : proper ks -> fine ([] :: ks) <-> fine ks.
Proof.
  intros Hp. unfold fine. cbn [List.map]. rewrite NoDup_cons. split; [by intros [_ ?]|]. split; [|done].
  rewrite elem_of_list_In, in_map_iff. intros ([|x k] & E & Hk); [by apply Hp, elem_of_list_In|]. rewrite tails_cons in E. done.
Qed.

(** the locals that an emitter declares at its own level *)
Definition describes (p : emit) (ks : keys) : Prop := forall st, st ≠ [] -> lets (p st) = at_level st ks.
Lemma described_block p ks st : describes p ks -> st ≠ [] -> block_ok (p st) <-> fine ks /\ inners (p st).
Proof. intros Hd Hne. unfold block_ok. rewrite (Hd st Hne), at_level_nodup by done. done. Qed.

Lemma lets_cons_simple s b : lets (SSimple s :: b) = match s with Let _ x _ => [x] | _ => [] end ++ lets b.
Proof. done. Qed.

Lemma w_arr_described p : describes (w_arr p) [].
Proof. by intros st Hne. Qed.
Lemma w_arr_inner p ks st : describes p ks -> proper ks -> st ≠ [] ->
  inners (w_arr p st) <-> block_ok (p [varname st "item"]).
Proof.
  intros Hd Hp Hne. unfold w_arr. cbn [inners fold_right inner_ok].
  rewrite (described_block p ks) by done. rewrite varname_name by done.
  rewrite lets_cons_simple, (Hd [name_of st ["item"]]) by done.
  change ([name_of st ["item"]] ++ at_level [name_of st ["item"]] ks) with (at_level [name_of st ["item"]] ([] :: ks)).
  rewrite at_level_nodup, fine_own by done. unfold inners. naive_solver.
Qed.
Lemma w_opt_described p : describes (w_opt p) [[]].
Proof. intros st Hne. unfold w_opt. by rewrite bindname_name. Qed.
Lemma w_opt_inner p st : inners (w_opt p st) <-> block_ok (p [bindname st]).
Proof. unfold w_opt. cbn [inners fold_right inner_ok]. unfold block_ok. cbn [lets List.map List.concat app]. unfold inners. naive_solver. Qed.
Lemma r_opt_described p : describes (r_opt p) [].
Proof. by intros st Hne. Qed.
Lemma r_opt_inner p st : inners (r_opt p st) <-> block_ok (p st).
Proof.
  unfold r_opt. cbn [inners fold_right inner_ok]. unfold block_ok.
  split; [by intros [[? _] _]|]. intros H. split; [|done]. split; [done|]. split; [constructor|done].
Qed.
Lemma r_arr_described i p : describes (r_arr i p) [["len"]].
Proof. intros st Hne. unfold r_arr. rewrite !varname_name by done. done. Qed.
Lemma r_arr_inner i p ks st : describes p ks -> proper ks -> st ≠ [] ->
  inners (r_arr i p st) <-> block_ok (p [varname st "item"]).
Proof.
  intros Hd Hp Hne. unfold r_arr. cbn [inners fold_right inner_ok].
  rewrite (described_block p ks) by done. rewrite !varname_name by done.
  rewrite lets_cons_simple, lets_app, (Hd [name_of st ["item"]]) by done.
  change (lets [SSimple (Assign _ _)]) with (@nil string). rewrite app_nil_r.
  change ([name_of st ["item"]] ++ at_level [name_of st ["item"]] ks) with (at_level [name_of st ["item"]] ([] :: ks)).
  rewrite at_level_nodup, fine_own by done.
  change (fold_right (fun s P => inner_ok s /\ P) True) with inners. rewrite inners_app. cbn [inners fold_right inner_ok]. naive_solver.
Qed.

(** the fields of every struct at every depth have different names *)
Fixpoint distinct (t : rtype) : Prop :=
  match t with
  | TStruct fs => NoDup (List.map f_name fs) /\ fold_right (fun f Q => distinct (f_ty f) /\ Q) True fs
  | _ => True
  end.
Lemma distinct_struct fs : distinct (TStruct fs) <-> NoDup (List.map f_name fs) /\ forall f, f ∈ fs -> distinct (f_ty f).
Proof.
  cbn [distinct]. f_equiv. induction fs as [|f fs IH]; cbn [fold_right].
  - split; [|done]. intros _ f Hf. by apply elem_of_nil in Hf.
  - rewrite IH. split.
    + intros (H2 & H3) g [->|Hg]%elem_of_cons; [done|by apply H3].
    + intros H. split; [apply H; left|]. intros g Hg. apply H. by right.
Qed.

(** keys of all fields *)
Notation keys_of kf fs := (List.concat (List.map (fun f => List.map (cons (f_name f)) (kf f)) fs)).
(** different fields have different spellings *)
Definition apart (kf : sfield -> keys) (fs : list sfield) : Prop :=
  forall i j f g k k', i ≠ j -> fs !! i = Some f -> fs !! j = Some g -> k ∈ kf f -> k' ∈ kf g ->
    f_name f +:+ tails k ≠ f_name g +:+ tails k'.
Lemma in_keys (kf : sfield -> keys) fs k : k ∈ keys_of kf fs <-> exists f k', f ∈ fs /\ k' ∈ kf f /\ k = f_name f :: k'.
Proof.
  rewrite elem_of_list_In, in_concat. split.
  - intros (ks & (f & <- & Hf)%in_map_iff & (k' & <- & Hk')%in_map_iff). exists f, k'. by rewrite !elem_of_list_In.
  - intros (f & k' & Hf & Hk' & ->). exists (List.map (cons (f_name f)) (kf f)). rewrite !in_map_iff. split.
    + exists f. by rewrite <- elem_of_list_In.
    + exists k'. by rewrite <- elem_of_list_In.
Qed.
Lemma fine_push x ks : fine (List.map (cons x) ks) <-> fine ks.
Proof.
  unfold fine. rewrite List.map_map. rewrite <- (nodup_map_inj (fun s => "_" +:+ x +:+ s) (List.map tails ks)).
  - rewrite List.map_map. erewrite List.map_ext; [done|]. intros k. apply tails_cons.
  - intros s t E. by apply sapp_inj_l in E as E%sapp_inj_l.
Qed.
Lemma fine_app ks ls : fine (ks ++ ls) <-> fine ks /\ (forall k l, k ∈ ks -> l ∈ ls -> tails k ≠ tails l) /\ fine ls.
Proof.
  unfold fine. rewrite List.map_app, NoDup_app. f_equiv. f_equiv. split.
  - intros H k l Hk Hl E. eapply (H (tails k)); apply elem_of_list_In, in_map_iff.
    + exists k. by rewrite <- elem_of_list_In.
    + exists l. by rewrite <- elem_of_list_In.
  - intros H s (k & <- & Hk)%elem_of_list_In%in_map_iff (l & E & Hl)%elem_of_list_In%in_map_iff.
    apply elem_of_list_In in Hk, Hl. symmetry in E. by eapply H.
Qed.
Lemma fine_fields (kf : sfield -> keys) fs :
  fine (keys_of kf fs) <-> (forall f, f ∈ fs -> fine (kf f)) /\ apart kf fs.
Proof.
  induction fs as [|f fs IH].
  { split; [|intros _; apply fine_nil]. intros _. split; [by intros f ?%elem_of_nil|by intros i j f g k k' _ ?]. }
  cbn [List.map List.concat]. rewrite fine_app, fine_push, IH. clear IH.
  assert ((forall k l, k ∈ List.map (cons (f_name f)) (kf f) -> l ∈ keys_of kf fs -> tails k ≠ tails l) <->
          (forall g k k', g ∈ fs -> k ∈ kf f -> k' ∈ kf g -> f_name f +:+ tails k ≠ f_name g +:+ tails k')) as ->.
  { split.
    - intros H g k k' Hg Hk Hk' E. apply (H (f_name f :: k) (f_name g :: k')).
      + apply elem_of_list_In, in_map, elem_of_list_In, Hk.
      + apply in_keys. eauto.
      + by rewrite !tails_cons, E.
    - intros H k l (k' & <- & Hk)%elem_of_list_In%in_map_iff (g & l' & Hg & Hl & ->)%in_keys E.
      rewrite !tails_cons in E. apply sapp_inj_l in E. apply elem_of_list_In in Hk. by eapply H. }
  split.
  - intros (H1 & H2 & H3 & H4). split.
    + intros g [->|Hg]%elem_of_cons; [done|by apply H3].
    + intros [|i] [|j] g g' k k' Hij Hg Hg' Hk Hk'; cbn in Hg, Hg'; [done|..].
      * injection Hg as <-. apply elem_of_list_lookup_2 in Hg'. by apply H2.
      * injection Hg' as <-. apply elem_of_list_lookup_2 in Hg. intros E. symmetry in E. by eapply H2.
      * eapply (H4 i j); [congruence|done..].
  - intros [H1 H2]. split; [apply H1; by left|]. split; [|split].
    + intros g k k' [j Hg]%elem_of_list_lookup Hk Hk'. by apply (H2 0 (S j)).
    + intros g Hg. apply H1. by right.
    + intros i j g g' k k' Hij Hg Hg'. apply (H2 (S i) (S j)); [congruence|done..].
Qed.
Lemma fine_field (kf : sfield -> keys) fs f : f ∈ fs -> fine (keys_of kf fs) -> fine (kf f).
Proof.
  induction fs as [|g fs IH]; [by intros ?%elem_of_nil|]. cbn [List.map List.concat]. rewrite fine_app, fine_push.
  intros [->|Hf]%elem_of_cons (H1 & _ & H2); auto.
Qed.
Lemma proper_fields (kf : sfield -> keys) fs : proper (List.concat (List.map (fun f => List.map (cons (f_name f)) (kf f)) fs)).
Proof.
  unfold proper. rewrite elem_of_list_In, in_concat. intros (ks & (g & <- & Hg)%in_map_iff & (k'' & [=] & _)%in_map_iff).
Qed.
Lemma describes_fields (kf : sfield -> keys) (pf : sfield -> emit) fs :
  (forall f, f ∈ fs -> describes (pf f) (kf f)) ->
  describes (fun st => List.concat (List.map (fun f => pf f (st ++ [f_name f])) fs)) (keys_of kf fs).
Proof.
  intros H st Hne. rewrite lets_concat, List.map_map. unfold at_level. rewrite List.concat_map, List.map_map.
  f_equal. apply List.map_ext_in. intros f Hf. apply elem_of_list_In in Hf.
  rewrite (H f Hf (st ++ [f_name f])) by (by destruct st). apply at_level_push.
Qed.
Lemma inners_fields (pf : sfield -> emit) fs st :
  inners (List.concat (List.map (fun f => pf f (st ++ [f_name f])) fs)) <-> forall f, f ∈ fs -> inners (pf f (st ++ [f_name f])).
Proof.
  rewrite inners_concat. split.
  - intros H f Hf. apply H. apply elem_of_list_In. apply (in_map (fun f => pf f (st ++ [f_name f]))). by apply elem_of_list_In.
  - intros H b (f & <- & Hf)%elem_of_list_In%in_map_iff. by apply H, elem_of_list_In.
Qed.

Fixpoint w_keys (t : rtype) : keys :=
  match t with
  | TStruct fs => List.concat (List.map (fun f => List.map (cons (f_name f))
      (if f_opt f then [[]] else if f_array f then [] else w_keys (f_ty f))) fs)
  | _ => []
  end.
Fixpoint r_keys (t : rtype) (init : bool) : keys :=
  match t with
  | TBuiltin BString => [["len"]]
  | TBuiltin _ => []
  | TEnum _ => [["temp"]]
  | TStruct fs => (if init then [[]] else []) ++ List.concat (List.map (fun f => List.map (cons (f_name f))
      (if f_opt f then [] else if f_array f then [["len"]] else r_keys (f_ty f) true)) fs)
  end.
(** the locals of one field *)
Definition wkf (f : sfield) : keys := if f_opt f then [[]] else if f_array f then [] else w_keys (f_ty f).
Definition rkf (f : sfield) : keys := if f_opt f then [] else if f_array f then [["len"]] else r_keys (f_ty f) true.

(** [P] holds of the fields of every struct at every depth *)
Fixpoint all_structs (P : list sfield -> Prop) (t : rtype) : Prop :=
  match t with
  | TStruct fs => P fs /\ fold_right (fun f Q => all_structs P (f_ty f) /\ Q) True fs
  | _ => True
  end.
Lemma all_structs_struct P fs : all_structs P (TStruct fs) <-> P fs /\ forall f, f ∈ fs -> all_structs P (f_ty f).
Proof.
  cbn [all_structs]. f_equiv. induction fs as [|f fs IH]; cbn [fold_right].
  - split; [|done]. intros _ f Hf. by apply elem_of_nil in Hf.
  - rewrite IH. split.
    + intros (H2 & H3) g [->|Hg]%elem_of_cons; [done|by apply H3].
    + intros H. split; [apply H; left|]. intros g Hg. apply H. by right.
Qed.

(** ** write *)
Lemma w_proper t : proper (w_keys t).
Proof. destruct t; [by intros ?%elem_of_nil..|]. apply (proper_fields wkf). Qed.
Lemma w_wrap_described ar op p ks : describes p ks ->
  describes (w_wrap ar op p) (if op then [[]] else if ar then [] else ks).
Proof. intros H. unfold w_wrap. destruct op; [apply w_opt_described|]. destruct ar; [apply w_arr_described|done]. Qed.
Lemma w_ty_described t : forall tn, describes (w_ty t tn) (w_keys t).
Proof.
  induction t as [b|e|fs IH] using rtype_ind'; intros tn.
  - intros st _. by destruct b.
  - by intros st _.
  - rewrite Forall_forall in IH.
    apply (describes_fields wkf (fun f => w_wrap (f_array f) (f_opt f) (w_ty (f_ty f) (f_tname f)))).
    intros f Hf. apply w_wrap_described. by apply IH.
Qed.
Lemma w_block t : forall tn st, st ≠ [] ->
  block_ok (w_ty t tn st) <-> all_structs (fun fs => fine (keys_of wkf fs)) t.
Proof.
  induction t as [b|e|fs IH] using rtype_ind'; intros tn st Hne.
  - split; [done|]. intros _. rewrite (described_block _ _ st (w_ty_described _ _) Hne). split; [apply fine_nil|]. by destruct b.
  - split; [done|]. intros _. rewrite (described_block _ _ st (w_ty_described _ _) Hne). split; [apply fine_nil|]. done.
  - rewrite all_structs_struct, (described_block _ _ st (w_ty_described _ _) Hne).
    change (w_keys (TStruct fs)) with (keys_of wkf fs).
    change (inners (w_ty (TStruct fs) tn st)) with
      (inners (List.concat (List.map (fun f => w_wrap (f_array f) (f_opt f) (w_ty (f_ty f) (f_tname f)) (st ++ [f_name f])) fs))).
    rewrite (inners_fields (fun f => w_wrap (f_array f) (f_opt f) (w_ty (f_ty f) (f_tname f)))).
    rewrite Forall_forall in IH.
    assert (forall f, f ∈ fs -> fine (keys_of wkf fs) ->
      inners (w_wrap (f_array f) (f_opt f) (w_ty (f_ty f) (f_tname f)) (st ++ [f_name f])) <->
      all_structs (fun fs => fine (keys_of wkf fs)) (f_ty f)) as H.
    { intros f Hf HF. specialize (IH f Hf (f_tname f)). pose proof (w_ty_described (f_ty f) (f_tname f)) as Hd.
      assert (st ++ [f_name f] ≠ []) as Hne' by (by destruct st). unfold w_wrap.
      destruct (f_opt f) eqn:Eo; destruct (f_array f) eqn:Ea.
      - rewrite w_opt_inner, (described_block _ [] _ (w_arr_described _)) by done.
        rewrite (w_arr_inner _ _ _ Hd (w_proper _)) by done. rewrite IH by done.
        split; [by intros [_ ?]|]. intros ?. split; [apply fine_nil|done].
      - by rewrite w_opt_inner, IH.
      - by rewrite (w_arr_inner _ _ _ Hd (w_proper _)), IH.
      - rewrite <- (IH (st ++ [f_name f])), (described_block _ _ _ Hd) by done.
        pose proof (fine_field _ _ _ Hf HF) as Hk. unfold wkf in Hk. rewrite Eo, Ea in Hk. naive_solver. }
    split; intros [HF Hi]; (split; [done|]); intros f Hf; by apply H, Hi.
Qed.

(** ** read *)
Lemma r_proper t : proper (r_keys t false).
Proof.
  unfold proper. destruct t as [b|e|fs].
  - destruct b; set_solver.
  - set_solver.
  - apply (proper_fields rkf).
Qed.
Lemma r_wrap_described ar op i p ks : describes p ks ->
  describes (r_wrap ar op i p) (if op then [] else if ar then [["len"]] else ks).
Proof. intros H. unfold r_wrap. destruct op; [apply r_opt_described|]. destruct ar; [apply r_arr_described|done]. Qed.
Notation r_wrapped f := (r_wrap (f_array f) (f_opt f) (is_struct (f_ty f)) (r_ty (f_ty f) (f_tname f) (negb (f_array f)))).
Lemma r_fields_keys fs : (forall f, f ∈ fs -> forall tn i, describes (r_ty (f_ty f) tn i) (r_keys (f_ty f) i)) ->
  describes (r_fields fs) (keys_of rkf fs).
Proof.
  intros H. apply (describes_fields rkf (fun f => r_wrapped f)). intros f Hf. unfold rkf.
  pose proof (r_wrap_described (f_array f) (f_opt f) (is_struct (f_ty f)) _ _ (H f Hf (f_tname f) (negb (f_array f)))) as Hd.
  destruct (f_opt f); [done|]. by destruct (f_array f).
Qed.
Lemma r_init_lets fs tn st : st ≠ [] -> lets (r_ty (TStruct fs) tn true st) = bindname st :: lets (r_fields fs [bindname st]).
Proof.
  intros Hne.
  change (r_ty (TStruct fs) tn true st) with (SSimple (Let true (bindname st) EObj) :: r_fields fs [bindname st] ++ [SSimple (Assign (path st) (EVar (bindname st)))]).
  rewrite lets_cons_simple, lets_app. change (lets [SSimple (Assign _ _)]) with (@nil string). by rewrite app_nil_r.
Qed.
Lemma r_init_inners fs tn st : inners (r_ty (TStruct fs) tn true st) <-> inners (r_fields fs [bindname st]).
Proof.
  change (r_ty (TStruct fs) tn true st) with ([SSimple (Let true (bindname st) EObj)] ++ r_fields fs [bindname st] ++ [SSimple (Assign (path st) (EVar (bindname st)))]).
  rewrite !inners_app. cbn [inners fold_right inner_ok]. naive_solver.
Qed.
Lemma r_ty_described t : forall tn init, describes (r_ty t tn init) (r_keys t init).
Proof.
  induction t as [b|e|fs IH] using rtype_ind'; intros tn init.
  - intros st Hne. destruct b; try done. cbn [r_ty r_builtin r_keys]. rewrite varname_name by done. done.
  - intros st Hne. cbn [r_ty r_keys]. unfold r_enum. rewrite varname_name by done. done.
  - rewrite Forall_forall in IH. pose proof (r_fields_keys fs IH) as HD.
    change (r_keys (TStruct fs) init) with ((if init then [[]] else []) ++ keys_of rkf fs).
    destruct init; [|exact HD]. intros st Hne. rewrite r_init_lets, (HD [bindname st]) by done.
    rewrite bindname_name, at_level_rebind by done.
    change (app (@nil string)) with (fun k : list string => k). by rewrite List.map_id.
Qed.
Lemma r_block t : forall tn i st, st ≠ [] ->
  block_ok (r_ty t tn i st) <-> all_structs (fun fs => fine (keys_of rkf fs)) t.
Proof.
  induction t as [b|e|fs IH] using rtype_ind'; intros tn i st Hne.
  - split; [done|]. intros _. rewrite (described_block _ _ st (r_ty_described _ _ _) Hne).
    split; [destruct b; try apply fine_nil; apply fine_one|]. by destruct b.
  - split; [done|]. intros _. rewrite (described_block _ _ st (r_ty_described _ _ _) Hne). split; [apply fine_one|]. done.
  - rewrite all_structs_struct, (described_block _ _ st (r_ty_described _ _ _) Hne).
    assert (fine (r_keys (TStruct fs) i) <-> fine (keys_of rkf fs)) as ->.
    { destruct i; [|done]. change (r_keys (TStruct fs) true) with ([] :: keys_of rkf fs). apply fine_own, (proper_fields rkf). }
    set (st' := if i then [bindname st] else st).
    assert (st' ≠ []) as Hne' by (by destruct i).
    assert (inners (r_ty (TStruct fs) tn i st) <-> inners (r_fields fs st')) as ->.
    { destruct i; [apply r_init_inners|done]. }
    unfold r_fields, r_field. rewrite (inners_fields (fun f => r_wrapped f)).
    rewrite Forall_forall in IH.
    assert (forall f, f ∈ fs -> fine (keys_of rkf fs) ->
      inners (r_wrapped f (st' ++ [f_name f])) <-> all_structs (fun fs => fine (keys_of rkf fs)) (f_ty f)) as H.
    { intros f Hf HF. specialize (IH f Hf (f_tname f)). pose proof (r_ty_described (f_ty f) (f_tname f)) as Hd.
      assert (st' ++ [f_name f] ≠ []) as Hne'' by (by destruct st'). unfold r_wrap.
      destruct (f_opt f) eqn:Eo; destruct (f_array f) eqn:Ea; cbn [negb].
      - rewrite r_opt_inner, (described_block _ _ _ (r_arr_described _ _)) by done.
        rewrite (r_arr_inner _ _ _ _ (Hd false) (r_proper _)) by done. rewrite IH by done.
        split; [by intros [_ ?]|]. intros ?. split; [apply fine_one|done].
      - by rewrite r_opt_inner, IH.
      - by rewrite (r_arr_inner _ _ _ _ (Hd false) (r_proper _)), IH.
      - rewrite <- (IH true (st' ++ [f_name f])), (described_block _ _ _ (Hd true)) by done.
        pose proof (fine_field _ _ _ Hf HF) as Hk. unfold rkf in Hk. rewrite Eo, Ea in Hk. naive_solver. }
    split; intros [HF Hi]; (split; [done|]); intros f Hf; by apply H, Hi.
Qed.

(** ** fields against each other *)
Lemma fine_apart (kf : sfield -> keys) t :
  (forall f, all_structs (fun fs => fine (keys_of kf fs)) (f_ty f) -> fine (kf f)) ->
  all_structs (fun fs => fine (keys_of kf fs)) t <-> all_structs (apart kf) t.
Proof.
  intros Hk. induction t as [b|e|fs IH] using rtype_ind'; [done..|].
  rewrite !all_structs_struct, fine_fields. rewrite Forall_forall in IH.
  split.
  - intros [[_ H2] H3]. split; [done|]. intros f Hf. apply IH; auto.
  - intros [H2 H3]. assert (forall f, f ∈ fs -> all_structs (fun fs => fine (keys_of kf fs)) (f_ty f)) as H4 by (intros f Hf; apply IH; auto).
    split; [|done]. split; [|done]. intros f Hf. by apply Hk, H4.
Qed.
Lemma wkf_fine f : all_structs (fun fs => fine (keys_of wkf fs)) (f_ty f) -> fine (wkf f).
Proof.
  unfold wkf. destruct (f_opt f); [intros; apply fine_one|]. destruct (f_array f); [intros; apply fine_nil|].
  destruct (f_ty f) as [b|e|fs]; [intros; apply fine_nil..|]. by intros [? _].
Qed.
Lemma rkf_fine f : all_structs (fun fs => fine (keys_of rkf fs)) (f_ty f) -> fine (rkf f).
Proof.
  unfold rkf. destruct (f_opt f); [intros; apply fine_nil|]. destruct (f_array f); [intros; apply fine_one|].
  destruct (f_ty f) as [b|e|fs]; [intros; destruct b; first [apply fine_nil|apply fine_one]|intros; apply fine_one|].
  intros [? _]. change (r_keys (TStruct fs) true) with ([] :: keys_of rkf fs). apply fine_own; [apply (proper_fields rkf)|done].
Qed.

(** the names of the parameters and of the fixed locals are not in the way *)
Lemma read_ok_apart x : read_ok (class_of x) <-> all_structs (apart rkf) (TStruct (x_fields x)).
Proof.
  rewrite <- (fine_apart rkf _ rkf_fine). rewrite <- (r_block _ "" false ["output"]) by done.
  unfold read_ok. cbn [class_of k_read]. change (r_fields (x_fields x) ["output"]) with (r_ty (TStruct (x_fields x)) "" false ["output"]).
  split; [by intros [_ ?]|]. intros HB. split; [|done]. destruct HB as [HB _].
  rewrite (r_ty_described _ "" false ["output"] ltac:(done)) in HB |- *.
  assert (forall s, s ∈ at_level ["output"] (r_keys (TStruct (x_fields x)) false) -> exists t, s = String "o" (String "u" (String "t" (String "p" (String "u" (String "t" (String "_" t))))))) as Hpre.
  { intros s (k & <- & Hk)%elem_of_list_In%in_map_iff. apply elem_of_list_In in Hk. destruct k as [|c k]; [by destruct (r_proper (TStruct (x_fields x)))|].
    unfold name_of. rewrite join_app, tails_cons by done. eexists. reflexivity. }
  repeat (constructor; [rewrite ?not_elem_of_cons; repeat split; try done; intros Hin; by destruct (Hpre _ Hin)|]). done.
Qed.
Lemma write_ok_apart x : write_ok (class_of x) <-> all_structs (apart wkf) (TStruct (x_fields x)).
Proof.
  rewrite <- (fine_apart wkf _ wkf_fine). rewrite <- (w_block _ "" ["this"]) by done.
  unfold write_ok. cbn [class_of k_write]. change (w_fields (x_fields x) ["this"]) with (w_ty (TStruct (x_fields x)) "" ["this"]).
  split; [by intros [_ ?]|]. intros HB. split; [|done]. destruct HB as [HB _].
  rewrite (w_ty_described _ "" ["this"] ltac:(done)) in HB |- *.
  assert (forall s, s ∈ at_level ["this"] (w_keys (TStruct (x_fields x))) -> exists t, s = String "t" (String "h" (String "i" (String "s" (String "_" t))))) as Hpre.
  { intros s (k & <- & Hk)%elem_of_list_In%in_map_iff. apply elem_of_list_In in Hk. destruct k as [|c k]; [by destruct (w_proper (TStruct (x_fields x)))|].
    unfold name_of. rewrite join_app, tails_cons by done. eexists. reflexivity. }
  repeat (constructor; [rewrite ?not_elem_of_cons; repeat split; try done; intros Hin; by destruct (Hpre _ Hin)|]). done.
Qed.

(** ** in terms of the schema *)
Lemma kept_apart_perm local ds fs : ds ≡ₚ fs -> kept_apart local ds <-> kept_apart local fs.
Proof.
  assert (forall ds fs, ds ≡ₚ fs -> kept_apart local ds -> kept_apart local fs) as H; [|split; apply H; done].
  clear. intros ds fs Hp H i j x u t y v t' Hij Hx Hy. symmetry in Hp. apply Permutation_inj in Hp as [_ (h & Hh & E)].
  apply (H (h i) (h j)); [by intros ?%Hh|by rewrite <- E..].
Qed.
Section schema.
  Context iter a r (Hfair : fair_order iter) (Hnb : no_builtin_decl a) (Hr : type_check iter a = Ok r).

  (** a resolved struct and its declaration *)
  Lemma entry_fields n fs t : r_types r !! n = Some (n, t) -> declares_struct a n fs ->
    exists rs ds, t = TStruct rs /\ ds ≡ₚ fs /\ Forall2 (field_matches (r_types r)) ds rs.
  Proof.
    intros Hn Hd. destruct (type_check_result _ _ _ Hfair Hnb Hr) as (_ & _ & _ & Hent).
    pose proof (vs_decls _ (result_valid _ _ _ Hfair Hnb Hr)) as Hu.
    destruct (Hent _ _ _ Hn) as [_ [(b & Hb & _)|[(vs & ? & Hv & _)|(fs' & ds & rs & Hd' & Hp & Hm & ->)]]].
    - destruct (Hnb n); [by eapply decl_names_elem|]. apply builtin_names_spec. by exists b.
    - pose proof (decl_unique _ _ _ _ Hu Hd Hv) as [=].
    - pose proof (decl_unique _ _ _ _ Hu Hd Hd') as [= <-]. eauto.
  Qed.
  Lemma declared_field (ds fs : list (string * unresolved)) rs d : ds ≡ₚ fs -> Forall2 (field_matches (r_types r)) ds rs -> d ∈ fs ->
    exists f, f ∈ rs /\ field_matches (r_types r) d f.
  Proof.
    intros Hp Hm Hd. rewrite <- Hp in Hd. apply elem_of_list_lookup in Hd as [i Hi].
    destruct (Forall2_lookup_l _ _ _ _ _ Hm Hi) as (f & Hf & HH). exists f. split; [by eapply elem_of_list_lookup_2|done].
  Qed.
  Lemma resolved_field (ds fs : list (string * unresolved)) rs f : ds ≡ₚ fs -> Forall2 (field_matches (r_types r)) ds rs -> f ∈ rs ->
    exists u, (f_name f, u) ∈ fs /\ field_matches (r_types r) (f_name f, u) f.
  Proof.
    intros Hp Hm [i Hi]%elem_of_list_lookup. destruct (Forall2_lookup_r _ _ _ _ _ Hm Hi) as ([x u] & Hd & HH).
    exists u. pose proof HH as (E & _). cbn in E. rewrite E. split; [|done]. rewrite <- Hp. by eapply elem_of_list_lookup_2.
  Qed.

  Lemma read_local_keys t : forall f u T, f_ty f = t -> field_matches (r_types r) (f_name f, u) f ->
    (exists k, k ∈ rkf f /\ T = tails k) <-> read_local a u T.
  Proof.
    pose proof (vs_decls _ (result_valid _ _ _ Hfair Hnb Hr)) as Hu.
    destruct (type_check_result _ _ _ Hfair Hnb Hr) as (_ & _ & _ & Hent).
    induction t as [b|e|rs IH] using rtype_ind'; intros f u T Et (_ & E1 & E2 & E3 & E4); cbn [fst snd] in *;
      destruct (Hent _ _ _ E4) as [_ HM]; unfold rkf; rewrite E2, E3, ?Et in *.
    - destruct HM as [(b' & Hb & [= <-])|[(? & ? & _ & _ & [=])|(? & ? & ? & _ & _ & _ & [=])]]. split.
      + intros (k & Hk & ->). destruct (u_opt u) eqn:Eo; [by apply elem_of_nil in Hk|].
        destruct (u_array u) eqn:Ea.
        { apply elem_of_list_singleton in Hk as ->. apply (rl_len a u); auto. }
        destruct b; try by apply elem_of_nil in Hk. apply elem_of_list_singleton in Hk as ->. apply (rl_len a u); [done|]. right.
        unfold builtin_of_name in Hb. repeat case_decide; try done.
      + assert (forall w, NDecl (u_name u) w ∈ a -> False) as Hno.
        { intros w Hw. apply (Hnb (u_name u)); [by eapply decl_names_elem|]. apply builtin_names_spec. by exists b. }
        intros H. destruct H as [u Ho [Ha|Hs]|u vs Ho Ha Hd|u gs (Ha & Ho & Hd)|u gs x v t (Ha & Ho & Hd) _ _].
        * rewrite Ho, Ha. exists ["len"]. split; [by left|done].
        * rewrite Ho. exists ["len"]. split; [|done]. rewrite Hs in Hb. injection Hb as <-. destruct (u_array u); by left.
        * by destruct (Hno _ Hd).
        * by destruct (Hno _ Hd).
        * by destruct (Hno _ Hd).
    - destruct HM as [(b' & Hb & [=])|[(vs & rp & Hv & _ & _)|(? & ? & ? & _ & _ & _ & [=])]]. split.
      + intros (k & Hk & ->). destruct (u_opt u) eqn:Eo; [by apply elem_of_nil in Hk|].
        destruct (u_array u) eqn:Ea.
        { apply elem_of_list_singleton in Hk as ->. apply (rl_len a u); auto. }
        apply elem_of_list_singleton in Hk as ->. by apply (rl_temp a u vs).
      + intros H. destruct H as [u Ho [Ha|Hs]|u vs' Ho Ha Hd|u gs (Ha & Ho & Hd)|u gs x v t (Ha & Ho & Hd) _ _].
        * rewrite Ho, Ha. exists ["len"]. split; [by left|done].
        * rewrite Hs in Hv. destruct (Hnb "string"); [by eapply decl_names_elem|]. by apply builtin_names_spec.
        * rewrite Ho, Ha. exists ["temp"]. split; [by left|done].
        * by pose proof (decl_unique _ _ _ _ Hu Hd Hv).
        * by pose proof (decl_unique _ _ _ _ Hu Hd Hv).
    - destruct HM as [(b' & Hb & [=])|[(? & ? & _ & _ & [=])|(fs & ds & rs' & Hd & Hp & Hm & [= <-])]].
      rewrite Forall_forall in IH. split.
      + intros (k & Hk & ->). destruct (u_opt u) eqn:Eo; [by apply elem_of_nil in Hk|].
        destruct (u_array u) eqn:Ea.
        { apply elem_of_list_singleton in Hk as ->. apply (rl_len a u); auto. }
        change (r_keys (TStruct rs) true) with ([] :: keys_of rkf rs) in Hk.
        apply elem_of_cons in Hk as [->|(g & k' & Hg & Hk & ->)%in_keys]; [by apply (rl_self a u fs)|].
        destruct (resolved_field _ _ _ _ Hp Hm Hg) as (v & Hv & Hgm). rewrite tails_cons.
        apply (rl_field a u fs _ v); [done..|]. apply (IH g Hg g v); [done..|]. eauto.
      + intros H. destruct H as [u Ho [Ha|Hs]|u vs' Ho Ha Hd'|u gs (Ha & Ho & Hd')|u gs x v t (Ha & Ho & Hd') Hv Ht].
        * rewrite Ho, Ha. exists ["len"]. split; [by left|done].
        * rewrite Hs in Hd. destruct (Hnb "string"); [by eapply decl_names_elem|]. by apply builtin_names_spec.
        * by pose proof (decl_unique _ _ _ _ Hu Hd Hd').
        * rewrite Ho, Ha. exists []. split; [by left|done].
        * rewrite Ho, Ha. pose proof (decl_unique _ _ _ _ Hu Hd Hd') as [= <-].
          destruct (declared_field _ _ _ _ Hp Hm Hv) as (g & Hg & Hgm). pose proof Hgm as (Eg & _). cbn in Eg. subst x.
          apply (IH g Hg g v) in Ht as (k & Hk & ->); [|done..].
          exists (f_name g :: k). rewrite tails_cons. split; [|done]. right. apply in_keys. eauto.
  Qed.

  Lemma write_local_keys t : forall f u T, f_ty f = t -> field_matches (r_types r) (f_name f, u) f ->
    (exists k, k ∈ wkf f /\ T = tails k) <-> write_local a u T.
  Proof.
    pose proof (vs_decls _ (result_valid _ _ _ Hfair Hnb Hr)) as Hu.
    destruct (type_check_result _ _ _ Hfair Hnb Hr) as (_ & _ & _ & Hent).
    induction t as [b|e|rs IH] using rtype_ind'; intros f u T Et (_ & E1 & E2 & E3 & E4); cbn [fst snd] in *;
      destruct (Hent _ _ _ E4) as [_ HM]; unfold wkf; rewrite E2, E3, ?Et in *.
    - destruct HM as [(b' & Hb & [= <-])|[(? & ? & _ & _ & [=])|(? & ? & ? & _ & _ & _ & [=])]]. split.
      + intros (k & Hk & ->). destruct (u_opt u) eqn:Eo; [|by destruct (u_array u); apply elem_of_nil in Hk].
        apply elem_of_list_singleton in Hk as ->. by apply (wl_self a u).
      + intros H. destruct H as [u Ho|u gs x v t (Ha & Ho & Hd) _ _].
        * rewrite Ho. exists []. split; [by left|done].
        * destruct (Hnb (u_name u)); [by eapply decl_names_elem|]. apply builtin_names_spec. by exists b.
    - destruct HM as [(b' & Hb & [=])|[(vs & rp & Hv & _ & _)|(? & ? & ? & _ & _ & _ & [=])]]. split.
      + intros (k & Hk & ->). destruct (u_opt u) eqn:Eo; [|by destruct (u_array u); apply elem_of_nil in Hk].
        apply elem_of_list_singleton in Hk as ->. by apply (wl_self a u).
      + intros H. destruct H as [u Ho|u gs x v t (Ha & Ho & Hd) _ _].
        * rewrite Ho. exists []. split; [by left|done].
        * by pose proof (decl_unique _ _ _ _ Hu Hd Hv).
    - destruct HM as [(b' & Hb & [=])|[(? & ? & _ & _ & [=])|(fs & ds & rs' & Hd & Hp & Hm & [= <-])]].
      rewrite Forall_forall in IH. split.
      + intros (k & Hk & ->). destruct (u_opt u) eqn:Eo.
        { apply elem_of_list_singleton in Hk as ->. by apply (wl_self a u). }
        destruct (u_array u) eqn:Ea; [by apply elem_of_nil in Hk|].
        change (w_keys (TStruct rs)) with (keys_of wkf rs) in Hk. apply in_keys in Hk as (g & k' & Hg & Hk & ->).
        destruct (resolved_field _ _ _ _ Hp Hm Hg) as (v & Hv & Hgm). rewrite tails_cons.
        apply (wl_field a u fs _ v); [done..|]. apply (IH g Hg g v); [done..|]. eauto.
      + intros H. destruct H as [u Ho|u gs x v t (Ha & Ho & Hd') Hv Ht].
        * rewrite Ho. exists []. split; [by left|done].
        * rewrite Ho, Ha. pose proof (decl_unique _ _ _ _ Hu Hd Hd') as [= <-].
          destruct (declared_field _ _ _ _ Hp Hm Hv) as (g & Hg & Hgm). pose proof Hgm as (Eg & _). cbn in Eg. subst x.
          apply (IH g Hg g v) in Ht as (k & Hk & ->); [|done..].
          exists (f_name g :: k). rewrite tails_cons. split; [|done]. apply in_keys. eauto.
  Qed.

  (** a struct of the result against its declaration *)
  Lemma apart_kept (kf : sfield -> keys) local :
    (forall f u T, field_matches (r_types r) (f_name f, u) f -> (exists k, k ∈ kf f /\ T = tails k) <-> local u T) ->
    forall fs ds rs, ds ≡ₚ fs -> Forall2 (field_matches (r_types r)) ds rs -> apart kf rs <-> kept_apart local fs.
  Proof.
    intros Hk fs ds rs Hp Hm. rewrite <- (kept_apart_perm local ds fs Hp). clear fs Hp. split.
    - intros H i j x u t y v t' Hij Hx Hy Ht Ht'.
      destruct (Forall2_lookup_l _ _ _ _ _ Hm Hx) as (f & Hf & Hfm). pose proof Hfm as (Ef & _). cbn in Ef. subst x.
      destruct (Forall2_lookup_l _ _ _ _ _ Hm Hy) as (g & Hg & Hgm). pose proof Hgm as (Eg & _). cbn in Eg. subst y.
      apply (Hk f u t Hfm) in Ht as (k & Hkf & ->). apply (Hk g v t' Hgm) in Ht' as (k' & Hkg & ->). by apply (H i j).
    - intros H i j f g k k' Hij Hf Hg Hkf Hkg.
      destruct (Forall2_lookup_r _ _ _ _ _ Hm Hf) as ([x u] & Hu & Hfm). pose proof Hfm as (Ef & _). cbn in Ef. subst x.
      destruct (Forall2_lookup_r _ _ _ _ _ Hm Hg) as ([y v] & Hv & Hgm). pose proof Hgm as (Eg & _). cbn in Eg. subst y.
      eapply (H i j); [done..| |]; [apply (Hk f u); [done|]|apply (Hk g v); [done|]]; eauto.
  Qed.

  (** the structs of the result are the needed ones *)
  Lemma structs_needed (P : list sfield -> Prop) (Q : list (string * unresolved) -> Prop) :
    (forall n fs ds rs, declares_struct a n fs -> ds ≡ₚ fs -> Forall2 (field_matches (r_types r)) ds rs -> P rs <-> Q fs) ->
    all_structs P (TStruct (x_fields (r_export r))) <->
    forall n fs, needed a (x_name (r_export r)) n -> declares_struct a n fs -> Q fs.
  Proof.
    intros HPQ. destruct (type_check_result _ _ _ Hfair Hnb Hr) as (_ & Hexp & Hdom & Hent). split.
    - intros HP n fs Hn Hd.
      assert (forall n m, rtc (refers a) n m -> forall t, r_types r !! n = Some (n, t) -> all_structs P t ->
        forall fs, declares_struct a m fs -> Q fs) as H; [|by eapply H].
      clear n fs Hn Hd. intros n m Hnm. induction Hnm as [n|n n' m (fs0 & x & u & Hd0 & Hx & <-) _ IH]; intros t Ht HPt fs Hd.
      + destruct (entry_fields _ _ _ Ht Hd) as (rs & ds & -> & Hp & Hm). rewrite <- HPQ by done. by apply all_structs_struct in HPt as [? _].
      + destruct (entry_fields _ _ _ Ht Hd0) as (rs & ds & -> & Hp & Hm). apply all_structs_struct in HPt as [_ HPt].
        destruct (declared_field _ _ _ _ Hp Hm Hx) as (f & Hf & (_ & _ & _ & _ & E)). eapply IH; [done|by apply HPt|done].
    - intros HQ. assert (forall t n, r_types r !! n = Some (n, t) -> all_structs P t) as H; [|by eapply H].
      induction t as [b|e|rs IH] using rtype_ind'; intros n Hn; [done..|]. apply all_structs_struct.
      rewrite Forall_forall in IH.
      destruct (Hent _ _ _ Hn) as [_ [(? & _ & [=])|[(? & ? & _ & _ & [=])|(fs & ds & rs' & Hd & Hp & Hm & [= <-])]]]. split.
      + rewrite HPQ by done. apply (HQ n); [|done]. apply Hdom. by eexists.
      + intros f Hf. destruct (resolved_field _ _ _ _ Hp Hm Hf) as (u & _ & (_ & _ & _ & _ & E)). by eapply IH.
  Qed.

  (** C23: exactly when the locals are distinct *)
  Lemma names_criterion :
    (read_ok (class_of (r_export r)) <->
      forall n fs, needed a (x_name (r_export r)) n -> declares_struct a n fs -> kept_apart (read_local a) fs) /\
    (write_ok (class_of (r_export r)) <->
      forall n fs, needed a (x_name (r_export r)) n -> declares_struct a n fs -> kept_apart (write_local a) fs).
  Proof.
    split.
    - rewrite read_ok_apart. apply structs_needed. intros n fs ds rs _ Hp Hm.
      eapply apart_kept; [|done..]. intros f u T. by apply (read_local_keys (f_ty f)).
    - rewrite write_ok_apart. apply structs_needed. intros n fs ds rs _ Hp Hm.
      eapply apart_kept; [|done..]. intros f u T. by apply (write_local_keys (f_ty f)).
  Qed.
End schema.

(** ** the sufficient condition *)
Lemma read_local_rest a u t : read_local a u t -> rest_of_name t.
Proof. intros []; [by right; exists "len"|by right; exists "temp"|by left|right; eauto]. Qed.
Lemma write_local_rest a u t : write_local a u t -> rest_of_name t.
Proof. intros []; [by left|right; eauto]. Qed.
Fixpoint has_us (s : string) : bool := match s with EmptyString => false | String c s' => Ascii.eqb c "_" || has_us s' end.
(** what follows "len" and "temp" *)
Lemma last_part l z t : l = "len" \/ l = "temp" -> rest_of_name t -> "_" +:+ l = "_" +:+ z +:+ t -> z = l /\ t = "".
Proof.
  intros Hl Ht E. apply sapp_inj_l in E. destruct Ht as [->|[s ->]]; [by rewrite sapp_nil_r in E|]. exfalso.
  assert (forall w, z +:+ "_" +:+ s = w -> has_us w = true) as Hu.
  { intros w <-. clear. induction z as [|c z IH]; [done|]. rewrite sapp_cons. cbn. rewrite IH. by rewrite orb_true_r. }
  symmetry in E. apply Hu in E. by destruct Hl as [->| ->].
Qed.
Lemma read_kept_apart a fs : distinguishable a fs -> kept_apart (read_local a) fs.
Proof.
  intros [Hnd Hdi]. assert (forall x u z v t t', (x, u) ∈ fs -> (x +:+ "_" +:+ z, v) ∈ fs -> read_local a u t -> read_local a v t' ->
    t = "_" +:+ z +:+ t' -> False) as H.
  { intros x u z v t t' Hx Hy Ht Ht' E. destruct (Hdi x u z v Hx Hy) as [H1 H2]. pose proof (read_local_rest _ _ _ Ht') as Hr.
    assert (z = "len" \/ z = "temp" -> t' = "" -> False) as Hv.
    { intros Hz ->. inversion Ht' as [| |? gs Hi|]; subst. by eapply H2. }
    destruct Ht as [u Ho Ha|u vs Ho Ha Hd|u gs Hi|u gs y v' t Hi _ _]; [| |done|by eapply H1].
    - apply (last_part "len") in E as [-> ->]; auto.
    - apply (last_part "temp") in E as [-> ->]; auto. }
  intros i j x u t y v t' Hne Hx Hy Ht Ht' E.
  destruct (same_start _ _ _ _ (read_local_rest _ _ _ Ht) (read_local_rest _ _ _ Ht') E) as [[-> _]|[(z & -> & E')|(z & -> & E')]].
  - apply Hne. eapply (NoDup_lookup fs.*1); [done|rewrite list_lookup_fmap, Hx; done|rewrite list_lookup_fmap, Hy; done].
  - apply elem_of_list_lookup_2 in Hx, Hy. by eapply (H x u z v t t').
  - apply elem_of_list_lookup_2 in Hx, Hy. by eapply (H y v z u t' t).
Qed.
Lemma write_kept_apart a fs : distinguishable a fs -> kept_apart (write_local a) fs.
Proof.
  intros [Hnd Hdi]. assert (forall x u z v t t', (x, u) ∈ fs -> (x +:+ "_" +:+ z, v) ∈ fs -> write_local a u t ->
    t = "_" +:+ z +:+ t' -> False) as H.
  { intros x u z v t t' Hx Hy Ht E. destruct (Hdi x u z v Hx Hy) as [H1 _].
    destruct Ht as [u Ho|u gs y v' t Hi _ _]; [done|by eapply H1]. }
  intros i j x u t y v t' Hne Hx Hy Ht Ht' E.
  destruct (same_start _ _ _ _ (write_local_rest _ _ _ Ht) (write_local_rest _ _ _ Ht') E) as [[-> _]|[(z & -> & E')|(z & -> & E')]].
  - apply Hne. eapply (NoDup_lookup fs.*1); [done|rewrite list_lookup_fmap, Hx; done|rewrite list_lookup_fmap, Hy; done].
  - apply elem_of_list_lookup_2 in Hx, Hy. by eapply (H x u z v t t').
  - apply elem_of_list_lookup_2 in Hx, Hy. by eapply (H y v z u t' t).
Qed.

Lemma plain_names_ok iter a r : fair_order iter -> no_builtin_decl a -> type_check iter a = Ok r -> plain_fields a ->
  read_ok (class_of (r_export r)) /\ write_ok (class_of (r_export r)).
Proof.
  intros Hf Hnb Hr Hp. destruct (names_criterion iter a r Hf Hnb Hr) as [Hrd Hwr].
  rewrite Hrd, Hwr. split; intros n fs _ Hd; [apply read_kept_apart|apply write_kept_apart]; by eapply Hp.
Qed.
