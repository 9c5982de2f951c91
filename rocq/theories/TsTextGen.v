(** The reader of TsText.v reads every generated text. *)
From Verif Require Export TsTextParse GenProofs2.

Definition fine (b : list stmt) : Prop := words_b b /\ block_ok b.
Lemma fine_cons s b : fine (s :: b) <-> (swords s /\ stmt_ok s) /\ fine b.
Proof. unfold fine, words_b, block_ok. cbn [fold_right]. tauto. Qed.
Lemma fine_nil : fine [].
Proof. done. Qed.
Lemma fine_app a b : fine (a ++ b) <-> fine a /\ fine b.
Proof. induction a as [|s a IH]; [cbn [app]; split; [by split|by intros [_ ?]]|]. cbn [app]. rewrite !fine_cons, IH. tauto. Qed.
Lemma fine_concat l : (forall b, b ∈ l -> fine b) -> fine (List.concat l).
Proof.
  induction l as [|b l IH]; intros H; [done|]. cbn [List.concat]. apply fine_app. split; [apply H; by left|].
  apply IH. intros. apply H. by right.
Qed.

Definition stack_ok (st : list string) : Prop := match st with r :: ps => root r /\ Forall iword ps | [] => False end.
Lemma root_app a b : root a -> parts b -> root (a +:+ b).
Proof. intros [H1 H2] Hb. split; [by apply iword_app|]. by destruct a. Qed.
Lemma root_join st : stack_ok st -> root (join "_" st).
Proof.
  destruct st as [|r ps]; [done|]. intros [Hr Hp]. rewrite join_foldl. revert r Hr. induction Hp as [|x ps Hx _ IH]; intros r Hr; [done|].
  cbn [foldl]. apply IH. apply root_app; [done|]. split; [done|]. by apply word_parts.
Qed.
Lemma root_bindname st : stack_ok st -> root (bindname st).
Proof. apply root_join. Qed.
Lemma root_varname st x : stack_ok st -> parts x -> root (varname st x).
Proof. intros H Hx. apply root_app; [by apply root_join|]. by split. Qed.
Lemma stack_single x : root x -> stack_ok [x].
Proof. by split. Qed.
Lemma stack_snoc st f : stack_ok st -> iword f -> stack_ok (st ++ [f]).
Proof. destruct st as [|r ps]; [done|]. intros [Hr Hp] Hf. split; [done|]. apply Forall_app. split; [done|]. by apply Forall_singleton. Qed.
Lemma path_ok Q st : stack_ok st -> member Q (path st) /\ words_e (path st).
Proof.
  destruct st as [|r ps]; [done|]. intros [Hr Hp]. cbn [path].
  assert (forall e, member Q e /\ words_e e -> member Q (foldl EProp e ps) /\ words_e (foldl EProp e ps)) as H.
  { induction Hp as [|x ps Hx _ IH]; intros e He; [done|]. cbn [foldl]. apply IH. cbn. tauto. }
  apply H. split; [done|]. apply Hr.
Qed.
Lemma member_place e : member (level_ok 2) e -> place_ok e.
Proof. done. Qed.
Lemma member_expr n e : member (level_ok n) e -> level_ok (S n) e.
Proof. destruct e; by cbn. Qed.
Lemma var_ok n x : root x -> level_ok (S n) (EVar x).
Proof. done. Qed.

Definition emits (p : emit) : Prop := forall st, stack_ok st -> fine (p st).
Lemma path3 st : stack_ok st -> expr_ok (path st).
Proof. intros H. apply (member_expr 2), path_ok, H. Qed.
Lemma path_prop st f : stack_ok st -> iword f -> expr_ok (EProp (path st) f).
Proof. intros H Hf. apply (member_expr 2). cbn [member]. split; [by apply path_ok|done]. Qed.
Lemma path_elem st x : stack_ok st -> root x -> place_ok (EElem (path st) (EVar x)).
Proof. intros H Hx. cbn [place_ok member]. split; [by apply path_ok|done]. Qed.
Ltac wd := apply (bool_decide_unpack _); vm_compute; exact I.
Global Instance parts_dec s : Decision (parts s).
Proof. induction s as [|c s IH]; [left; exact I|]. cbn [parts]. apply _. Defined.
Global Instance iword_dec s : Decision (iword s).
Proof. destruct s; cbn [iword]; apply _. Defined.

Lemma emits_w_wrap ar op p : emits p -> emits (w_wrap ar op p).
Proof.
  intros Hp. unfold w_wrap.
  assert (emits (if ar then w_arr p else p)) as H.
  { destruct ar; [|done]. intros st Hst. unfold w_arr.
    assert (root (varname st "item")) as R1 by (apply root_varname; [done|wd]).
    assert (root (varname st "index")) as R2 by (apply root_varname; [done|wd]).
    destruct (path_ok (level_ok 2) st Hst) as [Hm Hw].
    assert (iword "length") as Hlen by wd. assert (parts "uint32") as Hu by wd.
    pose proof (path_prop st "length" Hst Hlen) as He.
    rewrite !fine_cons. split; [split; [done|done]|]. split; [|apply fine_nil].
    assert (fine (SSimple (Let false (varname st "item") (EElem (path st) (EVar (varname st "index")))) :: p [varname st "item"])) as [F1 F2].
    { rewrite fine_cons. split; [|by apply Hp, stack_single]. split; [cbn; split; [apply R1|split; [done|apply R2]]|].
      apply place_expr, path_elem; done. }
    split; [split; [apply R2|split; [done|exact F1]]|split; [done|exact F2]]. }
  destruct op; [|done]. intros st Hst. unfold w_opt.
  assert (root (bindname st)) as R by by apply root_bindname.
  destruct (path_ok (level_ok 2) st Hst) as [Hm Hw]. assert (parts "uint8") as Hu by wd.
  rewrite !fine_cons. split; [split; [split; [apply R|done]|by apply path3]|]. split; [|apply fine_nil].
  assert (fine (SSimple (Write "uint8" (ENum 1)) :: (if ar then w_arr p else p) [bindname st])) as [F1 F2].
  { rewrite fine_cons. split; [done|]. by apply H, stack_single. }
  split; [split; [apply R|split; [done|exact F1]]|split; [exact R|split; [done|exact F2]]].
Qed.
Lemma emits_r_wrap ar op i p : emits p -> emits (r_wrap ar op i p).
Proof.
  intros Hp. unfold r_wrap.
  assert (emits (if ar then r_arr i p else p)) as H.
  { destruct ar; [|done]. intros st Hst. unfold r_arr.
    assert (root (varname st "item")) as R1 by (apply root_varname; [done|wd]).
    assert (root (varname st "index")) as R2 by (apply root_varname; [done|wd]).
    assert (root (varname st "len")) as R3 by (apply root_varname; [done|wd]).
    destruct (path_ok (level_ok 2) st Hst) as [Hm Hw]. assert (parts "uint32") as Hu by wd.
    rewrite !fine_cons. split; [split; [split; [apply R3|done]|done]|].
    split; [split; [split; [done|apply R3]|split; [done|exact R3]]|]. split; [|apply fine_nil].
    assert (fine (SSimple (Let true (varname st "item") (if i then EObj else EUndef))
      :: p [varname st "item"] ++ [SSimple (Assign (EElem (path st) (EVar (varname st "index"))) (EVar (varname st "item")))])) as [F1 F2].
    { rewrite fine_cons. split; [split; [split; [apply R1|by destruct i]|by destruct i]|]. rewrite fine_app. split; [by apply Hp, stack_single|].
      rewrite fine_cons. split; [|apply fine_nil]. split; [split; [split; [done|apply R2]|apply R1]|]. split; [by apply path_elem|exact R1]. }
    split; [split; [apply R2|split; [apply R3|exact F1]]|split; [exact R3|exact F2]]. }
  destruct op; [|done]. intros st Hst. unfold r_opt.
  destruct (path_ok (level_ok 2) st Hst) as [Hm Hw]. assert (parts "uint8") as Hu by wd. destruct (H st Hst) as [F1 F2].
  rewrite fine_cons. split; [|apply fine_nil]. split.
  - split; [done|]. split; [exact F1|]. split; [|done]. split; [exact Hw|done].
  - split; [done|]. split; [exact F2|]. split; [|done]. split; [exact Hm|done].
Qed.

(** names of a field and its type; builtin types go by their own names *)
Definition field_words (f : sfield) : Prop := iword (f_name f) /\ parts (f_tname f) /\ leaf_ok (f_ty f) (f_tname f).
Lemma leaf_not_string b tn : leaf_ok (TBuiltin b) tn -> b ≠ BString -> tn ≠ "string".
Proof. cbn. intros H Hb ->. vm_compute in H. by injection H as <-. Qed.
Lemma emits_w_ty t : forall tn, parts tn -> all_fields field_words t -> emits (w_ty t tn).
Proof.
  induction t as [b|e|fs IH] using rtype_ind'; intros tn Htn Hf st Hst; destruct (path_ok (level_ok 2) st Hst) as [Hm Hw].
  - cbn [w_ty]. unfold w_builtin. pose proof (path3 st Hst) as He. assert (parts "uint32") by wd. assert (parts "string") by wd.
    assert (iword "length") as Hlen by wd. pose proof (path_prop st "length" Hst Hlen) as He2.
    destruct b; rewrite ?fine_cons; (repeat split; [done|..]); try done; apply fine_nil.
  - cbn [w_ty]. unfold w_enum. rewrite fine_cons. split; [|apply fine_nil].
    assert (parts (repr_name (e_repr e))) by (destruct (e_repr e); wd). split; [done|].
    cbn [stmt_ok simple_ok]. unfold expr_ok. cbn [level_ok conjunction comparison unitary]. destruct (path st); done.
  - cbn [w_ty]. apply fine_concat. rewrite all_fields_struct in Hf. rewrite Forall_forall in IH.
    intros b (f & <- & Hin)%elem_of_list_In%in_map_iff. apply elem_of_list_In in Hin.
    destruct (Hf f Hin) as [(H1 & H2 & H3) H4]. apply emits_w_wrap; [by apply IH|by apply stack_snoc].
Qed.
Lemma emits_r_ty t : forall tn init, parts tn -> leaf_ok t tn -> all_fields field_words t -> emits (r_ty t tn init).
Proof.
  induction t as [b|e|fs IH] using rtype_ind'; intros tn init Htn Hleaf Hf st Hst; destruct (path_ok (level_ok 2) st Hst) as [Hm Hw].
  - cbn [r_ty]. unfold r_builtin. assert (parts "uint32") by wd. assert (root (varname st "len")) as R by (apply root_varname; [done|wd]).
    assert (b = BString \/ b ≠ BString) as [->|Hb] by (destruct b; by (left + right)).
    + rewrite !fine_cons. split; [split; [split; [apply R|done]|done]|]. split; [|apply fine_nil]. split; [split; [done|apply R]|]. split; [done|exact R].
    + pose proof (leaf_not_string _ _ Hleaf Hb) as Hns.
      assert (fine [SSimple (Assign (path st) (ERead tn))]) as HF.
      { rewrite fine_cons. split; [|apply fine_nil]. split; [done|]. split; [done|]. by split. }
      destruct b; done.
  - cbn [r_ty]. unfold r_enum. assert (parts (repr_name (e_repr e))) by (destruct (e_repr e); wd).
    assert (repr_name (e_repr e) ≠ "string") by (by destruct (e_repr e)).
    assert (root (varname st "temp")) as R by (apply root_varname; [done|wd]). pose proof R as [Rw _].
    rewrite !fine_cons. split; [split; [split; done|by split]|]. split; [|apply fine_nil]. split.
    + cbn. tauto.
    + split; [|split; [split; [done|exact R]|done]]. cbn. tauto.
  - rewrite all_fields_struct in Hf. rewrite Forall_forall in IH.
    assert (emits (r_fields fs)) as HR.
    { intros st' Hst'. apply fine_concat.
      intros b (f & <- & Hin)%elem_of_list_In%in_map_iff. apply elem_of_list_In in Hin.
      destruct (Hf f Hin) as [(H1 & H2 & H3) H4]. apply emits_r_wrap; [by apply IH|by apply stack_snoc]. }
    cbn [r_ty]. destruct init; [|by apply HR].
    assert (root (bindname st)) as R by by apply root_bindname.
    change (fine (SSimple (Let true (bindname st) EObj) :: r_fields fs [bindname st] ++ [SSimple (Assign (path st) (EVar (bindname st)))])).
    rewrite fine_cons. split; [split; [split; [apply R|done]|done]|]. rewrite fine_app. split; [by apply HR, stack_single|].
    rewrite fine_cons. split; [|apply fine_nil]. split; [split; [done|apply R]|]. by split.
Qed.

(** names of the language are identifiers *)
Lemma char_start c : start_char c -> js_start c = true.
Proof.
  intros H. assert (forall c, implb (bool_decide (start_char c)) (js_start c) = true) as Hall by (apply ascii_ind'; vm_compute; reflexivity).
  specialize (Hall c). rewrite bool_decide_true in Hall by done. done.
Qed.
Lemma char_part c : name_char c -> js_part c = true.
Proof.
  intros H. assert (forall c, implb (bool_decide (name_char c)) (js_part c) = true) as Hall by (apply ascii_ind'; vm_compute; reflexivity).
  specialize (Hall c). rewrite bool_decide_true in Hall by done. done.
Qed.
Lemma legal_iword s : legal_name (txt s) -> iword s.
Proof.
  intros (H & (c & w & E & Hc) & _). destruct s as [|c' s]; [done|]. unfold txt in *. cbn [list_ascii_of_string] in *. injection E as -> <-.
  split; [by apply char_start|]. apply Forall_cons in H as [_ H]. clear -H. induction s as [|d s IH]; [done|]. cbn [list_ascii_of_string] in H.
  apply Forall_cons in H as [Hd H]. split; [by apply char_part|auto].
Qed.
Lemma builtin_iword n : n ∈ builtin_names -> iword n.
Proof. intros H. assert (Forall iword builtin_names) as HF by wd. rewrite Forall_forall in HF. by apply HF. Qed.
Lemma legal_decl_words a n t : legal_ast a -> NDecl n t ∈ a -> iword n /\ legal_type t.
Proof.
  intros HL Hin. unfold legal_ast in HL. rewrite Forall_forall in HL. destruct (HL _ Hin) as (H1 & _ & H2).
  split; [by apply legal_iword|done].
Qed.

Section result.
  Context iter a r (Hfair : fair_order iter) (Hnb : no_builtin_decl a) (Hl : legal_ast a) (Hr : type_check iter a = Ok r).
  Lemma used_iword n fs f u : declares_struct a n fs -> (f, u) ∈ fs -> iword f /\ iword (u_name u).
  Proof.
    intros Hd Hu. destruct (legal_decl_words _ _ _ Hl Hd) as [_ HT]. cbn in HT. rewrite Forall_forall in HT.
    destruct (HT _ Hu) as [H1 H2]. split; [by apply legal_iword|].
    destruct (vs_types _ (result_valid _ _ _ Hfair Hnb Hr) _ _ _ _ Hd Hu) as [H|H]; [by apply builtin_iword|].
    apply decl_name_in in H as [t Ht]. by eapply legal_decl_words.
  Qed.
  Lemma export_iword : iword (x_name (r_export r)).
  Proof.
    destruct (vs_export _ (result_valid _ _ _ Hfair Hnb Hr)) as (e & fs & He & Hd).
    destruct (type_check_result _ _ _ Hfair Hnb Hr) as (He' & _). rewrite He in He'. injection He' as <-.
    by eapply legal_decl_words.
  Qed.
  Lemma field_is_words n rs f : r_types r !! n = Some (n, TStruct rs) -> f ∈ rs -> field_words f.
  Proof.
    intros Hn Hf. destruct (entry_struct _ _ _ Hfair Hnb Hr _ _ _ Hn Hf) as (fs & u & Hd & Hu & E1 & E2 & E3 & E4).
    destruct (used_iword _ _ _ _ Hd Hu) as [H1 H2]. split; [done|].
    split; [rewrite E1; by apply word_parts|]. exact (entry_leaf _ _ _ Hfair Hnb Hr _ _ E4).
  Qed.
  Lemma ts_name_word n : iword n -> iword (ts_name n).
  Proof. intros H. unfold ts_name. repeat case_decide; [wd|wd|done]. Qed.
  Lemma decl_words titer d : fair_types titer -> d ∈ m_decls (module_of "" "" titer r) -> words_d d.
  Proof.
    intros Ht Hd. pose proof (decls_inv _ _ _ Hfair Hnb Hr _ Ht _ Hd) as (_ & _ & _ & HD).
    destruct HD as [(vs & Hdd & ->)|(fs & ds & Hdd & Hp & ->)]; destruct (legal_decl_words _ _ _ Hl Hdd) as [Hn HT]; (split; [done|]).
    - apply Forall_forall. intros [v i] Hin. simpl. cbn in HT. rewrite Forall_forall in HT.
      apply elem_of_list_lookup in Hin as [j Hj]. rewrite list_lookup_imap in Hj.
      destruct (vs !! j) eqn:E; [|done]. injection Hj as <- <-. apply legal_iword, HT. by eapply elem_of_list_lookup_2.
    - apply Forall_forall. intros m ([f u] & <- & Hin)%elem_of_list_In%in_map_iff. simpl.
      apply elem_of_list_In in Hin. rewrite Hp in Hin. destruct (used_iword _ _ _ _ Hdd Hin) as [H1 H2]. split; [done|].
      exists (ts_name (u_name u)), None, (u_array u), false. split; [|split; [by apply ts_name_word|done]].
      unfold type_str. by rewrite sapp_nil_l, sapp_nil_r.
  Qed.
  Lemma class_fine : class_ok (class_of (r_export r)).
  Proof.
    assert (all_fields field_words (TStruct (x_fields (r_export r)))) as Hx.
    { eapply entry_checked; [done..|by eapply field_is_words|by eapply export_entry]. }
    assert (fine (k_read (class_of (r_export r)))) as [R1 R2].
    { apply (emits_r_ty (TStruct (x_fields (r_export r))) "x" false); [wd|done|done|]. split; [|done]. split; [wd|by left]. }
    assert (fine (k_write (class_of (r_export r)))) as [W1 W2].
    { apply (emits_w_ty (TStruct (x_fields (r_export r))) "x"); [wd|done|]. split; [|done]. split; [wd|by right]. }
    split; [|done]. split; [apply export_iword|]. split; [|done].
    destruct (params_inv _ _ _ Hfair Hnb Hr) as (fs & ds & Hdd & Hp & ->). apply Forall_forall.
    intros p ([f u] & <- & Hin)%elem_of_list_In%in_map_iff. simpl. apply elem_of_list_In in Hin. rewrite Hp in Hin.
    destruct (used_iword _ _ _ _ Hdd Hin) as [H1 H2]. split; [done|]. unfold param_type. case_decide.
    - exists (ts_name (u_name u)), None, (u_array u), (u_opt u). split; [|split; [by apply ts_name_word|done]]. done.
    - exists (x_name (r_export r)), (Some (u_name u)), (u_array u), (u_opt u). split; [|split; [apply export_iword|done]].
      unfold type_str. by rewrite !sapp_assoc.
  Qed.
  Lemma read_generated version now titer : fair_types titer -> on_one_line version -> on_one_line now ->
    exists t ds, generate version now titer r = Ok t /\ read_ts t = Some (ds, class_of (r_export r)) /\ ds = m_decls (module_of "" "" titer r).
  Proof.
    intros Ht Hv Hn. exists (print_module (module_of version now titer r)), (m_decls (module_of version now titer r)).
    split; [by eapply generate_ok|]. split; [|reflexivity].
    apply (read_printed (module_of version now titer r)); [done|done| |apply class_fine]. apply Forall_forall. intros d Hd. by eapply decl_words.
  Qed.
End result.

Lemma legal_no_builtin a : legal_ast a -> no_builtin_decl a.
Proof.
  unfold legal_ast. intros Hl. induction Hl as [|[d t|e] a Hd Hl IH]; intros n Hn Hb; [by apply elem_of_nil in Hn| |by apply (IH n)].
  cbn [decl_names] in Hn. apply elem_of_cons in Hn as [->|Hn]; [|by apply (IH n)]. destruct Hd as ((_ & _ & Hr) & _).
  apply (Hr d); [|done]. revert Hb. unfold builtin_names, reserved_list. set_solver.
Qed.

Lemma for_text_intro a (P : list decl -> cls -> Prop) :
  (forall iter r titer, fair_order iter -> no_builtin_decl a -> type_check iter a = Ok r -> fair_types titer ->
     P (m_decls (module_of "" "" titer r)) (class_of (r_export r))) -> for_text a P.
Proof.
  intros HP iter r version now titer Hf Hl Hr Ht Hv Hn.
  destruct (read_generated iter a r Hf (legal_no_builtin _ Hl) Hl Hr version now titer Ht Hv Hn) as (t & ds & H1 & H2 & ->).
  exists t, (m_decls (module_of "" "" titer r)), (class_of (r_export r)). split; [done|]. split; [done|]. apply (HP iter); [done|by apply legal_no_builtin|done..].
Qed.
Lemma for_text_mono a (P Q : list decl -> cls -> Prop) : (forall ds k, P ds k -> Q ds k) -> for_text a P -> for_text a Q.
Proof.
  intros HPQ HP iter r version now titer Hf Hl Hr Ht Hv Hn. destruct (HP iter r version now titer Hf Hl Hr Ht Hv Hn) as (t & ds & k & H1 & H2 & H3).
  exists t, ds, k. split; [done|]. split; [done|]. by apply HPQ.
Qed.
