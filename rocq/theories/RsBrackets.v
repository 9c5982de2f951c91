(** Proofs of C101 and C102: brackets and indentation of the emitted Rust text, and what varies between two runs. *)
From Coq Require Import DecimalString.
From Verif Require Export GenBrackets GenWitness RsTextGen.

(** ** words *)
Lemma part_wchar c : js_part c = true -> wchar c.
Proof. revert c. apply (ascii_all (fun c => js_part c = true -> wchar c)). apply (bool_decide_unpack _). vm_compute. exact I. Qed.
Lemma parts_wchars s : parts s -> wchars s.
Proof. induction s as [|c s IH]; [done|]. cbn. intros [H1 H2]. split; [by apply part_wchar|by apply IH]. Qed.
Lemma neutral_parts s : parts s -> neutral s.
Proof. intros H. by apply plain_neutral, wchars_plain, parts_wchars. Qed.
Lemma iword_parts s : iword s -> parts s.
Proof. destruct s; [done|]. intros [H1 H2]. split; [by apply start_part|done]. Qed.
Lemma neutral_iword s : iword s -> neutral s.
Proof. intros H. by apply neutral_parts, iword_parts. Qed.
Lemma start_starts d s : js_start d = true -> starts (String d s).
Proof. intros H. destruct (part_wchar d (start_part _ H)) as (H1 & H2 & _). done. Qed.
Lemma iword_starts s : iword s -> starts s.
Proof. destruct s; [done|]. intros [H1 _]. by apply start_starts. Qed.
Lemma place_starts p : rplace p -> starts (print_place p).
Proof. intros H. apply place_start in H. destruct (print_place p); [done|]. by apply start_starts. Qed.
Lemma neutral_dotted r ps : neutral r -> Forall iword ps -> neutral (foldl (fun s x => s +:+ "." +:+ x) r ps).
Proof.
  intros Hr Hp. revert r Hr. induction Hp as [|f ps Hf _ IH]; intros r Hr; [done|]. cbn [foldl]. apply IH.
  apply neutral_app; [done|]. apply neutral_app; [lit|by apply neutral_iword].
Qed.
Lemma neutral_place p : rplace p -> neutral (print_place p).
Proof.
  intros [[Hr _] Hp]. unfold print_place. rewrite join_foldl. by apply neutral_dotted; [apply neutral_iword|].
Qed.
Lemma neutral_number n : neutral (string_of_nat n).
Proof. apply plain_neutral, wchars_plain, nat_plain. Qed.
Lemma neutral_integer z : neutral (string_of_Z z).
Proof. apply plain_neutral, wchars_plain, Z_plain. Qed.

Lemma integer_word z : string_of_Z z ≠ "".
Proof.
  unfold string_of_Z, NilZero.string_of_int. destruct (Z.to_int z) as [u|u]; [|done]. by destruct u.
Qed.

(** ** one line: [st] are the brackets it has opened so far, the latest first *)
Fixpoint brk (s : string) (st : list ascii) : option (list ascii) :=
  match s with
  | EmptyString => Some st
  | String c s =>
      if decide (c = "010"%char) then None
      else if decide (is_opener c) then brk s (c :: st)
      else match closer c with
           | Some c' => match st with [] => None | d :: st' => if decide (d = c') then brk s st' else None end
           | None => brk s st
           end
  end.
Definition flows (st : list ascii) (s : string) (st' : list ascii) : Prop := forall o l i,
  scan s (Scan (List.map (fun c => Opened c i l) st ++ o) l i false) = Some (Scan (List.map (fun c => Opened c i l) st' ++ o) l i false).
Lemma flow_lit s st st' : brk s st = Some st' -> flows st s st'.
Proof.
  revert st. induction s as [|c s IH]; intros st; cbn [brk].
  - intros [= ->] o l i. done.
  - intros H o l i. cbn [scan]. destruct (decide (c = "010"%char)) as [|H1]; [done|].
    destruct (decide (is_opener c)) as [H2|H2].
    + rewrite scan_open by done. apply (IH _ H o l i).
    + destruct (closer c) as [c'|] eqn:E.
      * destruct st as [|d st]; [done|]. destruct (decide (d = c')) as [->|]; [|done]. cbn [List.map app].
        rewrite (scan_close c c') by (try done; by left). apply (IH _ H o l i).
      * rewrite scan1_plain by done. apply (IH _ H o l i).
Qed.
Lemma flow_app st a st1 b st2 : flows st a st1 -> flows st1 b st2 -> flows st (a +:+ b) st2.
Proof. intros Ha Hb o l i. rewrite scan_app, Ha. apply Hb. Qed.
Lemma flow_neutral st s : neutral s -> flows st s st.
Proof. intros H o l i. apply H. Qed.
Lemma flows_neutral s : flows [] s [] -> neutral s.
Proof. intros H o l i. apply (H o l i). Qed.

(** ** several lines: [st] are the brackets that are open, with the indentation of their lines *)
Definition key (b : opened) : ascii * nat := (o_char b, o_indent b).
Definition rows (st : list (ascii * nat)) (t : string) (st' : list (ascii * nat)) : Prop := forall O o l, List.map key O = st ->
  exists O' l', scan t (Scan (O ++ o) l 0 true) = Some (Scan (O' ++ o) l' 0 true) /\ List.map key O' = st'.
Lemma rows_app st a st1 b st2 : rows st a st1 -> rows st1 b st2 -> rows st (a +:+ b) st2.
Proof.
  intros Ha Hb O o l H. destruct (Ha O o l H) as (O1 & l1 & E1 & H1). destruct (Hb O1 o l1 H1) as (O2 & l2 & E2 & H2).
  exists O2, l2. split; [|done]. by rewrite scan_app, E1.
Qed.
Lemma rows_closed st t : closed_lines t -> rows st t st.
Proof. intros H O o l E. destruct (H (O ++ o) l) as [l' Hl]. by exists O, l'. Qed.
Lemma rows_line st ind k s : indents ind k -> starts s -> flows [] s [] -> rows st (line ind s) st.
Proof. intros. apply rows_closed. eapply closed_line; [done..|by apply flows_neutral]. Qed.
Lemma rows_open st ind k s c : indents ind k -> starts s -> flows [] s [c] -> rows st (line ind s) ((c, k) :: st).
Proof.
  intros Hi Hs Hf O o l E. exists (Opened c k l :: O), (S l). split; [|by rewrite <- E].
  eapply scan_line; [done|done|]. apply (Hf (O ++ o) l k).
Qed.
Lemma rows_close st ind k c c' : indents ind k -> closer c' = Some c -> rows ((c, k) :: st) (line ind (String c' "")) st.
Proof.
  intros Hi Hc O o l E. destruct O as [|[c0 k0 l0] O]; [done|]. cbn [List.map] in E. unfold key in E at 1. cbn [o_char o_indent] in E.
  injection E as -> -> E. exists O, (S l). split; [|done]. eapply line_close; [done|done|]. by apply plain_neutral.
Qed.
Lemma closed_rows t : rows [] t [] -> closed_lines t.
Proof. intros H o l. destruct (H [] o l eq_refl) as (O' & l' & E & HO). destruct O'; [|done]. by exists l'. Qed.

Lemma indents_two ind k : indents ind k -> indents (ind +:+ tab +:+ tab) (k + 4 + 4).
Proof. intros H. rewrite <- sapp_assoc. by apply indents_tab, indents_tab. Qed.
Lemma tt3 : indents (tab +:+ tab +:+ tab) 12.
Proof. rewrite <- sapp_assoc. apply (indents_tab (tab +:+ tab) 8), tt2. Qed.

Ltac soft1 := lazymatch goal with
  | |- neutral (string_of_nat _) => apply neutral_number
  | |- neutral (string_of_Z _) => apply neutral_integer
  | |- neutral QUOTE => lit
  | |- neutral (print_place _) => apply neutral_place; assumption
  | |- neutral _ => first [apply neutral_iword; assumption | apply neutral_parts; assumption]
  end.
Ltac flow := repeat lazymatch goal with
  | |- flows _ (?a +:+ ?b) _ =>
      eapply flow_app; [first [is_lit a; apply flow_lit; vm_compute; reflexivity | apply flow_neutral; soft1]|]
  | |- flows _ ?a _ => first [apply flow_lit; vm_compute; reflexivity | apply flow_neutral; soft1]
  end.
Ltac begins := first [done | by apply starts_app, place_starts | by apply starts_app, iword_starts].
Ltac ind := first [eassumption | apply indents_nil | apply tt1 | apply tt2 | apply tt3 | apply indents_two; eassumption | apply indents_tab; eassumption].
Ltac oner := eapply rows_line; [ind|begins|solve [flow]].
Ltac openr := eapply (rows_open _ _ _ _ "{"); [ind|begins|solve [flow]].
Ltac closer := eapply (rows_close _ _ _ "{" "}"); [ind|done].

(** ** statements *)
Lemma closed_rs s : forall ind k, indents ind k -> rs_ok s -> closed_lines (print_rs ind s).
Proof.
  induction s using rstmt_ind'; intros ind0 k Hi; cbn [print_rs rs_ok]; intros Ht; apply closed_rows.
  - destruct Ht. oner.
  - oner.
  - oner.
  - oner.
  - destruct Ht as (? & ? & ?). oner.
  - destruct Ht as ([? _] & ? & Hb). rewrite Forall_forall in H.
    eapply rows_app; [openr|]. eapply rows_app; [apply rows_closed|closer].
    apply concat_lines. intros s Hs. eapply H; [done|ind|exact (rsb_ok_in _ _ Hb Hs)].
  - destruct Ht as (? & ? & Hb). rewrite Forall_forall in H.
    assert (flows [] ("match " +:+ (if r then "&" else "") +:+ print_place p +:+ " {") ["{"%char]) by (destruct r; flow).
    eapply rows_app; [eapply rows_open; [exact Hi|done|done]|]. eapply rows_app; [oner|]. eapply rows_app; [openr|].
    eapply rows_app; [apply rows_closed|eapply rows_app; closer].
    apply concat_lines. intros s Hs. eapply H; [done|ind|exact (rsb_ok_in _ _ Hb Hs)].
  - destruct Ht. oner.
  - destruct Ht. oner.
  - destruct Ht as (? & Hb). rewrite Forall_forall in H.
    eapply rows_app; [openr|]. eapply rows_app; [apply rows_closed|closer].
    apply concat_lines. intros s Hs. eapply H; [done|ind|exact (rsb_ok_in _ _ Hb Hs)].
  - destruct Ht. oner.
  - destruct Ht as (? & ? & _). oner.
  - destruct Ht. oner.
  - destruct Ht as (? & ? & ?). oner.
  - destruct Ht. oner.
  - destruct Ht. oner.
  - rewrite Forall_forall in H.
    eapply rows_app; [openr|]. eapply rows_app; [apply rows_closed|closer].
    apply concat_lines. intros s Hs. eapply H; [done|ind|exact (rsb_ok_in _ _ Ht Hs)].
Qed.
Lemma closed_rsb ind0 k b : indents ind0 k -> rsb_ok b -> closed_lines (print_rsb ind0 b).
Proof. intros Hi Hb. apply concat_lines. intros s Hs. eapply closed_rs; [done|exact (rsb_ok_in _ _ Hb Hs)]. Qed.

(** ** items *)
Lemma neutral_rs_type t : iword (rt_base t) -> neutral (print_rs_type t).
Proof.
  intros H. apply flows_neutral. destruct t as [o v b]. unfold print_rs_type, struct_field_typename. cbn [rt_base rt_vec rt_opt] in *.
  destruct o, v; flow.
Qed.
Lemma closed_item i : item_ok i -> closed_lines (print_item i).
Proof.
  destruct i as [n fs|n r vs d arms]; cbn [item_ok print_item]; intros H; apply closed_rows.
  - destruct H as [Hn Hf]. eapply rows_app; [oner|]. eapply rows_app; [openr|]. eapply rows_app; [apply rows_closed|closer].
    apply concat_lines. intros [f t] Hin. rewrite Forall_forall in Hf. destruct (Hf _ Hin) as [H1 H2]. cbn [fst snd] in *.
    pose proof (neutral_rs_type t H2) as H3. eapply closed_line; [ind|done|]. apply flows_neutral.
    eapply flow_app; [by apply flow_lit; vm_compute|]. eapply flow_app; [apply flow_neutral; soft1|].
    eapply flow_app; [by apply flow_lit; vm_compute|]. eapply flow_app; [by apply flow_neutral|]. by apply flow_lit.
  - destruct H as (Hn & Hr & Hv & Hd & Ha). rewrite Forall_forall in Hv. rewrite Forall_forall in Ha.
    eapply rows_app; [oner|]. eapply rows_app; [oner|]. eapply rows_app; [openr|].
    eapply rows_app; [apply rows_closed|eapply rows_app; [closer|]].
    { apply concat_lines. intros [v k] Hin. specialize (Hv _ Hin). cbn [fst snd] in *. apply closed_rows. oner. }
    eapply rows_app; [openr|]. eapply rows_app; [openr|]. eapply rows_app; [oner|]. eapply rows_app; [closer|]. eapply rows_app; [closer|].
    eapply rows_app; [openr|]. eapply rows_app; [oner|]. eapply rows_app; [openr|]. eapply rows_app; [openr|].
    eapply rows_app; [apply rows_closed|].
    { apply concat_lines. intros [z v] Hin. specialize (Ha _ Hin). cbn [fst snd] in *. eapply closed_line; [ind| |apply flows_neutral; flow].
      apply starts_app. pose proof (Z_plain z) as Hz. apply tok_starts. split; [|done]. apply integer_word. }
    eapply rows_app; [oner|]. eapply rows_app; [closer|]. eapply rows_app; closer.
Qed.

Lemma closed_rs_module version now m : plain_text version -> plain_text now -> rs_module_ok m -> closed_lines (print_rs_module version now m).
Proof.
  intros Hv Hn (Hi & Ht & Hr & Hw). rewrite Forall_forall in Hi. unfold print_rs_module, rs_prologue, header. apply closed_rows.
  eapply rows_app.
  { apply rows_closed. eapply closed_line; [ind|done|]. apply neutral_app; [lit|]. apply neutral_app; [by apply plain_neutral|].
    apply neutral_app; [lit|by apply plain_neutral]. }
  eapply rows_app; [eapply rows_app; oner|]. eapply rows_app; [apply rows_closed, concat_lines; intros i Hin; by apply closed_item, Hi|].
  eapply rows_app; [openr|]. eapply rows_app; [apply rows_closed; eapply closed_rsb; [ind|done]|]. eapply rows_app; [oner|].
  eapply rows_app; [closer|]. eapply rows_app; [openr|]. eapply rows_app; [apply rows_closed; eapply closed_rsb; [ind|done]|closer].
Qed.

Lemma rust_well_bracketed iter a r version now titer t :
  fair_order iter -> no_builtin_decl a -> legal_ast a -> fair_types titer -> plain_text version -> plain_text now ->
  type_check iter a = Ok r -> rs_generate version now titer r = Ok t -> well_bracketed t.
Proof.
  intros Hf Hnb Hl Ht Hv Hw Hr Hg. rewrite rs_generate_print in Hg by by eapply entries_sized. injection Hg as <-.
  destruct (closed_rs_module version now (rs_module_of titer r) Hv Hw (rs_code_ok _ _ _ Hf Hnb Hl Hr _ Ht) [] 0) as [l Hl'].
  by exists l, 0, true.
Qed.

Lemma rust_total iter a r version now titer : fair_order iter -> no_builtin_decl a -> type_check iter a = Ok r -> fair_types titer ->
  exists t, rs_generate version now titer r = Ok t.
Proof. intros Hf Hnb Hr Ht. eexists. apply rs_generate_print. by eapply entries_sized. Qed.

(** ** two runs *)
Lemma print_item_pub i : exists u v, print_item i = "#[derive(Clone, " +:+ u +:+ "pub " +:+ (match i with IStruct _ _ => "struct " | IEnum _ _ _ _ _ => "enum " end) +:+ item_name i +:+ " {" +:+ v.
Proof.
  destruct i as [n fs|n r vs d arms]; cbn [print_item item_name]; unfold line.
  - exists ("PartialEq, Debug, Default)]" +:+ NL). eexists. rewrite !sapp_assoc. reflexivity.
  - exists ("Copy, PartialEq, Debug)]" +:+ NL +:+ "#[repr(" +:+ r +:+ ")]" +:+ NL). eexists. rewrite !sapp_assoc. reflexivity.
Qed.

(** C102 *)
Lemma rust_two_runs iter a r version now1 now2 titer1 titer2 :
  fair_order iter -> no_builtin_decl a -> type_check iter a = Ok r -> fair_types titer1 -> fair_types titer2 ->
  exists pre post ds1 ds2, ds1 ≡ₚ ds2 /\ Forall (fun d => exists t, d = "#[derive(Clone, " +:+ t) ds1 /\
    rs_generate version now1 titer1 r = Ok ("// Generated by packetc v" +:+ version +:+ " at " +:+ now1 +:+ pre +:+ concat_str ds1 +:+ post) /\
    rs_generate version now2 titer2 r = Ok ("// Generated by packetc v" +:+ version +:+ " at " +:+ now2 +:+ pre +:+ concat_str ds2 +:+ post).
Proof.
  intros Hf Hn Hr H1 H2. exists (NL +:+ rs_prologue). eexists.
  exists (List.map print_item (rm_items (rs_module_of titer1 r))), (List.map print_item (rm_items (rs_module_of titer2 r))).
  split; [|split; [|split]].
  - assert (titer1 (r_types r) ≡ₚ titer2 (r_types r)) as HP by (rewrite (H1 _), (H2 _); done).
    cbn [rs_module_of rm_items]. rewrite <- !flat_map_concat_map. apply Permutation_map. by apply Permutation_flat_map.
  - apply Forall_forall. intros s (d & <- & _)%elem_of_list_In%in_map_iff. destruct (print_item_pub d) as (u & v & ->). by eexists.
  - rewrite rs_generate_print by by eapply entries_sized. unfold print_rs_module, header, line. rewrite !sapp_assoc. reflexivity.
  - rewrite rs_generate_print by by eapply entries_sized. unfold print_rs_module, header, line. rewrite !sapp_assoc. reflexivity.
Qed.
Lemma rust_order_visible : exists r t1 t2, type_check iter_fwd two_schema = Ok r /\
  rs_generate "0" "now" types_fwd r = Ok t1 /\ rs_generate "0" "now" types_rev r = Ok t2 /\ t1 ≠ t2.
Proof.
  destruct (type_check iter_fwd two_schema) as [r|?|?|] eqn:E; [|by vm_compute in E..]. exists r.
  vm_compute in E. injection E as <-. eexists _, _. split; [done|]. split; [vm_compute; reflexivity|]. split; [vm_compute; reflexivity|]. intros [=].
Qed.
