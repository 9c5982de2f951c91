(** Witnesses for the refuted parser and report claims. *)
From Verif Require Export ReportProofs ParserTests.

(** A comment with a non-ASCII character (é), then a stray dollar sign. *)
Definition accent_text : text :=
  txt "# " ++ [ascii_of_nat 195; ascii_of_nat 169] ++ [lf] ++ txt "$".
Lemma accent_utf8 : utf8 accent_text.
Proof.
  exists [txt "#"; txt " "; [ascii_of_nat 195; ascii_of_nat 169]; [lf]; txt "$"]. split; [|done].
  repeat constructor; unfold in_range; vm_compute; lia.
Qed.
Lemma accent_error : parse_schema accent_text = PErr 5.
Proof. by vm_compute. Qed.
Lemma accent_message : parse_message accent_text 5 = Ok (report [ascii_of_nat 0] 1 [] (txt "$")).
Proof. by vm_compute. Qed.

(** What the full claim C05 says. *)
Definition report_right (s : text) : Prop := forall off, parse_schema s = PErr off ->
  exists before after lines cur rest token, s = before ++ after /\ length before = off /\
    place before after lines cur rest /\ first_char after token /\
    parse_message s off = Ok (report token lines cur rest).
Lemma report_not_right : utf8 accent_text /\ ~ report_right accent_text.
Proof.
  split; [exact accent_utf8|]. intros H.
  destruct (H 5 accent_error) as (b & a & n & cur & rest & tok & E & Hl & _ & Hf & Hm).
  rewrite accent_message in Hm.
  assert (a = txt "$") as ->.
  { apply (f_equal (drop 5)) in E. rewrite <-Hl in E at 2. rewrite drop_app in E. by vm_compute in E. }
  destruct Hf as [[? _]|(r & Er & Hu)]; [done|].
  assert (tok = txt "$") as ->.
  { destruct tok as [|c [|? ?]]; [done| |done]. simpl in Er. by injection Er as <- _. }
  clear -Hm. apply (f_equal (fun r => match r with Ok t => t !! 19 | _ => None end)) in Hm. by vm_compute in Hm.
Qed.

Lemma trailing_blank :
  parse_schema (txt "export A") = POk [NExport "A"] /\ parse_schema (txt "export A" ++ txt " ") = PErr 9.
Proof. by vm_compute. Qed.
Lemma blank_line :
  parse_schema (txt "x: struct {}" ++ [lf] ++ txt "export A") = POk [NDecl "x" (AStruct []); NExport "A"] /\
  parse_schema (txt "export A" ++ [lf] ++ txt "  " ++ [lf] ++ txt "x: struct {}") = PErr 11 /\
  parse_schema (txt "export A" ++ [lf] ++ [lf] ++ txt "x: struct {}") = POk [NExport "A"; NDecl "x" (AStruct [])].
Proof. by vm_compute. Qed.

Lemma parse_total s : (exists a, parse_schema s = POk a) \/ (exists off, parse_schema s = PErr off /\ off <= length s).
Proof.
  destruct (parse_schema s) as [a|off|] eqn:E.
  - eauto.
  - right. exists off. split; [done|]. unfold parse_schema, prun in E.
    destruct (schema s (length s)) as [a [|c r] m|m|]; [done| | |done]; injection E as <-; lia.
  - by apply parse_schema_terminates in E.
Qed.
Lemma layout_unique a a' s : layout a s -> layout a' s -> a = a'.
Proof. rewrite <-!parse_schema_ok. congruence. Qed.
Lemma legal_examples : legal_ast complex_ast /\ ~ legal_ast [NDecl "uint8" (AEnum [])] /\
  ~ legal_ast [NDecl "exporter" (AEnum [])] /\ ~ legal_ast [NDecl "x" (AEnum ["9a"])].
Proof.
  split; [by apply (parse_legal _ complex_text), parse_complex|]. split; [|split].
  - intros H. apply Forall_cons in H as [((_ & _ & H) & _) _]. apply (H "uint8"); [|done].
    apply (bool_decide_unpack _). vm_compute. exact I.
  - intros H. apply Forall_cons in H as [(_ & H & _) _]. apply H. by exists (txt "er").
  - intros H. apply Forall_cons in H as [(_ & _ & H) _]. apply Forall_cons in H as [(_ & (c & w & E & Hc) & _) _].
    injection E as <- _. revert Hc. apply (bool_decide_unpack _). vm_compute. exact I.
Qed.
Lemma layout_examples : (exists a, parse_schema complex_text = POk a) /\
  ~ exists a, layout a (txt "a: struct { v: uint8 [] }").
Proof.
  split; [exists complex_ast; exact parse_complex|]. intros [a H]. apply parse_schema_ok in H. by vm_compute in H.
Qed.
Lemma trailing_blanks_matter :
  ~ forall a s w, Forall space_char w -> parse_schema s = POk a -> parse_schema (s ++ w) = POk a.
Proof.
  intros H. assert (Forall space_char (txt " ")) as Hs by (repeat constructor).
  specialize (H _ _ _ Hs (proj1 trailing_blank)).
  rewrite (proj2 trailing_blank) in H. done.
Qed.
Lemma expressible a : legal_ast a <-> exists s, parse_schema s = POk a.
Proof. split; [intros H; exists (show_ast a); by apply parse_show|intros [s H]; by eapply parse_legal]. Qed.

(** A misspelt keyword, and a variant that is not a name. *)
Lemma late_examples : parse_schema (txt "a: strucx {}") = PErr 3 /\
  take (3 + 5) (txt "a: struct {}") = take (3 + 5) (txt "a: strucx {}") /\
  parse_schema (txt "a: struct {}") = POk [NDecl "a" (AStruct [])] /\
  parse_schema (txt "b: enum { X, 9 }") = PErr 13.
Proof. vm_compute. done. Qed.
