(** The tokens of printed Rust modules. *)
From Coq Require Import DecimalString DecimalNat DecimalZ.
From Verif Require Export RsText RsPlan TsTextParse.

Lemma rstmt_ind' (P : rstmt -> Prop) :
  (forall m p, P (WCall m p)) -> (forall n, P (WByte n)) -> (forall p, P (WCount p)) -> (forall p, P (WText p)) ->
  (forall m p t, P (WCast m p t)) -> (forall x p b, Forall P b -> P (WFor x p b)) ->
  (forall r p n x b, Forall P b -> P (WMatch r p n x b)) -> (forall x, P (RCount x)) -> (forall p x, P (RReserve p x)) ->
  (forall x b, Forall P b -> P (RFor x b)) -> (forall x t, P (RDefault x t)) -> (forall p m, P (RCall p m)) ->
  (forall p x, P (RText p x)) -> (forall p t m, P (RTry p t m)) -> (forall p x, P (RPush p x)) -> (forall p x, P (RSome p x)) ->
  (forall b, Forall P b -> P (RIf b)) -> forall s, P s.
Proof.
  intros K1 K2 K3 K4 K5 K6 K7 K8 K9 K10 K11 K12 K13 K14 K15 K16 K17.
  fix IH 1.
  assert (forall (b : list rstmt), (fix all b := match b with [] => True | s :: b => P s /\ all b end) b -> Forall P b) as HF.
  { induction b; [constructor|]. intros []. constructor; auto. }
  intros [m p|n|p|p|m p t|x p b|r p n x b|x|p x|x b|x t|p m|p x|p t m|p x|p x|b];
    [apply K1|apply K2|apply K3|apply K4|apply K5|apply K6|apply K7|apply K8|apply K9|apply K10|apply K11|apply K12|apply K13|apply K14|apply K15|apply K16|apply K17];
    apply HF; clear HF; induction b as [|s b IHb]; [exact I|split; [apply IH|exact IHb]|exact I|split; [apply IH|exact IHb]|exact I|split; [apply IH|exact IHb]|exact I|split; [apply IH|exact IHb]].
Qed.

(** ** Scanning *)
Lemma scan_sym c d s : feed0 c = ([], LSym c) -> js_start d = true ->
  (forall d, implb (js_start d) (negb (bool_decide (chr c +:+ chr d ∈ pairs)) && negb (bool_decide (c = "/"%char /\ d = "/"%char))) = true) ->
  scan_from L0 (String c (String d s)) = (TSym (chr c) :: (scan_from L0 (String d s)).1, (scan_from L0 (String d s)).2).
Proof.
  intros Hf Hd Hp. specialize (Hp d). rewrite Hd in Hp. cbn [implb] in Hp. apply andb_true_iff in Hp as [H1%negb_true_iff H2%negb_true_iff].
  cbn [scan_from feed]. rewrite Hf. cbn [fst snd app feed]. rewrite H1, H2. unfold after. cbn. done.
Qed.
Lemma soft_sym c s ts : feed0 c = ([], LSym c) ->
  (forall d, implb (js_start d) (negb (bool_decide (chr c +:+ chr d ∈ pairs)) && negb (bool_decide (c = "/"%char /\ d = "/"%char))) = true) ->
  match s with String d _ => js_start d = true | EmptyString => False end -> soft s ts -> soft (String c s) (TSym (chr c) :: ts).
Proof.
  intros Hf Hp Hs (t0 & st & H & Hst & ->). destruct s as [|d s]; [done|].
  exists (TSym (chr c) :: t0), st. rewrite scan_sym by done. rewrite H. done.
Qed.
Lemma soft_amp s ts : match s with String d _ => js_start d = true | EmptyString => False end -> soft s ts -> soft (String "&" s) (TSym "&" :: ts).
Proof. apply (soft_sym "&"); [reflexivity|]. apply (ascii_ind' (fun d => _)). vm_compute. reflexivity. Qed.
Lemma soft_less s ts : match s with String d _ => js_start d = true | EmptyString => False end -> soft s ts -> soft (String "<" s) (TSym "<" :: ts).
Proof. apply (soft_sym "<"); [reflexivity|]. apply (ascii_ind' (fun d => _)). vm_compute. reflexivity. Qed.
Lemma iword_start s : iword s -> match s with String d _ => js_start d = true | EmptyString => False end.
Proof. destruct s; [done|]. by intros [? _]. Qed.
Lemma scan_quoted s acc : parts s -> scan_from (LStr acc) s = ([], LStr (acc +:+ s)).
Proof.
  revert acc. induction s as [|c s IH]; intros acc; [by rewrite sapp_nil_r|]. intros [H1 H2]. cbn [scan_from feed].
  rewrite bool_decide_false; [cbn; rewrite IH by done; cbn; by rewrite sapp_assoc|]. intros ->. by vm_compute in H1.
Qed.
Lemma shut_quoted s : parts s -> shut (QUOTE +:+ s +:+ QUOTE) [TStr s].
Proof.
  intros H. unfold shut. rewrite scan_from_app. change (scan_from L0 QUOTE) with (@nil token, LStr ""). cbn [fst snd].
  rewrite scan_from_app, scan_quoted by done. done.
Qed.
Lemma soft_byte n : soft (string_of_nat n +:+ "u8") [TNum (string_of_nat n +:+ "u8")].
Proof.
  destruct (digits_uint (Nat.to_uint n)) as [H1 H2]. unfold string_of_nat.
  destruct (NilZero.string_of_uint (Nat.to_uint n)) as [|c s]; [done|]. destruct H2 as [H2 H3].
  exists [], (LNum (String c s +:+ "u8")). split; [|done]. rewrite sapp_cons.
  cbn [scan_from feed]. rewrite digit_feed by done. cbn [fst snd]. rewrite scan_parts_num; [done|].
  apply parts_app. split; [by apply digits_parts|by vm_compute].
Qed.

(** ** Tokens of printed trees *)
Definition dotted (f : string) : list token := [TSym "."; TId f].
Definition toks_place (p : place) : list token := TId (pl_root p) :: List.concat (List.map dotted (pl_path p)).
Definition toks_byte (n : nat) : list token := [TNum (string_of_nat n +:+ "u8")].
Fixpoint toks_rs (s : rstmt) : list token :=
  let block b := List.concat (List.map toks_rs b) in
  match s with
  | WCall m p => tokens "writer." ++ TId ("write_" +:+ m) :: TSym "(" :: toks_place p ++ tokens ");"
  | WByte n => tokens "writer.write_uint8(" ++ toks_byte n ++ tokens ");"
  | WCount p => tokens "writer.write_uint32(" ++ toks_place p ++ tokens ".len() as u32);"
  | WText p => tokens "writer.write_string(" ++ TSym "&" :: toks_place p ++ tokens ");"
  | WCast m p t => tokens "writer." ++ TId ("write_" +:+ m) :: TSym "(" :: toks_place p ++ TId "as" :: TId t :: tokens ");"
  | WFor x p b => TId "for" :: TId x :: TId "in" :: toks_place p ++ tokens ".iter() {" ++ block b ++ tokens "}"
  | WMatch r p n x b => TId "match" :: (if r then [TSym "&"] else []) ++ toks_place p ++ tokens "{ None => writer.write_uint8(" ++ toks_byte n
      ++ tokens "), Some(" ++ TId x :: tokens ") => {" ++ block b ++ tokens "} }"
  | RCount x => TId "let" :: TId x :: tokens "= reader.read_uint32()? as usize;"
  | RReserve p x => toks_place p ++ tokens ".reserve(" ++ TId x :: tokens ");"
  | RFor x b => tokens "for _ in 0.." ++ TId x :: tokens "{" ++ block b ++ tokens "}"
  | RDefault x t => tokens "let mut" ++ TId x :: TSym "=" :: TId t :: tokens "::default();"
  | RCall p m => toks_place p ++ tokens "= reader." ++ TId ("read_" +:+ m) :: tokens "()?;"
  | RText p x => toks_place p ++ tokens "= reader.read_string(" ++ TId x :: tokens ")?;"
  | RTry p t m => toks_place p ++ TSym "=" :: TId t :: tokens "::try_from(reader." ++ TId ("read_" +:+ m) :: tokens "()?)?;"
  | RPush p x => toks_place p ++ tokens ".push(" ++ TId x :: tokens ");"
  | RSome p x => toks_place p ++ tokens "= Some(" ++ TId x :: tokens ");"
  | RIf b => tokens "if reader.read_uint8()? > 0 {" ++ block b ++ tokens "}"
  end.
Definition toks_rsb (b : list rstmt) : list token := List.concat (List.map toks_rs b).

(** a variable of the emitted code: input..., output... *)
Definition io (x : string) : bool :=
  match without "input" x, without "output" x with None, None => false | _, _ => true end.
Definition rroot (x : string) : Prop := iword x /\ io x = true.
Definition rplace (p : place) : Prop := rroot (pl_root p) /\ Forall iword (pl_path p).
Fixpoint rs_ok (s : rstmt) : Prop :=
  let block b := fold_right (fun s P => rs_ok s /\ P) True b in
  match s with
  | WCall m p => parts m /\ rplace p
  | WByte _ => True
  | WCount p | WText p => rplace p
  | WCast m p t => parts m /\ rplace p /\ iword t
  | WFor x p b => rroot x /\ rplace p /\ block b
  | WMatch r p n x b => rplace p /\ iword x /\ block b
  | RCount x => rroot x
  | RReserve p x | RText p x | RPush p x | RSome p x => rplace p /\ iword x
  | RFor x b => iword x /\ block b
  | RDefault x t => iword x /\ iword t
  | RCall p m => rplace p /\ parts m /\ m ≠ "string"
  | RTry p t m => rplace p /\ iword t /\ parts m
  | RIf b => block b
  end.
Definition rsb_ok (b : list rstmt) : Prop := fold_right (fun s P => rs_ok s /\ P) True b.
Lemma rsb_ok_in b s : rsb_ok b -> s ∈ b -> rs_ok s.
Proof.
  unfold rsb_ok. induction b as [|x b IH]; intros H Hin; [by apply elem_of_nil in Hin|]. destruct H.
  apply elem_of_cons in Hin as [->|Hin]; auto.
Qed.

Lemma soft_place p : rplace p -> soft (print_place p) (toks_place p).
Proof.
  destruct p as [r ps]. unfold rplace, print_place, toks_place. cbn [pl_root pl_path]. intros [[Hr _] Hp]. rewrite join_foldl.
  change (TId r :: List.concat (List.map dotted ps)) with ([TId r] ++ List.concat (List.map dotted ps)).
  generalize (soft_word r Hr). generalize r, [TId r]. induction Hp as [|f ps Hf _ IH]; intros s ts Hs.
  - cbn. by rewrite app_nil_r.
  - cbn [foldl List.map List.concat]. rewrite (assoc_L (++)). apply IH.
    eapply soft_soft; [exact Hs| |done]. unfold dotted. change [TSym "."; TId f] with ([TSym "."] ++ [TId f]).
    eapply shut_soft_app; [clit|by apply soft_word].
Qed.
Lemma place_start p : rplace p -> match print_place p with String d _ => js_start d = true | EmptyString => False end.
Proof.
  intros [[Hr _] _]. unfold print_place. rewrite join_foldl. apply iword_start in Hr. revert Hr. generalize (pl_root p).
  induction (pl_path p) as [|f ps IH]; intros s Hs; [done|]. cbn [foldl]. apply IH. by destruct s.
Qed.
Lemma soft_ref p : rplace p -> soft (String "&" (print_place p)) (TSym "&" :: toks_place p).
Proof. intros H. apply soft_amp; [by apply place_start|by apply soft_place]. Qed.
Lemma soft_write m : parts m -> soft ("write_" +:+ m) [TId ("write_" +:+ m)].
Proof. intros H. apply soft_word, iword_app; [by vm_compute|done]. Qed.
Lemma soft_read m : parts m -> soft ("read_" +:+ m) [TId ("read_" +:+ m)].
Proof. intros H. apply soft_word, iword_app; [by vm_compute|done]. Qed.

Ltac softt := lazymatch goal with
  | |- soft (string_of_nat _ +:+ _) _ => apply soft_byte
  | |- soft (string_of_nat _) _ => apply soft_nat
  | |- soft (string_of_Z _) _ => apply soft_Z
  | |- soft (print_place _) _ => apply soft_place; assumption
  | |- soft (String "&" (print_place _)) _ => apply soft_ref; assumption
  | |- soft ("write_" +:+ _) _ => apply soft_write; assumption
  | |- soft ("read_" +:+ _) _ => apply soft_read; assumption
  | |- soft _ _ => apply soft_word; assumption
  end.
Ltac is_lit s := lazymatch s with EmptyString => idtac | String _ ?t => is_lit t end.
Ltac lex1 := lazymatch goal with
  | |- shut (?a +:+ ?b) _ => first [is_lit a; eapply shut_shut; [clit|] | eapply soft_shut; [softt| |reflexivity]]
  | |- shut ?a _ => is_lit a; clit
  end.
Ltac lex := repeat lex1.
Ltac oneline := apply shut_line; [assumption|]; apply shut_soft; eapply eq_shut; [lex|].
Ltac done_toks := toks_now; lnorm.

Lemma shut_rs s : forall ind, shut ind [] -> rs_ok s -> shut (print_rs ind s) (toks_rs s).
Proof.
  induction s using rstmt_ind'; intros ind Hi; cbn [print_rs rs_ok toks_rs]; intros Ht.
  - change ("writer.write_" +:+ m +:+ "(" +:+ print_place p +:+ ");") with ("writer." +:+ ("write_" +:+ m) +:+ "(" +:+ print_place p +:+ ");").
    destruct Ht. oneline. done_toks.
  - change ("writer.write_uint8(" +:+ string_of_nat n +:+ "u8);") with ("writer.write_uint8(" +:+ string_of_nat n +:+ "u8" +:+ ");").
    rewrite <- (sapp_assoc (string_of_nat n)). oneline. done_toks.
  - oneline. done_toks.
  - change ("writer.write_string(&" +:+ print_place p +:+ ");") with ("writer.write_string(" +:+ (String "&" (print_place p)) +:+ ");").
    oneline. done_toks.
  - change ("writer.write_" +:+ m +:+ "(" +:+ print_place p +:+ " as " +:+ t +:+ ");")
      with ("writer." +:+ ("write_" +:+ m) +:+ "(" +:+ print_place p +:+ " as " +:+ t +:+ ");").
    destruct Ht as (H1 & H2 & H3). oneline. done_toks.
  - destruct Ht as ([H1 _] & H2 & Hb). rewrite Forall_forall in H.
    eapply eq_shut; [eapply shut_shut; [apply shut_line; [done|]|eapply shut_shut; [apply (shut_map _ toks_rs)|apply shut_line; [done|]]]|].
    + apply shut_soft. lex.
    + intros s Hs. apply H; [done|by apply shut_tab|exact (rsb_ok_in _ _ Hb Hs)].
    + apply shut_soft. clit.
    + done_toks.
  - destruct Ht as (H1 & H2 & Hb). rewrite Forall_forall in H.
    eapply eq_shut; [eapply shut_shut; [apply shut_line; [done|]|eapply shut_shut; [apply shut_line; [by apply shut_tab|]|eapply shut_shut; [apply shut_line; [by apply shut_tab|]|
      eapply shut_shut; [apply (shut_map _ toks_rs)|eapply shut_shut; apply shut_line; [by apply shut_tab| |done|]]]]]|].
    + apply shut_soft. instantiate (1 := TId "match" :: (if r then [TSym "&"] else []) ++ toks_place p ++ [TSym "{"]). destruct r.
      * change ("match " +:+ "&" +:+ print_place p +:+ " {") with ("match " +:+ (String "&" (print_place p)) +:+ " {").
        eapply eq_shut; [lex|]. done_toks.
      * eapply eq_shut; [lex|]. done_toks.
    + apply shut_soft. change ("None => writer.write_uint8(" +:+ string_of_nat n +:+ "u8),") with ("None => writer.write_uint8(" +:+ string_of_nat n +:+ "u8" +:+ "),").
      rewrite <- (sapp_assoc (string_of_nat n)). lex.
    + apply shut_soft. lex.
    + intros s Hs. apply H; [done|rewrite <- sapp_assoc; by apply shut_tab, shut_tab|exact (rsb_ok_in _ _ Hb Hs)].
    + apply shut_soft. clit.
    + apply shut_soft. clit.
    + unfold toks_byte. done_toks.
  - destruct Ht. oneline. done_toks.
  - destruct Ht. oneline. done_toks.
  - destruct Ht as (H1 & Hb). rewrite Forall_forall in H.
    eapply eq_shut; [eapply shut_shut; [apply shut_line; [done|]|eapply shut_shut; [apply (shut_map _ toks_rs)|apply shut_line; [done|]]]|].
    + apply shut_soft. lex.
    + intros s Hs. apply H; [done|by apply shut_tab|exact (rsb_ok_in _ _ Hb Hs)].
    + apply shut_soft. clit.
    + done_toks.
  - destruct Ht. oneline. done_toks.
  - destruct Ht as (H1 & H2 & _). change (print_place p +:+ " = reader.read_" +:+ m +:+ "()?;") with (print_place p +:+ " = reader." +:+ ("read_" +:+ m) +:+ "()?;").
    oneline. done_toks.
  - destruct Ht. oneline. done_toks.
  - destruct Ht as (H1 & H2 & H3).
    change (print_place p +:+ " = " +:+ t +:+ "::try_from(reader.read_" +:+ m +:+ "()?)?;") with (print_place p +:+ " = " +:+ t +:+ "::try_from(reader." +:+ ("read_" +:+ m) +:+ "()?)?;").
    oneline. done_toks.
  - destruct Ht. oneline. done_toks.
  - destruct Ht. oneline. done_toks.
  - rewrite Forall_forall in H.
    eapply eq_shut; [eapply shut_shut; [apply shut_line; [done|]|eapply shut_shut; [apply (shut_map _ toks_rs)|apply shut_line; [done|]]]|].
    + apply shut_soft. clit.
    + intros s Hs. apply H; [done|by apply shut_tab|exact (rsb_ok_in _ _ Ht Hs)].
    + apply shut_soft. clit.
    + done_toks.
Qed.
Lemma shut_rsb ind b : shut ind [] -> rsb_ok b -> shut (print_rsb ind b) (toks_rsb b).
Proof. intros Hi Hb. apply (shut_map _ toks_rs). intros s Hs. apply shut_rs; [done|]. by eapply rsb_ok_in. Qed.

(** items *)
Definition toks_rs_type (t : rs_type) : list token :=
  match rt_opt t, rt_vec t with
  | true, true => tokens "Option<Vec<" ++ TId (rt_base t) :: tokens ">>"
  | true, false => tokens "Option<" ++ TId (rt_base t) :: tokens ">"
  | false, true => tokens "Vec<" ++ TId (rt_base t) :: tokens ">"
  | false, false => [TId (rt_base t)]
  end.
Definition toks_rs_field (f : string * rs_type) : list token := TId "pub" :: TId f.1 :: TSym ":" :: toks_rs_type f.2 ++ [TSym ","].
Definition toks_arm (n : string) (a : Z * string) : list token := toks_Z a.1 ++ tokens "=> Ok(" ++ TId n :: tokens "::" ++ TId a.2 :: tokens "),".
Definition toks_i (i : rs_item) : list token :=
  match i with
  | IStruct n fs => tokens "#[derive(Clone, PartialEq, Debug, Default)] pub struct" ++ TId n :: TSym "{" :: List.concat (List.map toks_rs_field fs) ++ [TSym "}"]
  | IEnum n r vs d arms =>
      tokens "#[derive(Clone, Copy, PartialEq, Debug)] #[repr(" ++ TId r :: tokens ")] pub enum" ++ TId n :: TSym "{" ::
      List.concat (List.map toks_variant vs) ++ tokens "} impl Default for" ++ TId n :: tokens "{ fn default() -> Self {" ++ TId n :: tokens "::" ++ TId d ::
      tokens "} } impl std::convert::TryFrom<" ++ TId r :: tokens "> for" ++ TId n :: tokens "{ type Error = packet::Error; fn try_from(value:" ++ TId r ::
      tokens ") -> Result<Self, Self::Error> { match value {" ++ List.concat (List.map (toks_arm n) arms)
      ++ tokens "_ => Err(packet::Error::InvalidEnumValue(value as usize," ++ TStr n :: tokens ")) } } }"
  end.
Definition item_ok (i : rs_item) : Prop :=
  match i with
  | IStruct n fs => iword n /\ Forall (fun f => iword f.1 /\ iword (rt_base f.2)) fs
  | IEnum n r vs d arms => iword n /\ iword r /\ Forall (fun v => iword v.1) vs /\ iword d /\ Forall (fun a => iword a.2) arms
  end.
Definition prologue_toks : list token :=
  tokens "#![allow(dead_code, non_camel_case_types, unused_imports, unused_assignments, clippy::field_reassign_with_default)] use std::convert::TryFrom;".
Definition toks_rsm (m : rs_module) : list token :=
  prologue_toks ++ List.concat (List.map toks_i (rm_items m))
  ++ tokens "pub fn read(reader: &mut packet::reader::Reader, output: &mut" ++ TId (rm_type m) :: tokens ") -> Result<(), packet::Error> {"
  ++ toks_rsb (rm_read m) ++ tokens "Ok(()) } pub fn write(writer: &mut packet::writer::Writer, input: &" ++ TId (rm_type m) :: tokens ") {"
  ++ toks_rsb (rm_write m) ++ [TSym "}"].
Definition rs_module_ok (m : rs_module) : Prop :=
  Forall item_ok (rm_items m) /\ iword (rm_type m) /\ rsb_ok (rm_read m) /\ rsb_ok (rm_write m).

Lemma soft_lt s : iword s -> soft (String "<" s) [TSym "<"; TId s].
Proof. intros H. apply soft_less; [by apply iword_start|by apply soft_word]. Qed.
Lemma soft_amp_word s : iword s -> soft (String "&" s) [TSym "&"; TId s].
Proof. intros H. apply soft_amp; [by apply iword_start|by apply soft_word]. Qed.
Lemma shut_field f t : iword f -> iword (rt_base t) -> shut ("pub " +:+ f +:+ ": " +:+ print_rs_type t +:+ ",") (toks_rs_field (f, t)).
Proof.
  intros Hf Ht. destruct t as [o v b]. unfold print_rs_type, toks_rs_field, toks_rs_type, struct_field_typename. cbn [rt_opt rt_vec rt_base fst snd] in *.
  eapply shut_shut with (ta := [TId "pub"]); [clit|]. eapply soft_shut with (ta := [TId f]); [by apply soft_word| |brkt].
  eapply shut_shut with (ta := [TSym ":"]); [clit|].
  pose proof (soft_lt b Ht) as Hb. destruct o, v; rewrite ?sapp_assoc, ?sapp_nil_l.
  - change ("Option<" +:+ "Vec<" +:+ b +:+ ">" +:+ ">" +:+ ",") with ("Option" +:+ (String "<" "Vec") +:+ (String "<" b) +:+ ">>,").
    eapply eq_shut; [eapply soft_shut; [apply (soft_word "Option"); by vm_compute| |brkt]; eapply soft_shut; [apply (soft_lt "Vec"); by vm_compute| |brkt];
      eapply soft_shut; [exact Hb|clit|brkt]|]. done_toks.
  - change ("Option<" +:+ b +:+ ">" +:+ ",") with ("Option" +:+ (String "<" b) +:+ ">,").
    eapply eq_shut; [eapply soft_shut; [apply (soft_word "Option"); by vm_compute| |brkt];
      eapply soft_shut; [exact Hb|clit|brkt]|]. done_toks.
  - change ("Vec<" +:+ b +:+ ">" +:+ ",") with ("Vec" +:+ (String "<" b) +:+ ">,").
    eapply eq_shut; [eapply soft_shut; [apply (soft_word "Vec"); by vm_compute| |brkt];
      eapply soft_shut; [exact Hb|clit|brkt]|]. done_toks.
  - eapply eq_shut; [lex|]. done_toks.
Qed.
Lemma t3 : shut (tab +:+ tab +:+ tab) [].
Proof. clit. Qed.
Lemma soft_impl : soft "impl std::convert::TryFrom" (tokens "impl std::convert::TryFrom").
Proof. eexists _, (LId "TryFrom"). split; [vm_compute; reflexivity|]. split; [exact I|]. vm_compute. reflexivity. Qed.
Ltac aline := apply shut_line; [clit|]; apply shut_soft; lex.
Lemma shut_i i : item_ok i -> shut (print_item i) (toks_i i).
Proof.
  destruct i as [n fs|n r vs d arms]; cbn [item_ok print_item toks_i].
  - intros [Hn H]. rewrite Forall_forall in H. eapply eq_shut.
    { eapply shut_shut; [aline|]. eapply shut_shut; [aline|].
      eapply shut_shut; [apply (shut_map _ toks_rs_field)|aline].
      intros [f t] Hin. destruct (H _ Hin) as [Hf Ht]. apply shut_line; [clit|]. by apply shut_soft, shut_field. }
    done_toks.
  - intros (Hn & Hr & Hv & Hd & Ha). rewrite Forall_forall in Hv. rewrite Forall_forall in Ha.
    change ("impl std::convert::TryFrom<" +:+ r +:+ "> for " +:+ n +:+ " {") with ("impl std::convert::TryFrom" +:+ (String "<" r) +:+ "> for " +:+ n +:+ " {").
    pose proof (soft_lt r Hr) as Hlt.
    assert (shut ("_ => Err(packet::Error::InvalidEnumValue(value as usize, " +:+ QUOTE +:+ n +:+ QUOTE +:+ "))")
      (tokens "_ => Err(packet::Error::InvalidEnumValue(value as usize," ++ [TStr n] ++ tokens "))")) as Hq.
    { replace (QUOTE +:+ n +:+ QUOTE +:+ "))") with ((QUOTE +:+ n +:+ QUOTE) +:+ "))") by (by rewrite !sapp_assoc).
      eapply shut_shut; [clit|]. eapply shut_shut; [apply shut_quoted; by apply word_parts|clit]. }
    eapply eq_shut.
    { do 3 (eapply shut_shut; [aline|]).
      eapply shut_shut; [apply (shut_map _ toks_variant)|].
      { intros [v k] Hin. pose proof (Hv _ Hin) as Hv'. cbn in Hv'. apply shut_line; [clit|]. apply shut_soft.
        eapply eq_shut; [lex|]. unfold toks_variant, toks_nat. done_toks. }
      do 3 (eapply shut_shut; [aline|]).
      eapply shut_shut; [apply shut_line; [clit|]; eapply soft_soft; [by apply soft_word|eapply shut_soft_app; [clit|by apply soft_word]|brkt]|].
      do 2 (eapply shut_shut; [aline|]).
      eapply shut_shut; [apply shut_line; [clit|]; apply shut_soft; eapply soft_shut; [exact soft_impl| |reflexivity];
        eapply soft_shut; [exact Hlt|lex|reflexivity]|].
      do 3 (eapply shut_shut; [aline|]).
      eapply shut_shut; [apply (shut_map _ (toks_arm n))|].
      { intros [z v] Hin. pose proof (Ha _ Hin) as Hv'. cbn in Hv'. apply shut_line; [clit|]. apply shut_soft.
        eapply eq_shut; [lex|]. unfold toks_arm. done_toks. }
      eapply shut_shut; [apply shut_line; [clit|apply shut_soft, Hq]|].
      do 2 (eapply shut_shut; [aline|]). aline. }
    done_toks.
Qed.
Lemma shut_rsm version now m : on_one_line version -> on_one_line now -> rs_module_ok m -> shut (print_rs_module version now m) (toks_rsm m).
Proof.
  intros Hv Hn (Hi & Ht & Hr & Hw). unfold print_rs_module. rewrite Forall_forall in Hi.
  change ("pub fn write(writer: &mut packet::writer::Writer, input: &" +:+ rm_type m +:+ ") {")
    with ("pub fn write(writer: &mut packet::writer::Writer, input: " +:+ (String "&" (rm_type m)) +:+ ") {").
  pose proof (soft_amp_word _ Ht) as Ha.
  eapply eq_shut.
  { eapply shut_shut; [by apply shut_header|]. eapply shut_shut; [clit|].
    eapply shut_shut; [apply (shut_map _ toks_i); intros; by apply shut_i, Hi|].
    eapply shut_shut; [aline|]. eapply shut_shut; [apply shut_rsb; [clit|done]|].
    do 2 (eapply shut_shut; [aline|]).
    eapply shut_shut; [apply shut_line; [clit|]; apply shut_soft; eapply shut_shut; [clit|]; eapply soft_shut; [exact Ha|clit|brkt]|].
    eapply shut_shut; [apply shut_rsb; [clit|done]|]. aline. }
  unfold toks_rsm, prologue_toks. done_toks.
Qed.
Lemma tokens_rsm version now m : on_one_line version -> on_one_line now -> rs_module_ok m -> tokens (print_rs_module version now m) = toks_rsm m.
Proof. intros. by apply soft_tokens, shut_soft, shut_rsm. Qed.
