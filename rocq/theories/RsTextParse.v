(** The reader of RsText.v accepts the tokens of printed modules and gives back the trees. *)
From Coq Require Import DecimalString DecimalNat DecimalZ.
From Verif Require Export RsTextProofs.

(** ** Steps *)
Lemma next2_ne s u1 u2 l t1 t2 ts : tokens s = u1 :: u2 :: l -> u2 ≠ t2 -> next_is s (t1 :: t2 :: ts) = false.
Proof. intros H Hne. unfold next_is, eat. rewrite H. cbn. destruct (decide (u1 = t1)); [|done]. by rewrite decide_False. Qed.
Lemma io_ne x y : io x = true -> io y = false -> TId y ≠ TId x.
Proof. intros H1 H2 [= ->]. congruence. Qed.
Lemma next_io s u l x ts : tokens s = u :: l -> rroot x -> match u with TId y => io y = false | _ => True end -> next_is s (TId x :: ts) = false.
Proof. intros Ht [_ Hx] Hu. apply (next_ne _ _ _ _ _ Ht). destruct u; try discriminate. by apply io_ne. Qed.
Ltac noio := apply when_no; [eapply next_io; [vm_compute; reflexivity|eassumption|first [exact I|reflexivity]]|].

Lemma p_path_case ps n rest : length ps < n -> next_is "." rest = false -> p_path n (List.concat (List.map dotted ps) ++ rest) = Some (ps, rest).
Proof.
  revert n. induction ps as [|f ps IH]; intros [|n] Hn Hr; try (cbn in Hn; lia); cbn [List.map List.concat p_path app].
  - apply when_no; [done|reflexivity].
  - unfold dotted at 1. cbn [app]. yes. eatt. idt. eapply bind_step; [apply IH; [cbn in Hn; lia|done]|]. reflexivity.
Qed.
Lemma dotted_length ps : length ps <= length (List.concat (List.map dotted ps)).
Proof. induction ps as [|f ps IH]; [done|]. cbn [List.map List.concat length]. rewrite app_length. cbn. lia. Qed.
Lemma place_step {A} p (k : place -> tparser A) rest res : next_is "." rest = false -> k p rest = res -> tbind p_place k (toks_place p ++ rest) = res.
Proof.
  intros Hr H. eapply bind_step; [|exact H]. destruct p as [r ps]. unfold p_place, toks_place. cbn [app pl_root pl_path]. idt.
  eapply bind_step; [apply p_path_case; [|done]|reflexivity]. rewrite app_length. pose proof (dotted_length ps). lia.
Qed.
Definition snoc_place (p : place) (m : string) : place := Place (pl_root p) (pl_path p ++ [m]).
Lemma toks_method p m rest : toks_place p ++ TSym "." :: TId m :: rest = toks_place (snoc_place p m) ++ rest.
Proof.
  unfold toks_place, snoc_place. cbn [pl_root pl_path app]. f_equal. rewrite map_app, concat_app. cbn. by rewrite <- (assoc_L (++)).
Qed.
Lemma method_snoc p m : method (snoc_place p m) = Some (p, m).
Proof. destruct p as [r ps]. unfold method, snoc_place. cbn [pl_root pl_path]. rewrite rev_app_distr. cbn. by rewrite rev_involutive. Qed.
Lemma substring_app a b : String.substring 0 (String.length a) (a +:+ b) = a.
Proof. induction a as [|c a IH]; [by destruct b|]. rewrite sapp_cons. cbn. by rewrite IH. Qed.
Lemma byte_step {A} n (k : nat -> tparser A) rest res : k n rest = res -> tbind byte_literal k (toks_byte n ++ rest) = res.
Proof.
  intros H. eapply bind_step; [|exact H]. unfold toks_byte, byte_literal. cbn [app].
  assert (String.length (string_of_nat n +:+ "u8") - 2 = String.length (string_of_nat n)) as ->.
  { generalize (string_of_nat n). intros s. induction s as [|c s IH]; [done|]. rewrite sapp_cons. cbn [String.length].
    assert (2 <= String.length (s +:+ "u8")) by (clear; induction s; [done|rewrite sapp_cons; cbn [String.length]; lia]). lia. }
  rewrite substring_app, decide_True by done. unfold string_of_nat.
  destruct (uint_read (Nat.to_uint n)) as (d & -> & _ & ->). by rewrite DecimalNat.Unsigned.of_to.
Qed.

(** ** Statements *)
Fixpoint rdepth (s : rstmt) : nat :=
  let deepest b := fold_right (fun s n => max (rdepth s) n) 0 b in
  match s with WFor _ _ b | WMatch _ _ _ _ b | RFor _ b | RIf b => S (deepest b) | _ => 1 end.
Definition rdeepest (b : list rstmt) : nat := fold_right (fun s n => max (rdepth s) n) 0 b.
Lemma rdeepest_in b s : s ∈ b -> rdepth s <= rdeepest b.
Proof.
  unfold rdeepest. induction b as [|x b IH]; intros Hin; [by apply elem_of_nil in Hin|]. cbn [fold_right].
  apply elem_of_cons in Hin as [->|Hin]; [lia|]. specialize (IH Hin). lia.
Qed.
Lemma rs_head s : rs_ok s -> exists x l, toks_rs s = TId x :: l /\ (io x = true \/ x ∈ ["writer"; "for"; "match"; "let"; "if"]).
Proof.
  destruct s; cbn [rs_ok toks_rs]; toks_now; intros H; cbn [app];
    try (do 2 eexists; split; [reflexivity|]; right; apply (bool_decide_unpack _); vm_compute; exact I);
    (unfold toks_place; do 2 eexists; split; [reflexivity|]; left); apply H.
Qed.
Lemma rdepth_toks s : rs_ok s -> rdepth s <= length (toks_rs s).
Proof.
  assert (forall b, Forall (fun s => rs_ok s -> rdepth s <= length (toks_rs s)) b -> rsb_ok b -> rdeepest b <= length (toks_rsb b)) as HB.
  { unfold rdeepest, toks_rsb. induction 1 as [|x b Hx _ IH]; [done|]. intros [H1 H2]. cbn [fold_right List.map List.concat].
    rewrite app_length. specialize (Hx H1). specialize (IH H2). lia. }
  induction s using rstmt_ind'; intros Hs; pose proof (rs_head _ Hs) as (x' & l' & El & _);
    try (cbn [rdepth]; rewrite El; cbn [length]; lia); cbn [rs_ok rdepth toks_rs] in *; clear El.
  - destruct Hs as (_ & _ & Hb). specialize (HB _ H Hb). unfold rdeepest, toks_rsb in HB. cbn [length]. rewrite !app_length. lia.
  - destruct Hs as (_ & _ & Hb). specialize (HB _ H Hb). unfold rdeepest, toks_rsb in HB. cbn [length]. rewrite !app_length. cbn [length]. rewrite !app_length. lia.
  - destruct Hs as (_ & Hb). specialize (HB _ H Hb). unfold rdeepest, toks_rsb in HB. rewrite !app_length. cbn [length]. rewrite !app_length. lia.
  - specialize (HB _ H Hs). unfold rdeepest, toks_rsb in HB. toks_now. rewrite !app_length. cbn [length]. lia.
Qed.
Lemma rs_ends_not s rest : rs_ok s -> rs_ends (toks_rs s ++ rest) = false.
Proof.
  intros H. destruct (rs_head s H) as (x & l & -> & Hx). cbn [app]. unfold rs_ends.
  rewrite (next_ne "}" (TSym "}") [] (TId x)) by done.
  rewrite (next_ne "Ok(" (TId "Ok") [TSym "("] (TId x)); [done|done|]. intros [= <-].
  destruct Hx as [Hx|Hx]; [by vm_compute in Hx|]. revert Hx. apply (bool_decide_unpack _). vm_compute. exact I.
Qed.
Lemma rs_nonempty s : rs_ok s -> toks_rs s ≠ [].
Proof. intros H. destruct (rs_head s H) as (x & l & -> & _). done. Qed.

Lemma rs_block_case n b rest : (forall s r, s ∈ b -> p_rs n (toks_rs s ++ r) = Some (s, r)) -> rsb_ok b -> rs_ends rest = true ->
  many (length (toks_rsb b ++ rest)) rs_ends (p_rs n) (toks_rsb b ++ rest) = Some (b, rest).
Proof.
  intros H Hb Hr. apply many_case; [|done|].
  - intros s r Hs. split; [by apply H|]. apply rs_ends_not. by eapply rsb_ok_in.
  - apply length_concat. intros s Hs. apply rs_nonempty. by eapply rsb_ok_in.
Qed.

Lemma p_rs_writer n ts : p_rs (S n) (TId "writer" :: TSym "." :: ts) = p_write (TId "writer" :: TSym "." :: ts).
Proof. cbn [p_rs]. apply when_yes; [lits|reflexivity]. Qed.
Lemma write_case m ts : p_write (TId "writer" :: TSym "." :: TId ("write_" +:+ m) :: TSym "(" :: ts) =
  when "&" (get _ <- eat "&"; get p <- p_place; get _ <- eat ");"; if decide (m = "string") then tret (WText p) else none)
      (fun ts => match ts with
                 | TNum _ :: _ => (get n <- byte_literal; get _ <- eat ");"; if decide (m = "uint8") then tret (WByte n) else none) ts
                 | _ => (get p <- p_place;
                         when "(" (get _ <- eat "() as u32);";
                                   match method p with
                                   | Some (p, l) => if decide (m = "uint32" /\ l = "len") then tret (WCount p) else none
                                   | None => none
                                   end)
                         (when "as" (get _ <- eat "as"; get t <- a_name; get _ <- eat ");"; tret (WCast m p t))
                         (get _ <- eat ");"; tret (WCall m p)))) ts
                 end) ts.
Proof. unfold p_write. eatt. idt. rewrite without_app. eatt. reflexivity. Qed.
(** statements that start with a place *)
Lemma p_rs_place n p rest : rplace p -> next_is "." rest = false ->
  p_rs (S n) (toks_place p ++ rest) =
    when "(" (get _ <- eat "("; get x <- a_name; get _ <- eat ");";
                 match method p with
                 | Some (p, m) => if decide (m = "reserve") then tret (RReserve p x) else if decide (m = "push") then tret (RPush p x) else none
                 | None => none
                 end)
       (get _ <- eat "="; p_assign p) rest.
Proof.
  intros [Hr Hp] Hd. cbn [p_rs].
  do 7 (apply when_no; [unfold toks_place; cbn [app]; eapply next_io; [vm_compute; reflexivity|eassumption|first [exact I|reflexivity]]|]).
  by apply place_step.
Qed.
Lemma rplace_snoc p m : rplace p -> iword m -> rplace (snoc_place p m).
Proof. intros [H1 H2] Hm. split; [done|]. cbn. apply Forall_app. split; [done|]. by apply Forall_singleton. Qed.

Lemma rs_case s : forall n rest, rs_ok s -> rdepth s <= n -> p_rs n (toks_rs s ++ rest) = Some (s, rest).
Proof.
  induction s using rstmt_ind'; intros [|n'] rest Hs Hn; try (cbn [rdepth] in Hn; lia); cbn [rs_ok toks_rs rdepth] in *; toks_now; lnorm.
  - rewrite p_rs_writer, write_case. destruct Hs as [Hm Hp]. unfold toks_place at 1. cbn [app]. no.
    change (TId (pl_root p) :: List.concat (List.map dotted (pl_path p)) ++ TSym ")" :: TSym ";" :: rest) with (toks_place p ++ TSym ")" :: TSym ";" :: rest).
    apply place_step; [lits|]. do 2 no. eatt. reflexivity.
  - rewrite p_rs_writer. change (TId "write_uint8") with (TId ("write_" +:+ "uint8")). rewrite write_case. unfold toks_byte. cbn [app]. no.
    change (TNum (string_of_nat n +:+ "u8") :: TSym ")" :: TSym ";" :: rest) with (toks_byte n ++ TSym ")" :: TSym ";" :: rest).
    apply byte_step. eatt. reflexivity.
  - rewrite p_rs_writer. change (TId "write_uint32") with (TId ("write_" +:+ "uint32")). rewrite write_case. rewrite toks_method. unfold toks_place at 1. cbn [app]. no.
    match goal with |- tbind _ _ (TId (pl_root ?q) :: _ ++ ?r) = _ => change (TId (pl_root q) :: List.concat (List.map dotted (pl_path q)) ++ r) with (toks_place q ++ r) end.
    apply place_step; [lits|]. yes. eatt. rewrite method_snoc. rewrite decide_True by done. reflexivity.
  - rewrite p_rs_writer. change (TId "write_string") with (TId ("write_" +:+ "string")). rewrite write_case. yes. eatt.
    apply place_step; [lits|]. eatt. reflexivity.
  - rewrite p_rs_writer, write_case. destruct Hs as (Hm & Hp & Ht). unfold toks_place at 1. cbn [app]. no.
    match goal with |- tbind _ _ (TId (pl_root ?q) :: _ ++ ?r) = _ => change (TId (pl_root q) :: List.concat (List.map dotted (pl_path q)) ++ r) with (toks_place q ++ r) end.
    apply place_step; [lits|]. no. yes. eatt. idt. eatt. reflexivity.
  - destruct Hs as (Hx & Hp & Hb). rewrite Forall_forall in H. fold (rdeepest b) in Hn. fold (toks_rsb b). cbn [p_rs].
    no. apply when_no; [eapply next2_ne; [vm_compute; reflexivity|]; apply io_ne; [apply Hx|reflexivity]|]. yes. eatt. idt. eatt.
    rewrite toks_method. unfold p_on. eapply bind_step; [apply place_step; [lits|]; rewrite method_snoc, decide_True by done; reflexivity|]. cbn beta.
    eatt. eapply bind_step; [apply rs_block_case; [|exact Hb|lits]|].
    { intros s r Hin. apply H; [done|exact (rsb_ok_in _ _ Hb Hin)|]. pose proof (rdeepest_in _ _ Hin). lia. }
    cbn beta. eatt. reflexivity.
  - destruct Hs as (Hp & Hx & Hb). rewrite Forall_forall in H. fold (rdeepest b) in Hn. fold (toks_rsb b). cbn [p_rs].
    do 3 no. yes. eatt.
    assert (forall {A} (k : bool -> tparser A) ts res, k r (toks_place p ++ ts) = res ->
      tbind (when "&" (get _ <- eat "&"; tret true) (tret false)) k ((if r then [TSym "&"] else []) ++ toks_place p ++ ts) = res) as Hamp.
    { intros A k ts res Hk. destruct r; cbn [app].
      - eapply bind_step; [yes; eatt; reflexivity|exact Hk].
      - eapply bind_step; [unfold toks_place; cbn [app]; no; reflexivity|exact Hk]. }
    apply Hamp. apply place_step; [lits|]. eatt. apply byte_step. eatt. idt. eatt.
    eapply bind_step; [apply rs_block_case; [|exact Hb|lits]|].
    { intros s r' Hin. apply H; [done|exact (rsb_ok_in _ _ Hb Hin)|]. pose proof (rdeepest_in _ _ Hin). lia. }
    cbn beta. eatt. reflexivity.
  - cbn [p_rs]. do 4 no. apply when_no; [eapply next2_ne; [vm_compute; reflexivity|]; apply io_ne; [apply Hs|reflexivity]|]. yes. eatt. idt. eatt. reflexivity.
  - destruct Hs as [Hp Hx]. rewrite toks_method. rewrite p_rs_place; [|by apply rplace_snoc|lits]. yes. eatt. idt. eatt. rewrite method_snoc. reflexivity.
  - destruct Hs as (Hx & Hb). rewrite Forall_forall in H. fold (rdeepest b) in Hn. fold (toks_rsb b). cbn [p_rs].
    no. yes. eatt. idt. eatt. eapply bind_step; [apply rs_block_case; [|exact Hb|lits]|].
    { intros s r Hin. apply H; [done|exact (rsb_ok_in _ _ Hb Hin)|]. pose proof (rdeepest_in _ _ Hin). lia. }
    cbn beta. eatt. reflexivity.
  - destruct Hs as (Hp & Hm & Hne). rewrite p_rs_place; [|done|lits]. no. eatt. unfold p_assign. yes. eatt. idt. rewrite without_app, decide_False by done.
    eatt. reflexivity.
  - destruct Hs as (Hp & Hx). rewrite p_rs_place; [|done|lits]. no. eatt. unfold p_assign. yes. eatt. idt.
    change (without "read_" "read_string") with (Some "string"). cbv beta iota. rewrite decide_True by done. eatt. idt. eatt. reflexivity.
  - destruct Hs as (Hp & Ht & Hm). rewrite p_rs_place; [|done|lits]. no. eatt. unfold p_assign.
    apply when_no; [by eapply next2_ne; [vm_compute; reflexivity|]|]. apply when_no; [by eapply next2_ne; [vm_compute; reflexivity|]|].
    idt. eatt. idt. rewrite without_app. eatt. reflexivity.
  - destruct Hs as [Hp Hx]. rewrite toks_method. rewrite p_rs_place; [|by apply rplace_snoc|lits]. yes. eatt. idt. eatt. rewrite method_snoc. reflexivity.
  - destruct Hs as [Hp Hx]. rewrite p_rs_place; [|done|lits]. no. eatt. unfold p_assign. no. yes. eatt. idt. eatt. reflexivity.
  - rewrite Forall_forall in H. fold (rdeepest b) in Hn. fold (toks_rsb b). cbn [p_rs]. do 6 no. yes. eatt.
    eapply bind_step; [apply rs_block_case; [|exact Hs|lits]|].
    { intros s r Hin. apply H; [done|exact (rsb_ok_in _ _ Hs Hin)|]. pose proof (rdeepest_in _ _ Hin). lia. }
    cbn beta. eatt. reflexivity.
Qed.
Lemma rs_statements_step {A} b (k : list rstmt -> tparser A) rest res : rsb_ok b -> rs_ends rest = true -> k b rest = res ->
  tbind rs_statements k (toks_rsb b ++ rest) = res.
Proof.
  intros Hb Hr H. eapply bind_step; [|exact H]. unfold rs_statements. apply rs_block_case; [|done|done].
  intros s r Hs. assert (rs_ok s) as Hok by by eapply rsb_ok_in. apply rs_case; [done|].
  transitivity (length (toks_rs s)); [by apply rdepth_toks|]. rewrite app_length. unfold toks_rsb. clear H Hr Hok Hb.
  induction b as [|x b IH]; [by apply elem_of_nil in Hs|]. cbn [List.map List.concat]. rewrite app_length.
  apply elem_of_cons in Hs as [->|Hs]; [lia|]. specialize (IH Hs). lia.
Qed.

(** ** Items and the module *)
Lemma rs_type_step {A} t (k : rs_type -> tparser A) rest res : k t (TSym "," :: rest) = res -> tbind p_rs_type k (toks_rs_type t ++ TSym "," :: rest) = res.
Proof.
  intros H. eapply bind_step; [|exact H]. destruct t as [[] [] b]; unfold toks_rs_type, p_rs_type; cbn [rt_opt rt_vec rt_base]; toks_now; lnorm.
  - apply when_no.
    { unfold next_is, eat. change (tokens "Option<Vec<") with [TId "Option"; TSym "<"; TId "Vec"; TSym "<"]. cbn [eats].
      rewrite !(decide_True (P := TId "Option" = _)), !(decide_True (P := TSym "<" = TSym "<")) by done.
      destruct (decide (TId "Vec" = TId b)); [|done]. by rewrite decide_False. }
    yes. eatt. idt. eatt. reflexivity.
  - do 3 (apply when_no; [eapply next2_ne; [vm_compute; reflexivity|done]|]). idt. reflexivity.
Qed.
Lemma rs_field_case f r : p_rs_field (toks_rs_field f ++ r) = Some (f, r).
Proof. destruct f as [f t]. unfold p_rs_field, toks_rs_field. lnorm. eatt. idt. eatt. apply rs_type_step. eatt. reflexivity. Qed.
Lemma signed_step {A} z (k : Z -> tparser A) r res : k z r = res -> tbind signed k (toks_Z z ++ r) = res.
Proof.
  intros H. eapply bind_step; [|exact H]. unfold signed, toks_Z. pose proof (DecimalZ.of_to z) as Hz. destruct (Z.to_int z) as [u|u]; cbn in Hz; cbn [app].
  - no. unfold integer. destruct (uint_read u) as (d & -> & -> & _). by rewrite Hz.
  - yes. eatt. apply integer_step. by rewrite Hz.
Qed.
Lemma arm_case n a r : p_arm n (toks_arm n a ++ r) = Some (a, r).
Proof. destruct a as [z v]. unfold p_arm, toks_arm. cbn [fst snd]. toks_now. lnorm. apply signed_step. eatt. apply again_step. eatt. idt. eatt. reflexivity. Qed.
Lemma item_case i r : p_item (toks_i i ++ r) = Some (i, r).
Proof.
  destruct i as [n fs|n rp vs d arms]; unfold p_item, toks_i; toks_now; lnorm.
  - yes. eatt. idt. eatt. eapply bind_step; [apply (many_case toks_rs_field)|].
    { intros f r' _. split; [apply rs_field_case|]. destruct f. lits. }
    { lits. }
    { by apply length_concat. }
    cbn beta. eatt. reflexivity.
  - no. eatt. idt. eatt. idt. eatt. eapply bind_step; [apply (many_case toks_variant)|].
    { intros v r' _. split; [apply variant_case|]. destruct v. lits. }
    { lits. }
    { by apply length_concat. }
    cbn beta. eatt. apply again_step. eatt. apply again_step. eatt. idt. eatt. apply again_step. eatt. apply again_step. eatt. apply again_step. eatt.
    eapply bind_step; [apply (many_case (toks_arm n))|].
    { intros [z v] r' _. split; [apply arm_case|]. unfold toks_arm, toks_Z. cbn [fst snd]. destruct (Z.to_int z); lits. }
    { lits. }
    { apply length_concat. intros [z v] _. unfold toks_arm, toks_Z. cbn [fst]. by destruct (Z.to_int z). }
    cbn beta. eatt. eapply bind_step; [cbn; rewrite decide_True by done; reflexivity|]. cbn beta. eatt. reflexivity.
Qed.
Lemma rs_module_case m : rs_module_ok m -> p_rs_module (toks_rsm m) = Some (m, []).
Proof.
  intros (Hi & Ht & Hr & Hw). unfold p_rs_module, toks_rsm, prologue_toks. toks_now. lnorm. eatt.
  eapply bind_step; [apply (many_case toks_i)|].
  { intros i r _. split; [apply item_case|]. destruct i; cbn [toks_i]; toks_now; lits. }
  { lits. }
  { apply length_concat. intros [] _; cbn [toks_i]; toks_now; done. }
  cbn beta. eatt. idt. eatt. apply rs_statements_step; [done|lits|]. eatt. apply again_step. eatt.
  apply rs_statements_step; [done|lits|]. change [TSym "}"] with ([TSym "}"] ++ []). eatt. by destruct m.
Qed.
Lemma read_rs_printed version now m : on_one_line version -> on_one_line now -> rs_module_ok m -> read_rs (print_rs_module version now m) = Some m.
Proof. intros Hv Hn Hm. unfold read_rs. rewrite tokens_rsm by done. by rewrite rs_module_case. Qed.
