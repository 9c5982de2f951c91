(** A concrete crate packet: little-endian numbers, strings in UTF-8. Rust's strings are valid UTF-8, so reading other
    bytes is an error. *)
From Verif Require Export RsSpec Runtimes.

Definition between (lo z hi : Z) : bool := (lo <=? z)%Z && (z <=? hi)%Z.
Definition trail (z : Z) : bool := between 128 z 191.
(** table 3-7 of the Unicode standard *)
Definition second_of_three (a b : Z) : bool :=
  if (a =? 224)%Z then between 160 b 191 else if (a =? 237)%Z then between 128 b 159 else between 225 a 239 && trail b.
Definition second_of_four (a b : Z) : bool :=
  if (a =? 240)%Z then between 144 b 191 else if (a =? 244)%Z then between 128 b 143 else between 241 a 243 && trail b.
Fixpoint utf8_valid (s : rstr) : bool :=
  match s with
  | [] => true
  | a :: s1 =>
      if (a <? 128)%Z then utf8_valid s1 else
      match s1 with
      | [] => false
      | b :: s2 =>
          if between 194 a 223 && trail b then utf8_valid s2 else
          match s2 with
          | [] => false
          | c :: s3 =>
              if second_of_three a b && trail c then utf8_valid s3 else
              match s3 with
              | [] => false
              | d :: s4 => if second_of_four a b && trail c && trail d then utf8_valid s4 else false
              end
          end
      end
  end.
Definition utf8_str (s : rstr) : Prop := latin1_ok s /\ utf8_valid s = true.
Definition utf8_rs : rs_lib := RsLib le_enc latin1_encs
  (fun k bs => match le_rd k (bs, false) with (n, (rest, false)) => Some (n, rest) | _ => None end)
  (fun z bs => if (Z.of_nat (length bs) <? z)%Z then None else
     let s := map bval (take (Z.to_nat z) bs) in if utf8_valid s then Some (s, drop (Z.to_nat z) bs) else None).

Lemma utf8_rs_ok : rs_lib_ok utf8_rs utf8_str.
Proof.
  constructor; cbn [utf8_rs lb_enc lb_encs lb_rd lb_rds].
  - intros. apply le_bytes_length.
  - intros k n rest H. by rewrite le_rd_enc.
  - intros k bs H. destruct (le_rd_enough k bs H) as (n & Hn & E). exists n. by rewrite E.
  - intros k bs H. unfold le_rd. by destruct (Nat.ltb_spec (length bs) (width k)); [|lia].
  - intros k bs n rest Hk H. destruct (decide (width k <= length bs)) as [Hw|Hw].
    + destruct (le_rd_enough k bs Hw) as (m & Hm & E). rewrite E in H. injection H as <- <-. rewrite (le_rd_exact _ _ _ _ Hk Hw E). by rewrite take_drop.
    + exfalso. revert H. unfold le_rd. by destruct (Nat.ltb_spec (length bs) (width k)); [|lia].
  - intros k bs n rest more H. destruct (decide (width k <= length bs)) as [Hw|Hw].
    + revert H. unfold le_rd. rewrite app_length. destruct (Nat.ltb_spec (length bs) (width k)); [lia|]. destruct (Nat.ltb_spec (length bs + length more) (width k)); [lia|]. cbn [orb].
      intros [= <- <-]. rewrite take_app_le, drop_app_le by done. done.
    + exfalso. revert H. unfold le_rd. by destruct (Nat.ltb_spec (length bs) (width k)); [|lia].
  - intros s _. apply map_length.
  - intros s rest [H1 H2]. assert (length (latin1_encs s) = length s) as HL by apply map_length. rewrite app_length, HL.
    destruct (Z.ltb_spec (Z.of_nat (length s + length rest)) (Z.of_nat (length s))); [lia|]. rewrite Nat2Z.id, take_app_alt, drop_app_alt by done.
    change (map bval (latin1_encs s)) with (map (fun b => Z.of_N (N_of_ascii b)) (latin1_encs s)). rewrite latin1_map by done. by rewrite H2.
  - intros n bs s rest Hn. destruct (Z.ltb_spec (Z.of_nat (length bs)) n); [done|]. destruct (utf8_valid _) eqn:E; [|done]. intros [= <- <-]. split; [split; [|done]|].
    + apply Forall_forall. intros u (b & -> & _)%elem_of_list_fmap. apply byte_range.
    + rewrite map_length, take_length_le by lia. split; [lia|]. change (map bval) with (map (fun b => Z.of_N (N_of_ascii b))). rewrite latin1_map'. by rewrite take_drop.
Qed.
Lemma ascii_utf8 s : ascii_ok s -> utf8_str s.
Proof.
  induction 1 as [|u s Hu _ [IH1 IH2]]; [by split; [constructor|]|]. split; [constructor; [lia|done]|]. cbn [utf8_valid]. destruct (Z.ltb_spec u 128); [done|lia].
Qed.
Lemma latin1_format : same_format latin1 utf8_rs ascii_ok.
Proof.
  constructor; cbn [utf8_rs latin1 rt_enc rt_rd rt_encs rt_rds lb_enc lb_encs lb_rd lb_rds]; try done.
  - intros k bs n rest. destruct (le_rd k (bs, false)) as [m [r [|]]]; split; intros E; by simplify_eq.
  - intros s rest Hs. pose proof (rds_enc _ _ latin1_rt_ok s rest) as H. apply H. eapply Forall_impl; [exact Hs|]. cbn. lia.
Qed.
Lemma utf8_format : same_format utf8_lib utf8_rs ascii_ok.
Proof.
  constructor; cbn [utf8_rs utf8_lib rt_enc rt_rd rt_encs rt_rds lb_enc lb_encs lb_rd lb_rds]; try done.
  - intros k bs n rest. destruct (le_rd k (bs, false)) as [m [r [|]]]; split; intros E; by simplify_eq.
  - intros s Hs. by apply utf8_ascii.
  - intros s rest Hs. pose proof (rds_enc _ _ utf8_rt_ok s rest Hs) as H. cbn in H. by rewrite (proj1 (utf8_ascii s Hs)) in H.
Qed.
