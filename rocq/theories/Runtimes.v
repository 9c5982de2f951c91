(** Two concrete runtime libraries: little-endian numbers with one byte per character, and the same with
    UTF-8 strings. They show that the assumptions of Wire.v can be met and serve as witnesses. *)
From Verif Require Export WireSpec.

Fixpoint le_bytes (w : nat) (z : Z) : list byte :=
  match w with O => [] | S w => ascii_of_N (Z.to_N (z mod 256)) :: le_bytes w (z / 256) end.
Fixpoint le_val (bs : list byte) : Z :=
  match bs with [] => 0 | b :: bs => Z.of_N (N_of_ascii b) + 256 * le_val bs end%Z.

Definition bits (n : num) : Z := match n with NInt z => z | NFloat b => b end.
Definition of_bits (k : kind) (z : Z) : num :=
  match k with
  | KF32 => NFloat (if decide (z mod 2 ^ 31 <= 2139095040)%Z then z else one_nan)
  | KI8 => NInt (if decide (z < 2 ^ 7)%Z then z else z - 2 ^ 8)
  | KI16 => NInt (if decide (z < 2 ^ 15)%Z then z else z - 2 ^ 16)
  | KI32 => NInt (if decide (z < 2 ^ 31)%Z then z else z - 2 ^ 32)
  | _ => NInt z
  end.
Definition le_enc (k : kind) (n : num) : list byte := le_bytes (width k) (bits n).
Definition le_rd (k : kind) (s : list byte * bool) : num * (list byte * bool) :=
  let '(bs, failed) := s in
  if failed || (length bs <? width k)%nat then (of_bits k 0, (bs, true))
  else (of_bits k (le_val (take (width k) bs)), (drop (width k) bs, false)).

Definition latin1_encs (s : jstr) : list byte := map (fun u => ascii_of_N (Z.to_N u)) s.
Definition latin1_rds (n : Z) (s : list byte * bool) : jstr * (list byte * bool) :=
  let '(bs, failed) := s in
  if failed || (Z.of_nat (length bs) <? n)%Z then ([], (bs, true))
  else (map (fun b => Z.of_N (N_of_ascii b)) (take (Z.to_nat n) bs), (drop (Z.to_nat n) bs, false)).
Definition latin1 : runtime := Runtime le_enc latin1_encs le_rd latin1_rds.
Definition latin1_ok (s : jstr) : Prop := Forall (fun u => 0 <= u < 256)%Z s.

(** ** proofs *)
Lemma le_bytes_length w z : length (le_bytes w z) = w.
Proof. revert z. induction w as [|w IH]; intros z; cbn; [done|]. by rewrite IH. Qed.
Lemma byte_val z : (0 <= z < 256)%Z -> Z.of_N (N_of_ascii (ascii_of_N (Z.to_N z))) = z.
Proof. intros H. rewrite N_ascii_embedding; lia. Qed.
Lemma byte_range b : (0 <= Z.of_N (N_of_ascii b) < 256)%Z.
Proof. pose proof (N_ascii_bounded b). lia. Qed.
Lemma le_val_range bs : (0 <= le_val bs < 2 ^ (8 * Z.of_nat (length bs)))%Z.
Proof.
  induction bs as [|b bs IH]; [cbn; lia|]. cbn [le_val length]. pose proof (byte_range b).
  replace (8 * Z.of_nat (S (length bs)))%Z with (8 + 8 * Z.of_nat (length bs))%Z by lia. rewrite Z.pow_add_r by lia.
  change (2 ^ 8)%Z with 256%Z. nia.
Qed.
Lemma le_val_bytes w z : le_val (le_bytes w z) = (z mod 2 ^ (8 * Z.of_nat w))%Z.
Proof.
  revert z. induction w as [|w IH]; intros z; cbn [le_bytes le_val]; [change (2 ^ (8 * Z.of_nat 0))%Z with 1%Z; by rewrite Z.mod_1_r|].
  rewrite IH, byte_val by (apply Z.mod_pos_bound; lia).
  replace (8 * Z.of_nat (S w))%Z with (8 + 8 * Z.of_nat w)%Z by lia. rewrite Z.pow_add_r by lia. change (2 ^ 8)%Z with 256%Z.
  rewrite Z.rem_mul_r; [lia|lia|apply Z.pow_pos_nonneg; lia].
Qed.
Lemma le_bytes_val bs : le_bytes (length bs) (le_val bs) = bs.
Proof.
  induction bs as [|b bs IH]; [done|]. cbn [length le_val le_bytes]. pose proof (byte_range b).
  f_equal.
  - rewrite <- (ascii_N_embedding b) at 2. f_equal. rewrite (Z.mul_comm 256), Z.mod_add by lia. rewrite Z.mod_small by lia. by rewrite N2Z.id.
  - rewrite (Z.mul_comm 256), Z.div_add by lia. rewrite Z.div_small, Z.add_0_l by lia. exact IH.
Qed.
Lemma le_bytes_mod w z : le_bytes w (z mod 2 ^ (8 * Z.of_nat w)) = le_bytes w z.
Proof. rewrite <- le_val_bytes. rewrite <- (le_bytes_length w z) at 1. apply le_bytes_val. Qed.

Definition kbits (k : kind) : Z := (8 * Z.of_nat (width k))%Z.
Lemma of_bits_kind k z : (0 <= z < 2 ^ kbits k)%Z -> in_kind k (of_bits k z).
Proof.
  intros H. destruct k; unfold kbits in H; cbn [width of_bits in_kind] in *;
    change (8 * Z.of_nat 1)%Z with 8%Z in *; change (8 * Z.of_nat 2)%Z with 16%Z in *; change (8 * Z.of_nat 4)%Z with 32%Z in *;
    try lia; case_decide; try lia. unfold one_nan. lia.
Qed.
Lemma of_bits_bits k n : in_kind k n -> of_bits k (bits n mod 2 ^ kbits k) = n.
Proof.
  intros H. destruct k, n as [z|z]; cbn [in_kind] in H; try done; unfold kbits, bits; cbn [width].
  all: change (8 * Z.of_nat 1)%Z with 8%Z; change (8 * Z.of_nat 2)%Z with 16%Z; change (8 * Z.of_nat 4)%Z with 32%Z; cbn [of_bits].
  1-3: by rewrite Z.mod_small.
  4: { destruct H as [H Hn]. rewrite (Z.mod_small z) by lia. case_decide; [done|]. destruct Hn as [| ->]; [lia|done]. }
  all: f_equal; destruct (decide (0 <= z)%Z);
    [rewrite Z.mod_small by lia; by rewrite decide_True by lia|].
  - rewrite <- (Z_mod_plus_full z 1), Z.mod_small by lia. rewrite decide_False by lia. lia.
  - rewrite <- (Z_mod_plus_full z 1), Z.mod_small by lia. rewrite decide_False by lia. lia.
  - rewrite <- (Z_mod_plus_full z 1), Z.mod_small by lia. rewrite decide_False by lia. lia.
Qed.
Lemma bits_of_bits k z : k ≠ KF32 -> (0 <= z < 2 ^ kbits k)%Z -> (bits (of_bits k z) mod 2 ^ kbits k)%Z = z.
Proof.
  intros Hk H. destruct k; [..|done]; unfold kbits in *; cbn [width of_bits bits] in *;
    change (8 * Z.of_nat 1)%Z with 8%Z in *; change (8 * Z.of_nat 2)%Z with 16%Z in *; change (8 * Z.of_nat 4)%Z with 32%Z in *.
  1-3: by rewrite Z.mod_small.
  all: case_decide; [by rewrite Z.mod_small by lia|].
  - rewrite <- (Z_mod_plus_full (z - 2 ^ 8) 1), Z.mod_small by lia. lia.
  - rewrite <- (Z_mod_plus_full (z - 2 ^ 16) 1), Z.mod_small by lia. lia.
  - rewrite <- (Z_mod_plus_full (z - 2 ^ 32) 1), Z.mod_small by lia. lia.
Qed.
Lemma of_bits_0 k : in_kind k (of_bits k 0).
Proof. apply of_bits_kind. split; [lia|]. apply Z.pow_pos_nonneg; unfold kbits; lia. Qed.
Lemma le_rd_enc k n rest : in_kind k n -> le_rd k (le_enc k n ++ rest, false) = (n, (rest, false)).
Proof.
  intros H. unfold le_rd, le_enc. rewrite app_length, le_bytes_length. destruct (Nat.ltb_spec (width k + length rest) (width k)); [lia|]. cbn [orb].
  rewrite take_app_alt, drop_app_alt by by rewrite le_bytes_length. rewrite le_val_bytes. by rewrite of_bits_bits.
Qed.
Lemma le_rd_enough k bs : width k <= length bs -> exists n, in_kind k n /\ le_rd k (bs, false) = (n, (drop (width k) bs, false)).
Proof.
  intros H. eexists. unfold le_rd. destruct (Nat.ltb_spec (length bs) (width k)); [lia|]. split; [|done]. apply of_bits_kind.
  pose proof (le_val_range (take (width k) bs)) as HR. by rewrite take_length_le in HR.
Qed.
Lemma le_rd_exact k bs n r : k ≠ KF32 -> width k <= length bs -> le_rd k (bs, false) = (n, r) -> le_enc k n = take (width k) bs.
Proof.
  intros Hk H. unfold le_rd, le_enc. destruct (Nat.ltb_spec (length bs) (width k)); [lia|]. cbn [orb]. intros [= <- _].
  rewrite <- le_bytes_mod. fold (kbits k). rewrite bits_of_bits; [|done|].
  - rewrite <- (take_length_le bs (width k)) at 1 by done. apply le_bytes_val.
  - pose proof (le_val_range (take (width k) bs)) as HR. by rewrite take_length_le in HR.
Qed.
Lemma latin1_map s : latin1_ok s -> map (fun b => Z.of_N (N_of_ascii b)) (latin1_encs s) = s.
Proof. induction 1 as [|u s Hu _ IH]; [done|]. cbn. f_equal; [by apply byte_val|exact IH]. Qed.
Lemma latin1_map' bs : latin1_encs (map (fun b => Z.of_N (N_of_ascii b)) bs) = bs.
Proof. induction bs as [|b bs IH]; [done|]. cbn. f_equal; [|exact IH]. by rewrite N2Z.id, ascii_N_embedding. Qed.

Lemma latin1_rt_ok : rt_ok latin1 latin1_ok.
Proof.
  constructor; cbn [latin1 rt_enc rt_encs rt_rd rt_rds].
  - intros. apply le_bytes_length.
  - intros. by apply le_rd_enc.
  - intros. by apply le_rd_enough.
  - intros k bs n r. apply le_rd_exact.
  - intros k bs H. exists (of_bits k 0), bs. split; [apply of_bits_0|]. unfold le_rd. by destruct (Nat.ltb_spec (length bs) (width k)); [|lia].
  - intros k bs. exists (of_bits k 0), bs. split; [apply of_bits_0|done].
  - intros s rest Hs. unfold latin1_rds. assert (length (latin1_encs s) = length s) as HL by apply map_length.
    rewrite app_length, HL. destruct (Z.ltb_spec (Z.of_nat (length s + length rest)) (Z.of_nat (length s))); [lia|]. cbn [orb]. rewrite Nat2Z.id.
    rewrite take_app_alt, drop_app_alt by done. by rewrite latin1_map.
  - intros s bs r Hs Hp Hne <-. unfold latin1_rds. assert (length (latin1_encs s) = length s) as HL by apply map_length.
    destruct Hp as [l Hl]. destruct (Z.ltb_spec (Z.of_nat (length bs)) (Z.of_nat (length s))) as [|Hge]; [done|]. exfalso.
    rewrite Hl, app_length in HL. destruct l; [|cbn in HL; lia]. apply Hne. by rewrite Hl, app_nil_r.
  - done.
  - intros n bs b. unfold latin1_rds. destruct (b || _); cbn [fst]; [cbn; lia|]. rewrite map_length, take_length. lia.
  - intros n bs b. unfold latin1_rds. destruct (b || _); cbn [fst snd]; [done|]. rewrite drop_length. lia.
Qed.
Lemma latin1_exact : exact_strings latin1.
Proof.
  cbn [latin1 rt_rds rt_encs exact_strings]. unfold exact_strings. cbn [latin1 rt_rds rt_encs]. intros z bs s rest Hz. unfold latin1_rds. cbn [orb]. destruct (Z.ltb_spec (Z.of_nat (length bs)) z); [done|]. intros [= <- <-].
  rewrite map_length, take_length_le by lia. split; [lia|]. rewrite latin1_map'. by rewrite take_drop.
Qed.

(** ** UTF-8 (one to three bytes per UTF-16 unit; surrogates are not combined) *)
Definition bval (b : byte) : Z := Z.of_N (N_of_ascii b).
Definition byte_of (z : Z) : byte := ascii_of_N (Z.to_N z).
Definition utf8_unit (u : Z) : list byte :=
  if decide (u < 128)%Z then [byte_of u]
  else if decide (u < 2048)%Z then [byte_of (192 + u / 64); byte_of (128 + u mod 64)]
  else [byte_of (224 + u / 4096); byte_of (128 + (u / 64) mod 64); byte_of (128 + u mod 64)].
Definition utf8_encs (s : jstr) : list byte := concat (map utf8_unit s).
Definition cont (b : byte) : bool := (128 <=? bval b)%Z && (bval b <? 192)%Z.
(** what does not decode becomes U+FFFD; more bytes than needed do not decode *)
Fixpoint utf8_dec (bs : list byte) : jstr :=
  match bs with
  | [] => []
  | b :: bs1 =>
      if (bval b <? 128)%Z then bval b :: utf8_dec bs1 else
      match bs1 with
      | [] => [65533%Z]
      | c :: bs2 =>
          if ((194 <=? bval b) && (bval b <? 224))%Z && cont c then (bval b mod 32 * 64 + bval c mod 64)%Z :: utf8_dec bs2 else
          match bs2 with
          | [] => 65533%Z :: utf8_dec bs1
          | d :: bs3 =>
              if ((224 <=? bval b) && (bval b <? 240))%Z && (32 <=? bval b mod 16 * 64 + bval c mod 64)%Z && cont c && cont d
              then (bval b mod 16 * 4096 + bval c mod 64 * 64 + bval d mod 64)%Z :: utf8_dec bs3
              else 65533%Z :: utf8_dec bs1
          end
      end
  end.
Definition utf8_rds (n : Z) (s : list byte * bool) : jstr * (list byte * bool) :=
  let '(bs, failed) := s in
  if failed || (Z.of_nat (length bs) <? n)%Z then ([], (bs, true))
  else (utf8_dec (take (Z.to_nat n) bs), (drop (Z.to_nat n) bs, false)).
Definition utf8_lib : runtime := Runtime le_enc utf8_encs le_rd utf8_rds.
Definition ascii_ok (s : jstr) : Prop := Forall (fun u => 0 <= u < 128)%Z s.

Lemma utf8_dec_length n bs : length bs <= n -> length (utf8_dec bs) <= length bs.
Proof.
  revert bs. induction n as [|n IH]; intros [|b bs1] Hn; cbn [length] in Hn; try (cbn; lia).
  pose proof (IH bs1 ltac:(lia)) as H1. cbn [utf8_dec]. destruct (bval b <? 128)%Z; [cbn [length]; lia|].
  destruct bs1 as [|c bs2]; [done|]. pose proof (IH bs2 ltac:(cbn in Hn; lia)) as H2. destruct (_ && cont c); [cbn [length] in *; lia|].
  destruct bs2 as [|d bs3]; [cbn [length] in *; lia|]. pose proof (IH bs3 ltac:(cbn in Hn; lia)) as H3. destruct (_ && cont d); cbn [length] in *; lia.
Qed.
Lemma utf8_ascii s : ascii_ok s -> utf8_encs s = latin1_encs s /\ utf8_dec (latin1_encs s) = s.
Proof.
  induction 1 as [|u s Hu _ [IH1 IH2]]; [done|]. split.
  - unfold utf8_encs in *. cbn [map concat]. rewrite IH1. unfold utf8_unit. by rewrite decide_True by lia.
  - cbn [latin1_encs map utf8_dec]. unfold bval at 1. rewrite byte_val by lia. destruct (Z.ltb_spec u 128); [|lia].
    unfold bval. rewrite byte_val by lia. f_equal. exact IH2.
Qed.
Lemma utf8_rt_ok : rt_ok utf8_lib ascii_ok.
Proof.
  destruct latin1_rt_ok as [H1 H2 H3 H4 H5 H6 _ _ _ _ _]. constructor; cbn [utf8_lib rt_enc rt_encs rt_rd rt_rds] in *; try done.
  - intros s rest Hs. destruct (utf8_ascii s Hs) as [E1 E2]. rewrite E1. unfold utf8_rds. assert (length (latin1_encs s) = length s) as HL by apply map_length.
    rewrite app_length, HL. destruct (Z.ltb_spec (Z.of_nat (length s + length rest)) (Z.of_nat (length s))); [lia|]. cbn [orb]. rewrite Nat2Z.id.
    rewrite take_app_alt, drop_app_alt by done. by rewrite E2.
  - intros s bs r Hs Hp Hne <-. destruct (utf8_ascii s Hs) as [E1 _]. rewrite E1 in *. unfold utf8_rds. assert (length (latin1_encs s) = length s) as HL by apply map_length.
    destruct Hp as [l Hl]. destruct (Z.ltb_spec (Z.of_nat (length bs)) (Z.of_nat (length s))) as [|Hge]; [done|]. exfalso.
    rewrite Hl, app_length in HL. destruct l; [|cbn in HL; lia]. apply Hne. by rewrite Hl, app_nil_r.
  - intros n bs b. unfold utf8_rds. destruct (b || _); cbn [fst]; [cbn; lia|]. pose proof (utf8_dec_length _ (take (Z.to_nat n) bs) (Nat.le_refl _)) as H. rewrite take_length in *. lia.
  - intros n bs b. unfold utf8_rds. destruct (b || _); cbn [fst snd]; [done|]. rewrite drop_length. lia.
Qed.
Lemma utf8_dec_ascii n bs : length bs <= n -> ascii_ok (utf8_dec bs) -> bs = latin1_encs (utf8_dec bs).
Proof.
  revert bs. induction n as [|n IH]; intros [|b bs1] Hn; cbn [length] in Hn; try done; [lia|].
  cbn [utf8_dec]. destruct (bval b <? 128)%Z.
  - intros [H1 H2]%Forall_cons. cbn [latin1_encs map]. f_equal; [|apply IH; [lia|done]]. unfold bval. by rewrite N2Z.id, ascii_N_embedding.
  - destruct bs1 as [|c bs2]; [intros [H _]%Forall_cons; lia|].
    destruct (((194 <=? bval b) && (bval b <? 224))%Z && cont c) eqn:E2.
    { intros [H _]%Forall_cons. apply andb_prop in E2 as [[E2 E3]%andb_prop _]. apply Z.leb_le in E2. apply Z.ltb_lt in E3.
      assert (2 <= bval b mod 32)%Z. { replace (bval b) with (bval b - 192 + 6 * 32)%Z by lia. rewrite Z_mod_plus_full, Z.mod_small; lia. }
      pose proof (Z.mod_pos_bound (bval c) 64). lia. }
    destruct bs2 as [|d bs3]; [intros [H _]%Forall_cons; lia|]. destruct (_ && cont d) eqn:E3; [|intros [H _]%Forall_cons; lia].
    intros [H _]%Forall_cons. apply andb_prop in E3 as [[[_ E3]%andb_prop _]%andb_prop _]. apply Z.leb_le in E3. pose proof (Z.mod_pos_bound (bval d) 64). lia.
Qed.
(** the codec as such is right: it is the length that the generated code transmits which is not in bytes *)
Example utf8_codec : utf8_dec (utf8_encs [104; 233; 8364]%Z) = [104; 233; 8364]%Z /\ length (utf8_encs [104; 233; 8364]%Z) = 6.
Proof. by vm_compute. Qed.
