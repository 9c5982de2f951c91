(** Running sequences of statements: the rules that the simulation proofs use. *)
From Verif Require Export Wire TsPlan GenNames.

Lemma exec_if rt n c b1 b2 M : exec rt n (SIf c b1 b2) M =
  match eval rt c M with
  | Done (v, M) => match truthy v with
                   | Done true => exec_block rt n b1 M
                   | Done false => exec_block rt n b2 M
                   | Throws e => Some (Throws e)
                   | Stuck => Some Stuck
                   end
  | Throws e => Some (Throws e)
  | Stuck => Some Stuck
  end.
Proof.
  cbn [exec]. unfold exec_block.
  assert (forall b M, (fix seq (b : list stmt) (M : mach) : option (out mach) :=
      match b with [] => Some (Done M) | s :: b => match exec rt n s M with Some (Done M) => seq b M | r => r end end) b M = exec_seq rt n b M) as E.
  { induction b as [|s b IH]; intros M'; [done|]. cbn [exec_seq]. destruct (exec rt n s M') as [[M1| |]|]; [apply IH|done..]. }
  destruct (eval rt c M) as [[v M1]| |]; [|done..]. destruct (truthy v) as [[]| |]; [by rewrite E..|done|done].
Qed.
Lemma exec_switch rt n e s b M : exec rt n (SSwitch e s b) M =
  match eval rt e M with
  | Done (JUndef, M) | Done (JNull, M) => Some (exec_simple rt s M)
  | Done (_, M) => exec_block rt n b M
  | Throws e => Some (Throws e)
  | Stuck => Some Stuck
  end.
Proof.
  cbn [exec]. unfold exec_block.
  assert (forall b M, (fix seq (b : list stmt) (M : mach) : option (out mach) :=
      match b with [] => Some (Done M) | s :: b => match exec rt n s M with Some (Done M) => seq b M | r => r end end) b M = exec_seq rt n b M) as E.
  { induction b0 as [|s' b' IH]; intros M'; [done|]. cbn [exec_seq]. destruct (exec rt n s' M') as [[M1| |]|]; [apply IH|done..]. }
  destruct (eval rt e M) as [[v M1]| |]; [|done..]. destruct v; by rewrite ?E.
Qed.

(** one turn of a loop *)
Definition turn rt (n : nat) (i : string) (e : expr) (b : list stmt) (k : mach -> option (out mach)) (M : mach) : option (out mach) :=
  match eval rt (EGt e (EVar i)) M with
  | Done (v, M) =>
      match truthy v with
      | Done true =>
          match exec_block rt n b M with
          | Some (Done M) =>
              match lookup_var i (m_env M) with
              | Done (JNum (NInt z)) =>
                  match assign_var i (JNum (NInt (z + 1))) (m_env M) with
                  | Done env => k (with_env env M)
                  | Throws e => Some (Throws e)
                  | Stuck => Some Stuck
                  end
              | Throws e => Some (Throws e)
              | _ => Some Stuck
              end
          | r => r
          end
      | Done false => Some (Done M)
      | Throws e => Some (Throws e)
      | Stuck => Some Stuck
      end
  | Throws e => Some (Throws e)
  | Stuck => Some Stuck
  end.
Fixpoint loops rt (n : nat) (i : string) (e : expr) (b : list stmt) (k : nat) (M : mach) : option (out mach) :=
  match k with O => None | S k => turn rt n i e b (loops rt n i e b k) M end.
Lemma exec_for rt n i e b M : exec rt n (SFor i e b) M =
  leave (loops rt n i e b n (with_env ({[ i := Some (JNum (NInt 0)) ]} :: m_env M) M)).
Proof.
  cbn [exec].
  assert (forall b M, (fix seq (b : list stmt) (M : mach) : option (out mach) :=
      match b with [] => Some (Done M) | s :: b => match exec rt n s M with Some (Done M) => seq b M | r => r end end) b M = exec_seq rt n b M) as E.
  { induction b0 as [|s' b' IH]; intros M'; [done|]. cbn [exec_seq]. destruct (exec rt n s' M') as [[M1| |]|]; [apply IH|done..]. }
  f_equal. generalize (with_env ({[ i := Some (JNum (NInt 0)) ]} :: m_env M) M). generalize n at 2 4.
  induction n0 as [|k IH]; intros M0; [done|]. cbn [loops]. unfold turn.
  destruct (eval rt (EGt e (EVar i)) M0) as [[v M1]| |]; [|done..]. destruct (truthy v) as [[]| |]; [|done..].
  unfold exec_block. rewrite E. destruct (leave _) as [[M2| |]|]; [|done..].
  destruct (lookup_var i (m_env M2)) as [[]| |]; try done. destruct n0; [|done].
  destruct (assign_var i _ (m_env M2)); [|done..]. apply IH.
Qed.

(** [b] runs from [M] to [M'], whatever the (large enough) bound on loops *)
Definition runs rt (b : list stmt) (M M' : mach) : Prop :=
  exists n0, forall n, n0 <= n -> exec_seq rt n b M = Some (Done M').
Definition runs_block rt (b : list stmt) (M M' : mach) : Prop :=
  exists n0, forall n, n0 <= n -> exec_block rt n b M = Some (Done M').
Definition enter (b : list stmt) (M : mach) : mach := with_env (hoist b :: m_env M) M.
Definition exit_ (M : mach) : mach := with_env (List.tl (m_env M)) M.

Lemma runs_nil rt M : runs rt [] M M.
Proof. by exists 0. Qed.
Lemma runs_cons rt s b M M1 M2 : (exists n0, forall n, n0 <= n -> exec rt n s M = Some (Done M1)) -> runs rt b M1 M2 -> runs rt (s :: b) M M2.
Proof.
  intros [n1 H1] [n2 H2]. exists (n1 + n2). intros n Hn. cbn [exec_seq]. rewrite H1 by lia. apply H2. lia.
Qed.
Lemma runs_app rt a b M M1 M2 : runs rt a M M1 -> runs rt b M1 M2 -> runs rt (a ++ b) M M2.
Proof.
  intros [n1 H1] [n2 H2]. exists (n1 + n2). intros n Hn.
  assert (exec_seq rt n a M = Some (Done M1)) as E1 by (apply H1; lia). assert (exec_seq rt n b M1 = Some (Done M2)) as E2 by (apply H2; lia).
  clear - E1 E2. revert M E1. induction a as [|s a IH]; intros M E1; cbn [app exec_seq] in *; [congruence|].
  destruct (exec rt n s M) as [[M'| |]|]; try done. by apply IH.
Qed.
Lemma runs_simple rt s b M M1 M2 : exec_simple rt s M = Done M1 -> runs rt b M1 M2 -> runs rt (SSimple s :: b) M M2.
Proof. intros H. apply runs_cons. exists 0. intros n _. cbn [exec]. by rewrite H. Qed.
Lemma runs_simple1 rt s M M1 : exec_simple rt s M = Done M1 -> runs rt [SSimple s] M M1.
Proof. intros H. eapply runs_simple; [exact H|apply runs_nil]. Qed.
Lemma runs_in_block rt b M M' : runs rt b (enter b M) M' -> runs_block rt b M (exit_ M').
Proof. intros [n0 H]. exists n0. intros n Hn. unfold exec_block. fold (enter b M). by rewrite (H n Hn). Qed.
Lemma runs_if rt c b1 b2 b M v t M1 M2 M3 : eval rt c M = Done (v, M1) -> truthy v = Done t ->
  runs_block rt (if t then b1 else b2) M1 M2 -> runs rt b M2 M3 -> runs rt (SIf c b1 b2 :: b) M M3.
Proof.
  intros He Ht [n0 H]. apply runs_cons. exists n0. intros n Hn. rewrite exec_if, He, Ht. destruct t; by apply H.
Qed.
Lemma runs_ifline rt c s1 s2 b M v t M1 M2 M3 : eval rt c M = Done (v, M1) -> truthy v = Done t ->
  exec_simple rt (if t then s1 else s2) M1 = Done M2 -> runs rt b M2 M3 -> runs rt (SIfLine c s1 s2 :: b) M M3.
Proof.
  intros He Ht H. apply runs_cons. exists 0. intros n _. cbn [exec]. rewrite He, Ht. destruct t; by rewrite H.
Qed.
Lemma runs_switch_none rt e s bl b M v M1 M2 M3 : eval rt e M = Done (v, M1) -> v = JUndef \/ v = JNull ->
  exec_simple rt s M1 = Done M2 -> runs rt b M2 M3 -> runs rt (SSwitch e s bl :: b) M M3.
Proof.
  intros He Hv H. apply runs_cons. exists 0. intros n _. rewrite exec_switch, He. by destruct Hv as [-> | ->]; rewrite H.
Qed.
Lemma runs_switch_some rt e s bl b M v M1 M2 M3 : eval rt e M = Done (v, M1) -> v ≠ JUndef -> v ≠ JNull ->
  runs_block rt bl M1 M2 -> runs rt b M2 M3 -> runs rt (SSwitch e s bl :: b) M M3.
Proof.
  intros He Hv1 Hv2 [n0 H]. apply runs_cons. exists n0. intros n Hn. rewrite exec_switch, He. destruct v; try done; by apply H.
Qed.

(** [b] runs from [M] and ends with [R], which may be an exception *)
Definition ends rt (b : list stmt) (M : mach) (R : out mach) : Prop :=
  exists n0, forall n, n0 <= n -> exec_seq rt n b M = Some R.
Lemma ends_cons rt s b M M1 R : (exists n0, forall n, n0 <= n -> exec rt n s M = Some (Done M1)) -> ends rt b M1 R -> ends rt (s :: b) M R.
Proof.
  intros [n1 H1] [n2 H2]. exists (n1 + n2). intros n Hn. cbn [exec_seq]. rewrite H1 by lia. apply H2. lia.
Qed.
Lemma ends_simple rt s b M M1 R : exec_simple rt s M = Done M1 -> ends rt b M1 R -> ends rt (SSimple s :: b) M R.
Proof. intros H. apply ends_cons. exists 0. intros n _. cbn [exec]. by rewrite H. Qed.
Lemma ends_one rt s M R : (exists n0, forall n, n0 <= n -> exec rt n s M = Some R) -> ends rt [s] M R.
Proof. intros [n0 H]. exists n0. intros n Hn. cbn [exec_seq]. rewrite (H n Hn). by destruct R. Qed.
Lemma ends_simple1 rt s M R : exec_simple rt s M = R -> ends rt [SSimple s] M R.
Proof. intros <-. apply ends_one. exists 0. intros n _. done. Qed.
Lemma ends_ifline1 rt c s1 s2 M v t M1 R : eval rt c M = Done (v, M1) -> truthy v = Done t ->
  exec_simple rt (if t then s1 else s2) M1 = R -> ends rt [SIfLine c s1 s2] M R.
Proof.
  intros He Ht <-. apply ends_one. exists 0. intros n _. cbn [exec]. rewrite He, Ht. by destruct t.
Qed.

(** Loops. [P j M]: the state before turn [j] *)
Lemma runs_for_ex rt i e bl b M (P : nat -> mach -> Prop) len :
  P 0 (with_env ({[ i := Some (JNum (NInt 0)) ]} :: m_env M) M) ->
  (forall j M, j < len -> P j M -> exists M1 M2 env,
     eval rt (EGt e (EVar i)) M = Done (JNum (NInt 1), M1) /\ runs_block rt bl M1 M2 /\
     lookup_var i (m_env M2) = Done (JNum (NInt (Z.of_nat j))) /\
     assign_var i (JNum (NInt (Z.of_nat (S j)))) (m_env M2) = Done env /\ P (S j) (with_env env M2)) ->
  (forall M, P len M -> eval rt (EGt e (EVar i)) M = Done (JNum (NInt 0), M)) ->
  exists Me, P len Me /\ forall M3, runs rt b (exit_ Me) M3 -> runs rt (SFor i e bl :: b) M M3.
Proof.
  intros H0 Hstep Hend.
  assert (forall d j M, d + j = len -> P j M -> exists n0 Me, P len Me /\ forall n k, n0 <= n -> n0 <= k -> loops rt n i e bl k M = Some (Done Me)) as H.
  { induction d as [|d IH]; intros j Mj Hj HP.
    - assert (j = len) as -> by lia. exists 1, Mj. split; [done|]. intros n k _ Hk'. destruct k as [|k]; [lia|].
      cbn [loops]. unfold turn. by rewrite Hend.
    - destruct (Hstep j Mj ltac:(lia) HP) as (M1 & M2 & env & He & [n1 Hb] & Hl & Ha & HP').
      destruct (IH (S j) _ ltac:(lia) HP') as (n2 & Me & HPe & Hloop).
      exists (S (n1 + n2)), Me. split; [done|]. intros n k Hn Hk'. destruct k as [|k]; [lia|].
      cbn [loops]. unfold turn. rewrite He. cbn [truthy]. rewrite Hb by lia. rewrite Hl.
      replace (Z.of_nat j + 1)%Z with (Z.of_nat (S j)) by lia. rewrite Ha. apply Hloop; lia. }
  destruct (H len 0 _ ltac:(lia) H0) as (n0 & Me & HPe & Hloop).
  exists Me. split; [done|]. intros M3 Hk. eapply runs_cons; [|exact Hk]. exists n0. intros n Hn. rewrite exec_for, Hloop by lia. done.
Qed.
Lemma runs_for rt i e bl b M (P : nat -> mach -> Prop) len M3 :
  P 0 (with_env ({[ i := Some (JNum (NInt 0)) ]} :: m_env M) M) ->
  (forall j M, j < len -> P j M -> exists M1 M2 env,
     eval rt (EGt e (EVar i)) M = Done (JNum (NInt 1), M1) /\ runs_block rt bl M1 M2 /\
     lookup_var i (m_env M2) = Done (JNum (NInt (Z.of_nat j))) /\
     assign_var i (JNum (NInt (Z.of_nat (S j)))) (m_env M2) = Done env /\ P (S j) (with_env env M2)) ->
  (forall M, P len M -> eval rt (EGt e (EVar i)) M = Done (JNum (NInt 0), M)) ->
  (forall M, P len M -> runs rt b (exit_ M) M3) ->
  runs rt (SFor i e bl :: b) M M3.
Proof. intros H0 Hs He Hk. destruct (runs_for_ex rt i e bl b M P len H0 Hs He) as (Me & HP & H). by apply H, Hk. Qed.

(** ** Environments *)
(** names that the code at [root] may declare *)
Definition ext (root x : string) : Prop := exists s, x = root +:+ "_" +:+ s.
Lemma ext_self root : ~ ext root root.
Proof.
  intros [s E]. apply (f_equal String.length) in E. rewrite !slength_app in E. cbn in E. lia.
Qed.
Lemma ext_trans r s x : ext r s -> ext s x -> ext r x.
Proof. intros [a ->] [b ->]. exists (a +:+ "_" +:+ b). by rewrite !sapp_assoc. Qed.
Lemma ext_longer r x : ext r x -> String.length r < String.length x.
Proof. intros [s ->]. rewrite !slength_app. cbn. lia. Qed.

(** [fr] and [fr'] differ only in names that extend [root] *)
Definition same_but (root : string) (fr fr' : frame) : Prop := forall x, ~ ext root x -> fr' !! x = fr !! x.
Lemma same_refl root fr : same_but root fr fr.
Proof. done. Qed.
Lemma same_trans root a b c : same_but root a b -> same_but root b c -> same_but root a c.
Proof. intros H1 H2 x Hx. by rewrite H2, H1. Qed.
Lemma same_weaken r s a b : ext r s -> same_but s a b -> same_but r a b.
Proof. intros Hrs H x Hx. apply H. intros Hs. apply Hx. by eapply ext_trans. Qed.
Lemma same_insert root fr x v : ext root x -> same_but root fr (<[x := v]> fr).
Proof. intros Hx y Hy. rewrite lookup_insert_ne; [done|]. intros ->. done. Qed.

Lemma lookup_same root fr fr' E x : same_but root fr fr' -> ~ ext root x -> lookup_var x (fr' :: E) = lookup_var x (fr :: E).
Proof. intros H Hx. cbn [lookup_var]. by rewrite H. Qed.
Lemma lookup_new fr E x : fr !! x = None -> lookup_var x (fr :: E) = lookup_var x E.
Proof. intros H. cbn [lookup_var]. by rewrite H. Qed.
Lemma hoist_none b x : x ∉ lets b -> hoist b !! x = None.
Proof.
  intros H. unfold hoist. apply not_elem_of_list_to_map. intros Hin. apply H.
  apply elem_of_list_fmap in Hin as ([y o] & -> & Hy). apply elem_of_list_In, in_map_iff in Hy as (z & [= <- <-] & Hz). by apply elem_of_list_In.
Qed.

(** declared names extend the path that the code is generated for *)
Lemma join_path r fs : join "_" (r :: fs) = r +:+ tails fs.
Proof. change (r :: fs) with ([r] ++ fs). rewrite join_app by done. done. Qed.
Lemma join_ext r fs : fs ≠ [] -> ext r (join "_" (r :: fs)).
Proof.
  destruct fs as [|f fs]; [done|]. intros _. rewrite join_path. unfold tails. cbn [List.map concat_str fold_right].
  exists (f +:+ tails fs). by rewrite !sapp_assoc.
Qed.
Lemma bindname_ext r fs : fs ≠ [] -> ext r (bindname (r :: fs)).
Proof. apply join_ext. Qed.
Lemma varname_ext st x : ext (join "_" st) (varname st x).
Proof. exists x. done. Qed.
Lemma varname_ext' r fs x : ext r (varname (r :: fs) x).
Proof.
  unfold varname. rewrite join_path. destruct fs as [|f fs].
  - exists x. unfold tails. cbn. by rewrite sapp_nil_r.
  - unfold tails. cbn [List.map concat_str fold_right]. exists (f +:+ tails fs +:+ "_" +:+ x). by rewrite !sapp_assoc.
Qed.
