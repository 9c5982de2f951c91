(** Simulation: the generated read code does what a reference decoder does. *)
From Verif Require Export TsWrite.

(** ** The reference decoder *)
Definition fail (r : rstate) : rstate := RState (r_rest r) true (r_calls r).
Definition int_of (n : num) : Z := match n with NInt z => z | NFloat _ => 0%Z end.
Notation decoder := (rstate -> value * rstate).

Fixpoint dec_times (n : nat) (d : decoder) (r : rstate) : list value * rstate :=
  match n with
  | O => ([], r)
  | S n => let '(v, r) := d r in let '(vs, r) := dec_times n d r in (v :: vs, r)
  end.
Fixpoint dec_list (l : list (string * decoder)) (r : rstate) : list (string * value) * rstate :=
  match l with
  | [] => ([], r)
  | (f, d) :: l => let '(v, r) := d r in let '(vs, r) := dec_list l r in ((f, v) :: vs, r)
  end.
Section dec.
  Context (rt : runtime).
  Definition dec_opt (d : decoder) : decoder := fun r =>
    let '(n, r) := read_num rt KU8 r in if decide (int_of n > 0)%Z then d r else (VNone, r).
  Definition dec_arr (d : decoder) : decoder := fun r =>
    let '(n, r) := read_num rt KU32 r in let '(vs, r) := dec_times (Z.to_nat (int_of n)) d r in (VArr vs, r).
  Definition dec_wrap (array opt : bool) (d : decoder) : decoder :=
    let d := if array then dec_arr d else d in if opt then dec_opt d else d.
  Definition dec_builtin (b : builtin) : decoder := fun r =>
    match builtin_kind b with
    | Some k => let '(n, r) := read_num rt k r in (VNum n, r)
    | None => let '(n, r) := read_num rt KU32 r in let '(s, r) := read_str rt (int_of n) r in (VStr s, r)
    end.
  Definition dec_enum (e : enum) : decoder := fun r =>
    let '(n, r) := read_num rt (repr_kind (e_repr e)) r in
    if decide (enum_lo e <= int_of n <= enum_hi e)%Z then (VNum n, r) else (VNone, fail r).
  Fixpoint dec (t : rtype) : decoder :=
    match t with
    | TBuiltin b => dec_builtin b
    | TEnum e => dec_enum e
    | TStruct fs => fun r =>
        let '(vs, r) := dec_list (List.map (fun f => (f_name f, dec_wrap (f_array f) (f_opt f) (dec (f_ty f)))) fs) r in (VRec vs, r)
    end.
  Definition dec_field (f : sfield) : decoder := dec_wrap (f_array f) (f_opt f) (dec (f_ty f)).
  Definition dec_fields (fs : list sfield) : rstate -> list (string * value) * rstate :=
    dec_list (List.map (fun f => (f_name f, dec_field f)) fs).
End dec.

Lemma dec_times_snoc n d r : dec_times (S n) d r =
  let '(vs, r) := dec_times n d r in let '(v, r) := d r in (vs ++ [v], r).
Proof.
  revert r. induction n as [|n IH]; intros r.
  - cbn. by destruct (d r).
  - cbn [dec_times] in IH |- *. destruct (d r) as [v r1]. specialize (IH r1). rewrite IH.
    destruct (dec_times n d r1) as [vs r2]. by destruct (d r2).
Qed.
Lemma dec_times_length n d r : length (dec_times n d r).1 = n.
Proof.
  revert r. induction n as [|n IH]; intros r; [done|]. cbn [dec_times]. destruct (d r) as [v r1]. specialize (IH r1).
  destruct (dec_times n d r1). cbn in *. lia.
Qed.

(** ** a reader that failed stays so *)
Definition sticky (d : decoder) : Prop := forall r, r_failed r = true -> r_failed (d r).2 = true.
Section sticky.
  Context (rt : runtime) (str_ok : jstr -> Prop) (Hrt : rt_ok rt str_ok).
  Lemma read_num_sticky k r : r_failed r = true -> r_failed (read_num rt k r).2 = true.
  Proof. intros H. unfold read_num. rewrite H. destruct (rd_failed _ _ Hrt k (r_rest r)) as (n & bs & _ & ->). done. Qed.
  Lemma read_str_sticky z r : r_failed r = true -> r_failed (read_str rt z r).2 = true.
  Proof.
    intros H. unfold read_str. rewrite H. pose proof (rds_failed _ _ Hrt z (r_rest r)) as HF.
    destruct (rt_rds rt z (r_rest r, true)) as [s [bs b]]. cbn in *. done.
  Qed.
  Lemma read_num_kind k r : in_kind k (read_num rt k r).1.
  Proof.
    unfold read_num. destruct (r_failed r).
    - destruct (rd_failed _ _ Hrt k (r_rest r)) as (n & bs & Hn & ->). done.
    - destruct (decide (width k <= length (r_rest r))) as [Hw|Hw].
      + destruct (rd_enough _ _ Hrt k (r_rest r) Hw) as (n & Hn & ->). done.
      + destruct (rd_short _ _ Hrt k (r_rest r) ltac:(lia)) as (n & bs & Hn & ->). done.
  Qed.
  Lemma sticky_times n d : sticky d -> forall r, r_failed r = true -> r_failed (dec_times n d r).2 = true.
  Proof.
    intros Hd. induction n as [|n IH]; intros r Hr; [done|]. cbn [dec_times]. pose proof (Hd r Hr) as H.
    destruct (d r) as [v r1]. specialize (IH r1 H). by destruct (dec_times n d r1).
  Qed.
  Lemma sticky_list l : Forall (fun x => sticky x.2) l -> forall r, r_failed r = true -> r_failed (dec_list l r).2 = true.
  Proof.
    induction 1 as [|[f d] l Hd _ IH]; intros r Hr; [done|]. cbn [dec_list]. pose proof (Hd r Hr) as H. cbn in H.
    destruct (d r) as [v r1]. specialize (IH r1 H). by destruct (dec_list l r1).
  Qed.
  Lemma sticky_opt d : sticky d -> sticky (dec_opt rt d).
  Proof.
    intros Hd r Hr. unfold dec_opt. pose proof (read_num_sticky KU8 r Hr) as H. destruct (read_num rt KU8 r) as [n r1].
    case_decide; [by apply Hd|done].
  Qed.
  Lemma sticky_arr d : sticky d -> sticky (dec_arr rt d).
  Proof.
    intros Hd r Hr. unfold dec_arr. pose proof (read_num_sticky KU32 r Hr) as H. destruct (read_num rt KU32 r) as [n r1].
    pose proof (sticky_times (Z.to_nat (int_of n)) d Hd r1 H) as H2. by destruct (dec_times _ d r1).
  Qed.
  Lemma sticky_wrap a o d : sticky d -> sticky (dec_wrap rt a o d).
  Proof. intros Hd. unfold dec_wrap. destruct a, o; auto using sticky_opt, sticky_arr. Qed.
  Lemma sticky_dec t : sticky (dec rt t).
  Proof.
    induction t as [b|e|fs IH] using rtype_ind'; intros r Hr; cbn [dec].
    - unfold dec_builtin. destruct (builtin_kind b) as [k|].
      + pose proof (read_num_sticky k r Hr). by destruct (read_num rt k r).
      + pose proof (read_num_sticky KU32 r Hr) as H. destruct (read_num rt KU32 r) as [n r1].
        pose proof (read_str_sticky (int_of n) r1 H) as H2. by destruct (read_str rt (int_of n) r1).
    - unfold dec_enum. pose proof (read_num_sticky (repr_kind (e_repr e)) r Hr) as H. destruct (read_num rt _ r) as [n r1]. by case_decide.
    - pose proof (sticky_list (List.map (fun f => (f_name f, dec_wrap rt (f_array f) (f_opt f) (dec rt (f_ty f)))) fs)) as H.
      feed specialize H. { apply Forall_forall. intros x (f & <- & Hf)%elem_of_list_In%in_map_iff. rewrite Forall_forall in IH. cbn. apply sticky_wrap, IH. by apply elem_of_list_In. }
      specialize (H r Hr). by destruct (dec_list _ r).
  Qed.
  Lemma sticky_field f : sticky (dec_field rt f).
  Proof. apply sticky_wrap, sticky_dec. Qed.
End sticky.

(** ** Objects *)
Lemma own_put f v ps : own f (put f v ps) = Some v.
Proof. induction ps as [|[g u] ps IH]; cbn [put own]; [by rewrite decide_True|]. case_decide; cbn [own]; [by rewrite decide_True|by rewrite decide_False]. Qed.
Lemma own_put_ne f g v ps : g ≠ f -> own g (put f v ps) = own g ps.
Proof.
  intros Hne. induction ps as [|[h u] ps IH]; cbn [put own]; [by rewrite decide_False|].
  destruct (decide (h = f)) as [->|]; cbn [own]; [by rewrite !decide_False|]. case_decide; [done|apply IH].
Qed.

(** consecutive stretches of the heap, one for each element *)
Fixpoint chain {B} (P : nat -> nat -> B -> Prop) (lo hi : nat) (vs : list B) : Prop :=
  match vs with
  | [] => lo <= hi
  | v :: vs => exists mid, lo <= mid /\ P lo mid v /\ chain P mid hi vs
  end.
Fixpoint chain2 {A B} (P : nat -> nat -> A -> B -> Prop) (lo hi : nat) (ys : list A) (vs : list B) {struct vs} : Prop :=
  match vs, ys with
  | [], [] => lo <= hi
  | v :: vs, y :: ys => exists mid, lo <= mid /\ P lo mid y v /\ chain2 P mid hi ys vs
  | _, _ => False
  end.
(** like [rep], in objects that lie at [lo] or above and below [hi], apart from each other, and have the fields and nothing else as own properties *)
Fixpoint rep_in (lo hi : nat) (h : heap) (x : val) (v : value) {struct v} : Prop :=
  match v with
  | VNum n => x = JNum n
  | VStr s => x = JStr s
  | VNone => x = JUndef
  | VArr l => exists p items, x = JLoc p /\ lo <= p < hi /\ h !! p = Some (OArr items) /\
      (fix all (lo : nat) (l : list value) (items : list val) {struct l} : Prop :=
         match l, items with
         | [], [] => lo <= hi
         | v :: l, y :: items => exists mid, lo <= mid /\ rep_in lo mid h y v /\ all mid l items
         | _, _ => False
         end) (S p) l items
  | VRec fs => exists p pr props, x = JLoc p /\ lo <= p < hi /\ h !! p = Some (OPlain pr props) /\
      (forall n, n ∉ List.map fst fs -> own n props = None) /\
      (fix all (lo : nat) (fs : list (string * value)) {struct fs} : Prop :=
         match fs with
         | [] => lo <= hi
         | (f, v) :: fs => exists mid, lo <= mid /\ (exists y, own f props = Some y /\ rep_in lo mid h y v) /\ all mid fs
         end) (S p) fs
  end.
Definition prop_in (h : heap) (props : list (string * val)) (lo hi : nat) (x : string * value) : Prop :=
  exists y, own x.1 props = Some y /\ rep_in lo hi h y x.2.
Lemma value_ind' (P : value -> Prop) : (forall n, P (VNum n)) -> (forall s, P (VStr s)) -> P VNone ->
  (forall l, Forall P l -> P (VArr l)) -> (forall fs, Forall (fun x => P x.2) fs -> P (VRec fs)) -> forall v, P v.
Proof.
  intros H1 H2 H3 H4 H5. fix IH 1. intros [n|s|l|fs|]; [apply H1|apply H2| | |apply H3].
  - apply H4. revert l. fix IHl 1. intros [|v l]; constructor; [apply IH|apply IHl].
  - apply H5. revert fs. fix IHl 1. intros [|[f v] l]; constructor; [apply IH|apply IHl].
Qed.
Lemma rep_in_arr lo hi h x l : rep_in lo hi h x (VArr l) <-> exists p items, x = JLoc p /\ lo <= p < hi /\ h !! p = Some (OArr items) /\
  chain2 (fun lo hi => rep_in lo hi h) (S p) hi items l.
Proof.
  cbn [rep_in]. split; intros (p & items & Hx & Hp & Hh & H); exists p, items; (split; [done|]; split; [done|]; split; [done|]); clear - H;
    revert H; generalize (S p); revert items; induction l as [|v l IH]; intros [|y items] m H; try done.
  - destruct H as (mid & H1 & H2 & H3). exists mid. split; [done|]. split; [done|]. by apply IH.
  - destruct H as (mid & H1 & H2 & H3). exists mid. split; [done|]. split; [done|]. by apply IH.
Qed.
Lemma rep_in_rec lo hi h x fs : rep_in lo hi h x (VRec fs) <-> exists p pr props, x = JLoc p /\ lo <= p < hi /\ h !! p = Some (OPlain pr props) /\
  (forall n, n ∉ List.map fst fs -> own n props = None) /\ chain (prop_in h props) (S p) hi fs.
Proof.
  cbn [rep_in]. split; intros (p & pr & props & Hx & Hp & Hh & Hn & H); exists p, pr, props; (split; [done|]; split; [done|]; split; [done|]; split; [done|]); clear - H;
    revert H; generalize (S p); induction fs as [|[f v] fs IH]; intros m H; try done.
  - destruct H as (mid & H1 & H2 & H3). exists mid. split; [done|]. split; [done|]. by apply IH.
  - destruct H as (mid & H1 & H2 & H3). exists mid. split; [done|]. split; [done|]. by apply IH.
Qed.
Lemma chain_le {B} (P : nat -> nat -> B -> Prop) vs : forall lo hi, chain P lo hi vs -> lo <= hi.
Proof. induction vs as [|v vs IH]; intros lo hi H; [done|]. destruct H as (mid & H1 & _ & H2%IH). lia. Qed.
Lemma chain2_le {A B} (P : nat -> nat -> A -> B -> Prop) vs : forall ys lo hi, chain2 P lo hi ys vs -> lo <= hi.
Proof. induction vs as [|v vs IH]; intros [|y ys] lo hi H; [done..|]. destruct H as (mid & H1 & _ & H2%IH). lia. Qed.
Lemma chain_mono {B} (P Q : nat -> nat -> B -> Prop) vs : forall lo hi hi', hi <= hi' ->
  Forall (fun v => forall l m, lo <= l -> m <= hi -> P l m v -> Q l m v) vs -> chain P lo hi vs -> chain Q lo hi' vs.
Proof.
  induction vs as [|v vs IH]; intros lo hi hi' H2 HF H; [cbn in *; lia|]. apply Forall_cons in HF as [Hv HF].
  destruct H as (mid & Hm & H3 & H4). pose proof (chain_le _ _ _ _ H4). exists mid. split; [lia|]. split; [by apply Hv|]. eapply IH; [done| |exact H4].
  eapply Forall_impl; [exact HF|]. cbn. intros w Hw l m ? ?. apply Hw; [lia|done].
Qed.
Lemma chain2_mono {A B} (P Q : nat -> nat -> A -> B -> Prop) vs : forall ys lo hi hi', hi <= hi' ->
  Forall (fun v => forall y l m, lo <= l -> m <= hi -> P l m y v -> Q l m y v) vs -> chain2 P lo hi ys vs -> chain2 Q lo hi' ys vs.
Proof.
  induction vs as [|v vs IH]; intros [|y ys] lo hi hi' H2 HF H; [cbn in *; lia|done..|]. apply Forall_cons in HF as [Hv HF].
  destruct H as (mid & Hm & H3 & H4). pose proof (chain2_le _ _ _ _ _ H4). exists mid. split; [lia|]. split; [by apply Hv|]. eapply IH; [done| |exact H4].
  eapply Forall_impl; [exact HF|]. cbn. intros w Hw z l m ? ?. apply Hw; [lia|done].
Qed.
Lemma chain2_snoc {A B} (P : nat -> nat -> A -> B -> Prop) vs y v mid hi : mid <= hi ->
  forall ys lo, chain2 P lo mid ys vs -> (forall l, lo <= l <= mid -> P l hi y v) -> chain2 P lo hi (ys ++ [y]) (vs ++ [v]).
Proof.
  intros Hm. induction vs as [|w vs IH]; intros [|z ys] lo H HP; [|done..|].
  - cbn in H |- *. exists hi. split; [lia|]. split; [apply HP; lia|done].
  - destruct H as (m & H1 & H2 & H3). exists m. split; [done|]. split; [done|]. apply IH; [done|]. intros l Hl. apply HP. lia.
Qed.
Lemma chain2_length {A B} (P : nat -> nat -> A -> B -> Prop) vs : forall ys lo hi, chain2 P lo hi ys vs -> length ys = length vs.
Proof. induction vs as [|v vs IH]; intros [|y ys] lo hi H; [done..|]. destruct H as (mid & _ & _ & H). cbn. by rewrite (IH _ _ _ H). Qed.
Lemma rep_in_frame lo lo' hi hi' h h' v : forall x, lo' <= lo -> hi <= hi' -> (forall p o, lo <= p < hi -> h !! p = Some o -> h' !! p = Some o) ->
  rep_in lo hi h x v -> rep_in lo' hi' h' x v.
Proof.
  revert lo lo' hi hi'. induction v as [n|s| |l IH|fs IH] using value_ind'; intros lo lo' hi hi' x Hlo Hhi Hh; [done..| |].
  - rewrite !rep_in_arr. intros (p & items & -> & Hp & Hi & HF). exists p, items. split; [done|]. split; [lia|]. split; [apply Hh; [lia|done]|].
    eapply chain2_mono; [exact Hhi| |exact HF]. eapply Forall_impl; [exact IH|]. cbn. intros v Hv y m m' Hm Hm'. apply Hv; [lia..|].
    intros q ob Hq. apply Hh. lia.
  - rewrite !rep_in_rec. intros (p & pr & props & -> & Hp & Hi & Hn & HF). exists p, pr, props. split; [done|]. split; [lia|]. split; [apply Hh; [lia|done]|].
    split; [done|]. eapply chain_mono; [exact Hhi| |exact HF]. eapply Forall_impl; [exact IH|]. cbn. intros [f v] Hv m m' Hm Hm' (y & Hy & Hr).
    exists y. split; [done|]. revert Hr. apply Hv; [lia..|]. intros q ob Hq. apply Hh. lia.
Qed.
Lemma chain_props h props fs : forall lo hi f v, chain (prop_in h props) lo hi fs -> (f, v) ∈ fs -> exists y l m, lo <= l /\ m <= hi /\ own f props = Some y /\ rep_in l m h y v.
Proof.
  induction fs as [|[g w] fs IH]; intros lo hi f v H Hin; [by apply elem_of_nil in Hin|]. destruct H as (mid & Hm & H1 & H2).
  apply elem_of_cons in Hin as [[= -> ->]|Hin].
  - destruct H1 as (y & Hy & Hr). exists y, lo, mid. split; [done|]. split; [by eapply chain_le|done].
  - destruct (IH _ _ _ _ H2 Hin) as (y & l & m & H3 & H4). exists y, l, m. split; [lia|done].
Qed.
Lemma rep_in_rep lo hi h v : forall x, rep_in lo hi h x v -> rep h x v.
Proof.
  revert lo hi. induction v as [n|s| |l IH|fs IH] using value_ind'; intros lo hi x; [done|done|intros H; by left|..].
  - rewrite rep_in_arr. intros (p & items & -> & Hp & Hi & HF). exists p, items. split; [done|]. split; [done|].
    clear - IH HF. revert HF. generalize (S p). revert items. induction l as [|v l IHl]; intros [|y items] m HF; [done..|].
    apply Forall_cons in IH as [IH1 IH2]. destruct HF as (mid & _ & H1 & H2). split; [by eapply IH1|by eapply IHl].
  - rewrite rep_in_rec. intros (p & pr & props & -> & Hp & Hi & _ & HF). exists p, pr, props. split; [done|]. split; [done|].
    clear Hp. revert HF. generalize (S p). induction fs as [|[f v] fs IHfs]; intros m HF; [done|]. apply Forall_cons in IH as [IH1 IH2].
    destruct HF as (mid & _ & (y & Hy & Hr) & H2). split; [|by eapply IHfs].
    exists y. split; [|by eapply IH1]. cbn [get_prop]. cbn [fst] in Hy. by rewrite Hi, Hy.
Qed.

(** ** assignments *)
Definition settable (pr : proto) (f : string) : Prop := f ≠ "__proto__" /\ (pr = PCtor -> f ∉ readonly_names).
Lemma set_prop_ok h o pr props f v : h !! o = Some (OPlain pr props) -> settable pr f ->
  set_prop h (JLoc o) f v = Done (<[o := OPlain pr (put f v props)]> h).
Proof. intros Ho [H1 H2]. cbn [set_prop]. rewrite Ho. rewrite decide_False by naive_solver. rewrite decide_False by naive_solver. done. Qed.
Lemma assign_field rt r f e M M' o pr props v : lookup_var r (m_env M) = Done (JLoc o) -> eval rt e M = Done (v, M') ->
  m_heap M' !! o = Some (OPlain pr props) -> settable pr f ->
  exec_simple rt (Assign (path [r; f]) e) M = Done (with_heap (<[o := OPlain pr (put f v props)]> (m_heap M')) M').
Proof.
  intros Hl He Ho Hs. cbn [path foldl exec_simple eval]. rewrite Hl. cbn [obind]. rewrite He. cbn [obind]. by rewrite (set_prop_ok _ _ _ _ _ _ Ho Hs).
Qed.
