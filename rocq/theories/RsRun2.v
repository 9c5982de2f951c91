(** The emitted Rust [read] against a decoder. *)
From Verif Require Export RsRun.
Export RsSem.

(** ** Default values, by structure *)
Definition prim_value (b : builtin) : rval :=
  match builtin_kind b with Some KF32 => RNum (NFloat 0) | Some _ => RNum (NInt 0) | None => RStr [] end.
Definition dflt_wrapped (array opt : bool) (x : rval) : rval := if opt then ROpt None else if array then RVec [] else x.
Fixpoint dflt (t : rtype) (tn : string) {struct t} : rval :=
  match t with
  | TBuiltin b => prim_value b
  | TEnum e => RVariant tn (match e_variants e with [] => "" | v :: _ => ev_name v end)
  | TStruct fs => RRec (List.map (fun f => (f_name f, dflt_wrapped (f_array f) (f_opt f) (dflt (f_ty f) (f_tname f)))) fs)
  end.

(** ** The decoder *)
Section decode.
  Context (lib : rs_lib).
  Fixpoint many (n : nat) (k : list rval -> rin -> rres (list rval)) (l : list rval) (i : rin) : rres (list rval) :=
    match n with O => Good l i | S n => rgo (k l i) (many n k) end.
  Definition into_wrapped (array opt : bool) (d : rval) (P : rval -> rin -> rres rval) (cur : rval) (i : rin) : rres rval :=
    if opt then rgo (take_num lib KU8 i) (fun n i =>
      if decide (as_int n > 0)%Z then rgo (P d i) (fun y i => Good (ROpt (Some y)) i) else Good cur i)
    else if array then match cur with
      | RVec l => rgo (take_num lib KU32 i) (fun n i =>
          rgo (many (Z.to_nat (as_int n)) (fun l i => rgo (P d i) (fun y i => Good (l ++ [y]) i)) l (reserve (as_int n) i)) (fun l i => Good (RVec l) i))
      | _ => Ill
      end
    else P cur i.
  Definition variant_of (e : enum) (z : Z) : option enum_variant := List.find (fun x => (shl1 (ev_value x) =? z)%Z) (e_variants e).
  Fixpoint into (t : rtype) (tn : string) (cur : rval) (i : rin) {struct t} : rres rval :=
    match t with
    | TBuiltin b => match builtin_kind b with
                    | Some k => rgo (take_num lib k i) (fun n i => Good (RNum n) i)
                    | None => rgo (take_num lib KU32 i) (fun n i => rgo (take_str lib (as_int n) i) (fun s i => Good (RStr s) i))
                    end
    | TEnum e => rgo (take_num lib (repr_kind (e_repr e)) i) (fun n i =>
                   match variant_of e (as_int n) with Some x => Good (RVariant tn (ev_name x)) i | None => Bad i end)
    | TStruct fs => match cur with
        | RRec xs => rgo ((fix fields (fs : list sfield) (xs : list (string * rval)) (i : rin) : rres (list (string * rval)) :=
            match fs, xs with
            | [], [] => Good [] i
            | f :: fs, (g, x) :: xs =>
                rgo (into_wrapped (f_array f) (f_opt f) (dflt (f_ty f) (f_tname f)) (into (f_ty f) (f_tname f)) x i) (fun y i =>
                rgo (fields fs xs i) (fun ys i => Good ((g, y) :: ys) i))
            | _, _ => Ill
            end) fs xs i) (fun xs i => Good (RRec xs) i)
        | _ => Ill
        end
    end.
  Definition into_field (f : sfield) := into_wrapped (f_array f) (f_opt f) (dflt (f_ty f) (f_tname f)) (into (f_ty f) (f_tname f)).
  Fixpoint into_fields (fs : list sfield) (xs : list (string * rval)) (i : rin) : rres (list (string * rval)) :=
    match fs, xs with
    | [], [] => Good [] i
    | f :: fs, (g, x) :: xs =>
        rgo (into_field f x i) (fun y i => rgo (into_fields fs xs i) (fun ys i => Good ((g, y) :: ys) i))
    | _, _ => Ill
    end.
  Lemma rgo_ext {A B} (r : rres A) (k k' : A -> rin -> rres B) : (forall a i, k a i = k' a i) -> rgo r k = rgo r k'.
  Proof. intros H. by destruct r; cbn. Qed.
  Lemma rgo_good {A} (r : rres A) : rgo r Good = r.
  Proof. by destruct r. Qed.
  Lemma rgo_rgo {A B C} (r : rres A) (k : A -> rin -> rres B) (k' : B -> rin -> rres C) : rgo (rgo r k) k' = rgo r (fun a i => rgo (k a i) k').
  Proof. by destruct r. Qed.
  Lemma into_struct fs tn xs i : into (TStruct fs) tn (RRec xs) i = rgo (into_fields fs xs i) (fun xs i => Good (RRec xs) i).
  Proof. reflexivity. Qed.
End decode.

(** ** [default()] *)
Section default.
  Context (items : list rs_item) (rank : string -> nat).
  Context (Hprim : forall p, p ∈ rust_prims -> find_item p items = None).
  Notation known := (known items rank).
  Lemma rs_name_prim tn b : builtin_of_name tn = Some b -> rs_name tn = builtin_prim b.
  Proof. unfold builtin_of_name. repeat (case_decide; [subst; by intros [= <-]|]). done. Qed.
  Lemma prim_in b : builtin_prim b ∈ rust_prims.
  Proof. apply (bool_decide_unpack _). by destruct b. Qed.
  Lemma prim_default_value b : prim_default (builtin_prim b) = Some (prim_value b).
  Proof. by destruct b. Qed.
  Lemma field_base f : known_field items rank f -> rt_base (field_rs_type f) = rs_name (f_tname f).
  Proof.
    intros [_ H]. unfold field_rs_type. cbn [rt_base]. destruct (f_ty f).
    - symmetry. by apply rs_name_prim, H.
    - symmetry. apply H.
    - symmetry. apply H.
  Qed.
  Lemma all_some_map {A B C} (f : B -> option C) (g : A -> B) (h : A -> C) l : (forall a, a ∈ l -> f (g a) = Some (h a)) -> all_some f (List.map g l) = Some (List.map h l).
  Proof.
    induction l as [|a l IH]; intros H; [done|]. cbn [List.map all_some]. rewrite H by left. rewrite IH; [done|]. intros. apply H. by right.
  Qed.
  Lemma default_of_known t : forall tn fuel, known t tn -> rank tn < fuel -> default_of fuel items (rs_name tn) = Some (dflt t tn).
  Proof.
    induction t as [b|e|fs IH] using rtype_ind'; intros tn [|fuel] Hk Hf; try lia; cbn [default_of].
    - destruct Hk as [[Hb _] _]. rewrite (rs_name_prim _ _ Hb), Hprim by apply prim_in. apply prim_default_value.
    - destruct Hk as [(_ & Hi & -> & _) _]. by rewrite Hi.
    - pose proof (fun f Hf => known_struct items rank fs tn f Hk Hf) as Hkf. destruct Hk as [(_ & Hi & -> & Hr & Hlt) Hall]. rewrite Hi. unfold struct_item.
      rewrite Forall_forall in IH. rewrite all_fields_struct in Hall.
      rewrite (all_some_map _ _ (fun f => (f_name f, dflt_wrapped (f_array f) (f_opt f) (dflt (f_ty f) (f_tname f))))); [done|].
      intros f Hin. cbn [field_rs_type rt_opt rt_vec]. rewrite field_base by apply (Hall f Hin). unfold dflt_wrapped.
      destruct (f_opt f); [done|]. destruct (f_array f); [done|]. rewrite (IH f Hin (f_tname f)); [done|apply (Hkf f Hin)|].
      specialize (Hlt f Hin). lia.
  Qed.
  Lemma default_known t tn : known t tn -> default_value items (rs_name tn) = Some (dflt t tn).
  Proof.
    intros Hk. apply default_of_known; [done|]. destruct Hk as [Hk _]. destruct t; cbn [known_leaf] in Hk.
    - destruct Hk as [_ ->]. lia.
    - destruct Hk as (_ & _ & _ & H). lia.
    - destruct Hk as (_ & _ & _ & H & _). lia.
  Qed.
End default.

(** ** The values on which the code can be run: all fields are there *)
Definition fits_wrapped (array opt : bool) (P : rval -> Prop) (x : rval) : Prop :=
  if opt then True else if array then exists l, x = RVec l else P x.
Fixpoint fits (t : rtype) (x : rval) {struct t} : Prop :=
  match t with
  | TStruct fs => exists xs, x = RRec xs /\
      (fix fields (fs : list sfield) (xs : list (string * rval)) : Prop :=
         match fs, xs with
         | [], [] => True
         | f :: fs, (g, x) :: xs => g = f_name f /\ fits_wrapped (f_array f) (f_opt f) (fits (f_ty f)) x /\ fields fs xs
         | _, _ => False
         end) fs xs
  | _ => True
  end.
Definition fits_field (f : sfield) (gx : string * rval) : Prop := gx.1 = f_name f /\ fits_wrapped (f_array f) (f_opt f) (fits (f_ty f)) gx.2.
Lemma fits_struct fs x : fits (TStruct fs) x <-> exists xs, x = RRec xs /\ Forall2 fits_field fs xs.
Proof.
  cbn [fits]. apply exist_proper. intros xs. apply and_iff_compat_l. revert xs. induction fs as [|f fs IH]; intros [|[g y] xs].
  - by split.
  - split; [done|]. inversion 1.
  - split; [done|]. inversion 1.
  - rewrite Forall2_cons, <- IH. unfold fits_field. cbn [fst snd]. tauto.
Qed.
Lemma fits_dflt t : forall tn, fits t (dflt t tn).
Proof.
  induction t as [b|e|fs IH] using rtype_ind'; intros tn; [done|done|]. apply fits_struct. eexists. split; [reflexivity|].
  induction IH as [|f fs Hf _ IH]; [constructor|]. cbn [List.map]. constructor; [|done]. split; [done|]. cbn [snd]. unfold fits_wrapped, dflt_wrapped.
  destruct (f_opt f); [done|]. destruct (f_array f); [by eexists|]. apply Hf.
Qed.
Lemma fits_keys fs xs : Forall2 fits_field fs xs -> xs.*1 = map f_name fs.
Proof. induction 1 as [|f [g x] fs xs [H _] _ IH]; [done|]. cbn in *. by f_equal. Qed.

(** ** Names *)
Fixpoint longer (x y : string) : Prop := match x, y with "", String _ _ => True | String _ x, String _ y => longer x y | _, _ => False end.
Lemma longer_length x y : longer x y <-> String.length x < String.length y.
Proof. revert y. induction x as [|c x IH]; intros [|d y]; cbn; [split; [done|lia]|split; [lia|done]|split; [done|lia]|]. rewrite IH. lia. Qed.
Lemma length_sapp x y : String.length (x +:+ y) = String.length x + String.length y.
Proof. induction x as [|c x IH]; [done|]. rewrite sapp_cons. cbn [String.length Nat.add]. by rewrite IH. Qed.
Lemma join_cons_longer r p ps : String.length r < String.length (join "_" (r :: p :: ps)).
Proof. change (join "_" (r :: p :: ps)) with (r +:+ "_" +:+ join "_" (p :: ps)). rewrite !length_sapp. cbn [String.length]. lia. Qed.
Lemma join_longer r ps : String.length r <= String.length (join "_" (r :: ps)).
Proof. destruct ps as [|p ps]; [done|]. pose proof (join_cons_longer r p ps). lia. Qed.
Lemma varname_longer r ps x : longer r (varname (r :: ps) x).
Proof. apply longer_length. unfold varname. rewrite !length_sapp. pose proof (join_longer r ps). cbn [String.length]. lia. Qed.
Lemma bindname_longer r ps f : longer r (bindname (r :: ps ++ [f])).
Proof. apply longer_length. unfold bindname. destruct ps; apply join_cons_longer. Qed.
Lemma longer_trans x y z : longer x y -> longer y z -> longer x z.
Proof. rewrite !longer_length. lia. Qed.
Lemma longer_irrefl x : ~ longer x x.
Proof. rewrite longer_length. lia. Qed.
Definition all_longer (r : string) (news : renv) : Prop := Forall (longer r) news.*1.
Lemma all_longer_not r news : all_longer r news -> r ∉ news.*1.
Proof. intros H Hin. unfold all_longer in H. rewrite Forall_forall in H. exact (longer_irrefl _ (H _ Hin)). Qed.
Lemma all_longer_app r a b : all_longer r (a ++ b) <-> all_longer r a /\ all_longer r b.
Proof. unfold all_longer. by rewrite fmap_app, Forall_app. Qed.
Lemma all_longer_trans r s news : longer r s -> all_longer s news -> all_longer r news.
Proof. intros H Hn. unfold all_longer in *. eapply Forall_impl; [exact Hn|]. intros x. by apply longer_trans. Qed.

(** ** Simulation *)
Section sim.
  Context (items : list rs_item) (rank : string -> nat).
  Context (Hprim : forall p, p ∈ rust_prims -> find_item p items = None).
  Context (lib : rs_lib).
  Notation known := (known items rank).
  Notation RB := (rblock lib items).
  (** the block has put [y] at the place, and declared variables *)
  Definition after (r : string) (ps : list string) (env env' : renv) (y : rval) : Prop :=
    exists news env1, env' = news ++ env1 /\ all_longer r news /\ set_place (Place r ps) y env = Some env1.
  Definition sim (b : list rstmt) (r : string) (ps : list string) (env : renv) (i : rin) (res : rres rval) : Prop :=
    match res with
    | Good y i' => exists env', RB b env i = Good env' i' /\ after r ps env env' y
    | Bad i' => RB b env i = Bad i'
    | Ill => True
    end.
  Lemma after_here r ps env env1 y : set_place (Place r ps) y env = Some env1 -> after r ps env env1 y.
  Proof. intros H. exists [], env1. split; [done|]. split; [by apply Forall_nil|done]. Qed.
  Lemma rblock_app a b env i : RB (a ++ b) env i = rgo (RB a env i) (RB b).
  Proof. revert env i. induction a as [|s a IH]; intros env i; [done|]. cbn [app rblock]. rewrite rgo_rgo. apply rgo_ext. intros. apply IH. Qed.
  Lemma rblock_one s env i : RB [s] env i = rrun lib items s env i.
  Proof. cbn [rblock]. apply rgo_good. Qed.
  Lemma rrun_for x b env i : rrun lib items (RFor x b) env i =
    match find_key x env with
    | Some (RNum n) => repeat_run (Z.to_nat (as_int n)) (fun env i => rgo (RB b env i) (fun env' i => Good (leave env env') i)) env i
    | _ => Ill
    end.
  Proof. reflexivity. Qed.
  Lemma run_arr x p b env i : RB [RCount x; RReserve p x; RFor x b] env i =
    rgo (take_num lib KU32 i) (fun n i =>
      match get_place p ((x, RNum n) :: env) with
      | Some (RVec _) => repeat_run (Z.to_nat (as_int n)) (fun env i => rgo (RB b env i) (fun env' i => Good (leave env env') i)) ((x, RNum n) :: env) (reserve (as_int n) i)
      | _ => Ill
      end).
  Proof.
    change (RB [RCount x; RReserve p x; RFor x b] env i) with
      (rgo (rgo (take_num lib KU32 i) (fun n i => Good ((x, RNum n) :: env) i)) (fun env i => rgo (rrun lib items (RReserve p x) env i) (RB [RFor x b]))).
    rewrite rgo_rgo. apply rgo_ext. intros n j. cbn [rgo rrun]. destruct (get_place p ((x, RNum n) :: env)) as [[]|]; try done.
    cbn [find_key]. rewrite decide_True by done. cbn [rgo]. rewrite rblock_one, rrun_for. cbn [find_key]. by rewrite decide_True.
  Qed.
  Lemma rrun_if b env i : rrun lib items (RIf b) env i =
    rgo (take_num lib KU8 i) (fun n i => if decide (as_int n > 0)%Z then rgo (RB b env i) (fun env' i => Good (leave env env') i) else Good env i).
  Proof. reflexivity. Qed.
  Lemma leave_app (outer news env1 : renv) : length env1 = length outer -> leave outer (news ++ env1) = env1.
  Proof. intros H. unfold leave. rewrite app_length, H. rewrite Nat.add_sub. by rewrite drop_app. Qed.
  Lemma set_same p env cur : get_place p env = Some cur -> exists env1, set_place p cur env = Some env1 /\ env1 = env.
  Proof.
    intros H. destruct (set_place_some _ _ _ cur H) as [env1 H1]. exists env1. split; [done|]. revert H H1. unfold get_place, set_place.
    destruct (find_key (pl_root p) env) as [v|] eqn:E; [|done]. intros Hg.
    assert (set_path v (pl_path p) cur = Some v) as ->.
    { clear E. revert v Hg. induction (pl_path p) as [|f ps IH]; intros v; [by intros [= ->]|]. destruct v; try done. cbn [get_path set_path].
      destruct (find_key f fs) as [x|] eqn:E; [|done]. intros Hx. rewrite (IH x Hx).
      assert (set_key f x fs = Some fs) as ->; [|done]. clear -E. induction fs as [|[y u] fs IH]; [done|]. cbn [find_key set_key] in *.
      case_decide; [by simplify_eq|]. by rewrite IH. }
    intros H1. assert (set_key (pl_root p) v env = Some env) as H2; [|congruence]. clear -E. induction env as [|[y u] env IH]; [done|]. cbn [find_key set_key] in *.
    case_decide; [by simplify_eq|]. by rewrite IH.
  Qed.
  Lemma after_leaf r ps env i cur (P : rval) b i' : get_place (Place r ps) env = Some cur ->
    RB b env i = some_or_ill (set_place (Place r ps) P env) i' -> sim b r ps env i (Good P i').
  Proof.
    intros Hg Hb. destruct (set_place_some _ _ _ P Hg) as [env1 H1]. exists env1. rewrite Hb, H1. split; [done|]. by apply after_here.
  Qed.

  (** what the code for a type does at any place that holds a value *)
  Definition simulates (fit : rval -> Prop) (code : rs_emit) (dec : rval -> rin -> rres rval) : Prop :=
    forall r ps env i cur, fit cur -> get_place (Place r ps) env = Some cur -> sim (code (r :: ps)) r ps env i (dec cur i).

  Lemma get_own x (v : rval) env : get_place (Place x []) ((x, v) :: env) = Some v.
  Proof. unfold get_place. cbn [pl_root find_key]. by rewrite decide_True. Qed.
  (** a block that reads a value into a new variable *)
  Lemma fresh_var fit code dec x d env i : simulates fit code dec -> fit d -> 
    match dec d i with
    | Good y i' => exists news, RB (code [x]) ((x, d) :: env) i = Good (news ++ (x, y) :: env) i' /\ all_longer x news
    | Bad i' => RB (code [x]) ((x, d) :: env) i = Bad i'
    | Ill => True
    end.
  Proof.
    intros Hs Hfd. specialize (Hs x [] ((x, d) :: env) i d Hfd (get_own x d env)). unfold sim in Hs. destruct (dec d i) as [y i'|i'|]; [|done|done].
    destruct Hs as (env' & HR & news & env1 & -> & Hl & Hset). exists news. rewrite HR. split; [|done].
    unfold set_place in Hset. cbn [pl_root pl_path find_key set_path set_key] in Hset. rewrite decide_True in Hset by done. cbn [set_key] in Hset. rewrite decide_True in Hset by done. by injection Hset as <-.
  Qed.

  Lemma sim_wrapped (f : sfield) (fit : rval -> Prop) code dec ty d :
    f_array f && f_opt f = false -> default_value items ty = Some d -> fit d -> simulates fit code dec -> forall r ps g env i cur, fits_wrapped (f_array f) (f_opt f) fit cur ->
    get_place (Place r (ps ++ [g])) env = Some cur ->
    sim (rr_wrap (f_array f) (f_opt f) ty code (r :: ps ++ [g])) r (ps ++ [g]) env i (into_wrapped lib (f_array f) (f_opt f) d dec cur i).
  Proof.
    intros Hao Hd Hfd Hs r ps g env i cur Hfit Hg. unfold rr_wrap, into_wrapped. destruct (f_opt f).
    - destruct (f_array f); [done|]. unfold rr_opt. cbn [place_of]. set (b := bindname (r :: ps ++ [g])).
      assert (longer r b) as Hb by apply bindname_longer. unfold sim. rewrite rblock_one, rrun_if. destruct (take_num lib KU8 i) as [n i1|i1|]; cbn [rgo]; [|done|done].
      case_decide; [|destruct (set_same _ _ _ Hg) as (env1 & He & ->); exists env; split; [done|by apply after_here]].
      cbn [rblock rrun]. rewrite Hd. cbn [some_or_ill rgo]. rewrite rblock_app. pose proof (fresh_var fit code dec b d env i1 Hs Hfd) as HF.
      destruct (dec d i1) as [y i2|i2|]; cbn [rgo]; [|by rewrite HF|done]. destruct HF as (news & -> & Hl). cbn [rgo]. rewrite rblock_one. cbn [rrun].
      rewrite find_key_skip by (by apply all_longer_not). cbn [find_key]. rewrite decide_True by done.
      destruct (set_place_some _ _ _ (ROpt (Some y)) Hg) as [env1 H1].
      assert (r ∉ (news ++ [(b, y)]).*1) as Hr.
      { apply all_longer_not. apply all_longer_app. split; [by eapply all_longer_trans|]. by apply Forall_singleton. }
      rewrite (cons_middle (b, y) news env), (assoc_L (++)). rewrite set_place_skip by done. rewrite H1. cbn [some_or_ill rgo].
      exists env1. rewrite leave_app by (by eapply set_place_length). split; [done|]. by apply after_here.
    - destruct (f_array f); [|by apply Hs]. destruct cur as [| | |l| |]; try done. unfold rr_arr. cbn [place_of]. set (ln := varname (r :: ps ++ [g]) "len"). set (it := varname (r :: ps ++ [g]) "item").
      assert (longer r ln) as Hln by apply varname_longer. assert (longer r it) as Hit by apply varname_longer.
      unfold sim. rewrite run_arr. destruct (take_num lib KU32 i) as [n i1|i1|]; cbn [rgo]; [|done|done].
      assert (forall l env1 x, set_place (Place r (ps ++ [g])) (RVec l) env = Some env1 -> get_place (Place r (ps ++ [g])) ((ln, x) :: env1) = Some (RVec l)) as Hget.
      { intros l' env1 x H1. change ((ln, x) :: env1) with ([(ln, x)] ++ env1). rewrite get_place_skip; [by eapply get_set_place|].
        cbn [pl_root]. apply (all_longer_not r [(ln, x)]). by apply Forall_singleton. }
      destruct (set_same _ _ _ Hg) as (env0 & H0 & E0). rewrite E0 in H0. clear env0 E0. rewrite (Hget l env (RNum n) H0).
      set (body := RDefault it ty :: code [it] ++ [RPush (Place r (ps ++ [g])) it]).
      assert (forall env j, RB body env j = rgo (RB (code [it]) ((it, d) :: env) j) (RB [RPush (Place r (ps ++ [g])) it])) as HB.
      { intros env0 j. unfold body. cbn [rblock rrun]. rewrite Hd. cbn [some_or_ill rgo]. by rewrite rblock_app. }
      assert (forall k l env1 i, set_place (Place r (ps ++ [g])) (RVec l) env = Some env1 ->
        match many k (fun l i => rgo (dec d i) (fun y i => Good (l ++ [y]) i)) l i with
        | Good l' i' => exists env2, repeat_run k (fun env i => rgo (RB body env i) (fun env' i => Good (leave env env') i)) ((ln, RNum n) :: env1) i = Good ((ln, RNum n) :: env2) i' /\
            set_place (Place r (ps ++ [g])) (RVec l') env = Some env2
        | Bad i' => repeat_run k (fun env i => rgo (RB body env i) (fun env' i => Good (leave env env') i)) ((ln, RNum n) :: env1) i = Bad i'
        | Ill => True
        end) as HL.
      { clear l Hg H0 Hfit. induction k as [|k IH]; intros l env1 j H1; [exists env1; done|]. cbn [many repeat_run]. rewrite rgo_rgo.
        rewrite (HB ((ln, RNum n) :: env1) j). pose proof (fresh_var fit code dec it d ((ln, RNum n) :: env1) j Hs Hfd) as HF.
        destruct (dec d j) as [y j1|j1|]; cbn [rgo]; [|by rewrite HF|done]. destruct HF as (news & -> & Hl). cbn [rgo]. rewrite rblock_one. cbn [rrun].
        assert (r ∉ (news ++ [(it, y)]).*1) as Hr.
        { apply all_longer_not. apply all_longer_app. split; [by eapply all_longer_trans|]. by apply Forall_singleton. }
        rewrite (cons_middle (it, y) news), (assoc_L (++)). rewrite get_place_skip by done. rewrite (Hget l env1 (RNum n) H1).
        rewrite <- (assoc_L (++)), find_key_skip by (by apply all_longer_not). cbn [app find_key]. rewrite decide_True by done.
        destruct (set_place_some _ _ _ (RVec (l ++ [y])) (get_set_place _ _ _ _ H1)) as [env2 H2].
        change ((it, y) :: (ln, RNum n) :: env1) with ([(it, y)] ++ [(ln, RNum n)] ++ env1). rewrite !(assoc_L (++)). rewrite set_place_skip.
        2:{ cbn [pl_root]. apply all_longer_not. rewrite !all_longer_app. split; [split; [by eapply all_longer_trans|by apply Forall_singleton]|by apply Forall_singleton]. }
        rewrite H2. cbn [some_or_ill rgo]. rewrite <- (assoc_L (++)). rewrite leave_app by (cbn; f_equal; by eapply set_place_length).
        rewrite (set_set_place _ _ _ _ _ H1) in H2. apply (IH (l ++ [y]) env2 j1 H2). }
      specialize (HL (Z.to_nat (as_int n)) l env (reserve (as_int n) i1) H0).
      destruct (many _ _ l _) as [l' i2|i2|]; cbn [rgo]; [|by rewrite HL|done]. destruct HL as (env2 & HR & H2). rewrite HR. cbn [rgo].
      eexists. split; [done|]. exists [(ln, RNum n)], env2. split; [done|]. split; [by apply Forall_singleton|done].
  Qed.

  Lemma try_from_known tn e z : find_item tn items = Some (enum_item tn e) ->
    try_from items tn z = Some (match variant_of e z with Some x => Some (RVariant tn (ev_name x)) | None => None end).
  Proof.
    intros Hi. unfold try_from. rewrite Hi. unfold enum_item, variant_of. f_equal. induction (e_variants e) as [|x l IH]; [done|].
    cbn [List.map List.find fst snd]. destruct (shl1 (ev_value x) =? z)%Z; [done|]. apply IH.
  Qed.

  Lemma fields_sim fs0 r ps :
    Forall (fun f => f_array f && f_opt f = false /\ default_value items (rs_name (f_tname f)) = Some (dflt (f_ty f) (f_tname f)) /\
      simulates (fits (f_ty f)) (rr_ty (f_ty f) (f_tname f)) (into lib (f_ty f) (f_tname f))) fs0 ->
    forall xs before env i, Forall2 fits_field fs0 xs -> NoDup (before ++ xs).*1 -> get_place (Place r ps) env = Some (RRec (before ++ xs)) ->
    match into_fields lib fs0 xs i with
    | Good ys i' => exists env', RB (rr_fields fs0 (r :: ps)) env i = Good env' i' /\ after r ps env env' (RRec (before ++ ys))
    | Bad i' => RB (rr_fields fs0 (r :: ps)) env i = Bad i'
    | Ill => True
    end.
  Proof.
    induction 1 as [|f fs0 (Hao & Hd & Hs) _ IH]; intros xs before env i Hk Hn Hg.
    - inversion Hk. subst xs. cbn. exists env. split; [done|]. destruct (set_same _ _ _ Hg) as (env1 & H1 & ->). by apply after_here.
    - destruct xs as [|[g x] xs]; [inversion Hk|]. apply Forall2_cons in Hk as [[Eg Hfx] Hk]. cbn [fst snd] in Eg, Hfx. subst g.
      assert (f_name f ∉ before.*1) as Hb.
      { rewrite fmap_app in Hn. apply NoDup_app in Hn as (_ & Hn & _). intros Hx. apply (Hn _ Hx). rewrite fmap_cons. by left. }
      change (rr_fields (f :: fs0) (r :: ps)) with (rr_field f (r :: ps) ++ rr_fields fs0 (r :: ps)). rewrite rblock_app. cbn [into_fields].
      assert (get_place (Place r (ps ++ [f_name f])) env = Some x) as Hgx by (rewrite get_place_snoc, Hg; by apply find_key_mid).
      pose proof (sim_wrapped f (fits (f_ty f)) (rr_ty (f_ty f) (f_tname f)) (into lib (f_ty f) (f_tname f)) (rs_name (f_tname f)) (dflt (f_ty f) (f_tname f)) Hao Hd (fits_dflt _ _) Hs r ps (f_name f) env i x Hfx Hgx) as HW.
      change (rr_wrap (f_array f) (f_opt f) (rs_name (f_tname f)) (rr_ty (f_ty f) (f_tname f)) (r :: ps ++ [f_name f])) with (rr_field f (r :: ps)) in HW.
      unfold sim in HW. unfold into_field at 1. destruct (into_wrapped lib _ _ _ _ x i) as [y i1|i1|]; cbn [rgo]; [|by rewrite HW|done].
      destruct HW as (env' & -> & news & env1 & -> & Hl & Hset). cbn [rgo].
      rewrite (set_place_snoc r ps (f_name f) env _ y (before ++ (f_name f, y) :: xs) x Hg) in Hset; [|by apply set_key_mid|by apply find_key_mid].
      specialize (IH xs (before ++ [(f_name f, y)]) (news ++ env1) i1 Hk). rewrite <- (assoc_L (++)) in IH. cbn [app] in IH.
      assert (NoDup (before ++ (f_name f, y) :: xs).*1) as Hn'.
      { rewrite fmap_app, fmap_cons in *. exact Hn. }
      specialize (IH Hn'). rewrite get_place_skip in IH by (by apply all_longer_not). specialize (IH (get_set_place _ _ _ _ Hset)).
      destruct (into_fields lib fs0 xs i1) as [ys i2|i2|]; cbn [rgo]; [|done|done]. destruct IH as (env2 & HR & news2 & env3 & -> & Hl2 & Hset2).
      eexists. split; [exact HR|]. rewrite set_place_skip in Hset2 by (by apply all_longer_not). rewrite (set_set_place _ _ _ _ _ Hset) in Hset2.
      rewrite <- (assoc_L (++)) in Hset2. cbn [app] in Hset2. destruct (set_place (Place r ps) (RRec (before ++ (f_name f, y) :: ys)) env) as [e|] eqn:Ee; [|done]. injection Hset2 as <-.
      exists (news2 ++ news), e. split; [by rewrite (assoc_L (++))|]. split; [by apply all_longer_app|done].
  Qed.
  Lemma sim_ty t : forall tn, known t tn -> simulates (fits t) (rr_ty t tn) (into lib t tn).
  Proof.
    induction t as [b|e|fs IH] using rtype_ind'; intros tn Hk r ps env i cur Hfit Hg.
    - destruct Hk as [[Hb _] _]. pose proof (kind_of_builtin _ _ Hb) as Hkd. cbn [rr_ty into]. destruct (builtin_kind b) as [k|] eqn:Ek.
      + assert (sim [RCall (Place r ps) tn] r ps env i (rgo (take_num lib k i) (fun n i => Good (RNum n) i))) as H; [|by destruct b].
        destruct (take_num lib k i) as [n i1|i1|] eqn:E; cbn [rgo].
        * eapply after_leaf; [done|]. rewrite rblock_one. cbn [rrun]. by rewrite Hkd, E.
        * unfold sim. rewrite rblock_one. cbn [rrun]. by rewrite Hkd, E.
        * done.
      + assert (b = BString) as -> by (by destruct b). cbn [rr_builtin place_of]. set (ln := varname (r :: ps) "len").
        assert (longer r ln) as Hln by apply varname_longer.
        unfold sim. cbn [rblock rrun]. destruct (take_num lib KU32 i) as [n i1|i1|]; cbn [rgo]; [|done|done]. cbn [find_key]. rewrite decide_True by done.
        destruct (take_str lib (as_int n) i1) as [s i2|i2|]; cbn [rgo]; [|done|done].
        destruct (set_place_some _ _ _ (RStr s) Hg) as [env1 H1].
        change ((ln, RNum n) :: env) with ([(ln, RNum n)] ++ env). rewrite set_place_skip, H1.
        2:{ cbn [pl_root]. apply (all_longer_not r [(ln, RNum n)]). by apply Forall_singleton. }
        cbn [some_or_ill rgo]. eexists. split; [done|]. exists [(ln, RNum n)], env1. split; [done|]. split; [by apply Forall_singleton|done].
    - destruct Hk as [(He & Hi & _) _]. cbn [rr_ty into]. unfold rr_enum. cbn [place_of].
      destruct (take_num lib (repr_kind (e_repr e)) i) as [n i1|i1|] eqn:E; cbn [rgo].
      + destruct (variant_of e (as_int n)) as [x|] eqn:Ev.
        * eapply after_leaf; [done|]. rewrite rblock_one. cbn [rrun]. rewrite kind_of_repr, E. cbn [rgo]. by rewrite (try_from_known _ _ _ Hi), Ev.
        * unfold sim. rewrite rblock_one. cbn [rrun]. rewrite kind_of_repr, E. cbn [rgo]. by rewrite (try_from_known _ _ _ Hi), Ev.
      + unfold sim. rewrite rblock_one. cbn [rrun]. by rewrite kind_of_repr, E.
      + done.
    - apply fits_struct in Hfit as (xs & -> & Hfit). rewrite into_struct.
      pose proof (fun f Hf => known_struct items rank fs tn f Hk Hf) as Hkf. destruct Hk as [(Hnd & _) _]. rewrite Forall_forall in IH.
      assert (Forall (fun f => f_array f && f_opt f = false /\ default_value items (rs_name (f_tname f)) = Some (dflt (f_ty f) (f_tname f)) /\
        simulates (fits (f_ty f)) (rr_ty (f_ty f) (f_tname f)) (into lib (f_ty f) (f_tname f))) fs) as HF.
      { apply Forall_forall. intros f Hf. destruct (Hkf f Hf) as [H1 H2]. split; [done|]. split; [by apply (default_known items rank Hprim)|by apply IH]. }
      pose proof (fields_sim fs r ps HF xs [] env i Hfit) as H. cbn [app] in H. rewrite (fits_keys _ _ Hfit) in H. specialize (H Hnd Hg).
      change (rr_ty (TStruct fs) tn (r :: ps)) with (rr_fields fs (r :: ps)). unfold sim. destruct (into_fields lib fs xs i); cbn [rgo]; done.
  Qed.
End sim.
