(** Early errors of JavaScript that concern the generated functions: a block (or function body)
    that declares one name twice with [let], or redeclares a parameter. Such a module does not load
    at all. ECMA-262, "Block: Static Semantics: Early Errors". *)
From Verif Require Export TsAst.

(** names declared directly in a statement list *)
Definition lets (b : list stmt) : list string :=
  List.concat (List.map (fun s => match s with SSimple (Let _ x _) => [x] | _ => [] end) b).

(** all blocks below a statement are free of duplicate declarations *)
Fixpoint inner_ok (s : stmt) : Prop :=
  let block b := NoDup (lets b) /\ fold_right (fun s P => inner_ok s /\ P) True b in
  match s with
  | SSimple _ | SIfLine _ _ _ => True
  | SIf _ b1 b2 => block b1 /\ block b2
  | SFor _ _ b => block b
  | SSwitch _ _ b => block b
  end.
Definition block_ok (b : list stmt) : Prop := NoDup (lets b) /\ fold_right (fun s P => inner_ok s /\ P) True b.

(** the bodies of read (parameter data, locals reader and output) and write *)
Definition read_ok (k : cls) : Prop :=
  NoDup ("data" :: "reader" :: "output" :: lets (k_read k)) /\ block_ok (k_read k).
Definition write_ok (k : cls) : Prop :=
  NoDup ("buffer" :: "writer" :: lets (k_write k)) /\ block_ok (k_write k).

(** Words that may not name a parameter or a class in strict code. *)
Definition js_reserved : list string :=
  ["break"; "case"; "catch"; "class"; "const"; "continue"; "debugger"; "default"; "delete"; "do"; "else"; "enum";
   "export"; "extends"; "false"; "finally"; "for"; "function"; "if"; "import"; "in"; "instanceof"; "new"; "null";
   "return"; "super"; "switch"; "this"; "throw"; "true"; "try"; "typeof"; "var"; "void"; "while"; "with"; "yield";
   "await"; "implements"; "interface"; "let"; "package"; "private"; "protected"; "public"; "static"; "eval"; "arguments"].
(** constructor parameters: legal and distinct; class name: legal, and not one of the imported names *)
Definition head_ok (k : cls) : Prop :=
  Forall (fun x => x ∉ js_reserved) (k_params k).*1 /\ NoDup (k_params k).*1 /\
  k_name k ∉ js_reserved /\ k_name k ∉ ["Reader"; "Writer"].
(** the module has no early error *)
Definition loads (k : cls) : Prop := head_ok k /\ read_ok k /\ write_ok k.

Fixpoint inner_okb (s : stmt) : bool :=
  let block b := bool_decide (NoDup (lets b)) && forallb inner_okb b in
  match s with
  | SSimple _ | SIfLine _ _ _ => true
  | SIf _ b1 b2 => block b1 && block b2
  | SFor _ _ b => block b
  | SSwitch _ _ b => block b
  end.
Lemma stmt_ind2 (P : stmt -> Prop) :
  (forall s, P (SSimple s)) -> (forall c b1 b2, Forall P b1 -> Forall P b2 -> P (SIf c b1 b2)) ->
  (forall c s1 s2, P (SIfLine c s1 s2)) -> (forall i n b, Forall P b -> P (SFor i n b)) ->
  (forall e s b, Forall P b -> P (SSwitch e s b)) -> forall s, P s.
Proof.
  intros H1 H2 H3 H4 H5. fix IH 1. intros s.
  assert (forall b, Forall P b) as Hb by (fix IHb 1; intros [|x b]; [constructor|constructor; [apply IH|apply IHb]]).
  destruct s; [apply H1|apply H2; apply Hb|apply H3|apply H4; apply Hb|apply H5; apply Hb].
Qed.
Lemma inner_okb_spec s : inner_okb s = true <-> inner_ok s.
Proof.
  assert (forall b, Forall (fun s => inner_okb s = true <-> inner_ok s) b ->
    (bool_decide (NoDup (lets b)) && forallb inner_okb b = true <->
     NoDup (lets b) /\ fold_right (fun s P => inner_ok s /\ P) True b)) as HB.
  { intros b Hb. rewrite andb_true_iff, bool_decide_eq_true. f_equiv.
    induction Hb as [|x b Hx _ IH]; [done|]. cbn [forallb fold_right]. rewrite andb_true_iff, Hx, IH. done. }
  induction s as [s|c b1 b2 H1 H2|c s1 s2|i n b H|e s b H] using stmt_ind2; cbn [inner_okb inner_ok]; try done.
  - rewrite andb_true_iff, (HB _ H1), (HB _ H2). done.
  - by rewrite (HB _ H).
  - by rewrite (HB _ H).
Qed.
#[export] Instance inner_ok_dec s : Decision (inner_ok s).
Proof. refine (cast_if (decide (inner_okb s = true))); by rewrite <- inner_okb_spec. Defined.
#[export] Instance inners_dec b : Decision (fold_right (fun s P => inner_ok s /\ P) True b).
Proof. induction b; cbn [fold_right]; apply _. Defined.
#[export] Instance loads_dec k : Decision (loads k).
Proof. unfold loads, head_ok, read_ok, write_ok, block_ok. apply _. Defined.
