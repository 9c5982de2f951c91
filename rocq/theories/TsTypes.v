(** A type checker for the emitted TypeScript, for the compiler option [strict]. Written from the rules of TypeScript;
    it knows nothing of the generator. It accepts no more than TypeScript does:
    - [let] variables without annotation get the type of their initialiser, and no variable is used in its temporal
      dead zone (error 2448);
    - types are compared by name; nothing but [undefined] and [T] is assignable to [T | undefined];
    - in [switch (x) { case undefined: case null: ... default: ... }] the default branch sees [x] without [undefined];
    - the library [packet] declares the methods of [kind_of] with parameters and results of type number, [read_string] and
      [write_string], [failed: boolean], and constructors that take an ArrayBuffer. *)
From Verif Require Export TsSem GenSpec.

Inductive ty :=
| TyAny | TyNum | TyStr | TyBool | TyUndef
| TyEmpty            (* {} *)
| TyThis             (* an instance of the class *)
| TyRef (n : string) (* a type that is declared in the namespace *)
| TyArr (t : ty) | TyOpt (t : ty).  (* t[], t | undefined *)
#[export] Instance ty_eq_dec : EqDecision ty.
Proof. solve_decision. Defined.

(** ** Types in the text: T, N.T, with [] and | undefined *)
Definition p_type_parts : tparser (string * option string * bool * bool) :=
  get a <- a_name;
  get b <- when "." (get _ <- eat "."; get b <- a_name; tret (Some b)) (tret None);
  get c <- when "[" (get _ <- eat "[]"; tret true) (tret false);
  get d <- when "|" (get _ <- eat "| undefined"; tret true) (tret false);
  tret (a, b, c, d).
Definition type_parts (s : string) : option (string * option string * bool * bool) :=
  match p_type_parts (tokens s) with Some (x, []) => Some x | _ => None end.
Definition arr_if (c : bool) (t : ty) : ty := if c then TyArr t else t.
Definition opt_if (d : bool) (t : ty) : ty := if d then TyOpt t else t.

(** words that may not name a class, an interface or an enum: error 2414, 2427, 2431 *)
Definition ts_reserved : list string :=
  ["any"; "unknown"; "never"; "number"; "bigint"; "boolean"; "string"; "symbol"; "void"; "object"; "undefined"].

Section types.
  Context (ds : list decl) (k : cls).

  Definition find_decl (n : string) : option decl := List.find (fun d => bool_decide (decl_name d = n)) ds.
  Definition is_enum (n : string) : bool := match find_decl n with Some (DEnum _ _) => true | _ => false end.
  (** what a name means: in the namespace, its declarations are in scope; elsewhere they have to be qualified *)
  Definition named (inside : bool) (a : string) (b : option string) : option ty :=
    match b with
    | None => if decide (a = "number") then Some TyNum
              else if decide (a = "string") then Some TyStr
              else if inside then match find_decl a with Some _ => Some (TyRef a) | None => None end
              else None
    | Some b => if decide (a = k_name k) then match find_decl b with Some _ => Some (TyRef b) | None => None end else None
    end.
  Definition read_type (inside : bool) (s : string) : option ty :=
    match type_parts s with
    | Some (a, b, c, d) => match named inside a b with Some t => Some (opt_if d (arr_if c t)) | None => None end
    | None => None
    end.

  (** the type of [e.f] for [e] of type [t] *)
  Definition param_ty (f : string) : option ty :=
    match List.find (fun p => bool_decide (p.1 = f)) (k_params k) with
    | Some (_, s) => read_type false s
    | None => None
    end.
  Definition interface_ty (ms : list (string * bool * string)) (f : string) : option ty :=
    match List.find (fun m => bool_decide (m.1.1 = f)) ms with
    | Some (_, o, s) => match read_type true s with Some t => Some (opt_if o t) | None => None end
    | None => None
    end.
  Definition member_ty (t : ty) (f : string) : option ty :=
    match t with
    | TyAny => Some TyAny
    | TyThis => param_ty f
    | TyRef n => match find_decl n with Some (DInterface _ ms) => interface_ty ms f | _ => None end
    | TyStr | TyArr _ => if decide (f = "length") then Some TyNum else None
    | _ => None
    end.

  (** any, number, or an enum *)
  Definition numeric (t : ty) : bool :=
    match t with TyAny | TyNum => true | TyRef n => is_enum n | _ => false end.
  Definition assignable (t u : ty) : bool :=
    bool_decide (t = TyAny) || bool_decide (u = TyAny) || bool_decide (t = u) ||
    match u with
    | TyNum => numeric t
    | TyOpt u => bool_decide (t = TyUndef) || bool_decide (t = u)
    | _ => false
    end.

  (** ** Scopes: [None] while a variable is in its dead zone *)
  Notation tframe := (gmap string (option ty)).
  Notation tenv := (list tframe).
  Fixpoint var_ty (x : string) (env : tenv) : option ty :=
    match env with
    | [] => None
    | fr :: env => match fr !! x with Some o => o | None => var_ty x env end
    end.
  Definition dead (b : list stmt) : tframe := list_to_map (List.map (fun x => (x, None)) (lets b)).
  Definition declare (x : string) (t : ty) (env : tenv) : tenv :=
    match env with fr :: env => <[x := Some t]> fr :: env | [] => [] end.

  Fixpoint expr_ty (env : tenv) (e : expr) : option ty :=
    match e with
    | EVar x => var_ty x env
    | ENum _ => Some TyNum
    | EUndef => Some TyUndef
    | EObj => Some TyEmpty
    | EProp e f => match expr_ty env e with Some t => member_ty t f | None => None end
    | EElem e i =>
        match expr_ty env e, expr_ty env i with
        | Some TyAny, Some i => if numeric i then Some TyAny else None
        | Some (TyArr t), Some i => if numeric i then Some t else None
        | _, _ => None
        end
    | ERead m => match kind_of m with Some _ => Some TyNum | None => None end
    | EReadStr n => match expr_ty env n with Some t => if assignable t TyNum then Some TyStr else None | None => None end
    | ENewArr n => match expr_ty env n with Some t => if assignable t TyNum then Some (TyArr TyAny) else None | None => None end
    | ELe a b | EGt a b =>
        match expr_ty env a, expr_ty env b with
        | Some t, Some u => if numeric t && numeric u then Some TyBool else None
        | _, _ => None
        end
    | EAnd a b => match expr_ty env a, expr_ty env b with Some _, Some TyBool => Some TyBool | _, _ => None end
    | EAs e => match expr_ty env e with Some t => if numeric t then Some TyNum else None | None => None end
    end.

  Definition check_simple (env : tenv) (s : simple) : option tenv :=
    match s with
    | Let any x e =>
        match expr_ty env e with
        | Some t => if any then Some (declare x TyAny env) else if decide (t = TyUndef) then None else Some (declare x t env)
        | None => None
        end
    | Assign l e =>
        match l, expr_ty env l, expr_ty env e with
        | EVar _, Some t, Some u => if decide (t = TyAny \/ u ≠ TyAny /\ assignable u t) then Some env else None
        | (EProp _ _ | EElem _ _), Some t, Some u => if assignable u t then Some env else None
        | _, _, _ => None
        end
    | Write m e =>
        match expr_ty env e with
        | Some t => if decide (m = "string") then if assignable t TyStr then Some env else None
                    else match kind_of m with Some _ => if assignable t TyNum then Some env else None | None => None end
        | None => None
        end
    | Fail => Some env
    end.
  (** a statement that is not in a block may not be a declaration *)
  Definition lone (s : simple) : bool := match s with Let _ _ _ => false | _ => true end.
  (** [x] without undefined *)
  Definition narrowed (e : expr) (env : tenv) : tenv :=
    match e with
    | EVar x => match var_ty x env with Some (TyOpt t) => {[ x := Some t ]} :: env | _ => env end
    | _ => env
    end.

  Fixpoint check_stmt (env : tenv) (s : stmt) {struct s} : option tenv :=
    let block b env := bool_decide (is_Some (fold_left (fun o s => match o with Some env => check_stmt env s | None => None end) b (Some (dead b :: env)))) in
    match s with
    | SSimple s => check_simple env s
    | SIf c b1 b2 => match expr_ty env c with Some _ => if block b1 env && block b2 env then Some env else None | None => None end
    | SIfLine c s1 s2 =>
        match expr_ty env c, check_simple env s1, check_simple env s2 with
        | Some _, Some _, Some _ => if lone s1 && lone s2 then Some env else None
        | _, _, _ => None
        end
    | SFor i n b =>
        let env' := {[ i := Some TyNum ]} :: env in
        match expr_ty env' n with Some t => if numeric t && block b env' then Some env else None | None => None end
    | SSwitch e s b =>
        match expr_ty env e, check_simple env s with
        | Some _, Some _ => if lone s && block b (narrowed e env) then Some env else None
        | _, _ => None
        end
    end.
  Definition check_seq (b : list stmt) (env : tenv) : option tenv :=
    fold_left (fun o s => match o with Some env => check_stmt env s | None => None end) b (Some env).
  Definition check_block (b : list stmt) (env : tenv) : bool := bool_decide (is_Some (check_seq b (dead b :: env))).
End types.

(** ** Whole modules *)
(** all names that a statement declares, at any depth *)
Fixpoint locals (s : stmt) : list string :=
  let block b := List.concat (List.map locals b) in
  match s with
  | SSimple (Let _ x _) => [x]
  | SSimple _ | SIfLine _ _ _ => []
  | SIf _ b1 b2 => block b1 ++ block b2
  | SFor i _ b => i :: block b
  | SSwitch _ _ b => block b
  end.
Definition all_locals (b : list stmt) : list string := List.concat (List.map locals b).
(** names that the code uses for the library and for globals *)
Definition globals_used : list string := ["Reader"; "Writer"; "Object"; "Array"; "ArrayBuffer"; "undefined"].

Definition not_static (d : decl) : Prop := match d with DEnum n _ => n ∉ ["read"; "prototype"] | DInterface _ _ => True end.
Definition decl_typed (ds : list decl) (k : cls) (d : decl) : Prop :=
  match d with
  | DEnum _ vs => NoDup vs.*1
  | DInterface _ ms => NoDup (ms.*1).*1 /\ Forall (fun m => is_Some (read_type ds k true m.2)) ms
  end.
#[export] Instance not_static_dec d : Decision (not_static d).
Proof. destruct d; simpl; apply _. Defined.
#[export] Instance decl_typed_dec ds k d : Decision (decl_typed ds k d).
Proof. destruct d; simpl; apply _. Defined.

Record well_typed (ds : list decl) (k : cls) : Prop := {
  (** no early errors (TsStatic.v) *)
  wt_loads : loads k;
  (** names of types *)
  wt_names : k_name k ∉ js_reserved ++ ts_reserved /\ Forall (fun d => decl_name d ∉ js_reserved ++ ts_reserved) ds /\ NoDup (decl_name <$> ds);
  (** neither the class nor a local hides what the code uses; read uses the class, too *)
  wt_globals : k_name k ∉ globals_used /\ Forall (fun x => x ∉ "reader" :: "writer" :: globals_used) (all_locals (k_read k) ++ all_locals (k_write k)) /\
               k_name k ∉ "data" :: "reader" :: "output" :: lets (k_read k);
  (** parameter properties: no conflict with the method (error 2300), not called constructor (error 2398) *)
  wt_members : Forall (fun x => x ∉ ["write"; "constructor"]) (k_params k).*1;
  (** namespace and class merge: an enum is a value, and may not be called like a static member (error 2300) *)
  wt_statics : Forall not_static ds;
  (** members of an interface or enum differ (error 2300), all types are declared (error 2304, 2694) *)
  wt_decls : Forall (decl_typed ds k) ds;
  wt_params : Forall (fun p => is_Some (read_type ds k false p.2)) (k_params k);
  (** the bodies of the methods, with their parameters and first lines *)
  wt_read : is_Some (check_seq ds k (k_read k) [<["output" := Some TyAny]> (dead (k_read k))]);
  wt_write : is_Some (check_seq ds k (k_write k) [<["this" := Some TyThis]> (dead (k_write k))]) }.
#[export] Instance well_typed_dec ds k : Decision (well_typed ds k).
Proof.
  refine (cast_if (decide (loads k /\ (k_name k ∉ js_reserved ++ ts_reserved /\ Forall (fun d => decl_name d ∉ js_reserved ++ ts_reserved) ds /\ NoDup (decl_name <$> ds)) /\
    (k_name k ∉ globals_used /\ Forall (fun x => x ∉ "reader" :: "writer" :: globals_used) (all_locals (k_read k) ++ all_locals (k_write k)) /\
     k_name k ∉ "data" :: "reader" :: "output" :: lets (k_read k)) /\
    Forall (fun x => x ∉ ["write"; "constructor"]) (k_params k).*1 /\
    Forall not_static ds /\
    Forall (decl_typed ds k) ds /\
    Forall (fun p => is_Some (read_type ds k false p.2)) (k_params k) /\
    is_Some (check_seq ds k (k_read k) [<["output" := Some TyAny]> (dead (k_read k))]) /\
    is_Some (check_seq ds k (k_write k) [<["this" := Some TyThis]> (dead (k_write k))])))).
  - abstract (destruct_and!; by constructor).
  - abstract (intros []; destruct_and?; repeat split; tauto).
Defined.

(** Names of a schema that give no such error, beyond those that the code needs to run (plain_names). *)
Record type_names (a : ast) : Prop := {
  tn_types : forall n, n ∈ decl_names a -> n ∉ js_reserved ++ ts_reserved;
  tn_enums : forall n vs, declares_enum a n vs -> n ∉ ["read"; "prototype"];
  tn_export : forall e, exports a = [e] -> e ≠ "ArrayBuffer";
  tn_top : forall e fs, exports a = [e] -> declares_struct a e fs -> Forall (fun f => f ∉ ["write"; "constructor"]) fs.*1 }.
