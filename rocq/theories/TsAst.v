(** The fragment of TypeScript that the generator emits: syntax and printer. The printer is the
    only link between the syntax trees and text; TsPlan.v proves that the text generator's output
    is the printed form of a tree. *)
From Verif Require Export TsGen.

Inductive expr :=
| EVar (x : string)              (* x, also [this] *)
| ENum (z : Z)                   (* 12 *)
| EUndef                         (* undefined *)
| EObj                           (* {} *)
| EProp (e : expr) (f : string)  (* e.f *)
| EElem (e i : expr)             (* e[i] *)
| ERead (m : string)             (* reader.read_m() *)
| EReadStr (n : expr)            (* reader.read_string(n) *)
| ENewArr (n : expr)             (* new Array(n) *)
| ELe (a b : expr)               (* a <= b *)
| EGt (a b : expr)               (* a > b *)
| EAnd (a b : expr)              (* a && b *)
| EAs (e : expr).                (* e as number *)

(** statements that take one line *)
Inductive simple :=
| Let (any : bool) (x : string) (e : expr)  (* let x = e;  let x: any = e; *)
| Assign (l e : expr)                       (* l = e; *)
| Write (m : string) (e : expr)             (* writer.write_m(e); *)
| Fail.                                     (* reader.failed = true; *)

Inductive stmt :=
| SSimple (s : simple)
| SIf (c : expr) (b1 b2 : list stmt)        (* if (c) { b1 } else { b2 } *)
| SIfLine (c : expr) (s1 s2 : simple)       (* if (c) s1 / else s2 *)
| SFor (i : string) (n : expr) (b : list stmt)  (* for (let i = 0; i < n; ++i) { b } *)
| SSwitch (e : expr) (s : simple) (b : list stmt).
  (* switch (e) { case undefined: case null: s break; default: { b } } *)

(** [export class] with the prologue and epilogue of its two methods left to the printer *)
Record cls := Cls { k_name : string; k_params : list (string * string); k_read : list stmt; k_write : list stmt }.

Inductive decl :=
| DEnum (name : string) (variants : list (string * nat))  (* v = 1 << n, *)
| DInterface (name : string) (members : list (string * bool * string)).  (* m?: t, *)
Definition decl_name (d : decl) : string := match d with DEnum n _ | DInterface n _ => n end.

Record module := Mod { m_version : string; m_now : string; m_decls : list decl; m_class : cls }.

(** ** Printer *)
Fixpoint print_expr (e : expr) : string :=
  match e with
  | EVar x => x
  | ENum z => string_of_Z z
  | EUndef => "undefined"
  | EObj => "{}"
  | EProp e f => print_expr e +:+ "." +:+ f
  | EElem e i => print_expr e +:+ "[" +:+ print_expr i +:+ "]"
  | ERead m => "reader.read_" +:+ m +:+ "()"
  | EReadStr n => "reader.read_string(" +:+ print_expr n +:+ ")"
  | ENewArr n => "new Array(" +:+ print_expr n +:+ ")"
  | ELe a b => print_expr a +:+ " <= " +:+ print_expr b
  | EGt a b => print_expr a +:+ " > " +:+ print_expr b
  | EAnd a b => print_expr a +:+ " && " +:+ print_expr b
  | EAs e => print_expr e +:+ " as number"
  end.

Definition print_simple (s : simple) : string :=
  match s with
  | Let any x e => "let " +:+ x +:+ (if any then ": any" else "") +:+ " = " +:+ print_expr e +:+ ";"
  | Assign l e => print_expr l +:+ " = " +:+ print_expr e +:+ ";"
  | Write m e => "writer.write_" +:+ m +:+ "(" +:+ print_expr e +:+ ");"
  | Fail => "reader.failed = true;"
  end.

Definition tab : string := "    ".
Definition line (ind s : string) : string := ind +:+ s +:+ NL.
Definition concat_str (l : list string) : string := fold_right String.append "" l.

Fixpoint print_stmt (ind : string) (s : stmt) {struct s} : string :=
  let block ind b := concat_str (List.map (print_stmt ind) b) in
  match s with
  | SSimple s => line ind (print_simple s)
  | SIf c b1 b2 =>
      line ind ("if (" +:+ print_expr c +:+ ") {") +:+ block (ind +:+ tab) b1 +:+ line ind "} else {"
      +:+ block (ind +:+ tab) b2 +:+ line ind "}"
  | SIfLine c s1 s2 =>
      line ind ("if (" +:+ print_expr c +:+ ") " +:+ print_simple s1) +:+ line ind ("else " +:+ print_simple s2)
  | SFor i n b =>
      line ind ("for (let " +:+ i +:+ " = 0; " +:+ i +:+ " < " +:+ print_expr n +:+ "; ++" +:+ i +:+ ") {")
      +:+ block (ind +:+ tab) b +:+ line ind "}"
  | SSwitch e s b =>
      line ind ("switch (" +:+ print_expr e +:+ ") {")
      +:+ line (ind +:+ tab) ("case undefined: case null: " +:+ print_simple s +:+ " break;")
      +:+ line (ind +:+ tab) "default: {"
      +:+ block (ind +:+ tab +:+ tab) b
      +:+ line (ind +:+ tab) "}" +:+ line ind "}"
  end.
Definition print_block (ind : string) (b : list stmt) : string := concat_str (List.map (print_stmt ind) b).

Definition print_class (k : cls) : string :=
  line "" ("export class " +:+ k_name k +:+ " {")
  +:+ line tab "constructor("
  +:+ concat_str (List.map (fun '(x, t) => line (tab +:+ tab) ("public " +:+ x +:+ ": " +:+ t +:+ ",")) (k_params k))
  +:+ line tab ") {}"
  +:+ line tab ("static read(data: ArrayBuffer): " +:+ k_name k +:+ " | null {")
  +:+ line (tab +:+ tab) "let reader = new Reader(data);"
  +:+ line (tab +:+ tab) ("let output = Object.create(" +:+ k_name k +:+ ");")
  +:+ print_block (tab +:+ tab) (k_read k)
  +:+ line (tab +:+ tab) "if (reader.failed) return null;"
  +:+ line (tab +:+ tab) "return output;"
  +:+ line tab "}"
  +:+ line tab "write(buffer?: ArrayBuffer): ArrayBuffer {"
  +:+ line (tab +:+ tab) "let writer = buffer ? new Writer(buffer) : new Writer();"
  +:+ print_block (tab +:+ tab) (k_write k)
  +:+ line (tab +:+ tab) "return writer.finish();"
  +:+ line tab "}"
  +:+ line "" "}".

Definition print_decl (d : decl) : string :=
  match d with
  | DEnum n vs =>
      line tab ("export const enum " +:+ n +:+ " {")
      +:+ concat_str (List.map (fun '(v, k) => line (tab +:+ tab) (v +:+ " = 1 << " +:+ string_of_nat k +:+ ",")) vs)
      +:+ line tab "}"
  | DInterface n ms =>
      line tab ("export interface " +:+ n +:+ " {")
      +:+ concat_str (List.map (fun '(m, o, t) => line (tab +:+ tab) (m +:+ (if (o : bool) then "?" else "") +:+ ": " +:+ t +:+ ",")) ms)
      +:+ line tab "}"
  end.

Definition header (version now : string) : string := line "" ("// Generated by packetc v" +:+ version +:+ " at " +:+ now).
Definition import_line : string :=
  line "" ("import { Reader, Writer } from " +:+ String "034" EmptyString +:+ "packet" +:+ String "034" EmptyString +:+ ";").

Definition print_module (m : module) : string :=
  header (m_version m) (m_now m)
  +:+ import_line
  +:+ line "" ("export namespace " +:+ k_name (m_class m) +:+ " {")
  +:+ concat_str (List.map print_decl (m_decls m))
  +:+ line "" "}"
  +:+ print_class (m_class m).

(** ** The tree for a checked schema *)
Definition path (st : list string) : expr :=
  match st with [] => EVar "" | r :: ps => foldl EProp (EVar r) ps end.

(** value of the TypeScript (and Rust i32) expression [1 << n] for n < 32 *)
Definition shl1 (n : nat) : Z := if (n <? 31)%nat then (2 ^ Z.of_nat n)%Z else (- 2 ^ 31)%Z.

Notation emit := (list string -> list stmt).

Definition w_opt (body : emit) : emit := fun st =>
  [SSimple (Let false (bindname st) (path st));
   SSwitch (EVar (bindname st)) (Write "uint8" (ENum 0)) (SSimple (Write "uint8" (ENum 1)) :: body [bindname st])].
Definition w_arr (body : emit) : emit := fun st =>
  [SSimple (Write "uint32" (EProp (path st) "length"));
   SFor (varname st "index") (EProp (path st) "length")
     (SSimple (Let false (varname st "item") (EElem (path st) (EVar (varname st "index")))) :: body [varname st "item"])].
Definition w_builtin (b : builtin) (tn : string) : emit := fun st =>
  match b with
  | BString => [SSimple (Write "uint32" (EProp (path st) "length")); SSimple (Write "string" (path st))]
  | _ => [SSimple (Write tn (path st))]
  end.
Definition w_enum (e : enum) : emit := fun st => [SSimple (Write (repr_name (e_repr e)) (EAs (path st)))].
Definition w_wrap (array opt : bool) (body : emit) : emit :=
  let body := if array then w_arr body else body in if opt then w_opt body else body.
Fixpoint w_ty (t : rtype) (tn : string) {struct t} : emit :=
  match t with
  | TBuiltin b => w_builtin b tn
  | TEnum e => w_enum e
  | TStruct fs => fun st =>
      List.concat (List.map (fun f => w_wrap (f_array f) (f_opt f) (w_ty (f_ty f) (f_tname f)) (st ++ [f_name f])) fs)
  end.

Definition r_opt (body : emit) : emit := fun st =>
  [SIf (EGt (ERead "uint8") (ENum 0)) (body st) [SSimple (Assign (path st) EUndef)]].
Definition r_arr (init_struct : bool) (body : emit) : emit := fun st =>
  [SSimple (Let false (varname st "len") (ERead "uint32"));
   SSimple (Assign (path st) (ENewArr (EVar (varname st "len"))));
   SFor (varname st "index") (EVar (varname st "len"))
     (SSimple (Let true (varname st "item") (if init_struct then EObj else EUndef))
      :: body [varname st "item"]
      ++ [SSimple (Assign (EElem (path st) (EVar (varname st "index"))) (EVar (varname st "item")))])].
Definition r_builtin (b : builtin) (tn : string) : emit := fun st =>
  match b with
  | BString => [SSimple (Let false (varname st "len") (ERead "uint32"));
                SSimple (Assign (path st) (EReadStr (EVar (varname st "len"))))]
  | _ => [SSimple (Assign (path st) (ERead tn))]
  end.
Definition enum_lo (e : enum) : Z := match e_variants e with [] => 0 | v :: _ => shl1 (ev_value v) end.
Definition enum_hi (e : enum) : Z := match e_variants e with [] => 0 | v :: _ => shl1 (ev_value (List.last (e_variants e) v)) end.
Definition r_enum (e : enum) : emit := fun st =>
  let temp := varname st "temp" in
  [SSimple (Let false temp (ERead (repr_name (e_repr e))));
   SIfLine (EAnd (ELe (ENum (enum_lo e)) (EVar temp)) (ELe (EVar temp) (ENum (enum_hi e))))
     (Assign (path st) (EVar temp)) Fail].
Definition is_struct (t : rtype) : bool := match t with TStruct _ => true | _ => false end.
Definition r_wrap (array opt init_struct : bool) (body : emit) : emit :=
  let body := if array then r_arr init_struct body else body in if opt then r_opt body else body.
Fixpoint r_ty (t : rtype) (tn : string) (init : bool) {struct t} : emit :=
  match t with
  | TBuiltin b => r_builtin b tn
  | TEnum e => r_enum e
  | TStruct fs => fun st =>
      let fields st := List.concat (List.map (fun f =>
        r_wrap (f_array f) (f_opt f) (is_struct (f_ty f)) (r_ty (f_ty f) (f_tname f) (negb (f_array f))) (st ++ [f_name f])) fs) in
      if init then
        SSimple (Let true (bindname st) EObj) :: fields [bindname st] ++ [SSimple (Assign (path st) (EVar (bindname st)))]
      else fields st
  end.

(** one field, all fields *)
Definition w_field (f : sfield) : emit := fun st => w_wrap (f_array f) (f_opt f) (w_ty (f_ty f) (f_tname f)) (st ++ [f_name f]).
Definition w_fields (fs : list sfield) : emit := fun st => List.concat (List.map (fun f => w_field f st) fs).
Definition r_field (f : sfield) : emit := fun st =>
  r_wrap (f_array f) (f_opt f) (is_struct (f_ty f)) (r_ty (f_ty f) (f_tname f) (negb (f_array f))) (st ++ [f_name f]).
Definition r_fields (fs : list sfield) : emit := fun st => List.concat (List.map (fun f => r_field f st) fs).

Definition ts_type (tn : string) (t : rtype) : string :=
  match t with TBuiltin BString => "string" | TBuiltin _ => "number" | _ => tn end.

Definition class_of (x : export) : cls :=
  Cls (x_name x)
      (List.map (fun f => (f_name f, field_ctor_type (f_tname f) (f_ty f) (x_name x) (f_array f) (f_opt f))) (x_fields x))
      (r_fields (x_fields x) ["output"])
      (w_fields (x_fields x) ["this"]).

Definition decl_of (export : string) (d : string * (string * rtype)) : list decl :=
  let '(name, (_, t)) := d in
  if (name =? export)%string then []
  else match t with
       | TBuiltin _ => []
       | TEnum e => [DEnum name (List.map (fun v => (ev_name v, ev_value v)) (e_variants e))]
       | TStruct fs => [DInterface name (List.map (fun f =>
           (f_name f, f_opt f, ts_type (f_tname f) (f_ty f) +:+ (if f_array f then "[]" else ""))) fs)]
       end.

Definition module_of (version now : string) (titer : tymap -> list (string * (string * rtype))) (r : resolved) : module :=
  Mod version now (List.concat (List.map (decl_of (x_name (r_export r))) (titer (r_types r)))) (class_of (r_export r)).
