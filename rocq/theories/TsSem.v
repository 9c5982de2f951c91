(** What the emitted TypeScript does when it runs: an interpreter for the syntax of TsAst.v.

    Follows ECMA-262 for the constructs that occur: block scopes with temporal dead zones, objects with
    prototypes on a heap, strict mode (modules and classes are strict). The library [packet] (packet-ts),
    which provides Reader and Writer, is not part of /repo; it is the parameter [rt].

    Simplifications, beyond types having no effect at run time:
    - The locals [reader], [writer] are not variables here: every local that the generator declares
      begins with "output" or "this_", so nothing can shadow them.
    - Values that the emitted code cannot produce or that a well-typed caller does not pass (for
      instance adding an element past the end of an array, an object assigned to __proto__, a comparison
      of non-integers) make the interpreter [Stuck]. The theorems show that it does not get stuck.
    - [write] is called without a buffer argument.
    - A property read on a string or array other than [length] is [Stuck]. *)
From Verif Require Export TsStatic.

Notation byte := ascii.
(** JavaScript numbers: integers that are exactly representable, and the values of a 32-bit float by
    their bits. *)
Inductive num := NInt (z : Z) | NFloat (bits : Z).
(** JavaScript strings: UTF-16 code units *)
Notation jstr := (list Z).

(** ** The runtime library *)
Inductive kind := KU8 | KU16 | KU32 | KI8 | KI16 | KI32 | KF32.
Record rstate := RState { r_rest : list byte; r_failed : bool; r_calls : nat }.
Record runtime := Runtime {
  rt_enc : kind -> num -> list byte;                               (* writer.write_uint8(n), ... *)
  rt_encs : jstr -> list byte;                                     (* writer.write_string(s) *)
  rt_rd : kind -> list byte * bool -> num * (list byte * bool);    (* reader.read_uint8(), ...: bytes left, failed *)
  rt_rds : Z -> list byte * bool -> jstr * (list byte * bool) }.   (* reader.read_string(n) *)

(** which method a name denotes *)
Definition kind_of (m : string) : option kind :=
  if decide (m = "uint8") then Some KU8 else if decide (m = "uint16") then Some KU16
  else if decide (m = "uint32") then Some KU32 else if decide (m = "int8") then Some KI8
  else if decide (m = "int16") then Some KI16 else if decide (m = "int32") then Some KI32
  else if decide (m = "float") then Some KF32 else None.

(** ** Values and heap *)
Inductive val := JUndef | JNull | JNum (n : num) | JStr (s : jstr) | JLoc (l : nat) | JFun.
(** prototypes: Object.prototype, the exported class itself, the exported class's prototype *)
Inductive proto := PObject | PCtor | PClass.
#[export] Instance proto_eq_dec : EqDecision proto.
Proof. solve_decision. Defined.
Inductive obj := OPlain (p : proto) (props : list (string * val)) | OArr (items : list val).
Notation heap := (list obj).

Inductive out (A : Type) := Done (a : A) | Throws (e : string) | Stuck.
Arguments Done {A} a. Arguments Throws {A} e. Arguments Stuck {A}.
Definition obind {A B} (r : out A) (k : A -> out B) : out B :=
  match r with Done a => k a | Throws e => Throws e | Stuck => Stuck end.
Notation "'go' x <- r ; k" := (obind r (fun x => k)) (at level 200, x pattern, r at level 100, k at level 200).

Fixpoint own (f : string) (props : list (string * val)) : option val :=
  match props with
  | [] => None
  | (g, v) :: ps => if decide (g = f) then Some v else own f ps
  end.
Fixpoint put (f : string) (v : val) (props : list (string * val)) : list (string * val) :=
  match props with
  | [] => [(f, v)]
  | (g, u) :: ps => if decide (g = f) then (g, v) :: ps else (g, u) :: put f v ps
  end.

(** properties of Object.prototype *)
Definition object_names : list string :=
  ["constructor"; "toString"; "toLocaleString"; "valueOf"; "hasOwnProperty"; "isPrototypeOf"; "propertyIsEnumerable";
   "__proto__"; "__defineGetter__"; "__defineSetter__"; "__lookupGetter__"; "__lookupSetter__"].
(** own and inherited data properties of a class constructor with the static method read *)
Definition ctor_names : list string := ["read"; "prototype"; "length"; "name"; "apply"; "bind"; "call"].
(** accessors of Function.prototype that throw *)
Definition poison_names : list string := ["arguments"; "caller"].
(** properties of a class constructor (or inherited from Function.prototype) that an object which inherits
    from it cannot be given by assignment: not writable, or accessors whose setter throws *)
Definition readonly_names : list string := ["prototype"; "length"; "name"; "arguments"; "caller"].

(** [[Get]] for a property that is not an own property *)
Definition inherited (p : proto) (f : string) : out val :=
  if decide (f ∈ object_names) then Done JFun else
  match p with
  | PObject => Done JUndef
  | PClass => if decide (f = "write") then Done JFun else Done JUndef
  | PCtor => if decide (f ∈ poison_names) then Throws "TypeError"
             else if decide (f ∈ ctor_names) then Done JFun else Done JUndef
  end.
Definition get_prop (h : heap) (v : val) (f : string) : out val :=
  match v with
  | JUndef | JNull => Throws "TypeError"
  | JStr s => if decide (f = "length") then Done (JNum (NInt (Z.of_nat (length s)))) else Stuck
  | JLoc l => match h !! l with
              | Some (OPlain p props) => match own f props with Some v => Done v | None => inherited p f end
              | Some (OArr items) => if decide (f = "length") then Done (JNum (NInt (Z.of_nat (length items)))) else Stuck
              | None => Stuck
              end
  | _ => Stuck
  end.
(** [[Set]] in strict mode *)
Definition set_prop (h : heap) (v : val) (f : string) (x : val) : out heap :=
  match v with
  | JUndef | JNull => Throws "TypeError"
  | JLoc l => match h !! l with
              | Some (OPlain p props) =>
                  if decide (own f props = None /\ f = "__proto__") then
                    (* Object.prototype's setter: ignores primitive values *)
                    match x with JLoc _ | JFun | JNull => Stuck | _ => Done h end
                  else if decide (own f props = None /\ p = PCtor /\ f ∈ readonly_names) then Throws "TypeError"
                  else Done (<[l := OPlain p (put f x props)]> h)
              | _ => Stuck
              end
  | _ => Stuck
  end.
Definition get_elem (h : heap) (v i : val) : out val :=
  match v, i with
  | JLoc l, JNum (NInt z) =>
      match h !! l with
      | Some (OArr items) => if decide (0 <= z)%Z then Done (default JUndef (items !! Z.to_nat z)) else Stuck
      | _ => Stuck
      end
  | _, _ => Stuck
  end.
Definition set_elem (h : heap) (v i x : val) : out heap :=
  match v, i with
  | JLoc l, JNum (NInt z) =>
      match h !! l with
      | Some (OArr items) =>
          if decide (0 <= z < Z.of_nat (length items))%Z then Done (<[l := OArr (<[Z.to_nat z := x]> items)]> h) else Stuck
      | _ => Stuck
      end
  | _, _ => Stuck
  end.

(** ** Machine states *)
(** a scope: [None] marks a [let] that has not been executed yet *)
Notation frame := (gmap string (option val)).
Record mach := Mach { m_heap : heap; m_env : list frame; m_rd : rstate; m_out : list byte }.
Definition with_heap (h : heap) (M : mach) : mach := Mach h (m_env M) (m_rd M) (m_out M).
Definition with_env (e : list frame) (M : mach) : mach := Mach (m_heap M) e (m_rd M) (m_out M).
Definition with_rd (r : rstate) (M : mach) : mach := Mach (m_heap M) (m_env M) r (m_out M).
Definition with_out (o : list byte) (M : mach) : mach := Mach (m_heap M) (m_env M) (m_rd M) o.

Fixpoint lookup_var (x : string) (e : list frame) : out val :=
  match e with
  | [] => Throws "ReferenceError"
  | fr :: e => match fr !! x with
               | Some (Some v) => Done v
               | Some None => Throws "ReferenceError"
               | None => lookup_var x e
               end
  end.
Fixpoint assign_var (x : string) (v : val) (e : list frame) : out (list frame) :=
  match e with
  | [] => Throws "ReferenceError"
  | fr :: e => match fr !! x with
               | Some (Some _) => Done (<[x := Some v]> fr :: e)
               | Some None => Throws "ReferenceError"
               | None => go e' <- assign_var x v e; Done (fr :: e')
               end
  end.
Definition init_var (x : string) (v : val) (e : list frame) : out (list frame) :=
  match e with fr :: e => Done (<[x := Some v]> fr :: e) | [] => Stuck end.
Definition hoist (b : list stmt) : frame := list_to_map (List.map (fun x => (x, None)) (lets b)).

Section sem.
  Context (rt : runtime).

  (** one call of a read method *)
  Definition read_num (k : kind) (r : rstate) : num * rstate :=
    let '(n, (rest, failed)) := rt_rd rt k (r_rest r, r_failed r) in (n, RState rest failed (S (r_calls r))).
  Definition read_str (z : Z) (r : rstate) : jstr * rstate :=
    let '(s, (rest, failed)) := rt_rds rt z (r_rest r, r_failed r) in (s, RState rest failed (S (r_calls r))).

  Fixpoint eval (e : expr) (M : mach) : out (val * mach) :=
    match e with
    | EVar x => go v <- lookup_var x (m_env M); Done (v, M)
    | ENum z => Done (JNum (NInt z), M)
    | EUndef => Done (JUndef, M)
    | EObj => Done (JLoc (length (m_heap M)), with_heap (m_heap M ++ [OPlain PObject []]) M)
    | EProp e f => go (v, M) <- eval e M; go x <- get_prop (m_heap M) v f; Done (x, M)
    | EElem e i => go (v, M) <- eval e M; go (w, M) <- eval i M; go x <- get_elem (m_heap M) v w; Done (x, M)
    | ERead m => match kind_of m with
                 | Some k => let '(n, r) := read_num k (m_rd M) in Done (JNum n, with_rd r M)
                 | None => Throws "TypeError"
                 end
    | EReadStr e =>
        go (v, M) <- eval e M;
        match v with
        | JNum (NInt z) => let '(s, r) := read_str z (m_rd M) in Done (JStr s, with_rd r M)
        | _ => Stuck
        end
    | ENewArr e =>
        go (v, M) <- eval e M;
        match v with
        | JNum (NInt z) =>
            if decide (0 <= z < 2 ^ 32)%Z
            then Done (JLoc (length (m_heap M)), with_heap (m_heap M ++ [OArr (repeat JUndef (Z.to_nat z))]) M)
            else Throws "RangeError"
        | _ => Stuck
        end
    | ELe a b => go (v, M) <- eval a M; go (w, M) <- eval b M;
        match v, w with JNum (NInt x), JNum (NInt y) => Done (JNum (NInt (if decide (x <= y)%Z then 1 else 0)), M) | _, _ => Stuck end
    | EGt a b => go (v, M) <- eval a M; go (w, M) <- eval b M;
        match v, w with JNum (NInt x), JNum (NInt y) => Done (JNum (NInt (if decide (x > y)%Z then 1 else 0)), M) | _, _ => Stuck end
    | EAnd a b => go (v, M) <- eval a M;
        match v with JNum (NInt 0) => Done (v, M) | JNum (NInt _) => eval b M | _ => Stuck end
    | EAs e => eval e M
    end.
  (** conditions: a comparison yields 1 or 0 here instead of true or false *)
  Definition truthy (v : val) : out bool :=
    match v with JNum (NInt z) => Done (negb (z =? 0)%Z) | _ => Stuck end.

  Definition exec_simple (s : simple) (M : mach) : out mach :=
    match s with
    | Let _ x e => go (v, M) <- eval e M; go env <- init_var x v (m_env M); Done (with_env env M)
    | Assign (EVar x) e => go (v, M) <- eval e M; go env <- assign_var x v (m_env M); Done (with_env env M)
    | Assign (EProp b f) e =>
        go (o, M) <- eval b M; go (v, M) <- eval e M; go h <- set_prop (m_heap M) o f v; Done (with_heap h M)
    | Assign (EElem b i) e =>
        go (o, M) <- eval b M; go (j, M) <- eval i M; go (v, M) <- eval e M;
        go h <- set_elem (m_heap M) o j v; Done (with_heap h M)
    | Assign _ _ => Stuck
    | Write m e =>
        go (v, M) <- eval e M;
        if decide (m = "string") then
          match v with JStr s => Done (with_out (m_out M ++ rt_encs rt s) M) | _ => Stuck end
        else match kind_of m, v with
             | Some k, JNum n => Done (with_out (m_out M ++ rt_enc rt k n) M)
             | None, _ => Throws "TypeError"
             | _, _ => Stuck
             end
    | Fail => Done (with_rd (RState (r_rest (m_rd M)) true (r_calls (m_rd M))) M)
    end.

  Definition leave (r : option (out mach)) : option (out mach) :=
    match r with
    | Some (Done M) => Some (Done (with_env (List.tl (m_env M)) M))
    | r => r
    end.

  (** [None]: a loop ran more than [n] times *)
  Fixpoint exec (n : nat) (s : stmt) (M : mach) {struct s} : option (out mach) :=
    let seq := fix seq (b : list stmt) (M : mach) : option (out mach) :=
      match b with
      | [] => Some (Done M)
      | s :: b => match exec n s M with
                  | Some (Done M) => seq b M
                  | r => r
                  end
      end in
    let block (b : list stmt) (M : mach) : option (out mach) :=
      leave (seq b (with_env (hoist b :: m_env M) M)) in
    match s with
    | SSimple s => Some (exec_simple s M)
    | SIf c b1 b2 =>
        match eval c M with
        | Done (v, M) => match truthy v with
                         | Done true => block b1 M
                         | Done false => block b2 M
                         | Throws e => Some (Throws e)
                         | Stuck => Some Stuck
                         end
        | Throws e => Some (Throws e)
        | Stuck => Some Stuck
        end
    | SIfLine c s1 s2 =>
        match eval c M with
        | Done (v, M) => match truthy v with
                         | Done true => Some (exec_simple s1 M)
                         | Done false => Some (exec_simple s2 M)
                         | Throws e => Some (Throws e)
                         | Stuck => Some Stuck
                         end
        | Throws e => Some (Throws e)
        | Stuck => Some Stuck
        end
    | SFor i e b =>
        let loop := fix loop (k : nat) (M : mach) : option (out mach) :=
          match k with
          | O => None
          | S k =>
              match eval (EGt e (EVar i)) M with     (* i < e; reading the variable i has no effect, so the order does not matter *)
              | Done (v, M) =>
                  match truthy v with
                  | Done true =>
                      match block b M with
                      | Some (Done M) =>
                          match lookup_var i (m_env M) with
                          | Done (JNum (NInt z)) =>
                              match assign_var i (JNum (NInt (z + 1))) (m_env M) with
                              | Done env => loop k (with_env env M)
                              | Throws e => Some (Throws e)
                              | Stuck => Some Stuck
                              end
                          | Throws e => Some (Throws e)
                          | _ => Some Stuck
                          end
                      | r => r
                      end
                  | Done false => Some (Done M)
                  | Throws e => Some (Throws e)
                  | Stuck => Some Stuck
                  end
              | Throws e => Some (Throws e)
              | Stuck => Some Stuck
              end
          end in
        leave (loop n (with_env ({[ i := Some (JNum (NInt 0)) ]} :: m_env M) M))
    | SSwitch e s b =>
        match eval e M with
        | Done (JUndef, M) | Done (JNull, M) => Some (exec_simple s M)
        | Done (_, M) => block b M
        | Throws e => Some (Throws e)
        | Stuck => Some Stuck
        end
    end.
  Fixpoint exec_seq (n : nat) (b : list stmt) (M : mach) : option (out mach) :=
    match b with
    | [] => Some (Done M)
    | s :: b => match exec n s M with
                | Some (Done M) => exec_seq n b M
                | r => r
                end
    end.
  Definition exec_block (n : nat) (b : list stmt) (M : mach) : option (out mach) :=
    leave (exec_seq n b (with_env (hoist b :: m_env M) M)).

  (** ** The two methods *)
  (** [Object.create(K)] at the start of read: [Object] and [K] as the function sees them. A class that is called
      like a local of read is hidden by that local; [data], [reader], [Array] and [undefined] are left out of the model. *)
  Definition prologue (k : cls) : out unit :=
    if decide (k_name k ∈ "output" :: lets (k_read k)) then Throws "ReferenceError"
    else if decide (k_name k = "Object") then Throws "TypeError"
    else if decide (k_name k ∈ ["data"; "reader"; "Array"; "undefined"]) then Stuck
    else Done ().
  (** static read(data), print_class: the bytes of data; what else is in the heap does not matter *)
  Definition call_read (n : nat) (k : cls) (h : heap) (data : list byte) : option (out (val * mach)) :=
    if decide (loads k) then
     match prologue k with
     | Throws e => Some (Throws e)
     | Stuck => Some Stuck
     | Done _ =>
      let output := JLoc (length h) in
      let M := Mach (h ++ [OPlain PCtor []]) [<["output" := Some output]> (hoist (k_read k))] (RState data false 0) [] in
      match exec_seq n (k_read k) M with
      | Some (Done M) => Some (Done (if r_failed (m_rd M) then JNull else output, M))
      | Some (Throws e) => Some (Throws e)
      | Some Stuck => Some Stuck
      | None => None
      end
     end
    else Some (Throws "SyntaxError").
  (** write() with [this]. A class that is called [undefined] hides the value; left out of the model. *)
  Definition call_write (n : nat) (k : cls) (h : heap) (this : val) : option (out (list byte * mach)) :=
    if decide (loads k) then if decide (k_name k = "undefined") then Some Stuck else
      let M := Mach h [<["this" := Some this]> (hoist (k_write k))] (RState [] false 0) [] in
      match exec_seq n (k_write k) M with
      | Some (Done M) => Some (Done (m_out M, M))
      | Some (Throws e) => Some (Throws e)
      | Some Stuck => Some Stuck
      | None => None
      end
    else Some (Throws "SyntaxError").

  (** the outcome of a call, for all large enough bounds on the loops *)
  Definition reads (k : cls) (h : heap) (data : list byte) (r : out (val * mach)) : Prop :=
    exists n0, forall n, n0 <= n -> call_read n k h data = Some r.
  Definition writes (k : cls) (h : heap) (this : val) (r : out (list byte * mach)) : Prop :=
    exists n0, forall n, n0 <= n -> call_write n k h this = Some r.
End sem.
