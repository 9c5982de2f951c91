(** What the emitted Rust does when it runs: an interpreter for the syntax of RsAst.v, for code that compiles.

    Values are trees, as Rust's ownership rules make them: an assignment to a place changes the value that the root
    variable holds and nothing else. References are transparent. A [let] shadows earlier variables of its name until the
    end of the block. The crate [packet] (packet-rs) is not part of /repo; it is the parameter [lib].

    Simplifications:
    - [usize] holds every u32, as on all targets with 32 or 64 bits; allocation succeeds.
    - [Bad] is the early return of [?] with an error: the error itself and the contents of [output] at that point are not
      recorded, the state of the reader and the memory requested so far are.
    - Code that does not compile may be [Ill] or may have a meaning here. *)
From Verif Require Export RsAst Wire.

(** Rust strings: the bytes of their UTF-8 encoding *)
Notation rstr := (list Z).
Inductive rval :=
| RNum (n : num)
| RStr (s : rstr)
| RVariant (t v : string)           (* t::v *)
| RVec (l : list rval)
| RRec (fs : list (string * rval))
| ROpt (o : option rval).

(** ** The crate packet *)
Record rs_lib := RsLib {
  lb_enc : kind -> num -> list byte;                           (* writer.write_uint8(n), ... *)
  lb_encs : rstr -> list byte;                                 (* writer.write_string(s) *)
  lb_rd : kind -> list byte -> option (num * list byte);       (* reader.read_uint8(), ...: None is Err *)
  lb_rds : Z -> list byte -> option (rstr * list byte) }.      (* reader.read_string(n) *)

(** ** Places *)
Notation renv := (list (string * rval)).
Fixpoint find_key {A} (x : string) (l : list (string * A)) : option A :=
  match l with [] => None | (y, v) :: l => if decide (y = x) then Some v else find_key x l end.
Fixpoint set_key {A} (x : string) (v : A) (l : list (string * A)) : option (list (string * A)) :=
  match l with
  | [] => None
  | (y, u) :: l => if decide (y = x) then Some ((y, v) :: l) else match set_key x v l with Some l => Some ((y, u) :: l) | None => None end
  end.
Fixpoint get_path (v : rval) (ps : list string) : option rval :=
  match ps, v with
  | [], _ => Some v
  | f :: ps, RRec fs => match find_key f fs with Some v => get_path v ps | None => None end
  | _, _ => None
  end.
Fixpoint set_path (v : rval) (ps : list string) (w : rval) : option rval :=
  match ps, v with
  | [], _ => Some w
  | f :: ps, RRec fs =>
      match find_key f fs with
      | Some u => match set_path u ps w with
                  | Some u => match set_key f u fs with Some fs => Some (RRec fs) | None => None end
                  | None => None
                  end
      | None => None
      end
  | _, _ => None
  end.
Definition get_place (p : place) (env : renv) : option rval :=
  match find_key (pl_root p) env with Some v => get_path v (pl_path p) | None => None end.
Definition set_place (p : place) (w : rval) (env : renv) : option renv :=
  match find_key (pl_root p) env with
  | Some v => match set_path v (pl_path p) w with Some v => set_key (pl_root p) v env | None => None end
  | None => None
  end.

(** ** Items *)
Definition find_item (t : string) (items : list rs_item) : option rs_item := List.find (fun i => bool_decide (item_name i = t)) items.
(** [Default] of the types that are not declared in the module *)
Definition prim_default (t : string) : option rval :=
  if decide (t ∈ ["u8"; "u16"; "u32"; "i8"; "i16"; "i32"]) then Some (RNum (NInt 0))
  else if decide (t = "f32") then Some (RNum (NFloat 0))
  else if decide (t = "String") then Some (RStr [])
  else None.
Fixpoint all_some {A B} (f : A -> option B) (l : list A) : option (list B) :=
  match l with
  | [] => Some []
  | a :: l => match f a, all_some f l with Some b, Some l => Some (b :: l) | _, _ => None end
  end.
(** [t::default()]: derived for structs, that of an enum is in its [impl Default] *)
Fixpoint default_of (fuel : nat) (items : list rs_item) (t : string) {struct fuel} : option rval :=
  match fuel with
  | O => None
  | S fuel =>
      match find_item t items with
      | Some (IEnum n _ _ d _) => Some (RVariant n d)
      | Some (IStruct _ fs) =>
          match all_some (fun '(f, ty) =>
            match (if rt_opt ty then Some (ROpt None) else if rt_vec ty then Some (RVec []) else default_of fuel items (rt_base ty)) with
            | Some v => Some (f, v) | None => None end) fs with
          | Some fs => Some (RRec fs) | None => None
          end
      | None => prim_default t
      end
  end.
(** no chain of structs is longer than the number of items *)
Definition default_value (items : list rs_item) (t : string) : option rval := default_of (S (length items)) items t.
(** the number of a variant: 1 << n *)
Definition discriminant (items : list rs_item) (t v : string) : option Z :=
  match find_item t items with
  | Some (IEnum _ _ vs _ _) => match find_key v vs with Some n => Some (2 ^ Z.of_nat n)%Z | None => None end
  | _ => None
  end.
(** [t::try_from(z)]: the first arm that matches *)
Definition try_from (items : list rs_item) (t : string) (z : Z) : option (option rval) :=
  match find_item t items with
  | Some (IEnum n _ _ _ arms) =>
      Some (match List.find (fun a => (a.1 =? z)%Z) arms with Some a => Some (RVariant n a.2) | None => None end)
  | _ => None
  end.
(** [z as u8], ... *)
Definition cast_to (t : string) (z : Z) : option Z :=
  if decide (t = "u8") then Some (z mod 2 ^ 8)%Z else if decide (t = "u16") then Some (z mod 2 ^ 16)%Z
  else if decide (t = "u32") then Some (z mod 2 ^ 32)%Z else None.

Section run.
  Context (lib : rs_lib) (items : list rs_item).

  (** ** write: the bytes that are written; [None] for ill-typed code *)
  Definition length_of (v : rval) : option Z :=
    match v with RVec l => Some (Z.of_nat (length l)) | RStr s => Some (Z.of_nat (length s)) | _ => None end.
  Fixpoint wrun (s : rstmt) (env : renv) {struct s} : option (list byte) :=
    let block := fix block (b : list rstmt) (env : renv) : option (list byte) :=
      match b with
      | [] => Some []
      | s :: b => match wrun s env, block b env with Some x, Some y => Some (x ++ y) | _, _ => None end
      end in
    match s with
    | WCall m p => match kind_of m, get_place p env with Some k, Some (RNum n) => Some (lb_enc lib k n) | _, _ => None end
    | WByte n => Some (lb_enc lib KU8 (NInt (Z.of_nat n)))
    | WCount p => match get_place p env with
                  | Some v => match length_of v with Some z => Some (lb_enc lib KU32 (NInt (z mod 2 ^ 32))) | None => None end
                  | None => None
                  end
    | WText p => match get_place p env with Some (RStr s) => Some (lb_encs lib s) | _ => None end
    | WCast m p t =>
        match kind_of m, get_place p env with
        | Some k, Some (RVariant e v) =>
            match discriminant items e v with
            | Some z => match cast_to t z with Some z => Some (lb_enc lib k (NInt z)) | None => None end
            | None => None
            end
        | _, _ => None
        end
    | WFor x p b =>
        match get_place p env with
        | Some (RVec l) => (fix each (l : list rval) : option (list byte) :=
            match l with
            | [] => Some []
            | v :: l => match block b ((x, v) :: env), each l with Some a, Some c => Some (a ++ c) | _, _ => None end
            end) l
        | _ => None
        end
    | WMatch _ p n x b =>
        match get_place p env with
        | Some (ROpt None) => Some (lb_enc lib KU8 (NInt (Z.of_nat n)))
        | Some (ROpt (Some v)) => block b ((x, v) :: env)
        | _ => None
        end
    | _ => None
    end.
  Fixpoint wblock (b : list rstmt) (env : renv) : option (list byte) :=
    match b with
    | [] => Some []
    | s :: b => match wrun s env, wblock b env with Some x, Some y => Some (x ++ y) | _, _ => None end
    end.

  (** ** read *)
  (** the bytes that are left, the calls of the reader and the elements for which [reserve] has asked memory *)
  Record rin := RIn { ri_bytes : list byte; ri_calls : nat; ri_room : Z }.
  Inductive rres (A : Type) := Good (a : A) (i : rin) | Bad (i : rin) | Ill.
  Arguments Good {A} a i. Arguments Bad {A} i. Arguments Ill {A}.
  Definition rgo {A B} (r : rres A) (k : A -> rin -> rres B) : rres B :=
    match r with Good a i => k a i | Bad i => Bad i | Ill => Ill end.

  Definition take_num (k : kind) (i : rin) : rres num :=
    match lb_rd lib k (ri_bytes i) with
    | Some (n, bs) => Good n (RIn bs (S (ri_calls i)) (ri_room i))
    | None => Bad (RIn (ri_bytes i) (S (ri_calls i)) (ri_room i))
    end.
  Definition take_str (z : Z) (i : rin) : rres rstr :=
    match lb_rds lib z (ri_bytes i) with
    | Some (s, bs) => Good s (RIn bs (S (ri_calls i)) (ri_room i))
    | None => Bad (RIn (ri_bytes i) (S (ri_calls i)) (ri_room i))
    end.
  Definition reserve (z : Z) (i : rin) : rin := RIn (ri_bytes i) (ri_calls i) (ri_room i + z).
  Definition as_int (n : num) : Z := match n with NInt z => z | NFloat _ => 0 end.
  Definition some_or_ill {A} (o : option A) (i : rin) : rres A := match o with Some a => Good a i | None => Ill end.
  (** the end of a block *)
  Definition leave (outer : renv) (env : renv) : renv := drop (length env - length outer) env.

  Fixpoint repeat_run (n : nat) (k : renv -> rin -> rres renv) (env : renv) (i : rin) : rres renv :=
    match n with O => Good env i | S n => rgo (k env i) (repeat_run n k) end.
  Fixpoint rrun (s : rstmt) (env : renv) (i : rin) {struct s} : rres renv :=
    let block := fix block (b : list rstmt) (env : renv) (i : rin) : rres renv :=
      match b with
      | [] => Good env i
      | s :: b => rgo (rrun s env i) (block b)
      end in
    let scope b env i := rgo (block b env i) (fun env' i => Good (leave env env') i) in
    match s with
    | RCount x => rgo (take_num KU32 i) (fun n i => Good ((x, RNum n) :: env) i)
    | RReserve p x =>
        match get_place p env, find_key x env with Some (RVec _), Some (RNum n) => Good env (reserve (as_int n) i) | _, _ => Ill end
    | RFor x b => match find_key x env with Some (RNum n) => repeat_run (Z.to_nat (as_int n)) (scope b) env i | _ => Ill end
    | RDefault x t => rgo (some_or_ill (default_value items t) i) (fun v i => Good ((x, v) :: env) i)
    | RCall p m =>
        match kind_of m with
        | Some k => rgo (take_num k i) (fun n i => some_or_ill (set_place p (RNum n) env) i)
        | None => Ill
        end
    | RText p x =>
        match find_key x env with
        | Some (RNum n) => rgo (take_str (as_int n) i) (fun s i => some_or_ill (set_place p (RStr s) env) i)
        | _ => Ill
        end
    | RTry p t m =>
        match kind_of m with
        | Some k => rgo (take_num k i) (fun n i =>
            match try_from items t (as_int n) with
            | Some (Some v) => some_or_ill (set_place p v env) i
            | Some None => Bad i
            | None => Ill
            end)
        | None => Ill
        end
    | RPush p x =>
        match get_place p env, find_key x env with
        | Some (RVec l), Some v => some_or_ill (set_place p (RVec (l ++ [v])) env) i
        | _, _ => Ill
        end
    | RSome p x => match find_key x env with Some v => some_or_ill (set_place p (ROpt (Some v)) env) i | None => Ill end
    | RIf b => rgo (take_num KU8 i) (fun n i => if decide (as_int n > 0)%Z then scope b env i else Good env i)
    | _ => Ill
    end.
  Fixpoint rblock (b : list rstmt) (env : renv) (i : rin) : rres renv :=
    match b with
    | [] => Good env i
    | s :: b => rgo (rrun s env i) (rblock b)
    end.
End run.
Arguments Good {A} a i. Arguments Bad {A} i. Arguments Ill {A}.

(** ** The two functions of a module *)
(** [write(writer, input)] *)
Definition rs_write (lib : rs_lib) (m : rs_module) (input : rval) : option (list byte) :=
  wblock lib (rm_items m) (rm_write m) [("input", input)].
(** [read(reader, output)]: the new value of [*output] *)
Definition rs_read (lib : rs_lib) (m : rs_module) (output : rval) (data : list byte) : rres rval :=
  rgo (rblock lib (rm_items m) (rm_read m) [("output", output)] (RIn data 0 0))
      (fun env i => some_or_ill (find_key "output" env) i).
