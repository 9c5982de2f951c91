(** Whether the emitted Rust compiles: the checks of rustc that can fail for code of the fragment of RsAst.v
    (specification; knows nothing of the generator). Edition 2018 or 2021.

    Places have a type and are values or references; [&T] and [&mut T] are not distinguished (the only [&mut] is [output],
    and only [read] assigns). Of the rules on moves, only that nothing is moved out of a borrow is checked: each variable
    that is moved is moved once, by the last statement of its block. The crate packet has the methods that the code calls,
    each for the type of its name; whether the methods of its writer take numbers by reference as well ([refs]) is left
    open. *)
From Verif Require Export RsSem RsSpec.

Definition rust_keywords : list string :=
  ["as"; "break"; "const"; "continue"; "crate"; "else"; "enum"; "extern"; "false"; "fn"; "for"; "if"; "impl"; "in"; "let"; "loop";
   "match"; "mod"; "move"; "mut"; "pub"; "ref"; "return"; "self"; "Self"; "static"; "struct"; "super"; "trait"; "true"; "type";
   "unsafe"; "use"; "where"; "while"; "async"; "await"; "dyn"; "abstract"; "become"; "box"; "do"; "final"; "macro"; "override";
   "priv"; "typeof"; "unsized"; "virtual"; "yield"; "try"; "_"].
(** types, traits and crates that the emitted code mentions *)
Definition rust_taken : list string :=
  rust_prims ++ ["usize"; "Vec"; "Option"; "Result"; "Default"; "TryFrom"; "std"; "packet"].

(** the type of a place: a value, a reference, or a usize *)
Inductive sty := Own (t : rs_type) | Ref (t : rs_type) | Len.
#[global] Instance rs_type_dec : EqDecision rs_type.
Proof. solve_decision. Defined.
Notation senv := (list (string * sty)).
Notation Base := (RsType false false).

(** the type of the numbers that write_m and read_m transmit *)
Definition method_type (m : string) : option string :=
  match kind_of m with
  | Some KU8 => Some "u8" | Some KU16 => Some "u16" | Some KU32 => Some "u32"
  | Some KI8 => Some "i8" | Some KI16 => Some "i16" | Some KI32 => Some "i32" | Some KF32 => Some "f32"
  | None => None
  end.
Definition unsigned_bits (t : string) : option Z :=
  if decide (t = "u8") then Some 8%Z else if decide (t = "u16") then Some 16%Z else if decide (t = "u32") then Some 32%Z else None.

Section check.
  Context (items : list rs_item) (refs : bool).
  Definition is_enum (t : string) : bool := match find_item t items with Some (IEnum _ _ _ _ _) => true | _ => false end.
  Definition is_copy (t : rs_type) : bool :=
    negb (rt_opt t) && negb (rt_vec t) && (is_enum (rt_base t) || bool_decide (rt_base t ∈ rust_prims /\ rt_base t ≠ "String")).

  Fixpoint field_type (t : rs_type) (ps : list string) : option rs_type :=
    match ps with
    | [] => Some t
    | f :: ps =>
        if rt_opt t || rt_vec t then None else
        match find_item (rt_base t) items with
        | Some (IStruct _ fs) => match find_key f fs with Some u => field_type u ps | None => None end
        | _ => None
        end
    end.
  Definition place_type (env : senv) (p : place) : option sty :=
    match find_key (pl_root p) env with
    | None => None
    | Some s =>
        match pl_path p, s with
        | [], _ => Some s
        | ps, (Own t | Ref t) => match field_type t ps with Some u => Some (Own u) | None => None end
        | _, Len => None
        end
    end.
  (** the value is behind a reference *)
  Definition borrowed (env : senv) (p : place) : bool := match find_key (pl_root p) env with Some (Ref _) => true | _ => false end.

  (** *** the body of write *)
  Fixpoint wcheck (s : rstmt) (env : senv) {struct s} : bool :=
    match s with
    | WCall m p =>
        match method_type m, place_type env p with
        | Some t, Some (Own u) => bool_decide (u = Base t)
        | Some t, Some (Ref u) => bool_decide (u = Base t) && refs
        | _, _ => false
        end
    | WByte n => (n <? 256)%nat
    | WCount p => match place_type env p with Some (Own t | Ref t) => negb (rt_opt t) && (rt_vec t || bool_decide (rt_base t = "String")) | _ => false end
    | WText p => match place_type env p with Some (Own t | Ref t) => bool_decide (t = Base "String") | _ => false end
    (* a reference cannot be cast *)
    | WCast m p t =>
        match place_type env p with
        | Some (Own u) => negb (rt_opt u) && negb (rt_vec u) && is_enum (rt_base u) && bool_decide (method_type m = Some t)
        | _ => false
        end
    | WFor x p b =>
        match place_type env p with
        | Some (Own t | Ref t) => negb (rt_opt t) && rt_vec t && forallb (fun s => wcheck s ((x, Ref (Base (rt_base t))) :: env)) b
        | _ => false
        end
    (* by value, x moves out of p: only if that is copied, or owned *)
    | WMatch by_ref p n x b =>
        match place_type env p with
        | Some s =>
            match s with
            | Own t | Ref t =>
                let u := RsType false (rt_vec t) (rt_base t) in
                let through := by_ref || match s with Ref _ => true | _ => false end in
                rt_opt t && (n <? 256)%nat && (through || is_copy u || negb (borrowed env p)) &&
                forallb (fun s => wcheck s ((x, if through then Ref u else Own u) :: env)) b
            | Len => false
            end
        | None => false
        end
    | _ => false
    end.

  (** *** the body of read *)
  Definition variants_of (t : string) : list string := match find_item t items with Some (IEnum _ _ vs _ _) => vs.*1 | _ => [] end.
  (** [t::default()], [t::try_from()]: a variant of that name comes first *)
  Definition has_default (t : string) : bool :=
    bool_decide ("default" ∉ variants_of t) && match find_item t items with Some _ => true | None => bool_decide (t ∈ rust_prims) end.
  Fixpoint rcheck (s : rstmt) (env : senv) {struct s} : option senv :=
    let block := fix block (b : list rstmt) (env : senv) : option senv :=
      match b with [] => Some env | s :: b => match rcheck s env with Some env => block b env | None => None end end in
    let when (b : bool) := if b then Some env else None in
    match s with
    | RCount x => Some ((x, Len) :: env)
    | RReserve p x => when match place_type env p, find_key x env with Some (Own t | Ref t), Some Len => negb (rt_opt t) && rt_vec t | _, _ => false end
    | RFor x b => match find_key x env, block b env with Some Len, Some _ => Some env | _, _ => None end
    | RDefault x t => if has_default t then Some ((x, Own (Base t)) :: env) else None
    | RCall p m => when match method_type m, place_type env p with Some t, Some (Own u) => bool_decide (u = Base t) | _, _ => false end
    | RText p x => when match place_type env p, find_key x env with Some (Own u), Some Len => bool_decide (u = Base "String") | _, _ => false end
    | RTry p t m =>
        when match place_type env p, find_item t items with
              | Some (Own u), Some (IEnum _ repr _ _ _) =>
                  bool_decide (u = Base t) && bool_decide (method_type m = Some repr) && bool_decide ("try_from" ∉ variants_of t)
              | _, _ => false
              end
    | RPush p x =>
        when match place_type env p, find_key x env with
              | Some (Own t | Ref t), Some (Own u) => negb (rt_opt t) && rt_vec t && bool_decide (u = Base (rt_base t))
              | _, _ => false
              end
    | RSome p x =>
        when match place_type env p, find_key x env with
              | Some (Own t), Some (Own u) => rt_opt t && bool_decide (u = RsType false (rt_vec t) (rt_base t))
              | _, _ => false
              end
    | RIf b => match block b env with Some _ => Some env | None => None end
    | _ => None
    end.
  Fixpoint rall (b : list rstmt) (env : senv) : option senv :=
    match b with [] => Some env | s :: b => match rcheck s env with Some env => rall b env | None => None end end.

  (** *** declarations *)
  Definition rust_ident (x : string) : bool := bool_decide (x ∉ rust_keywords).
  (** the type has a size: structs contain themselves only in a Vec *)
  Fixpoint finite (fuel : nat) (t : string) : bool :=
    match fuel with
    | O => false
    | S fuel =>
        match find_item t items with
        | Some (IStruct _ fs) => forallb (fun f => rt_vec f.2 || finite fuel (rt_base f.2)) fs
        | Some _ => true
        | None => bool_decide (t ∈ rust_prims)
        end
    end.
  Definition icheck (i : rs_item) : bool :=
    match i with
    | IStruct n fs => rust_ident n && bool_decide (n ∉ rust_taken) && bool_decide (NoDup fs.*1) && forallb rust_ident fs.*1 &&
        forallb (fun f => match find_item (rt_base f.2) items with Some _ => true | None => bool_decide (rt_base f.2 ∈ rust_prims) end) fs &&
        finite (S (length items)) n
    | IEnum n repr vs d arms =>
        match unsigned_bits repr with
        | None => false
        | Some bits =>
            rust_ident n && bool_decide (n ∉ rust_taken) && bool_decide (NoDup vs.*1) && bool_decide (NoDup vs.*2) && forallb rust_ident vs.*1 &&
            forallb (fun v => (Z.of_nat v.2 <? bits)%Z) vs && bool_decide (d ∈ vs.*1) &&
            (* Self::Error is the type that try_from gives its errors *)
            bool_decide ("Error" ∉ vs.*1) &&
            (* the patterns are numbers of the type *)
            forallb (fun a => (0 <=? a.1)%Z && (a.1 <? 2 ^ bits)%Z && bool_decide (a.2 ∈ vs.*1)) arms
        end
    end.
End check.

Definition compiles (refs : bool) (m : rs_module) : bool :=
  bool_decide (NoDup (item_name <$> rm_items m)) && forallb (icheck (rm_items m)) (rm_items m) &&
  match find_item (rm_type m) (rm_items m) with Some _ => true | None => false end &&
  forallb (fun s => wcheck (rm_items m) refs s [("input", Ref (Base (rm_type m)))]) (rm_write m) &&
  match rall (rm_items m) (rm_read m) [("output", Ref (Base (rm_type m)))] with Some _ => true | None => false end.

(** ** Which schemas give Rust that compiles *)
Definition number_names : list string := ["uint8"; "uint16"; "uint32"; "int8"; "int16"; "int32"; "float"].
(** a field of this type *)
Record rust_field (refs : bool) (a : ast) (u : unresolved) : Prop := {
  rf_numbers : u_array u = true -> u_name u ∈ number_names -> refs = true;
  rf_strings : u_opt u = true -> u_name u ≠ "string";
  rf_enums : forall vs, declares_enum a (u_name u) vs -> u_array u = false /\ "try_from" ∉ vs /\ (u_opt u = true -> "default" ∉ vs) }.
Record rust_ready (refs : bool) (a : ast) (e : string) : Prop := {
  ry_types : forall n, needed a e n -> n ∉ builtin_names -> n ∉ rust_keywords ++ rust_taken;
  ry_structs : forall n fs, needed a e n -> declares_struct a n fs -> NoDup fs.*1 /\ Forall (fun f => f.1 ∉ rust_keywords /\ rust_field refs a f.2) fs;
  ry_enums : forall n vs, needed a e n -> declares_enum a n vs -> length vs < 32 /\ Forall (fun v => v ∉ "Error" :: rust_keywords) vs }.
