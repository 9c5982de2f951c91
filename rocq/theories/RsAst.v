(** The fragment of Rust that gen/rust.rs emits: syntax and printer. RsPlan.v proves that the generator's output is
    the printed form of a tree, RsText.v reads the text back. *)
From Verif Require Export RsGen TsAst.

(** x.f.g *)
Record place := Place { pl_root : string; pl_path : list string }.

Inductive rstmt :=
| WCall (m : string) (p : place)                         (* writer.write_m(p); *)
| WByte (n : nat)                                        (* writer.write_uint8(1u8); *)
| WCount (p : place)                                     (* writer.write_uint32(p.len() as u32); *)
| WText (p : place)                                      (* writer.write_string(&p); *)
| WCast (m : string) (p : place) (t : string)            (* writer.write_m(p as t); *)
| WFor (x : string) (p : place) (b : list rstmt)         (* for x in p.iter() { b } *)
| WMatch (by_ref : bool) (p : place) (n : nat) (x : string) (b : list rstmt)
  (* match &p { None => writer.write_uint8(0u8), Some(x) => { b } } *)
| RCount (x : string)                                    (* let x = reader.read_uint32()? as usize; *)
| RReserve (p : place) (x : string)                      (* p.reserve(x); *)
| RFor (x : string) (b : list rstmt)                     (* for _ in 0..x { b } *)
| RDefault (x t : string)                                (* let mut x = t::default(); *)
| RCall (p : place) (m : string)                         (* p = reader.read_m()?; *)
| RText (p : place) (x : string)                         (* p = reader.read_string(x)?; *)
| RTry (p : place) (t m : string)                        (* p = t::try_from(reader.read_m()?)?; *)
| RPush (p : place) (x : string)                         (* p.push(x); *)
| RSome (p : place) (x : string)                         (* p = Some(x); *)
| RIf (b : list rstmt).                                  (* if reader.read_uint8()? > 0 { b } *)

(** T, Vec<T>, Option<T>, Option<Vec<T>> *)
Record rs_type := RsType { rt_opt : bool; rt_vec : bool; rt_base : string }.

Inductive rs_item :=
| IStruct (name : string) (fields : list (string * rs_type))
| IEnum (name repr : string) (variants : list (string * nat)) (dflt : string) (arms : list (Z * string)).
  (* v = 1 << n;  impl Default;  impl TryFrom: z => Ok(name::v) *)
Definition item_name (i : rs_item) : string := match i with IStruct n _ | IEnum n _ _ _ _ => n end.

Record rs_module := RsMod { rm_items : list rs_item; rm_type : string; rm_read : list rstmt; rm_write : list rstmt }.

(** ** Printer *)
Definition print_place (p : place) : string := join "." (pl_root p :: pl_path p).

Fixpoint print_rs (ind : string) (s : rstmt) {struct s} : string :=
  let block ind b := concat_str (List.map (print_rs ind) b) in
  match s with
  | WCall m p => line ind ("writer.write_" +:+ m +:+ "(" +:+ print_place p +:+ ");")
  | WByte n => line ind ("writer.write_uint8(" +:+ string_of_nat n +:+ "u8);")
  | WCount p => line ind ("writer.write_uint32(" +:+ print_place p +:+ ".len() as u32);")
  | WText p => line ind ("writer.write_string(&" +:+ print_place p +:+ ");")
  | WCast m p t => line ind ("writer.write_" +:+ m +:+ "(" +:+ print_place p +:+ " as " +:+ t +:+ ");")
  | WFor x p b => line ind ("for " +:+ x +:+ " in " +:+ print_place p +:+ ".iter() {") +:+ block (ind +:+ tab) b +:+ line ind "}"
  | WMatch r p n x b =>
      line ind ("match " +:+ (if r then "&" else "") +:+ print_place p +:+ " {")
      +:+ line (ind +:+ tab) ("None => writer.write_uint8(" +:+ string_of_nat n +:+ "u8),")
      +:+ line (ind +:+ tab) ("Some(" +:+ x +:+ ") => {")
      +:+ block (ind +:+ tab +:+ tab) b
      +:+ line (ind +:+ tab) "}" +:+ line ind "}"
  | RCount x => line ind ("let " +:+ x +:+ " = reader.read_uint32()? as usize;")
  | RReserve p x => line ind (print_place p +:+ ".reserve(" +:+ x +:+ ");")
  | RFor x b => line ind ("for _ in 0.." +:+ x +:+ " {") +:+ block (ind +:+ tab) b +:+ line ind "}"
  | RDefault x t => line ind ("let mut " +:+ x +:+ " = " +:+ t +:+ "::default();")
  | RCall p m => line ind (print_place p +:+ " = reader.read_" +:+ m +:+ "()?;")
  | RText p x => line ind (print_place p +:+ " = reader.read_string(" +:+ x +:+ ")?;")
  | RTry p t m => line ind (print_place p +:+ " = " +:+ t +:+ "::try_from(reader.read_" +:+ m +:+ "()?)?;")
  | RPush p x => line ind (print_place p +:+ ".push(" +:+ x +:+ ");")
  | RSome p x => line ind (print_place p +:+ " = Some(" +:+ x +:+ ");")
  | RIf b => line ind "if reader.read_uint8()? > 0 {" +:+ block (ind +:+ tab) b +:+ line ind "}"
  end.
Definition print_rsb (ind : string) (b : list rstmt) : string := concat_str (List.map (print_rs ind) b).

Definition print_rs_type (t : rs_type) : string := struct_field_typename (rt_base t) (rt_vec t) (rt_opt t).

Definition print_item (i : rs_item) : string :=
  match i with
  | IStruct n fs =>
      line "" "#[derive(Clone, PartialEq, Debug, Default)]"
      +:+ line "" ("pub struct " +:+ n +:+ " {")
      +:+ concat_str (List.map (fun '(f, t) => line tab ("pub " +:+ f +:+ ": " +:+ print_rs_type t +:+ ",")) fs)
      +:+ line "" "}"
  | IEnum n repr vs d arms =>
      line "" "#[derive(Clone, Copy, PartialEq, Debug)]"
      +:+ line "" ("#[repr(" +:+ repr +:+ ")]")
      +:+ line "" ("pub enum " +:+ n +:+ " {")
      +:+ concat_str (List.map (fun '(v, k) => line tab (v +:+ " = 1 << " +:+ string_of_nat k +:+ ",")) vs)
      +:+ line "" "}"
      +:+ line "" ("impl Default for " +:+ n +:+ " {")
      +:+ line tab "fn default() -> Self {"
      +:+ line (tab +:+ tab) (n +:+ "::" +:+ d)
      +:+ line tab "}"
      +:+ line "" "}"
      +:+ line "" ("impl std::convert::TryFrom<" +:+ repr +:+ "> for " +:+ n +:+ " {")
      +:+ line tab "type Error = packet::Error;"
      +:+ line tab ("fn try_from(value: " +:+ repr +:+ ") -> Result<Self, Self::Error> {")
      +:+ line (tab +:+ tab) "match value {"
      +:+ concat_str (List.map (fun '(z, v) => line (tab +:+ tab +:+ tab) (string_of_Z z +:+ " => Ok(" +:+ n +:+ "::" +:+ v +:+ "),")) arms)
      +:+ line (tab +:+ tab +:+ tab) ("_ => Err(packet::Error::InvalidEnumValue(value as usize, " +:+ QUOTE +:+ n +:+ QUOTE +:+ "))")
      +:+ line (tab +:+ tab) "}"
      +:+ line tab "}"
      +:+ line "" "}"
  end.

Definition rs_prologue : string :=
  line "" "#![allow(dead_code, non_camel_case_types, unused_imports, unused_assignments, clippy::field_reassign_with_default)]"
  +:+ line "" "use std::convert::TryFrom;".

Definition print_rs_module (version now : string) (m : rs_module) : string :=
  header version now
  +:+ rs_prologue
  +:+ concat_str (List.map print_item (rm_items m))
  +:+ line "" ("pub fn read(reader: &mut packet::reader::Reader, output: &mut " +:+ rm_type m +:+ ") -> Result<(), packet::Error> {")
  +:+ print_rsb tab (rm_read m)
  +:+ line tab "Ok(())"
  +:+ line "" "}"
  +:+ line "" ("pub fn write(writer: &mut packet::writer::Writer, input: &" +:+ rm_type m +:+ ") {")
  +:+ print_rsb tab (rm_write m)
  +:+ line "" "}".

(** ** The tree for a checked schema *)
Definition place_of (st : list string) : place := match st with [] => Place "" [] | r :: ps => Place r ps end.

Notation rs_emit := (list string -> list rstmt).

Definition rw_opt (by_ref : bool) (body : rs_emit) : rs_emit := fun st =>
  [WMatch by_ref (place_of st) 0 (bindname st) (WByte 1 :: body [bindname st])].
Definition rw_arr (body : rs_emit) : rs_emit := fun st =>
  [WCount (place_of st); WFor (varname st "item") (place_of st) (body [varname st "item"])].
Definition rw_builtin (b : builtin) (tn : string) : rs_emit := fun st =>
  match b with
  | BString => [WCount (place_of st); WText (place_of st)]
  | _ => [WCall tn (place_of st)]
  end.
Definition rw_enum (e : enum) : rs_emit := fun st => [WCast (repr_name (e_repr e)) (place_of st) (repr_prim (e_repr e))].
Definition rw_wrap (array opt by_ref : bool) (body : rs_emit) : rs_emit :=
  let body := if array then rw_arr body else body in if opt then rw_opt by_ref body else body.
Fixpoint rw_ty (t : rtype) (tn : string) {struct t} : rs_emit :=
  match t with
  | TBuiltin b => rw_builtin b tn
  | TEnum e => rw_enum e
  | TStruct fs => fun st =>
      List.concat (List.map (fun f => rw_wrap (f_array f) (f_opt f) (is_struct (f_ty f)) (rw_ty (f_ty f) (f_tname f)) (st ++ [f_name f])) fs)
  end.

(** the name by which the emitted code calls a type *)
Definition rs_name (tn : string) : string := default tn (resolve_typename tn).
Definition rr_opt (ty : string) (body : rs_emit) : rs_emit := fun st =>
  [RIf (RDefault (bindname st) ty :: body [bindname st] ++ [RSome (place_of st) (bindname st)])].
Definition rr_arr (ty : string) (body : rs_emit) : rs_emit := fun st =>
  [RCount (varname st "len"); RReserve (place_of st) (varname st "len");
   RFor (varname st "len") (RDefault (varname st "item") ty :: body [varname st "item"] ++ [RPush (place_of st) (varname st "item")])].
Definition rr_builtin (b : builtin) (tn : string) : rs_emit := fun st =>
  match b with
  | BString => [RCount (varname st "len"); RText (place_of st) (varname st "len")]
  | _ => [RCall (place_of st) tn]
  end.
Definition rr_enum (e : enum) (tn : string) : rs_emit := fun st => [RTry (place_of st) tn (repr_name (e_repr e))].
Definition rr_wrap (array opt : bool) (ty : string) (body : rs_emit) : rs_emit :=
  let body := if array then rr_arr ty body else body in if opt then rr_opt ty body else body.
Fixpoint rr_ty (t : rtype) (tn : string) {struct t} : rs_emit :=
  match t with
  | TBuiltin b => rr_builtin b tn
  | TEnum e => rr_enum e tn
  | TStruct fs => fun st =>
      List.concat (List.map (fun f => rr_wrap (f_array f) (f_opt f) (rs_name (f_tname f)) (rr_ty (f_ty f) (f_tname f)) (st ++ [f_name f])) fs)
  end.

(** one field, all fields *)
Definition rw_field (f : sfield) : rs_emit := fun st =>
  rw_wrap (f_array f) (f_opt f) (is_struct (f_ty f)) (rw_ty (f_ty f) (f_tname f)) (st ++ [f_name f]).
Definition rw_fields (fs : list sfield) : rs_emit := fun st => List.concat (List.map (fun f => rw_field f st) fs).
Definition rr_field (f : sfield) : rs_emit := fun st =>
  rr_wrap (f_array f) (f_opt f) (rs_name (f_tname f)) (rr_ty (f_ty f) (f_tname f)) (st ++ [f_name f]).
Definition rr_fields (fs : list sfield) : rs_emit := fun st => List.concat (List.map (fun f => rr_field f st) fs).

Definition field_rs_type (f : sfield) : rs_type :=
  RsType (f_opt f) (f_array f) (match f_ty f with TBuiltin b => builtin_prim b | _ => f_tname f end).
Definition item_of (d : string * (string * rtype)) : list rs_item :=
  let '(name, (_, t)) := d in
  match t with
  | TBuiltin _ => []
  | TStruct fs => [IStruct name (List.map (fun f => (f_name f, field_rs_type f)) fs)]
  | TEnum e => [IEnum name (repr_prim (e_repr e)) (List.map (fun v => (ev_name v, ev_value v)) (e_variants e))
                  (match e_variants e with [] => "" | v :: _ => ev_name v end)
                  (List.map (fun v => (shl1 (ev_value v), ev_name v)) (e_variants e))]
  end.
Definition rs_module_of (titer : tymap -> list (string * (string * rtype))) (r : resolved) : rs_module :=
  RsMod (List.concat (List.map item_of (titer (r_types r)))) (x_name (r_export r))
        (rr_fields (x_fields (r_export r)) ["output"]) (rw_fields (x_fields (r_export r)) ["input"]).
