(** Model of src/lib/gen/rust.rs, the Rust back-end, string for string. At the pinned commit this file is
    not compiled (gen/mod.rs:2 has the module commented out, and the traits [Definition], [WriteImpl] and
    [ReadImpl] that it implements are gone from gen/mod.rs), so only its functions are modelled; the order in
    which a driver calls them is that of the output shown in README.md:33-46. Line numbers refer to rust.rs
    unless another file is named. *)
From Verif Require Export TsGen.

Definition QUOTE : string := String "034" EmptyString.

(** 14-21 *)
Definition rs_common (out : string) : string :=
  out +:+ "#![allow(dead_code, non_camel_case_types, unused_imports, unused_assignments, clippy::field_reassign_with_default)]" +:+ NL
  +:+ "use std::convert::TryFrom;" +:+ NL.

(** 24-26 are the functions [varname], [bindname] and [fname] of ts.rs. *)

(** 28-51 *)
Definition rs_write_optional (by_ref : bool) (body : gen) : gen := fun c =>
  let old := c_stack c in
  let fn := fname old in
  let bind_var := bindname old in
  let c := push_fname bind_var (set_stack [] c) in
  let ref_prefix := if by_ref then "&" else "" in
  let c := cat ("match " +:+ ref_prefix +:+ fn +:+ " {" +:+ NL) c in
  let c := push_indent c in
  let c := cat ("None => writer.write_uint8(0u8)," +:+ NL) c in
  let c := cat ("Some(" +:+ bind_var +:+ ") => {" +:+ NL) c in
  let c := push_indent c in
  let c := cat ("writer.write_uint8(1u8);" +:+ NL) c in
  do c <- body c;
  let c := pop_indent c in
  let c := cat ("}" +:+ NL) c in
  let c := pop_indent c in
  let c := cat ("}" +:+ NL) c in
  Ok (set_stack old c).

(** 53-70 *)
Definition rs_write_array (body : gen) : gen := fun c =>
  let old := c_stack c in
  let fn := fname old in
  let item_var := varname old "item" in
  let c := push_fname item_var (set_stack [] c) in
  let c := cat ("writer.write_uint32(" +:+ fn +:+ ".len() as u32);" +:+ NL) c in
  let c := cat ("for " +:+ item_var +:+ " in " +:+ fn +:+ ".iter() {" +:+ NL) c in
  let c := push_indent c in
  do c <- body c;
  let c := pop_indent c in
  let c := cat ("}" +:+ NL) c in
  Ok (set_stack old c).

(** 72-81 *)
Definition rs_write_builtin (ty : builtin) (type_name : string) : gen := fun c =>
  let fn := fname (c_stack c) in
  match ty with
  | BString =>
      let c := cat ("writer.write_uint32(" +:+ fn +:+ ".len() as u32);" +:+ NL) c in
      Ok (cat ("writer.write_string(&" +:+ fn +:+ ");" +:+ NL) c)
  | _ => Ok (cat ("writer.write_" +:+ type_name +:+ "(" +:+ fn +:+ ");" +:+ NL) c)
  end.

(** check.rs:66-74, the Display of an [EnumRepr] *)
Definition repr_prim (r : enum_repr) : string := match r with U8 => "u8" | U16 => "u16" | U32 => "u32" end.

(** 83-91 *)
Definition rs_write_enum (ty : enum) : gen := fun c =>
  let fn := fname (c_stack c) in
  Ok (cat ("writer.write_" +:+ repr_name (e_repr ty) +:+ "(" +:+ fn +:+ " as " +:+ repr_prim (e_repr ty) +:+ ");" +:+ NL) c).

(** 93-120: [rs_write_ty] is the generator that is chosen at 100-107 *)
Fixpoint rs_write_ty (t : rtype) (tname : string) {struct t} : gen :=
  match t with
  | TBuiltin b => rs_write_builtin b tname
  | TEnum e => rs_write_enum e
  | TStruct fs =>
      (fix fields (fs : list sfield) : gen := fun c =>
         match fs with
         | [] => Ok c
         | f :: fs' =>
             let c := push_fname (f_name f) c in
             let by_ref := match f_ty f with TStruct _ => true | _ => false end in
             let generator := rs_write_ty (f_ty f) (f_tname f) in
             let generator := if f_array f then rs_write_array generator else generator in
             let generator := if f_opt f then rs_write_optional by_ref generator else generator in
             do c <- generator c;
             fields fs' (pop_fname c)
         end) fs
  end.

(** 122-135 *)
Definition rs_write_impl (fs : list sfield) (name : string) (out : string) : res string :=
  let c := Ctx "" out [] in
  let c := push_fname "input" c in
  let c := cat ("pub fn write(writer: &mut packet::writer::Writer, input: &" +:+ name +:+ ") {" +:+ NL) c in
  let c := push_indent c in
  do c <- rs_write_ty (TStruct fs) name c;
  let c := pop_indent c in
  let c := cat ("}" +:+ NL) c in
  Ok (c_out c).

(** 137-155 *)
Definition rs_read_optional (type_name : string) (body : gen) : gen := fun c =>
  let old := c_stack c in
  let fn := fname old in
  let bind_var := bindname old in
  let c := push_fname bind_var (set_stack [] c) in
  let c := cat ("if reader.read_uint8()? > 0 {" +:+ NL) c in
  let c := push_indent c in
  let c := cat ("let mut " +:+ bind_var +:+ " = " +:+ type_name +:+ "::default();" +:+ NL) c in
  do c <- body c;
  let c := cat (fn +:+ " = Some(" +:+ bind_var +:+ ");" +:+ NL) c in
  let c := pop_indent c in
  let c := cat ("}" +:+ NL) c in
  Ok (set_stack old c).

(** 157-178 *)
Definition rs_read_array (type_name : string) (body : gen) : gen := fun c =>
  let old := c_stack c in
  let len_var := varname old "len" in
  let fn := fname old in
  let item_var := varname old "item" in
  let c := push_fname item_var (set_stack [] c) in
  let c := cat ("let " +:+ len_var +:+ " = reader.read_uint32()? as usize;" +:+ NL) c in
  let c := cat (fn +:+ ".reserve(" +:+ len_var +:+ ");" +:+ NL) c in
  let c := cat ("for _ in 0.." +:+ len_var +:+ " {" +:+ NL) c in
  let c := push_indent c in
  let c := cat ("let mut " +:+ item_var +:+ " = " +:+ type_name +:+ "::default();" +:+ NL) c in
  do c <- body c;
  let c := cat (fn +:+ ".push(" +:+ item_var +:+ ");" +:+ NL) c in
  let c := pop_indent c in
  let c := cat ("}" +:+ NL) c in
  Ok (set_stack old c).

(** 180-192 *)
Definition rs_read_builtin (ty : builtin) (type_name : string) : gen := fun c =>
  let fn := fname (c_stack c) in
  match ty with
  | BString =>
      let len_var := varname (c_stack c) "len" in
      let c := cat ("let " +:+ len_var +:+ " = reader.read_uint32()? as usize;" +:+ NL) c in
      Ok (cat (fn +:+ " = reader.read_string(" +:+ len_var +:+ ")?;" +:+ NL) c)
  | _ => Ok (cat (fn +:+ " = reader.read_" +:+ type_name +:+ "()?;" +:+ NL) c)
  end.

(** 194-202 *)
Definition rs_read_enum (ty : enum) (type_name : string) : gen := fun c =>
  let fn := fname (c_stack c) in
  Ok (cat (fn +:+ " = " +:+ type_name +:+ "::try_from(reader.read_" +:+ repr_name (e_repr ty) +:+ "()?)?;" +:+ NL) c).

(** 204-216 *)
Definition resolve_typename (type_name : string) : option string :=
  if (type_name =? "uint8")%string then Some "u8"
  else if (type_name =? "uint16")%string then Some "u16"
  else if (type_name =? "uint32")%string then Some "u32"
  else if (type_name =? "int8")%string then Some "i8"
  else if (type_name =? "int16")%string then Some "i16"
  else if (type_name =? "int32")%string then Some "i32"
  else if (type_name =? "float")%string then Some "f32"
  else if (type_name =? "string")%string then Some "String"
  else None.

(** 218-240: [rs_read_ty] is the generator that is chosen at 225-229 *)
Fixpoint rs_read_ty (t : rtype) (tname : string) {struct t} : gen :=
  match t with
  | TBuiltin b => rs_read_builtin b tname
  | TEnum e => rs_read_enum e tname
  | TStruct fs =>
      (fix fields (fs : list sfield) : gen := fun c =>
         match fs with
         | [] => Ok c
         | f :: fs' =>
             let c := push_fname (f_name f) c in
             let tyname := default (f_tname f) (resolve_typename (f_tname f)) in
             let generator := rs_read_ty (f_ty f) (f_tname f) in
             let generator := if f_array f then rs_read_array tyname generator else generator in
             let generator := if f_opt f then rs_read_optional tyname generator else generator in
             do c <- generator c;
             fields fs' (pop_fname c)
         end) fs
  end.

(** 242-256 *)
Definition rs_read_impl (fs : list sfield) (name : string) (out : string) : res string :=
  let c := Ctx "" out [] in
  let c := push_fname "output" c in
  let c := cat ("pub fn read(reader: &mut packet::reader::Reader, output: &mut " +:+ name +:+ ") -> Result<(), packet::Error> {" +:+ NL) c in
  let c := push_indent c in
  do c <- rs_read_ty (TStruct fs) name c;
  let c := cat ("Ok(())" +:+ NL) c in
  let c := pop_indent c in
  let c := cat ("}" +:+ NL) c in
  Ok (c_out c).

(** 258-266 *)
Definition struct_field_typename (base : string) (array optional : bool) : string :=
  (if optional then "Option<" else "") +:+ (if array then "Vec<" else "") +:+ base
  +:+ (if array then ">" else "") +:+ (if optional then ">" else "").

(** 279-288 *)
Definition builtin_prim (b : builtin) : string :=
  match b with
  | Uint8 => "u8" | Uint16 => "u16" | Uint32 => "u32" | Int8 => "i8" | Int16 => "i16" | Int32 => "i32"
  | Float => "f32" | BString => "String"
  end.

(** 268-296 *)
Definition rs_struct_def (fs : list sfield) (name : string) (out : string) : string :=
  let c := Ctx "" out [] in
  let c := cat ("#[derive(Clone, PartialEq, Debug, Default)]" +:+ NL) c in
  let c := cat ("pub struct " +:+ name +:+ " {" +:+ NL) c in
  let c := push_indent c in
  let c := for_each (fun f =>
      let typename := match f_ty f with TBuiltin b => builtin_prim b | _ => f_tname f end in
      cat ("pub " +:+ f_name f +:+ ": " +:+ struct_field_typename typename (f_array f) (f_opt f) +:+ "," +:+ NL)) fs c in
  let c := pop_indent c in
  c_out (cat ("}" +:+ NL) c).

(** 298-310; [first().unwrap()] panics on an enum without variants *)
Definition rs_enum_default (name : string) (ty : enum) : gen := fun c =>
  match e_variants ty with
  | [] => Panic "called `Option::unwrap()` on a `None` value"
  | v0 :: _ =>
      let c := cat ("impl Default for " +:+ name +:+ " {" +:+ NL) c in
      let c := push_indent c in
      let c := cat ("fn default() -> Self {" +:+ NL) c in
      let c := push_indent c in
      let c := cat (name +:+ "::" +:+ ev_name v0 +:+ NL) c in
      let c := pop_indent c in
      let c := cat ("}" +:+ NL) c in
      let c := pop_indent c in
      Ok (cat ("}" +:+ NL) c)
  end.

(** 320-323; [1 << variant.value] is an i32, see [shl_i32] *)
Fixpoint rs_enum_arms (name : string) (vs : list enum_variant) : gen := fun c =>
  match vs with
  | [] => Ok c
  | v :: vs' =>
      do value <- shl_i32 (ev_value v);
      rs_enum_arms name vs' (cat (string_of_Z value +:+ " => Ok(" +:+ name +:+ "::" +:+ ev_name v +:+ ")," +:+ NL) c)
  end.

(** 312-335 *)
Definition rs_enum_tryfrom (name : string) (ty : enum) : gen := fun c =>
  let repr := repr_prim (e_repr ty) in
  let c := cat ("impl std::convert::TryFrom<" +:+ repr +:+ "> for " +:+ name +:+ " {" +:+ NL) c in
  let c := push_indent c in
  let c := cat ("type Error = packet::Error;" +:+ NL) c in
  let c := cat ("fn try_from(value: " +:+ repr +:+ ") -> Result<Self, Self::Error> {" +:+ NL) c in
  let c := push_indent c in
  let c := cat ("match value {" +:+ NL) c in
  let c := push_indent c in
  do c <- rs_enum_arms name (e_variants ty) c;
  let c := cat ("_ => Err(packet::Error::InvalidEnumValue(value as usize, " +:+ QUOTE +:+ name +:+ QUOTE +:+ "))" +:+ NL) c in
  let c := pop_indent c in
  let c := cat ("}" +:+ NL) c in
  let c := pop_indent c in
  let c := cat ("}" +:+ NL) c in
  let c := pop_indent c in
  Ok (cat ("}" +:+ NL) c).

(** 337-355 *)
Definition rs_enum_def (ty : enum) (name : string) (out : string) : res string :=
  let c := Ctx "" out [] in
  let c := cat ("#[derive(Clone, Copy, PartialEq, Debug)]" +:+ NL) c in
  let c := cat ("#[repr(" +:+ repr_prim (e_repr ty) +:+ ")]" +:+ NL) c in
  let c := cat ("pub enum " +:+ name +:+ " {" +:+ NL) c in
  let c := push_indent c in
  let c := for_each (fun v => cat (ev_name v +:+ " = 1 << " +:+ string_of_nat (ev_value v) +:+ "," +:+ NL)) (e_variants ty) c in
  let c := pop_indent c in
  let c := cat ("}" +:+ NL) c in
  do c <- rs_enum_default name ty c;
  do c <- rs_enum_tryfrom name ty c;
  Ok (c_out c).

(** One definition per type of the schema; README.md:36-39 shows that the exported struct is among them. *)
Definition rs_def (name : string) (ty : rtype) (out : string) : res string :=
  match ty with
  | TBuiltin _ => Ok out
  | TEnum e => rs_enum_def e name out
  | TStruct fs => Ok (rs_struct_def fs name out)
  end.
Fixpoint rs_defs (l : list (string * (string * rtype))) (out : string) : res string :=
  match l with
  | [] => Ok out
  | (name, (_, ty)) :: l' => do out <- rs_def name ty out; rs_defs l' out
  end.

(** README.md:33-46: header, common part, definitions, [read], [write]. *)
Definition rs_generate (version now : string) (titer : tymap -> list (string * (string * rtype))) (r : resolved) : res string :=
  let out := push_meta version now "" in
  let out := rs_common out in
  do out <- rs_defs (titer (r_types r)) out;
  do out <- rs_read_impl (x_fields (r_export r)) (x_name (r_export r)) out;
  rs_write_impl (x_fields (r_export r)) (x_name (r_export r)) out.
