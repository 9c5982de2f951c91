(** Model of src/lib/gen/gen_ctx.rs, gen/mod.rs and gen/ts.rs: the text generator, string for string.
    Line numbers refer to ts.rs unless another file is named. Rust's closures that capture a
    generator are functions [ctx -> res ctx] here. *)
From Verif Require Export Check.

(** gen_ctx.rs:1-5; [out] is the whole output buffer *)
Record ctx := Ctx { c_ind : string; c_out : string; c_stack : list string }.

(** gen_ctx.rs:17 *)
Definition push_indent (c : ctx) : ctx := Ctx (c_ind c +:+ "    ") (c_out c) (c_stack c).
(** gen_ctx.rs:20-26 [truncate] *)
Definition pop_indent (c : ctx) : ctx :=
  let n := String.length (c_ind c) in
  Ctx (String.substring 0 (if (n <? 4)%nat then 0 else n - 4) (c_ind c)) (c_out c) (c_stack c).
(** gen_ctx.rs:29 *)
Definition push_fname (s : string) (c : ctx) : ctx := Ctx (c_ind c) (c_out c) (c_stack c ++ [s]).
(** gen_ctx.rs:32 Vec::pop *)
Definition pop_fname (c : ctx) : ctx := Ctx (c_ind c) (c_out c) (removelast (c_stack c)).
(** gen_ctx.rs:35 [swap_stack] with a vector that the caller owns *)
Definition set_stack (s : list string) (c : ctx) : ctx := Ctx (c_ind c) (c_out c) s.

(** mod.rs:34-42 [cat!]: indentation, then the formatted text *)
Definition cat (s : string) (c : ctx) : ctx := Ctx (c_ind c) (c_out c +:+ c_ind c +:+ s) (c_stack c).

(** 20-22 *)
Definition varname (stack : list string) (name : string) : string := join "_" stack +:+ "_" +:+ name.
Definition bindname (stack : list string) : string := join "_" stack.
Definition fname (stack : list string) : string := join "." stack.

Notation gen := (ctx -> res ctx).

(** 24-47 *)
Definition gen_write_impl_optional (body : gen) : gen := fun c =>
  let old := c_stack c in
  let fn := fname old in
  let bind_var := bindname old in
  let c := push_fname bind_var (set_stack [] c) in
  let c := cat ("let " +:+ bind_var +:+ " = " +:+ fn +:+ ";" +:+ NL) c in
  let c := cat ("switch (" +:+ bind_var +:+ ") {" +:+ NL) c in
  let c := push_indent c in
  let c := cat ("case undefined: case null: writer.write_uint8(0); break;" +:+ NL) c in
  let c := cat ("default: {" +:+ NL) c in
  let c := push_indent c in
  let c := cat ("writer.write_uint8(1);" +:+ NL) c in
  do c <- body c;
  let c := pop_indent c in
  let c := cat ("}" +:+ NL) c in
  let c := pop_indent c in
  let c := cat ("}" +:+ NL) c in
  Ok (set_stack old c).

(** 49-69 *)
Definition gen_write_impl_array (body : gen) : gen := fun c =>
  let old := c_stack c in
  let fn := fname old in
  let item := varname old "item" in
  let index := varname old "index" in
  let c := push_fname item (set_stack [] c) in
  let c := cat ("writer.write_uint32(" +:+ fn +:+ ".length);" +:+ NL) c in
  let c := cat ("for (let " +:+ index +:+ " = 0; " +:+ index +:+ " < " +:+ fn +:+ ".length; ++" +:+ index +:+ ") {" +:+ NL) c in
  let c := push_indent c in
  let c := cat ("let " +:+ item +:+ " = " +:+ fn +:+ "[" +:+ index +:+ "];" +:+ NL) c in
  do c <- body c;
  let c := pop_indent c in
  let c := cat ("}" +:+ NL) c in
  Ok (set_stack old c).

(** 71-80 *)
Definition gen_write_impl_builtin (ty : builtin) (name : string) : gen := fun c =>
  let fn := fname (c_stack c) in
  match ty with
  | BString =>
      let c := cat ("writer.write_uint32(" +:+ fn +:+ ".length);" +:+ NL) c in
      Ok (cat ("writer.write_string(" +:+ fn +:+ ");" +:+ NL) c)
  | _ => Ok (cat ("writer.write_" +:+ name +:+ "(" +:+ fn +:+ ");" +:+ NL) c)
  end.

(** 84-88, 172-176 *)
Definition repr_name (r : enum_repr) : string :=
  match r with U8 => "uint8" | U16 => "uint16" | U32 => "uint32" end.

(** 82-91 *)
Definition gen_write_impl_enum (ty : enum) : gen := fun c =>
  let fn := fname (c_stack c) in
  Ok (cat ("writer.write_" +:+ repr_name (e_repr ty) +:+ "(" +:+ fn +:+ " as number);" +:+ NL) c).

(** 93-114: [gen_write_ty] is the generator that is chosen at 99-103 *)
Fixpoint gen_write_ty (t : rtype) (tname : string) {struct t} : gen :=
  match t with
  | TBuiltin b => gen_write_impl_builtin b tname
  | TEnum e => gen_write_impl_enum e
  | TStruct fs =>
      (fix fields (fs : list sfield) : gen := fun c =>
         match fs with
         | [] => Ok c
         | f :: fs' =>
             let c := push_fname (f_name f) c in
             let generator := gen_write_ty (f_ty f) (f_tname f) in
             let generator := if f_array f then gen_write_impl_array generator else generator in
             let generator := if f_opt f then gen_write_impl_optional generator else generator in
             do c <- generator c;
             fields fs' (pop_fname c)
         end) fs
  end.
Definition gen_write_impl_struct (fs : list sfield) : gen := gen_write_ty (TStruct fs) "".

(** 116-128 *)
Definition gen_read_impl_optional (body : gen) : gen := fun c =>
  let fn := fname (c_stack c) in
  let c := cat ("if (reader.read_uint8() > 0) {" +:+ NL) c in
  let c := push_indent c in
  do c <- body c;
  let c := pop_indent c in
  let c := cat ("} else {" +:+ NL) c in
  let c := push_indent c in
  let c := cat (fn +:+ " = undefined;" +:+ NL) c in
  let c := pop_indent c in
  Ok (cat ("}" +:+ NL) c).

(** 130-154 *)
Definition gen_read_impl_array (init_struct : bool) (body : gen) : gen := fun c =>
  let old := c_stack c in
  let len_var := varname old "len" in
  let fn := fname old in
  let idx_var := varname old "index" in
  let item_var := varname old "item" in
  let c := push_fname item_var (set_stack [] c) in
  let c := cat ("let " +:+ len_var +:+ " = reader.read_uint32();" +:+ NL) c in
  let c := cat (fn +:+ " = new Array(" +:+ len_var +:+ ");" +:+ NL) c in
  let c := cat ("for (let " +:+ idx_var +:+ " = 0; " +:+ idx_var +:+ " < " +:+ len_var +:+ "; ++" +:+ idx_var +:+ ") {" +:+ NL) c in
  let c := push_indent c in
  let c := cat ("let " +:+ item_var +:+ ": any = " +:+ (if init_struct then "{}" else "undefined") +:+ ";" +:+ NL) c in
  do c <- body c;
  let c := cat (fn +:+ "[" +:+ idx_var +:+ "] = " +:+ item_var +:+ ";" +:+ NL) c in
  let c := pop_indent c in
  let c := cat ("}" +:+ NL) c in
  Ok (set_stack old c).

(** 156-169 *)
Definition gen_read_impl_builtin (ty : builtin) (type_name : string) : gen := fun c =>
  match ty with
  | BString =>
      let len_var := varname (c_stack c) "len" in
      let c := cat ("let " +:+ len_var +:+ " = reader.read_uint32();" +:+ NL) c in
      let fn := fname (c_stack c) in
      Ok (cat (fn +:+ " = reader.read_string(" +:+ len_var +:+ ");" +:+ NL) c)
  | _ =>
      let fn := fname (c_stack c) in
      Ok (cat (fn +:+ " = reader.read_" +:+ type_name +:+ "();" +:+ NL) c)
  end.

(** [1 << value] on i32 (the integer type that the literal gets): a shift by 32 or more panics,
    [1 << 31] is i32::MIN *)
Definition shl_i32 (value : nat) : res Z :=
  if (value <? 31)%nat then Ok (2 ^ Z.of_nat value)%Z
  else if (value =? 31)%nat then Ok (- 2 ^ 31)%Z
  else Panic "attempt to shift left with overflow".

(** 171-186 *)
Definition gen_read_impl_enum (ty : enum) : gen := fun c =>
  match e_variants ty with
  | [] => Panic "index out of bounds"
  | v0 :: _ =>
      do lo <- shl_i32 (ev_value v0);
      do hi <- shl_i32 (ev_value (List.last (e_variants ty) v0));
      let fn := fname (c_stack c) in
      let temp := varname (c_stack c) "temp" in
      let c := cat ("let " +:+ temp +:+ " = reader.read_" +:+ repr_name (e_repr ty) +:+ "();" +:+ NL) c in
      let c := cat ("if (" +:+ string_of_Z lo +:+ " <= " +:+ temp +:+ " && " +:+ temp +:+ " <= " +:+ string_of_Z hi +:+ ") "
                    +:+ fn +:+ " = " +:+ temp +:+ ";" +:+ NL) c in
      Ok (cat ("else reader.failed = true;" +:+ NL) c)
  end.

(** 188-234; [init] only matters for structs *)
Fixpoint gen_read_ty (t : rtype) (tname : string) (init : bool) {struct t} : gen :=
  match t with
  | TBuiltin b => gen_read_impl_builtin b tname
  | TEnum e => gen_read_impl_enum e
  | TStruct fs => fun c =>
      let fields := (fix fields (fs : list sfield) : gen := fun c =>
         match fs with
         | [] => Ok c
         | f :: fs' =>
             let c := push_fname (f_name f) c in
             let init_struct := match f_ty f with TStruct _ => true | _ => false end in
             let generator := gen_read_ty (f_ty f) (f_tname f) (negb (f_array f)) in
             let generator := if f_array f then gen_read_impl_array init_struct generator else generator in
             let generator := if f_opt f then gen_read_impl_optional generator else generator in
             do c <- generator c;
             fields fs' (pop_fname c)
         end) in
      let old := c_stack c in
      let fn := fname old in
      let bind_var := bindname old in
      let c := if init then cat ("let " +:+ bind_var +:+ ": any = {};" +:+ NL) (push_fname bind_var (set_stack [] c)) else c in
      do c <- fields fs c;
      if init then Ok (set_stack old (cat (fn +:+ " = " +:+ bind_var +:+ ";" +:+ NL) c)) else Ok c
  end.
Definition gen_read_impl_struct (fs : list sfield) (init : bool) : gen := gen_read_ty (TStruct fs) "" init.

(** 236-251 *)
Definition field_ctor_type (tname : string) (rty : rtype) (export : string) (array optional : bool) : string :=
  let '(name, prefix) :=
    match rty with
    | TBuiltin BString => ("string", false)
    | TBuiltin _ => ("number", false)
    | _ => (tname, true)
    end in
  (if prefix then export else "") +:+ (if prefix then "." else "") +:+ name +:+ (if array then "[]" else "")
  +:+ (if optional then " | undefined" else "").

(** A for loop that emits one line per element. *)
Definition for_each {A} (f : A -> ctx -> ctx) (l : list A) (c : ctx) : ctx := fold_left (fun c a => f a c) l c.

(** 254-292 *)
Definition gen_impl (x : export) (out : string) : res string :=
  let c := Ctx "" out [] in
  let c := cat ("export class " +:+ x_name x +:+ " {" +:+ NL) c in
  let c := push_indent c in
  let c := cat ("constructor(" +:+ NL) c in
  let c := push_indent c in
  let c := for_each (fun f => cat ("public " +:+ f_name f +:+ ": "
             +:+ field_ctor_type (f_tname f) (f_ty f) (x_name x) (f_array f) (f_opt f) +:+ "," +:+ NL)) (x_fields x) c in
  let c := pop_indent c in
  let c := cat (") {}" +:+ NL) c in
  let c := push_fname "output" c in
  let c := cat ("static read(data: ArrayBuffer): " +:+ x_name x +:+ " | null {" +:+ NL) c in
  let c := push_indent c in
  let c := cat ("let reader = new Reader(data);" +:+ NL) c in
  let c := cat ("let output = Object.create(" +:+ x_name x +:+ ");" +:+ NL) c in
  do c <- gen_read_impl_struct (x_fields x) false c;
  let c := cat ("if (reader.failed) return null;" +:+ NL) c in
  let c := cat ("return output;" +:+ NL) c in
  let c := pop_indent c in
  let c := cat ("}" +:+ NL) c in
  let c := pop_fname c in
  let c := push_fname "this" c in
  let c := cat ("write(buffer?: ArrayBuffer): ArrayBuffer {" +:+ NL) c in
  let c := push_indent c in
  let c := cat ("let writer = buffer ? new Writer(buffer) : new Writer();" +:+ NL) c in
  do c <- gen_write_impl_struct (x_fields x) c;
  let c := cat ("return writer.finish();" +:+ NL) c in
  let c := pop_indent c in
  let c := cat ("}" +:+ NL) c in
  let c := pop_fname c in
  let c := pop_indent c in
  let c := cat ("}" +:+ NL) c in
  Ok (c_out c).

(** 295-314 *)
Definition gen_struct_decl (fs : list sfield) (name : string) (c : ctx) : ctx :=
  let c := cat ("export interface " +:+ name +:+ " {" +:+ NL) c in
  let c := push_indent c in
  let c := for_each (fun f =>
      let typename := match f_ty f with
                      | TBuiltin BString => "string"
                      | TBuiltin _ => "number"
                      | _ => f_tname f
                      end in
      cat (f_name f +:+ (if f_opt f then "?" else "") +:+ ": " +:+ typename +:+ (if f_array f then "[]" else "") +:+ "," +:+ NL)) fs c in
  let c := pop_indent c in
  cat ("}" +:+ NL) c.

(** 316-324 *)
Definition gen_enum_decl (e : enum) (name : string) (c : ctx) : ctx :=
  let c := cat ("export const enum " +:+ name +:+ " {" +:+ NL) c in
  let c := push_indent c in
  let c := for_each (fun v => cat (ev_name v +:+ " = 1 << " +:+ string_of_nat (ev_value v) +:+ "," +:+ NL)) (e_variants e) c in
  let c := pop_indent c in
  cat ("}" +:+ NL) c.

(** 327-345; [titer] is the order in which the HashMap of types is iterated *)
Definition gen_decls (titer : tymap -> list (string * (string * rtype))) (types : tymap) (export : string) (out : string) : string :=
  let c := Ctx "" out [] in
  let c := cat ("export namespace " +:+ export +:+ " {" +:+ NL) c in
  let c := push_indent c in
  let c := for_each (fun '(name, (_, ty)) c =>
      if (name =? export)%string then c
      else match ty with
           | TBuiltin _ => c
           | TEnum e => gen_enum_decl e name c
           | TStruct fs => gen_struct_decl fs name c
           end) (titer types) c in
  let c := pop_indent c in
  c_out (cat ("}" +:+ NL) c).

(** 15-17 *)
Definition gen_common (out : string) : string :=
  out +:+ "import { Reader, Writer } from " +:+ String "034" EmptyString +:+ "packet" +:+ String "034" EmptyString +:+ ";" +:+ NL.

(** mod.rs:66-73; the version is CARGO_PKG_VERSION, the time is an input *)
Definition push_meta (version now : string) (out : string) : string :=
  out +:+ "// Generated by packetc v" +:+ version +:+ " at " +:+ now +:+ NL.

(** mod.rs:14-24 *)
Definition generate (version now : string) (titer : tymap -> list (string * (string * rtype))) (r : resolved) : res string :=
  let out := push_meta version now "" in
  let out := gen_common out in
  let out := gen_decls titer (r_types r) (x_name (r_export r)) out in
  gen_impl (r_export r) out.
