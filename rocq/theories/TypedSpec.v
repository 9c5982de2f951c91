(** The names of a schema whose module has no type errors (C62). *)
From Verif Require Export TsTypes WireSpec.

(** It concerns only the declarations that the export needs. *)
Record typed_names (a : ast) : Prop := {
  ty_module : module_names a;
  ty_needed : forall e n, exports a = [e] -> needed a e n -> n ∈ decl_names a -> n ∉ js_reserved ++ ts_reserved;
  ty_enums : forall e n vs, exports a = [e] -> needed a e n -> declares_enum a n vs -> n ∉ ["read"; "prototype"];
  ty_fields : forall e n fs, exports a = [e] -> needed a e n -> declares_struct a n fs -> NoDup fs.*1;
  ty_export : forall e, exports a = [e] -> e ≠ "ArrayBuffer";
  ty_top : forall e fs, exports a = [e] -> declares_struct a e fs -> Forall (fun f => f ∉ ["write"; "constructor"]) fs.*1 }.
