(** Specification vocabulary for the checker: what a schema means, independently of how
    src/lib/check.rs computes it. *)
From Verif Require Export Check.

(** The eight builtin type names (format.md, "Here's some syntax"). *)
Definition builtin_names : list string :=
  ["uint8"; "uint16"; "uint32"; "int8"; "int16"; "int32"; "float"; "string"].

Definition builtin_of_name (n : string) : option builtin :=
  if decide (n = "uint8") then Some Uint8 else
  if decide (n = "uint16") then Some Uint16 else
  if decide (n = "uint32") then Some Uint32 else
  if decide (n = "int8") then Some Int8 else
  if decide (n = "int16") then Some Int16 else
  if decide (n = "int32") then Some Int32 else
  if decide (n = "float") then Some Float else
  if decide (n = "string") then Some BString else None.

Fixpoint exports (a : ast) : list string :=
  match a with
  | [] => []
  | NExport n :: a' => n :: exports a'
  | NDecl _ _ :: a' => exports a'
  end.

Fixpoint decl_names (a : ast) : list string :=
  match a with
  | [] => []
  | NDecl n _ :: a' => n :: decl_names a'
  | NExport _ :: a' => decl_names a'
  end.

(** [n] is declared as the given struct / enum. *)
Definition declares_struct (a : ast) (n : string) (fs : list (string * unresolved)) : Prop :=
  NDecl n (AStruct fs) ∈ a.
Definition declares_enum (a : ast) (n : string) (vs : list string) : Prop :=
  NDecl n (AEnum vs) ∈ a.

(** Declared struct [n] has a field of type [m] (plain, array or optional). *)
Definition refers (a : ast) (n m : string) : Prop :=
  exists fs f u, declares_struct a n fs /\ (f, u) ∈ fs /\ u_name u = m.

(** The names that the first pass compares for duplicates: it stops after the first field whose
    type is not a builtin. A finding about the code, see C12. *)
Fixpoint compared_names (fs : list (string * unresolved)) : list string :=
  match fs with
  | [] => []
  | (f, u) :: fs' => f :: (if decide (u_name u ∈ builtin_names) then compared_names fs' else [])
  end.

Record valid_schema (a : ast) : Prop := {
  vs_export : exists e fs, exports a = [e] /\ declares_struct a e fs;
  vs_decls : NoDup (decl_names a);
  vs_enums : forall n vs, declares_enum a n vs -> 1 <= length vs <= 32 /\ NoDup vs;
  vs_types : forall n fs f u, declares_struct a n fs -> (f, u) ∈ fs ->
      u_name u ∈ builtin_names \/ u_name u ∈ decl_names a;
  vs_optarr : forall n fs f u, declares_struct a n fs -> (f, u) ∈ fs ->
      ~ (u_array u = true /\ u_opt u = true);
  vs_acyclic : forall n, ~ tc (refers a) n n;
  vs_fields : forall n fs, declares_struct a n fs -> NoDup (compared_names fs)
}.

(** No declaration takes a builtin's name. Guaranteed by the parser (PropParser.v). *)
Definition no_builtin_decl (a : ast) : Prop :=
  forall n, n ∈ decl_names a -> n ∉ builtin_names.

(** A HashMap may list its entries in any order, each once. *)
Definition fair_order (iter : gmap string atype -> list (string * atype)) : Prop :=
  forall m, iter m ≡ₚ map_to_list m.

(** The names that the export needs: itself and all it reaches through fields. *)
Definition needed (a : ast) (e n : string) : Prop := rtc (refers a) e n.

(** Field [r] of a resolved struct is what declared field [(f,u)] says, bound to the definition
    that the map [types] has for its type name. *)
Definition field_matches (types : tymap) (d : string * unresolved) (r : sfield) : Prop :=
  f_name r = d.1 /\ f_tname r = u_name d.2 /\ f_array r = u_array d.2 /\ f_opt r = u_opt d.2 /\
  types !! u_name d.2 = Some (u_name d.2, f_ty r).

(** Representation widths in bits. *)
Definition repr_bits (r : enum_repr) : nat := match r with U8 => 8 | U16 => 16 | U32 => 32 end.
Definition smallest_repr (n : nat) (r : enum_repr) : Prop :=
  n <= repr_bits r /\ forall r', n <= repr_bits r' -> repr_bits r <= repr_bits r'.

(** What entry [n] of the result must be. [fields] may be any arrangement of the declared fields. *)
Definition entry_matches (a : ast) (types : tymap) (n : string) (t : rtype) : Prop :=
  (exists b, builtin_of_name n = Some b /\ t = TBuiltin b) \/
  (exists vs r, declares_enum a n vs /\ smallest_repr (length vs) r /\
      t = TEnum (Enum r (imap (fun i v => EnumVariant v i) vs))) \/
  (exists fs ds rs, declares_struct a n fs /\ ds ≡ₚ fs /\ Forall2 (field_matches types) ds rs /\
      t = TStruct rs).

(** Types that need no other declared type below them: builtins, enums, structs of builtins. *)
Definition shallow (a : ast) (n : string) : Prop :=
  n ∈ builtin_names \/ (exists vs, declares_enum a n vs) \/
  (exists fs, declares_struct a n fs /\ forall d, d ∈ fs -> u_name d.2 ∈ builtin_names).

(** Of any two fields of [fs], the earlier one has a shallow type or a type that the later one's
    type contains (or is). *)
Definition order_fixed (a : ast) (fs : list (string * unresolved)) : Prop :=
  forall i j di dj, i < j -> fs !! i = Some di -> fs !! j = Some dj ->
    shallow a (u_name di.2) \/ rtc (refers a) (u_name dj.2) (u_name di.2).

(** Struct [n] of the result [types] lists its fields exactly as declared. *)
Definition keeps_order (types : tymap) (n : string) (fs : list (string * unresolved)) : Prop :=
  exists rs, types !! n = Some (n, TStruct rs) /\ Forall2 (field_matches types) fs rs.

(** Defects that the checker looks for before it visits any struct that needs another one. *)
Definition early_defect (a : ast) : Prop :=
  (forall e, exports a ≠ [e]) \/ ~ NoDup (decl_names a) \/
  (exists n vs, declares_enum a n vs /\ ~ (1 <= length vs <= 32 /\ NoDup vs)) \/
  (exists n fs, declares_struct a n fs /\ ~ NoDup (compared_names fs)).
