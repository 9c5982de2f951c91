(** Vocabulary for statements about two schemas: the same schema with its declarations moved, extended or renamed,
    and two versions of a packet. *)
From Verif Require Export WireSpec.

(** Both schemas have the same declarations of [n]. *)
Definition same_decl (a1 a2 : ast) (n : string) : Prop := forall t, NDecl n t ∈ a1 <-> NDecl n t ∈ a2.
(** They export the same name, and declare alike all that the first one's export needs. *)
Definition same_needed (a1 a2 : ast) : Prop := exists e, exports a1 = [e] /\ exports a2 = [e] /\ forall n, needed a1 e n -> same_decl a1 a2 n.

(** A declaration that can be added to a valid schema: a new name, an enum of 1 to 32 distinct variants or a struct of
    builtin and declared types. *)
Definition addable (a : ast) (n : string) (t : atype) : Prop :=
  n ∉ decl_names a /\ n ∉ builtin_names /\
  match t with
  | AEnum vs => 1 <= length vs <= 32 /\ NoDup vs
  | AStruct fs => NoDup fs.*1 /\ forall f u, (f, u) ∈ fs -> (u_name u ∈ builtin_names \/ u_name u ∈ decl_names a) /\ ~ (u_array u = true /\ u_opt u = true)
  end.

(** [P] holds of what any run on the first schema and any run on the second one emit. *)
Definition for_versions (a1 a2 : ast) (P : cls -> rtype -> cls -> rtype -> Prop) : Prop :=
  for_code_declared a1 (fun k1 t1 => for_code_declared a2 (fun k2 t2 => P k1 t1 k2 t2)).

(** The second schema is the first one with the fields [extra] added to the end of the exported struct, and possibly
    other declarations. *)
Definition appended (a1 a2 : ast) (extra : list (string * unresolved)) : Prop :=
  exists e fs, exports a1 = [e] /\ exports a2 = [e] /\ declares_struct a1 e fs /\ declares_struct a2 e (fs ++ extra) /\
    forall n, n ≠ e -> needed a1 e n -> same_decl a1 a2 n.

(** The second schema is the first one with variants added to the end of enums whose representation stays the same. *)
Definition grown (a1 a2 : ast) : Prop :=
  exists e, exports a1 = [e] /\ exports a2 = [e] /\ forall n, needed a1 e n ->
    (forall fs, declares_struct a1 n fs -> declares_struct a2 n fs) /\
    (forall vs, declares_enum a1 n vs -> exists more, declares_enum a2 n (vs ++ more) /\
       forall r, smallest_repr (length vs) r -> smallest_repr (length (vs ++ more)) r).

(** Renaming of types by [ty] and of the fields of struct [n] by [field n]. *)
Definition rename_field (ty : string -> string) (field : string -> string) (d : string * unresolved) : string * unresolved :=
  (field d.1, Unresolved (ty (u_name d.2)) (u_array d.2) (u_opt d.2)).
Definition rename (ty : string -> string) (field : string -> string -> string) (a : ast) : ast :=
  List.map (fun x => match x with
    | NExport n => NExport (ty n)
    | NDecl n (AEnum vs) => NDecl (ty n) (AEnum vs)
    | NDecl n (AStruct fs) => NDecl (ty n) (AStruct (List.map (rename_field ty (field n)) fs))
    end) a.
(** It keeps the names of builtins, and different names of types stay different. *)
Definition good_renaming (ty : string -> string) (a : ast) : Prop :=
  (forall n, n ∈ builtin_names -> ty n = n) /\
  (forall n m, n ∈ decl_names a ++ builtin_names -> m ∈ decl_names a ++ builtin_names -> ty n = ty m -> n = m).
(** In each struct, different names of fields stay different. *)
Definition good_field_renaming (field : string -> string -> string) (a : ast) : Prop :=
  forall n fs f g, declares_struct a n fs -> f ∈ fs.*1 -> g ∈ fs.*1 -> field n f = field n g -> f = g.
(** Values that differ in the names of fields only. *)
Fixpoint same_content (v w : value) {struct v} : Prop :=
  match v, w with
  | VNum n, VNum m => n = m
  | VStr s, VStr u => s = u
  | VNone, VNone => True
  | VArr l, VArr k => (fix all (l k : list value) : Prop :=
      match l, k with [], [] => True | v :: l, w :: k => same_content v w /\ all l k | _, _ => False end) l k
  | VRec l, VRec k => (fix all (l k : list (string * value)) : Prop :=
      match l, k with [], [] => True | (_, v) :: l, (_, w) :: k => same_content v w /\ all l k | _, _ => False end) l k
  | _, _ => False
  end.
