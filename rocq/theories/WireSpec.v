(** Vocabulary for the statements about generated code at run time. *)
From Verif Require Export Wire GenSpec.

(** The type that a declaration denotes. [arranged ds fs]: [ds] is a permitted order of the declared fields [fs]. *)
Section denotes.
  Context (arranged : list (string * unresolved) -> list (string * unresolved) -> Prop) (a : ast).
  Inductive denotes : string -> rtype -> Prop :=
  | dn_builtin n b : builtin_of_name n = Some b -> denotes n (TBuiltin b)
  | dn_enum n vs r : declares_enum a n vs -> smallest_repr (length vs) r ->
      denotes n (TEnum (Enum r (imap (fun i v => EnumVariant v i) vs)))
  | dn_struct n fs ds rs : declares_struct a n fs -> arranged ds fs -> Forall2 denotes_field ds rs -> denotes n (TStruct rs)
  with denotes_field : string * unresolved -> sfield -> Prop :=
  | dn_field f u t : denotes (u_name u) t -> denotes_field (f, u) (SField f (u_name u) t (u_array u) (u_opt u)).
End denotes.

(** [P] holds of the class in the code that any run of the compiler emits for the schema, and of the type that the
    export denotes, with the fields of structs in the order which that run chose. *)
Definition for_code_in arranged (a : ast) (P : cls -> rtype -> Prop) : Prop :=
  for_text a (fun ds k => exists e t, exports a = [e] /\ k_name k = e /\ denotes arranged a e t /\ P k t).
(** in any order, in the declared order *)
Definition for_code : ast -> (cls -> rtype -> Prop) -> Prop := for_code_in Permutation.
Definition for_code_declared : ast -> (cls -> rtype -> Prop) -> Prop := for_code_in eq.
(** the checker keeps the declared order of all fields (C11) *)
Definition all_fixed (a : ast) : Prop := forall e n fs, exports a = [e] -> needed a e n -> declares_struct a n fs -> order_fixed a fs.

(** The module loads, and [undefined] means undefined in it: what write needs. *)
Definition write_ready (k : cls) : Prop := loads k /\ k_name k ≠ "undefined".
(** Names that the generated code can handle: the module loads, read can create its result, field names are
    distinct, no field is called __proto__, and no field of the export is one that its instances cannot be given. *)
Record names_fine (a : ast) (k : cls) : Prop := {
  nf_loads : loads k;
  nf_prologue : prologue k = Done ();
  nf_fields : forall n fs, needed a (k_name k) n -> declares_struct a n fs -> NoDup fs.*1 /\ "__proto__" ∉ fs.*1;
  nf_top : forall x, x ∈ (k_params k).*1 -> x ∉ readonly_names }.
(** In terms of the schema: the module loads and read can create its result if, with export e,
    - locals are kept apart (C23);
    - e is not one of the words below, and no local at the top of read is called e;
    - the fields of e are distinct and no words of JavaScript. *)
Definition taken_names : list string :=
  js_reserved ++ ["Reader"; "Writer"; "Object"; "Array"; "data"; "reader"; "output"; "undefined"].
Record module_names (a : ast) : Prop := {
  mn_locals : forall e n fs, exports a = [e] -> needed a e n -> declares_struct a n fs ->
    kept_apart (read_local a) fs /\ kept_apart (write_local a) fs;
  mn_export : forall e, exports a = [e] -> e ∉ taken_names;
  mn_hidden : forall e fs x u t, exports a = [e] -> declares_struct a e fs -> (x, u) ∈ fs -> read_local a u t ->
    e ≠ "output_" +:+ x +:+ t;
  mn_params : forall e fs, exports a = [e] -> declares_struct a e fs -> NoDup fs.*1 /\ Forall (fun f => f ∉ js_reserved) fs.*1 }.
(** and all of names_fine in terms of the schema *)
Record plain_names (a : ast) : Prop := {
  pn_module : module_names a;
  pn_fields : forall e n fs, exports a = [e] -> needed a e n -> declares_struct a n fs -> NoDup fs.*1 /\ "__proto__" ∉ fs.*1;
  pn_top : forall e fs, exports a = [e] -> declares_struct a e fs -> Forall (fun f => f ∉ readonly_names) fs.*1 }.

(** No enum uses all 32 bits. *)
Definition small_enums (a : ast) : Prop := forall n vs, declares_enum a n vs -> length vs <= 31.

(** Numbers between the first and the last variant. *)
Definition from_first_to_last (e : enum) (n : num) : Prop :=
  exists z, n = NInt z /\ (1 <= z <= 2 ^ (Z.of_nat (length (e_variants e)) - 1))%Z.

(** ** size in bytes *)
Section size.
  Context (encs : jstr -> list byte).
  Definition size_wrapped (array opt : bool) (s : value -> nat) (v : value) : nat :=
    let inner v := if array then match v with VArr l => 4 + sum_list (map s l) | _ => 0 end else s v in
    if opt then match v with VNone => 1 | _ => 1 + inner v end else inner v.
  Fixpoint byte_size (t : rtype) (v : value) {struct t} : nat :=
    match t, v with
    | TBuiltin b, VNum _ => match builtin_kind b with Some k => width k | None => 0 end
    | TBuiltin _, VStr s => 4 + length (encs s)
    | TEnum e, VNum _ => width (repr_kind (e_repr e))
    | TStruct fs, VRec vs =>
        (fix fields (fs : list sfield) (vs : list (string * value)) : nat :=
           match fs, vs with
           | f :: fs, (_, v) :: vs => size_wrapped (f_array f) (f_opt f) (byte_size (f_ty f)) v + fields fs vs
           | _, _ => 0
           end) fs vs
    | _, _ => 0
    end.
End size.

(** strings are decoded exactly: what was consumed is the encoding of the result *)
Definition exact_strings (rt : runtime) : Prop := forall z bs s rest, (0 <= z)%Z -> rt_rds rt z (bs, false) = (s, (rest, false)) ->
  z = Z.of_nat (length s) /\ bs = rt_encs rt s ++ rest.
(** the schema declares no optional field and no float *)
Definition no_opt_float (a : ast) : Prop :=
  forall n fs f u, declares_struct a n fs -> (f, u) ∈ fs -> u_opt u = false /\ u_name u ≠ "float".

(** The compiler accepts the schema, whatever the hash order. *)
Definition accepted (a : ast) : Prop := legal_ast a /\ forall iter, fair_order iter -> is_ok (type_check iter a).

(** An object whose own properties hold the value; optional fields may be left out. *)
Fixpoint holds (h : heap) (x : val) (v : value) {struct v} : Prop :=
  match v with
  | VNum n => x = JNum n
  | VStr s => x = JStr s
  | VNone => x = JUndef \/ x = JNull
  | VArr l => exists p items, x = JLoc p /\ h !! p = Some (OArr items) /\
      (fix all (l : list value) (items : list val) : Prop :=
         match l, items with
         | [], [] => True
         | v :: l, y :: items => holds h y v /\ all l items
         | _, _ => False
         end) l items
  | VRec fs => exists p pr props, x = JLoc p /\ h !! p = Some (OPlain pr props) /\ pr ≠ PCtor /\
      (fix all (fs : list (string * value)) : Prop :=
         match fs with
         | [] => True
         | (f, v) :: fs => ((exists y, own f props = Some y /\ holds h y v) \/ (own f props = None /\ v = VNone)) /\ all fs
         end) fs
  end.
(** no optional field has a name that ordinary objects or instances of the class inherit *)
Definition no_inherited (a : ast) : Prop := forall n fs f u, declares_struct a n fs -> (f, u) ∈ fs -> u_opt u = true -> f ∉ "write" :: object_names.

(** number of array items in a value *)
Fixpoint items (v : value) : nat :=
  match v with
  | VArr l => sum_list (map (fun v => S (items v)) l)
  | VRec fs => sum_list (map (fun '(_, v) => items v) fs)
  | _ => 0
  end.
(** every struct has a field *)
Definition no_empty (a : ast) : Prop := forall n fs, declares_struct a n fs -> fs ≠ [].

(** The same for two runs of the compiler on one schema: both classes, and the type as the first run arranges it. *)
Definition for_runs (iter1 iter2 : gmap string atype -> list (string * atype)) (a : ast) (P : cls -> cls -> rtype -> Prop) : Prop :=
  forall r1 r2 version1 version2 now1 now2 titer1 titer2, legal_ast a -> fair_types titer1 -> fair_types titer2 ->
    on_one_line version1 -> on_one_line version2 -> on_one_line now1 -> on_one_line now2 ->
    type_check iter1 a = Ok r1 -> type_check iter2 a = Ok r2 ->
    exists t1 t2 ds1 ds2 k1 k2 e ty, generate version1 now1 titer1 r1 = Ok t1 /\ generate version2 now2 titer2 r2 = Ok t2 /\
      read_ts t1 = Some (ds1, k1) /\ read_ts t2 = Some (ds2, k2) /\
      exports a = [e] /\ denotes Permutation a e ty /\ P k1 k2 ty.
