(** Model of src/lib/check.rs (the type checker). Line numbers refer to that file.

    HashMap is [gmap string]. The only place where the checker iterates a HashMap in a way that
    can be observed is line 344; the order used there is the argument [iter], an arbitrary
    function from maps to their entry lists (see [fair_order] in CheckSpec.v).
    Rc<RefCell<..>> pointers are modelled by the value they hold: no code in the crate calls
    [borrow_mut], so a pointer's content never changes after [Ptr::new]. *)
From Verif Require Export Ast.

(** check.rs:43-53 *)
Inductive builtin := Uint8 | Uint16 | Uint32 | Int8 | Int16 | Int32 | Float | BString.

(** check.rs:55-59 *)
Record enum_variant := EnumVariant { ev_name : string; ev_value : nat }.
(** check.rs:60-65 *)
Inductive enum_repr := U8 | U16 | U32.
(** check.rs:75-79 *)
Record enum := Enum { e_repr : enum_repr; e_variants : list enum_variant }.

(** check.rs:81-87; [f_tname] and [f_ty] are the two halves of the pair behind the Ptr. *)
Record sfield_ (T : Type) := SField {
  f_name : string; f_tname : string; f_ty : T; f_array : bool; f_opt : bool }.
Arguments SField {T}.
Arguments f_name {T}. Arguments f_tname {T}. Arguments f_ty {T}. Arguments f_array {T}. Arguments f_opt {T}.

(** check.rs:88-98 *)
Inductive rtype :=
| TBuiltin (b : builtin)
| TEnum (e : enum)
| TStruct (fields : list (sfield_ rtype)).
Notation sfield := (sfield_ rtype).

(** check.rs:392 [TypeMap] *)
Notation tymap := (gmap string (string * rtype)).

(** check.rs:120-124 *)
Record export := Export_ { x_name : string; x_fields : list sfield }.
(** check.rs:394-398 *)
Record resolved := Resolved { r_export : export; r_types : tymap }.

(** check.rs:13-26, the loop and the final match *)
Fixpoint get_export_loop (a : ast) (exp : option string) : res string :=
  match a with
  | [] => match exp with
          | Some e => Ok e
          | None => Err "Schema has no export"
          end
  | NExport n :: a' => match exp with
                       | None => get_export_loop a' (Some n)
                       | Some _ => Err "Schema has more than one export"
                       end
  | NDecl _ _ :: a' => get_export_loop a' exp
  end.
Definition get_export (a : ast) : res string := get_export_loop a None.

(** check.rs:28-41 *)
Fixpoint collect_types_loop (a : ast) (cache : gmap string atype) : res (gmap string atype) :=
  match a with
  | [] => Ok cache
  | NDecl n t :: a' =>
      match cache !! n with
      | Some _ => Err ("Schema has duplicate declaration: " +:+ n)
      | None => collect_types_loop a' (<[n := t]> cache)
      end
  | NExport _ :: a' => collect_types_loop a' cache
  end.
Definition collect_types (a : ast) : res (gmap string atype) := collect_types_loop a ∅.

(** check.rs:126-139 *)
Definition get_builtins : tymap :=
  list_to_map
    [ ("uint8",  ("uint8",  TBuiltin Uint8));
      ("uint16", ("uint16", TBuiltin Uint16));
      ("uint32", ("uint32", TBuiltin Uint32));
      ("int8",   ("int8",   TBuiltin Int8));
      ("int16",  ("int16",  TBuiltin Int16));
      ("int32",  ("int32",  TBuiltin Int32));
      ("float",  ("float",  TBuiltin Float));
      ("string", ("string", TBuiltin BString)) ].

(** check.rs:141-164 *)
Definition resolve_struct_field (fname : string) (fty : unresolved) (rs : tymap) (ttypename : string)
  : res (option sfield) :=
  match rs !! u_name fty with
  | Some (tn, t) =>
      if u_array fty && u_opt fty then
        Err ("Field '" +:+ fname +:+ "' in struct '" +:+ ttypename +:+ "' cannot be optional and array at once")
      else Ok (Some (SField fname tn t (u_array fty) (u_opt fty)))
  | None => Ok None
  end.

(** check.rs:179-191: the loop that numbers the variants *)
Fixpoint number_variants (name : string) (vs : list string) (seen : gset string) (count : nat)
    (acc : list enum_variant) : res (list enum_variant) :=
  match vs with
  | [] => Ok acc
  | v :: vs' =>
      if decide (v ∈ seen) then
        Err ("Duplicate variant '" +:+ v +:+ "' on enum '" +:+ name +:+ "'")
      else number_variants name vs' ({[v]} ∪ seen) (S count) (acc ++ [EnumVariant v count])
  end.

(** check.rs:168-174: the smallest representation *)
Definition choose_repr (name : string) (n : nat) : res enum_repr :=
  if (n =? 0)%nat then Err ("Enum '" +:+ name +:+ "' must have at least one variant")
  else if (n <=? 8)%nat then Ok U8
  else if (n <=? 16)%nat then Ok U16
  else if (n <=? 32)%nat then Ok U32
  else Err ("Enum '" +:+ name +:+ "' has too many variants (" +:+ string_of_nat n +:+ "/32)").

(** check.rs:166-193 *)
Definition resolve_enum (name : string) (vs : list string) : res (enum_repr * list enum_variant) :=
  do r <- choose_repr name (length vs);
  do vars <- number_variants name vs ∅ 0 [];
  Ok (r, vars).

(** check.rs:222-234: the field loop of the first pass, [break] included *)
Fixpoint first_pass_fields (name : string) (builtins : tymap) (fs : list (string * unresolved))
    (seen : gset string) (fields : list sfield) : res (list sfield) :=
  match fs with
  | [] => Ok fields
  | (fname, fty) :: fs' =>
      if decide (fname ∈ seen) then
        Err ("Duplicate field '" +:+ fname +:+ "' on struct '" +:+ name +:+ "'")
      else
        do o <- resolve_struct_field fname fty builtins name;
        match o with
        | Some field => first_pass_fields name builtins fs' ({[fname]} ∪ seen) (fields ++ [field])
        | None => Ok fields
        end
  end.

(** check.rs:195-242; the state is the pair (first_pass, unresolved) *)
Definition resolve_one_first_pass (name : string) (ty : atype) (builtins : tymap)
    (st : tymap * gmap string atype) : res (tymap * gmap string atype) :=
  let '(first_pass, unres) := st in
  match ty with
  | AEnum vs =>
      do rv <- resolve_enum name vs;
      Ok (<[name := (name, TEnum (Enum rv.1 rv.2))]> first_pass, delete name unres)
  | AStruct fs =>
      do fields <- first_pass_fields name builtins fs ∅ [];
      if (length fields =? length fs)%nat then
        Ok (<[name := (name, TStruct fields)]> first_pass, delete name unres)
      else Ok (first_pass, unres)
  end.

(** check.rs:245-259 *)
Fixpoint resolve_first_pass (a : ast) (builtins : tymap) (st : tymap * gmap string atype)
  : res (tymap * gmap string atype) :=
  match a with
  | [] => Ok st
  | NDecl name ty :: a' =>
      do st' <- resolve_one_first_pass name ty builtins st;
      resolve_first_pass a' builtins st'
  | NExport _ :: a' => resolve_first_pass a' builtins st
  end.

(** State threaded through the second pass: the three [&mut] arguments of check.rs:261-267 *)
Record sp := Sp { cache : tymap; visited : gset string; unres : gmap string atype }.

(** check.rs:284-292: split the fields into resolved ones and the rest, in order *)
Fixpoint split_fields (name : string) (c : tymap) (fs : list (string * unresolved))
    (fields : list sfield) (not_resolved : list (string * unresolved))
  : res (list sfield * list (string * unresolved)) :=
  match fs with
  | [] => Ok (fields, not_resolved)
  | (fname, fty) :: fs' =>
      do o <- resolve_struct_field fname fty c name;
      match o with
      | Some field => split_fields name c fs' (fields ++ [field]) not_resolved
      | None => split_fields name c fs' fields (not_resolved ++ [(fname, fty)])
      end
  end.

(** check.rs:298-312: resolve the types of the remaining fields; [rec] is the recursive call *)
Fixpoint resolve_field_types (rec : string -> atype -> sp -> res sp)
    (not_resolved : list (string * unresolved)) (s : sp) : res sp :=
  match not_resolved with
  | [] => Ok s
  | (_, fty) :: nr =>
      let tn := u_name fty in
      match unres s !! tn with
      | Some utype =>
          do s' <- rec tn utype (Sp (cache s) (visited s) (delete tn (unres s)));
          resolve_field_types rec nr s'
      | None =>
          match cache s !! tn with
          | Some _ => resolve_field_types rec nr s
          | None => Err ("Declaration for type '" +:+ tn +:+ "' does not exist")
          end
      end
  end.

(** check.rs:315-318, with the unwrap *)
Fixpoint finish_fields (name : string) (c : tymap) (nr : list (string * unresolved)) (acc : list sfield)
  : res (list sfield) :=
  match nr with
  | [] => Ok acc
  | (fname, fty) :: nr' =>
      do o <- resolve_struct_field fname fty c name;
      match o with
      | Some field => finish_fields name c nr' (acc ++ [field])
      | None => Panic "called `Option::unwrap()` on a `None` value"
      end
  end.

(** check.rs:261-337 *)
Fixpoint resolve_one_second_pass (fuel : nat) (name : string) (ty : atype) (s : sp) : res sp :=
  match fuel with
  | O => Diverge
  | S fuel' =>
      match cache s !! name with
      | Some _ => Ok s
      | None =>
          match ty with
          | AStruct fs =>
              if decide (name ∈ visited s) then
                Err ("Found a cycle between two or more top level definitions in type '" +:+ name +:+ "'")
              else
                let s1 := Sp (cache s) ({[name]} ∪ visited s) (unres s) in
                do fn <- split_fields name (cache s1) fs [] [];
                let '(fields, not_resolved) := fn in
                match not_resolved with
                | [] => Ok (Sp (<[name := (name, TStruct fields)]> (cache s1)) (visited s1) (unres s1))
                | _ =>
                    do s2 <- resolve_field_types (resolve_one_second_pass fuel') not_resolved s1;
                    do now_resolved <- finish_fields name (cache s2) not_resolved [];
                    Ok (Sp (<[name := (name, TStruct (fields ++ now_resolved))]> (cache s2))
                           (visited s2) (unres s2))
                end
          | AEnum _ => Panic "Something unresolved which is not a struct got into the second pass"
          end
      end
  end.

(** check.rs:344-348: the loop over the cloned map, in the order given by the hash map *)
Fixpoint second_pass_loop (fuel : nat) (order : list (string * atype)) (s : sp) : res sp :=
  match order with
  | [] => Ok s
  | (name, ty) :: order' =>
      do s' <- resolve_one_second_pass fuel name ty s;
      second_pass_loop fuel order' s'
  end.

(** check.rs:339-350. Fuel: one more than the number of unresolved declarations. *)
Definition resolve_second_pass (iter : gmap string atype -> list (string * atype))
    (c : tymap) (un : gmap string atype) : res tymap :=
  do s <- second_pass_loop (S (size un)) (iter un) (Sp c ∅ un);
  Ok (cache s).

(** check.rs:352-363 *)
Fixpoint collect_used_types (ty : rtype) (tname : string) (vis : gset string) : gset string :=
  let vis := {[tname]} ∪ vis in
  match ty with
  | TStruct fs =>
      (fix loop (fs : list sfield) (vis : gset string) : gset string :=
         match fs with
         | [] => vis
         | f :: fs' =>
             loop fs' (if decide (f_tname f ∈ vis) then vis
                       else collect_used_types (f_ty f) (f_tname f) vis)
         end) fs vis
  | _ => vis
  end.

(** check.rs:365-368 *)
Definition remove_unused (vis : gset string) (rs : tymap) : tymap :=
  filter (fun kv => kv.1 ∈ vis) rs.

(** check.rs:370-390 *)
Definition resolve_export (name : string) (rs : tymap) : res (export * tymap) :=
  match rs !! name with
  | Some (_, TStruct fs) =>
      let vis := foldl (fun vis f => collect_used_types (f_ty f) (f_tname f) vis) {[name]} fs in
      Ok (Export_ name fs, remove_unused vis rs)
  | Some (_, _) => Err ("Attempted to export '" +:+ name +:+ "', which is not a struct")
  | None => Err ("Export '" +:+ name +:+ "' could not be resolved")
  end.

(** check.rs:400-429. [cache.into_iter().chain(first_pass).collect()] (line 419) lets entries of
    first_pass override builtins; it is the left-biased union with first_pass on the left. *)
Definition type_check (iter : gmap string atype -> list (string * atype)) (a : ast) : res resolved :=
  do exp <- get_export a;
  do un <- collect_types a;
  let builtins := get_builtins in
  do fpun <- resolve_first_pass a builtins (∅, un);
  let '(first_pass, un') := fpun in
  do c <- resolve_second_pass iter (first_pass ∪ builtins) un';
  do et <- resolve_export exp c;
  Ok (Resolved et.1 et.2).
