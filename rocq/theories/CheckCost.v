(** The work that the checker of src/lib/check.rs does: the functions of Check.v, each with a count of its steps and of the
    depth of its recursion. Line numbers refer to check.rs.

    A step is one round of a loop, one call of a recursive function, or one element that is cloned, moved or dropped from a
    container. Access to a hash table counts as part of the round it happens in. Cloning a pointer (Rc) is constant.
    The depth is the largest number of calls of the two recursive functions, [resolve_one_second_pass] and
    [collect_used_types], that are active at the same time. *)
From Verif Require Export Check.

Notation cost := (nat * nat)%type.
Definition and_then (x y : cost) : cost := (x.1 + y.1, Nat.max x.2 y.2).
Definition work (A : Type) : Type := res A * cost.
Definition wret {A} (r : res A) : work A := (r, (0, 0)).
Definition wbind {A B} (w : work A) (k : A -> work B) : work B :=
  match w.1 with
  | Ok a => ((k a).1, and_then w.2 (k a).2)
  | Err m => (Err m, w.2)
  | Panic m => (Panic m, w.2)
  | Diverge => (Diverge, w.2)
  end.
Notation "'wdo' x <- r ; k" := (wbind r (fun x => k)) (at level 200, x pattern, r at level 100, k at level 200).
(** [n] steps, and then [w] *)
Definition ticks {A} (n : nat) (w : work A) : work A := (w.1, (n + w.2.1, w.2.2)).
(** [w] is what a recursive function does when it is called *)
Definition call {A} (w : work A) : work A := (w.1, (S w.2.1, S w.2.2)).

Definition fields_of (t : rtype) : nat := match t with TStruct fs => length fs | _ => 0 end.
Definition type_size (t : atype) : nat := match t with AEnum vs => length vs | AStruct fs => length fs end.

(** check.rs:13-26 *)
Fixpoint w_get_export (a : ast) (exp : option string) : work string :=
  match a with
  | [] => wret (get_export_loop [] exp)
  | NExport n :: a' => match exp with
                       | None => ticks 1 (w_get_export a' (Some n))
                       | Some _ => ticks 1 (wret (Err "Schema has more than one export"))
                       end
  | NDecl _ _ :: a' => ticks 1 (w_get_export a' exp)
  end.
(** check.rs:28-41; line 36 clones the type *)
Fixpoint w_collect_types (a : ast) (cache : gmap string atype) : work (gmap string atype) :=
  match a with
  | [] => wret (Ok cache)
  | NDecl n t :: a' =>
      match cache !! n with
      | Some _ => ticks 1 (wret (Err ("Schema has duplicate declaration: " +:+ n)))
      | None => ticks (1 + type_size t) (w_collect_types a' (<[n := t]> cache))
      end
  | NExport _ :: a' => ticks 1 (w_collect_types a' cache)
  end.
(** check.rs:179-191 *)
Fixpoint w_number_variants (name : string) (vs : list string) (seen : gset string) (count : nat)
    (acc : list enum_variant) : work (list enum_variant) :=
  match vs with
  | [] => wret (Ok acc)
  | v :: vs' =>
      if decide (v ∈ seen) then
        ticks 1 (wret (Err ("Duplicate variant '" +:+ v +:+ "' on enum '" +:+ name +:+ "'")))
      else ticks 1 (w_number_variants name vs' ({[v]} ∪ seen) (S count) (acc ++ [EnumVariant v count]))
  end.
(** check.rs:166-193 *)
Definition w_resolve_enum (name : string) (vs : list string) : work (enum_repr * list enum_variant) :=
  wdo r <- wret (choose_repr name (length vs));
  wdo vars <- w_number_variants name vs ∅ 0 [];
  wret (Ok (r, vars)).
(** check.rs:222-234 *)
Fixpoint w_first_pass_fields (name : string) (builtins : tymap) (fs : list (string * unresolved))
    (seen : gset string) (fields : list sfield) : work (list sfield) :=
  match fs with
  | [] => wret (Ok fields)
  | (fname, fty) :: fs' =>
      if decide (fname ∈ seen) then
        ticks 1 (wret (Err ("Duplicate field '" +:+ fname +:+ "' on struct '" +:+ name +:+ "'")))
      else
        ticks 1 (wdo o <- wret (resolve_struct_field fname fty builtins name);
        match o with
        | Some field => w_first_pass_fields name builtins fs' ({[fname]} ∪ seen) (fields ++ [field])
        | None => wret (Ok fields)
        end)
  end.
(** check.rs:195-242; [unresolved.remove] drops the type that was stored *)
Definition w_one_first_pass (name : string) (ty : atype) (builtins : tymap)
    (st : tymap * gmap string atype) : work (tymap * gmap string atype) :=
  let '(first_pass, unres) := st in
  match ty with
  | AEnum vs =>
      wdo rv <- w_resolve_enum name vs;
      ticks (length vs) (wret (Ok (<[name := (name, TEnum (Enum rv.1 rv.2))]> first_pass, delete name unres)))
  | AStruct fs =>
      wdo fields <- w_first_pass_fields name builtins fs ∅ [];
      if (length fields =? length fs)%nat then
        ticks (length fs) (wret (Ok (<[name := (name, TStruct fields)]> first_pass, delete name unres)))
      else wret (Ok (first_pass, unres))
  end.
(** check.rs:245-259 *)
Fixpoint w_first_pass (a : ast) (builtins : tymap) (st : tymap * gmap string atype) : work (tymap * gmap string atype) :=
  match a with
  | [] => wret (Ok st)
  | NDecl name ty :: a' => ticks 1 (wdo st' <- w_one_first_pass name ty builtins st; w_first_pass a' builtins st')
  | NExport _ :: a' => ticks 1 (w_first_pass a' builtins st)
  end.
(** check.rs:284-292 *)
Fixpoint w_split_fields (name : string) (c : tymap) (fs : list (string * unresolved))
    (fields : list sfield) (not_resolved : list (string * unresolved))
  : work (list sfield * list (string * unresolved)) :=
  match fs with
  | [] => wret (Ok (fields, not_resolved))
  | (fname, fty) :: fs' =>
      ticks 1 (wdo o <- wret (resolve_struct_field fname fty c name);
      match o with
      | Some field => w_split_fields name c fs' (fields ++ [field]) not_resolved
      | None => w_split_fields name c fs' fields (not_resolved ++ [(fname, fty)])
      end)
  end.
(** check.rs:298-312 *)
Fixpoint w_field_types (rec : string -> atype -> sp -> work sp)
    (not_resolved : list (string * unresolved)) (s : sp) : work sp :=
  match not_resolved with
  | [] => wret (Ok s)
  | (_, fty) :: nr =>
      let tn := u_name fty in
      ticks 1 match unres s !! tn with
      | Some utype =>
          wdo s' <- rec tn utype (Sp (cache s) (visited s) (delete tn (unres s)));
          w_field_types rec nr s'
      | None =>
          match cache s !! tn with
          | Some _ => w_field_types rec nr s
          | None => wret (Err ("Declaration for type '" +:+ tn +:+ "' does not exist"))
          end
      end
  end.
(** check.rs:315-318 *)
Fixpoint w_finish_fields (name : string) (c : tymap) (nr : list (string * unresolved)) (acc : list sfield)
  : work (list sfield) :=
  match nr with
  | [] => wret (Ok acc)
  | (fname, fty) :: nr' =>
      ticks 1 (wdo o <- wret (resolve_struct_field fname fty c name);
      match o with
      | Some field => w_finish_fields name c nr' (acc ++ [field])
      | None => wret (Panic "called `Option::unwrap()` on a `None` value")
      end)
  end.
(** check.rs:261-337; line 325 moves all fields into a new vector *)
Fixpoint w_one_second_pass (fuel : nat) (name : string) (ty : atype) (s : sp) : work sp :=
  match fuel with
  | O => wret Diverge
  | S fuel' =>
      call match cache s !! name with
      | Some _ => wret (Ok s)
      | None =>
          match ty with
          | AStruct fs =>
              if decide (name ∈ visited s) then
                wret (Err ("Found a cycle between two or more top level definitions in type '" +:+ name +:+ "'"))
              else
                let s1 := Sp (cache s) ({[name]} ∪ visited s) (unres s) in
                wdo fn <- w_split_fields name (cache s1) fs [] [];
                let '(fields, not_resolved) := fn in
                match not_resolved with
                | [] => wret (Ok (Sp (<[name := (name, TStruct fields)]> (cache s1)) (visited s1) (unres s1)))
                | _ =>
                    wdo s2 <- w_field_types (w_one_second_pass fuel') not_resolved s1;
                    wdo now_resolved <- w_finish_fields name (cache s2) not_resolved [];
                    ticks (length fs) (wret (Ok (Sp (<[name := (name, TStruct (fields ++ now_resolved))]> (cache s2))
                           (visited s2) (unres s2))))
                end
          | AEnum _ => wret (Panic "Something unresolved which is not a struct got into the second pass")
          end
      end
  end.
(** check.rs:344-348; [ty] is a clone that is dropped in the round *)
Fixpoint w_second_pass_loop (fuel : nat) (order : list (string * atype)) (s : sp) : work sp :=
  match order with
  | [] => wret (Ok s)
  | (name, ty) :: order' =>
      ticks (1 + type_size ty) (wdo s' <- w_one_second_pass fuel name ty s; w_second_pass_loop fuel order' s')
  end.
(** check.rs:339-350; line 344 clones the map *)
Definition w_second_pass (iter : gmap string atype -> list (string * atype))
    (c : tymap) (un : gmap string atype) : work tymap :=
  ticks (sum_list (map (fun d => 1 + type_size d.2) (map_to_list un)))
    (wdo s <- w_second_pass_loop (S (size un)) (iter un) (Sp c ∅ un); wret (Ok (cache s))).
(** check.rs:352-363; line 354 clones the fields *)
Fixpoint w_collect_used (ty : rtype) (tname : string) (vis : gset string) : gset string * cost :=
  let vis := {[tname]} ∪ vis in
  match ty with
  | TStruct fs =>
      let x := (fix loop (fs : list sfield) (vis : gset string) : gset string * cost :=
         match fs with
         | [] => (vis, (0, 0))
         | f :: fs' =>
             let y := if decide (f_tname f ∈ vis) then (vis, (0, 0)) else w_collect_used (f_ty f) (f_tname f) vis in
             let z := loop fs' y.1 in
             (z.1, and_then (1, 0) (and_then y.2 z.2))
         end) fs vis in
      (x.1, (S (length fs + x.2.1), S x.2.2))
  | _ => (vis, (1, 1))
  end.
(** check.rs:376-378 *)
Fixpoint w_used (fs : list sfield) (vis : gset string) : gset string * cost :=
  match fs with
  | [] => (vis, (0, 0))
  | f :: fs' =>
      let y := w_collect_used (f_ty f) (f_tname f) vis in
      let z := w_used fs' y.1 in
      (z.1, and_then (1, 0) (and_then y.2 z.2))
  end.
(** check.rs:370-390; line 375 clones the fields of the export, line 367 looks at all types *)
Definition w_resolve_export (name : string) (rs : tymap) : work (export * tymap) :=
  match rs !! name with
  | Some (_, TStruct fs) =>
      let x := w_used fs {[name]} in
      ticks (length fs + size rs) (Ok (Export_ name fs, remove_unused x.1 rs), x.2)
  | Some (_, _) => wret (Err ("Attempted to export '" +:+ name +:+ "', which is not a struct"))
  | None => wret (Err ("Export '" +:+ name +:+ "' could not be resolved"))
  end.
(** check.rs:400-429; line 419 moves the builtins and the types of the first pass into a new map *)
Definition w_type_check (iter : gmap string atype -> list (string * atype)) (a : ast) : work resolved :=
  wdo exp <- w_get_export a None;
  wdo un <- w_collect_types a ∅;
  let builtins := get_builtins in
  wdo fpun <- w_first_pass a builtins (∅, un);
  let '(first_pass, un') := fpun in
  ticks (size builtins + size first_pass) (
  wdo c <- w_second_pass iter (first_pass ∪ builtins) un';
  wdo et <- w_resolve_export exp c;
  wret (Ok (Resolved et.1 et.2))).

(** The size of a schema: its lines, fields and variants. *)
Definition items (a : ast) : nat :=
  sum_list (map (fun n => match n with NDecl _ t => 1 + type_size t | NExport _ => 1 end) a).
