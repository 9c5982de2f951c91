(** Which messages the checker can give for a schema, over all hash orders (specification for C103). *)
From Verif Require Export CheckErrors.

(** optional and array at once *)
Definition clash (u : unresolved) : Prop := u_array u = true /\ u_opt u = true.
(** [x] is the first that is there already *)
Definition first_twice (l : list string) (x : string) : Prop := exists l1 l2, l = l1 ++ x :: l2 /\ NoDup l1 /\ x ∈ l1.
(** ** What is wrong with one declaration taken alone *)
Definition faultless (fs : list (string * unresolved)) : Prop :=
  NoDup fs.*1 /\ forall f u, (f, u) ∈ fs -> u_name u ∈ builtin_names /\ ~ clash u.
Inductive own_fault : string -> atype -> string -> Prop :=
| of_no_variants n : own_fault n (AEnum []) ("Enum '" +:+ n +:+ "' must have at least one variant")
| of_many_variants n vs : 32 < length vs ->
    own_fault n (AEnum vs) ("Enum '" +:+ n +:+ "' has too many variants (" +:+ string_of_nat (length vs) +:+ "/32)")
| of_twice_variant n vs v : length vs <= 32 -> first_twice vs v -> own_fault n (AEnum vs) ("Duplicate variant '" +:+ v +:+ "' on enum '" +:+ n +:+ "'")
| of_twice_field n pre f u post : faultless pre -> f ∈ pre.*1 ->
    own_fault n (AStruct (pre ++ (f, u) :: post)) ("Duplicate field '" +:+ f +:+ "' on struct '" +:+ n +:+ "'")
| of_clash n pre f u post : faultless pre -> f ∉ pre.*1 -> u_name u ∈ builtin_names -> clash u ->
    own_fault n (AStruct (pre ++ (f, u) :: post)) ("Field '" +:+ f +:+ "' in struct '" +:+ n +:+ "' cannot be optional and array at once").

(** ** What is wrong with structs that need other structs *)
(** nothing is wrong with [t] and with what it contains *)
Definition sound (a : ast) (t : string) : Prop := forall k, rtc (refers a) t k ->
  (k ∈ builtin_names \/ k ∈ decl_names a) /\ ~ tc (refers a) k k /\ forall fs f u, declares_struct a k fs -> (f, u) ∈ fs -> ~ clash u.
(** a set of types that may be resolved while others are not *)
Record ready (a : ast) (S : gset string) : Prop := {
  rd_shallow : forall m, shallow a m -> m ∈ S;
  rd_closed : forall m m', m ∈ S -> refers a m m' -> m' ∈ S;
  rd_sound : forall m, m ∈ S -> sound a m }.
(** [t] is the first type in [fs] with something wrong, [pre] are the fields before it *)
Definition first_bad (a : ast) (fs pre : list (string * unresolved)) (t : string) : Prop :=
  exists f u post, fs = pre ++ (f, u) :: post /\ u_name u = t /\ ~ sound a t /\ forall d, d ∈ pre -> sound a (u_name d.2).
Definition quiet (S : string -> Prop) (fs : list (string * unresolved)) : Prop := forall f u, (f, u) ∈ fs -> clash u -> ~ S (u_name u).
(** The message for [n], which is reached from [top] through the structs [open], when the types in [S] have been resolved.
    The checker follows the first bad field of each struct. *)
Inductive walk (a : ast) (top : string) : (string -> Prop) -> list string -> string -> string -> Prop :=
| walk_clash S open n pre f u post : declares_struct a n (pre ++ (f, u) :: post) -> quiet S pre -> clash u -> S (u_name u) ->
    walk a top S open n ("Field '" +:+ f +:+ "' in struct '" +:+ n +:+ "' cannot be optional and array at once")
| walk_clash_last S open n pre f u post : let fs := pre ++ (f, u) :: post in declares_struct a n fs -> quiet S fs ->
    (forall d, d ∈ fs -> sound a (u_name d.2)) -> (forall d, d ∈ pre -> ~ clash d.2) -> clash u ->
    walk a top S open n ("Field '" +:+ f +:+ "' in struct '" +:+ n +:+ "' cannot be optional and array at once")
| walk_missing S open n fs pre t : declares_struct a n fs -> quiet S fs -> first_bad a fs pre t -> t ∉ decl_names a ->
    walk a top S open n ("Declaration for type '" +:+ t +:+ "' does not exist")
| walk_open S open n fs pre t : declares_struct a n fs -> quiet S fs -> first_bad a fs pre t -> t ∈ n :: open -> t ≠ top ->
    walk a top S open n ("Declaration for type '" +:+ t +:+ "' does not exist")
| walk_top S open n fs pre : declares_struct a n fs -> quiet S fs -> first_bad a fs pre top ->
    walk a top S open n ("Found a cycle between two or more top level definitions in type '" +:+ top +:+ "'")
| walk_on S open n fs pre t m : declares_struct a n fs -> quiet S fs -> first_bad a fs pre t -> t ∈ decl_names a -> t ∉ n :: open ->
    walk a top (fun k => S k \/ exists d, d ∈ pre /\ rtc (refers a) (u_name d.2) k) (n :: open) t m -> walk a top S open n m.

(** ** All of it *)
Definition own_faults (a : ast) : Prop := exists n t m, NDecl n t ∈ a /\ own_fault n t m.
Inductive possible (a : ast) : string -> Prop :=
| po_no_export : exports a = [] -> possible a "Schema has no export"
| po_exports e e' es : exports a = e :: e' :: es -> possible a "Schema has more than one export"
| po_twice e n : exports a = [e] -> first_twice (decl_names a) n -> possible a ("Schema has duplicate declaration: " +:+ n)
| po_own e pre n t post m : exports a = [e] -> NoDup (decl_names a) -> a = pre ++ NDecl n t :: post -> ~ own_faults pre -> own_fault n t m -> possible a m
| po_struct e S n m : exports a = [e] -> NoDup (decl_names a) -> ~ own_faults a -> ready a S -> walk a n (fun k => k ∈ S) [] n m -> possible a m
| po_export e : exports a = [e] -> NoDup (decl_names a) -> ~ own_faults a -> (forall n, n ∈ decl_names a -> sound a n) ->
    (e ∈ builtin_names \/ exists vs, declares_enum a e vs) -> possible a ("Attempted to export '" +:+ e +:+ "', which is not a struct")
| po_missing e : exports a = [e] -> NoDup (decl_names a) -> ~ own_faults a -> (forall n, n ∈ decl_names a -> sound a n) ->
    e ∉ builtin_names -> e ∉ decl_names a -> possible a ("Export '" +:+ e +:+ "' could not be resolved").
