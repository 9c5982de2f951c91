(** What the messages of the checker say (specification for C70). *)
From Verif Require Export CheckSpec.

(** [x] is twice in [l]. *)
Definition twice (x : string) (l : list string) : Prop := exists l1 l2 l3, l = l1 ++ x :: l2 ++ x :: l3.

(** [a] has the defect that the message describes. *)
Inductive defect (a : ast) : string -> Prop :=
| no_export : exports a = [] -> defect a "Schema has no export"
| many_exports e e' es : exports a = e :: e' :: es -> defect a "Schema has more than one export"
| twice_declared n : twice n (decl_names a) -> defect a ("Schema has duplicate declaration: " +:+ n)
| no_variants n : declares_enum a n [] -> defect a ("Enum '" +:+ n +:+ "' must have at least one variant")
| many_variants n vs : declares_enum a n vs -> 32 < length vs ->
    defect a ("Enum '" +:+ n +:+ "' has too many variants (" +:+ string_of_nat (length vs) +:+ "/32)")
| twice_variant n vs v : declares_enum a n vs -> twice v vs -> defect a ("Duplicate variant '" +:+ v +:+ "' on enum '" +:+ n +:+ "'")
| twice_field n fs f : declares_struct a n fs -> twice f fs.*1 -> defect a ("Duplicate field '" +:+ f +:+ "' on struct '" +:+ n +:+ "'")
| optional_array n fs f u : declares_struct a n fs -> (f, u) ∈ fs -> u_array u = true -> u_opt u = true ->
    defect a ("Field '" +:+ f +:+ "' in struct '" +:+ n +:+ "' cannot be optional and array at once")
| missing_type n fs f u : declares_struct a n fs -> (f, u) ∈ fs -> u_name u ∉ builtin_names -> u_name u ∉ decl_names a ->
    defect a ("Declaration for type '" +:+ u_name u +:+ "' does not exist")
| recursive n : tc (refers a) n n -> defect a ("Found a cycle between two or more top level definitions in type '" +:+ n +:+ "'")
| no_struct e : exports a = [e] -> (e ∈ builtin_names \/ exists vs, declares_enum a e vs) -> defect a ("Attempted to export '" +:+ e +:+ "', which is not a struct")
| missing_export e : exports a = [e] -> e ∉ builtin_names -> e ∉ decl_names a -> defect a ("Export '" +:+ e +:+ "' could not be resolved").
