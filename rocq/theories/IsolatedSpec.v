(** TypeScript's options preserveConstEnums and isolatedModules (C104). *)
From Verif Require Export TypedSpec NeedsSpec.

(** With either option a namespace that contains a const enum is a value, like one with a plain enum. A namespace that is
    a value may not stand before the class that it merges with (error 2434). In emitted text it does: generate (gen/mod.rs lines 14-24) calls
    push_decls before push_impl, and [read_ts] reads the namespace before the class. *)
Definition enums_preserved (ds : list decl) (k : cls) : Prop := well_typed ds k /\ forall n vs, DEnum n vs ∉ ds.
