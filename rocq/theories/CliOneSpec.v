(** Vocabulary for a single input file (C55, C106). *)
From Verif Require Export CliSpec.

(** [x] is [s] without what follows its last dot, unless that is all of it. *)
Definition shortened (s x : string) : Prop :=
  (s = x /\ forall a b, s = a +:+ "." +:+ b -> a = "") \/ (x ≠ "" /\ exists b, DOT ∉ txt b /\ s = x +:+ "." +:+ b).
(** Nothing stands in the way of the one output [x.ts]. *)
Definition clear_way (E : env) (f : fs) (out x : string) : Prop :=
  (forall y, on_way E out [] y -> y ≠ [] -> ~ is_file f y) /\ f !! target E out [] x ≠ Some Dir /\ ~ on_way E out [] (target E out [] x).
