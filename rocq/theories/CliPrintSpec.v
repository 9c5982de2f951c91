(** Vocabulary for what the command prints (C107, C108). *)
From Verif Require Export CliPrint CliSpec.

(** [p] is a path to where the code of a schema below [base] belongs, and [t] is code for that schema. *)
Definition output_of (E : env) (f : fs) (out : string) (base : location) (p : string) (t : text) : Prop :=
  exists dirs s c code, schema_at f base dirs s c /\ code_for E c code /\ t = txt code /\ leads_to E p = target E out dirs s.
(** The outputs [ps] with codes [ts] are those of all schemas, if is_dir never fails. *)
Definition outputs (E : env) (f : fs) (out : string) (base : location) (ps : list string) (ts : list text) : Prop :=
  Forall2 (output_of E f out base) ps ts /\ NoDup (leads_to E <$> ps) /\
  (no_blind E -> forall dirs s c, schema_at f base dirs s c -> target E out dirs s ∈ leads_to E <$> ps).
(** The first [k] outputs are complete; nothing is changed but the first [n] outputs and new directories. *)
Definition stands (E : env) (f f' : fs) (ps : list string) (ts : list text) (k n : nat) : Prop :=
  (forall i p t, ps !! i = Some p -> ts !! i = Some t -> i < k -> f' !! leads_to E p = Some (File t)) /\
  (forall x, x ∉ leads_to E <$> take n ps -> f' !! x = f !! x \/ made_dir f f' x).
