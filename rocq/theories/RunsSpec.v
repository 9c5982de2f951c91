(** When the code of two runs of the compiler can exchange packets (vocabulary for PropRuns.v). *)
From Verif Require Export Accept.

(** What an object holds is read from the bytes that [write] of the class [k] gives for it by [read] of the class [k']. *)
Definition talks (rt : runtime) (str_ok : jstr -> Prop) (k k' : cls) (t : rtype) : Prop :=
  forall v h this bytes M h', has_type str_ok t v -> rep h this v -> writes rt k h this (Done (bytes, M)) ->
    exists l M', reads rt k' h' bytes (Done (JLoc l, M')) /\ rep (m_heap M') (JLoc l) v.

(** Every type that the export needs has two values: enums have two variants, structs have a field. *)
Definition varied (a : ast) : Prop := forall e n, exports a = [e] -> needed a e n ->
  (forall vs, declares_enum a n vs -> 2 <= length vs) /\ (forall fs, declares_struct a n fs -> fs ≠ []).

(** What the reader of floats gives depends on the four bytes that it takes. *)
Definition local_floats (rt : runtime) : Prop := forall w rest rest', length w = 4 ->
  (rt_rd rt KF32 (w ++ rest, false)).1 = (rt_rd rt KF32 (w ++ rest', false)).1.
(** A string that is transmitted faithfully is read from its own bytes only. *)
Definition exact_on (rt : runtime) (str_ok : jstr -> Prop) : Prop := forall z bs s rest, (0 <= z)%Z -> str_ok s ->
  rt_rds rt z (bs, false) = (s, (rest, false)) -> z = Z.of_nat (length s) /\ bs = rt_encs rt s ++ rest.
(** The empty string and another one are transmitted faithfully. *)
Definition two_strings (str_ok : jstr -> Prop) : Prop :=
  str_ok [] /\ exists s, s ≠ [] /\ (Z.of_nat (length s) < 2 ^ 32)%Z /\ str_ok s.
