(** One encoding per value. *)
From Verif Require Export NeedsSpec RunsSpec.

(** the bytes that were read are the ones that are written for the value that was read *)
Definition one_encoding (rt : runtime) (k : cls) (t : rtype) : Prop := forall h data l M v, reads rt k h data (Done (JLoc l, M)) ->
  rep (m_heap M) (JLoc l) v -> writable t v -> forall h' this bytes M', rep h' this v -> writes rt k h' this (Done (bytes, M')) -> data = bytes ++ r_rest (m_rd M).
