(** When the TypeScript of one run and the Rust of another can exchange packets (vocabulary for PropRsRuns.v). *)
From Verif Require Export RunsSpec RsEvolveSpec.

(** What an object holds is read by the emitted Rust from the bytes that the emitted TypeScript writes for it, and the other
    way round; [t] is the type of the Rust values, [both] are the strings that both libraries transmit. *)
Definition exchange (rt : runtime) (lib : rs_lib) (str_ok both : list Z -> Prop) (k : cls) (m : rs_module) (t : rtype) : Prop :=
  exists d, default_value (rm_items m) (rm_type m) = Some d /\ forall x v, stands str_ok t (rm_type m) x v -> strings_in both v ->
    (forall h this bytes M, rep h this v -> writes rt k h this (Done (bytes, M)) -> exists i, rs_read lib m d bytes = Good x i) /\
    (forall bytes h, rs_write lib m x = Some bytes -> exists l M, reads rt k h bytes (Done (JLoc l, M)) /\ rep (m_heap M) (JLoc l) v).
