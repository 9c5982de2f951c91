(** Property theorems C105: the objects that read creates. *)
From Verif Require Import PartsProofs.

(** C105. In the result of read no object is found in two places, and none is older than the call. *)
Theorem C105_unshared : forall a rt str_ok, rt_ok rt str_ok -> for_code a (fun k t => names_fine a k -> forall h data l M,
  reads rt k h data (Done (JLoc l, M)) -> unshared (m_heap M) (length h) (JLoc l)).
Proof. exact code_unshared. Qed.
Print Assumptions C105_unshared.
(** So changing one part of the result leaves the value of every other part as it is. *)
Theorem C105_local_changes : forall a rt str_ok, rt_ok rt str_ok -> for_code a (fun k t => names_fine a k -> forall h data l M,
  reads rt k h data (Done (JLoc l, M)) -> forall ks ks' y y' v h', at_path (m_heap M) (JLoc l) ks y -> at_path (m_heap M) (JLoc l) ks' y' -> apart_places ks ks' ->
  rep (m_heap M) y v -> changed_in y' (m_heap M) h' -> rep h' y v).
Proof. exact code_local. Qed.
Print Assumptions C105_local_changes.
(** A packet with an array of two equal structs: they are different objects, and changing the first leaves the second. *)
Example C105_nonvacuous : accepted demo_schema /\ plain_names demo_schema /\ export_of demo_schema = Ok demo_export /\
  exists h M p q, call_read latin1 20 (class_of demo_export) demo_heap twice_bytes = Some (Done (JLoc 5, M)) /\
    at_path (m_heap M) (JLoc 5) [KProp "inner"; KProp "values"; KElem 0] (JLoc p) /\ rep (m_heap M) (JLoc p) twice_value /\
    at_path (m_heap M) (JLoc 5) [KProp "inner"; KProp "values"; KElem 1] (JLoc q) /\ rep (m_heap M) (JLoc q) twice_value /\ p ≠ q /\
    apart_places [KProp "inner"; KProp "values"; KElem 0] [KProp "inner"; KProp "values"; KElem 1] /\
    set_prop (m_heap M) (JLoc p) "a" (jnum 8) = Done h /\ h ≠ m_heap M /\ changed_in (JLoc p) (m_heap M) h.
Proof. exact twice_witness. Qed.
