(** Vocabulary for the criterion of C31. *)
From Verif Require Export NeedsSpec ThrowSpec TsNew.

(** No object has a property of its own called __proto__. (One made by Object.defineProperty or JSON.parse could.) *)
Definition plain_heap (h : heap) : Prop := forall l p props, h !! l = Some (OPlain p props) -> own "__proto__" props = None.
(** Every value of the type gets through: write accepts the objects that stand for it, and read gives back one that does. *)
Definition gets_through (rt : runtime) (str_ok : jstr -> Prop) (k : cls) (t : rtype) : Prop :=
  forall v h this h', has_type str_ok t v -> rep h this v -> plain_heap h' ->
    exists bytes M l M', writes rt k h this (Done (bytes, M)) /\ reads rt k h' bytes (Done (JLoc l, M')) /\ rep (m_heap M') (JLoc l) v.
(** Names whose effects the model leaves out: an export that hides what read uses ([prologue]), and fields called __proto__
    that are given objects, which become the prototype ([set_prop]). *)
Record modelled_names (a : ast) (e : string) : Prop := {
  mo_export : e ∉ outside_model;
  mo_proto : forall n fs u, needed a e n -> declares_struct a n fs -> ("__proto__", u) ∈ fs -> u_array u = false /\ forall gs, ~ declares_struct a (u_name u) gs }.
(** the fields of structs that matter have different names *)
Definition distinct_fields (a : ast) (e : string) : Prop := forall n fs, needed a e n -> declares_struct a n fs -> NoDup fs.*1.
(** Objects made with new from the values of the fields stand for them, and their write method gives the format. *)
Definition usable_instances (rt : runtime) (str_ok : jstr -> Prop) (k : cls) (t : rtype) : Prop :=
  forall fs h args, has_type str_ok t (VRec fs) -> Forall2 (rep h) args fs.*2 ->
    exists x h' M, construct k h args = Done (x, h') /\ rep h' x (VRec fs) /\ calls_write rt k h' x (Done (wire (rt_enc rt) (rt_encs rt) t (VRec fs), M)).
