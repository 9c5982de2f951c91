(** Vocabulary for the criterion of C51. *)
From Verif Require Export ProtoSpec.

(** the export needs a struct with an optional field called like a property that objects or instances of the class inherit *)
Definition needs_inherited (a : ast) (e : string) : Prop := exists n fs f u,
  needed a e n /\ declares_struct a n fs /\ (f, u) ∈ fs /\ u_opt u = true /\ f ∈ "write" :: object_names.
(** Optional fields may be left out: whatever properties an object has of its own, write gives the format of the value
    in which the fields that it does not have are absent. *)
Definition may_omit (rt : runtime) (str_ok : jstr -> Prop) (k : cls) (t : rtype) : Prop :=
  forall v h this, has_type str_ok t v -> holds h this v -> exists M, writes rt k h this (Done (wire (rt_enc rt) (rt_encs rt) t v, M)).
