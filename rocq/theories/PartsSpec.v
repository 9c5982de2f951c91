(** The objects inside a value: where they are found, and when no two places share one (C105). *)
From Verif Require Export Wire.

Inductive key := KProp (f : string) | KElem (i : nat).
(** the own property, or the element, of an object *)
Definition part (h : heap) (x : val) (k : key) (y : val) : Prop :=
  match x, k with
  | JLoc p, KProp f => exists pr props, h !! p = Some (OPlain pr props) /\ own f props = Some y
  | JLoc p, KElem i => exists items, h !! p = Some (OArr items) /\ items !! i = Some y
  | _, _ => False
  end.
(** [x.a.b[1]…] is [y] *)
Fixpoint at_path (h : heap) (x : val) (ks : list key) (y : val) : Prop :=
  match ks with
  | [] => x = y
  | k :: ks => exists z, part h x k z /\ at_path h z ks y
  end.
(** no object is found in two places, and none lies below [lo] *)
Definition unshared (h : heap) (lo : nat) (x : val) : Prop :=
  forall ks ks' p, at_path h x ks (JLoc p) -> at_path h x ks' (JLoc p) -> ks = ks' /\ lo <= p.
(** [h'] is [h] after changes to objects that are found in [x], and to new ones *)
Definition changed_in (x : val) (h h' : heap) : Prop :=
  forall p o, h !! p = Some o -> h' !! p = Some o \/ exists ks, at_path h x ks (JLoc p).
(** two places, neither inside the other *)
Definition apart_places (ks ks' : list key) : Prop := ~ ks `prefix_of` ks' /\ ~ ks' `prefix_of` ks.
