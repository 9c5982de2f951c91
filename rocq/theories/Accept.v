(** The packets that read accepts (specification). [accepts t v data rest]: [data] is a packet that stands for the
    value [v], followed by [rest]. Integers and enums have one encoding; for floats and the bytes of strings it is
    up to the runtime library. *)
From Verif Require Export WireSpec.

Section accepts.
  Context (rt : runtime).
  Definition number (k : kind) (n : num) (data rest : list byte) : Prop :=
    in_kind k n /\ match k with KF32 => rt_rd rt k (data, false) = (n, (rest, false)) | _ => data = rt_enc rt k n ++ rest end.
  Fixpoint each (P : value -> list byte -> list byte -> Prop) (l : list value) (data rest : list byte) : Prop :=
    match l with [] => data = rest | v :: l => exists mid, P v data mid /\ each P l mid rest end.
  Definition accepts_items (array : bool) (P : value -> list byte -> list byte -> Prop) (v : value) (data rest : list byte) : Prop :=
    if array then exists l mid, v = VArr l /\ number KU32 (NInt (Z.of_nat (length l))) data mid /\ each P l mid rest else P v data rest.
  (** a flag other than 0 announces a value *)
  Definition accepts_wrapped (array opt : bool) (P : value -> list byte -> list byte -> Prop) (v : value) (data rest : list byte) : Prop :=
    if opt then (v = VNone /\ number KU8 (NInt 0) data rest) \/
                exists flag mid, flag ≠ 0%Z /\ number KU8 (NInt flag) data mid /\ accepts_items array P v mid rest
    else accepts_items array P v data rest.
  Fixpoint accepts (t : rtype) (v : value) (data rest : list byte) {struct t} : Prop :=
    match t with
    | TBuiltin b => match builtin_kind b with
                    | Some k => exists n, v = VNum n /\ number k n data rest
                    | None => exists s z mid, v = VStr s /\ number KU32 (NInt z) data mid /\ rt_rds rt z (mid, false) = (s, (rest, false))
                    end
    | TEnum e => exists n, v = VNum n /\ from_first_to_last e n /\ number (repr_kind (e_repr e)) n data rest
    | TStruct fs => exists vs, v = VRec vs /\
        (fix fields (fs : list sfield) (vs : list (string * value)) (data : list byte) : Prop :=
           match fs, vs with
           | [], [] => data = rest
           | f :: fs, (g, v) :: vs => g = f_name f /\ exists mid, accepts_wrapped (f_array f) (f_opt f) (accepts (f_ty f)) v data mid /\ fields fs vs mid
           | _, _ => False
           end) fs vs data
    end.
End accepts.

(** Two packets that differ in the flags of optional fields at most: where the second has the flag 1, the first may
    have another one that is not 0. *)
Definition flag_apart (rt : runtime) (b c : byte) : Prop :=
  b = c \/ [c] = rt_enc rt KU8 (NInt 1) /\ exists z, (0 < z < 256)%Z /\ [b] = rt_enc rt KU8 (NInt z).
(** the schema declares no float *)
Definition no_float (a : ast) : Prop := forall n fs f u, declares_struct a n fs -> (f, u) ∈ fs -> u_name u ≠ "float".

(** An upper bound for the number of calls of the reader for a type without arrays: two for a string, one for another
    leaf, one for the flag of an optional field. *)
Fixpoint most_calls (t : rtype) : nat :=
  match t with
  | TBuiltin BString => 2
  | TBuiltin _ | TEnum _ => 1
  | TStruct fs => fold_right (fun f n => (if f_opt f then 1 else 0) + most_calls (f_ty f) + n) 0 fs
  end.
(** the schema declares no array *)
Definition no_arrays (a : ast) : Prop := forall n fs f u, declares_struct a n fs -> (f, u) ∈ fs -> u_array u = false.

(** ** Calls of the reader for any packet *)
(** How many places of the code of [read] call the reader, when the code of a nested struct is counted at each place where
    it is expanded: two for a string, one for another leaf, one for the length of an array and one for the flag of an
    optional field. *)
Fixpoint read_places (t : rtype) : Z :=
  match t with
  | TBuiltin BString => 2
  | TBuiltin _ | TEnum _ => 1
  | TStruct fs => fold_right (fun f n => (if f_array f then 1 else 0) + (if f_opt f then 1 else 0) + read_places (f_ty f) + n) 0 fs
  end%Z.
(** The largest number of calls if each array had the largest length. *)
Fixpoint most_reads (t : rtype) : Z :=
  match t with
  | TBuiltin BString => 2
  | TBuiltin _ | TEnum _ => 1
  | TStruct fs => fold_right (fun f n => (if f_opt f then 1 else 0) + (if f_array f then 1 + (2 ^ 32 - 1) * most_reads (f_ty f) else most_reads (f_ty f)) + n) 0 fs
  end%Z.
(** A library whose reader answers 0 for flags and lengths once it has failed. *)
Definition zero_after_failure (rt : runtime) : Prop := forall k bs, k = KU8 \/ k = KU32 -> (rt_rd rt k (bs, true)).1 = NInt 0.
