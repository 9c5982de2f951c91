(** Packets that the emitted Rust reads as the same value. *)
From Verif Require Export RsSpec.

(** One byte of two packets that differ in the flags of optional fields at most: where the second has the flag 1, the
    first may have another one that is not 0. *)
Definition rs_flag_apart (lib : rs_lib) (b c : byte) : Prop :=
  b = c \/ [c] = lb_enc lib KU8 (NInt 1) /\ exists z, (0 < z < 256)%Z /\ [b] = lb_enc lib KU8 (NInt z).
