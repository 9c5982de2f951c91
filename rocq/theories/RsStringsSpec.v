(** Vocabulary for strings that cross the languages: the bytes of a Rust string are not the code units of a TypeScript one. *)
From Verif Require Export RsSpec.

(** The same value with other strings. *)
Fixpoint recode (conv : list Z -> list Z) (v : value) : value :=
  match v with
  | VStr s => VStr (conv s)
  | VArr l => VArr (map (recode conv) l)
  | VRec fs => VRec (map (fun gv => (gv.1, recode conv gv.2)) fs)
  | _ => v
  end.
(** The TypeScript library decodes the strings of the Rust library, to what [conv] makes of them. *)
Definition decodes (rt : runtime) (lib : rs_lib) (str_ok : rstr -> Prop) (conv : list Z -> list Z) : Prop := forall s rest, str_ok s ->
  rt_rds rt (Z.of_nat (length s)) (lb_encs lib s ++ rest, false) = (conv s, (rest, false)).
(** The Rust library refuses what the TypeScript library writes for [s], at the length that the emitted code writes. *)
Definition undecodable (rt : runtime) (lib : rs_lib) (s : list Z) : Prop := (Z.of_nat (length s) < 2 ^ 32)%Z /\
  forall rest, lb_rds lib (Z.of_nat (length s)) (rt_encs rt s ++ rest) = None.
