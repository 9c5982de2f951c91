(** Shared vocabulary of the model: results, text helpers, decimal printing. *)
From Coq Require Export ZArith Lia Ascii String.
From stdpp Require Export base strings list gmap.
From Coq Require Import DecimalString.


(** Outcome of a Rust function: [Ok]/[Err] are Rust's Result, [Panic] is a Rust panic
    (explicit panic!, unwrap of None, index out of bounds, arithmetic overflow), [Diverge] is
    "the fuel of the model's recursion ran out", i.e. the Rust code would not have returned. *)
Inductive res (A : Type) : Type :=
| Ok (a : A)
| Err (msg : string)
| Panic (msg : string)
| Diverge.
Arguments Ok {A} a.
Arguments Err {A} msg.
Arguments Panic {A} msg.
Arguments Diverge {A}.

Definition rbind {A B} (r : res A) (k : A -> res B) : res B :=
  match r with
  | Ok a => k a
  | Err m => Err m
  | Panic m => Panic m
  | Diverge => Diverge
  end.
Notation "'do' x <- r ; k" := (rbind r (fun x => k)) (at level 200, x pattern, r at level 100, k at level 200).

Definition is_ok {A} (r : res A) : Prop := exists a, r = Ok a.
(** The Rust function returned (with Ok or Err): no panic, no divergence. *)
Definition returns {A} (r : res A) : Prop := (exists a, r = Ok a) \/ (exists m, r = Err m).

Open Scope string_scope.
Open Scope list_scope.

(** "\n" *)
Definition NL : string := String (Ascii.ascii_of_nat 10) EmptyString.

(** Rust's [v.join(sep)] on a Vec<String>. *)
Fixpoint join (sep : string) (l : list string) : string :=
  match l with
  | [] => ""
  | [x] => x
  | x :: l' => x +:+ sep +:+ join sep l'
  end.

(** Rust's Display of unsigned and signed integers. *)
Definition string_of_nat (n : nat) : string := NilZero.string_of_uint (Nat.to_uint n).
Definition string_of_Z (z : Z) : string := NilZero.string_of_int (Z.to_int z).

(** [s] starts with [p]. *)
Fixpoint starts_with (p s : string) : bool :=
  match p, s with
  | EmptyString, _ => true
  | String a p', String b s' => bool_decide (a = b) && starts_with p' s'
  | String _ _, EmptyString => false
  end.
