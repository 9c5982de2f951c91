(** The parts of rust-peg 0.6.3 that the grammar in src/lib/parser.rs uses.

    A parser runs on the text that is left, as bytes. rust-peg works on chars of a &str; the two
    agree because every character that the grammar names is ASCII and the only class that takes
    other characters ([ch if ch != '\n']*, parser.rs:15) takes all bytes of a multi-byte character.

    rust-peg remembers the furthest position at which a terminal failed ([max_err_pos]); failures
    inside quiet!{} and inside a negative lookahead are not remembered. Here the position is
    represented by the number of bytes left, so "furthest" is the minimum; [m] is that number. *)
From Verif Require Export Base.

Notation text := (list ascii).

Inductive pres (A : Type) : Type :=
| PSucc (a : A) (rest : text) (m : nat)
| PFail (m : nat)
| PDiv.
Arguments PSucc {A} a rest m.
Arguments PFail {A} m.
Arguments PDiv {A}.

(** The result is [PDiv] only if a loop of the model runs out of fuel, i.e. rust-peg would loop. *)
Definition parser (A : Type) : Type := text -> nat -> pres A.

Definition pret {A} (a : A) : parser A := fun s m => PSucc a s m.
(** Sequence. *)
Definition pbind {A B} (p : parser A) (k : A -> parser B) : parser B := fun s m =>
  match p s m with
  | PSucc a s' m' => k a s' m'
  | PFail m' => PFail m'
  | PDiv => PDiv
  end.
Notation "x <~ p ; k" := (pbind p (fun x => k)) (at level 100, p at next level, k at level 200, right associativity).
Notation "p ~> k" := (pbind p (fun _ => k)) (at level 100, k at level 200, right associativity).

(** A character class such as [' ' | '\t']. *)
Definition pclass (f : ascii -> bool) : parser ascii := fun s m =>
  match s with
  | c :: s' => if f c then PSucc c s' m else PFail (Nat.min m (length s))
  | [] => PFail (Nat.min m (length s))
  end.

Fixpoint strip (l s : text) : option text :=
  match l, s with
  | [], _ => Some s
  | a :: l', b :: s' => if Ascii.eqb a b then strip l' s' else None
  | _ :: _, [] => None
  end.
(** A literal such as "enum": a failure is remembered at the start of the literal. *)
Definition plit (l : text) : parser unit := fun s m =>
  match strip l s with
  | Some s' => PSucc () s' m
  | None => PFail (Nat.min m (length s))
  end.

(** e1 / e2 *)
Definition palt {A} (p q : parser A) : parser A := fun s m =>
  match p s m with
  | PFail m' => q s m'
  | r => r
  end.
(** e? *)
Definition popt {A} (p : parser A) : parser (option A) := fun s m =>
  match p s m with
  | PSucc a s' m' => PSucc (Some a) s' m'
  | PFail m' => PSucc None s m'
  | PDiv => PDiv
  end.
(** !e *)
Definition pnot {A} (p : parser A) : parser unit := fun s m =>
  match p s m with
  | PSucc _ _ _ => PFail m
  | PFail _ => PSucc () s m
  | PDiv => PDiv
  end.
(** quiet!{ e } *)
Definition pquiet {A} (p : parser A) : parser A := fun s m =>
  match p s m with
  | PSucc a s' _ => PSucc a s' m
  | PFail _ => PFail m
  | PDiv => PDiv
  end.
(** $( e ): the text that e matched. *)
Definition pslice {A} (p : parser A) : parser text := fun s m =>
  match p s m with
  | PSucc _ s' m' => PSucc (take (length s - length s') s) s' m'
  | PFail m' => PFail m'
  | PDiv => PDiv
  end.
(** e*: repeat until e fails. rust-peg does not stop when e succeeds without consuming anything;
    then the fuel runs out here. *)
Fixpoint pstar_loop {A} (fuel : nat) (p : parser A) (s : text) (m : nat) : pres (list A) :=
  match fuel with
  | O => PDiv
  | S fuel' =>
      match p s m with
      | PSucc a s' m' =>
          match pstar_loop fuel' p s' m' with
          | PSucc l s'' m'' => PSucc (a :: l) s'' m''
          | r => r
          end
      | PFail m' => PSucc [] s m'
      | PDiv => PDiv
      end
  end.
Definition pstar {A} (p : parser A) : parser (list A) := fun s m => pstar_loop (S (length s)) p s m.

Definition pmap {A B} (f : A -> B) (p : parser A) : parser B := x <~ p; pret (f x).

(** The entry point of a public rule: the rule, then end of input; the error is the furthest
    position, as a byte offset. *)
Inductive parse_result (A : Type) : Type :=
| POk (a : A)
| PErr (offset : nat)
| PLoop.
Arguments POk {A} a.
Arguments PErr {A} offset.
Arguments PLoop {A}.
Definition prun {A} (p : parser A) (s : text) : parse_result A :=
  match p s (length s) with
  | PSucc a [] _ => POk a
  | PSucc _ rest m => PErr (length s - Nat.min m (length rest))
  | PFail m => PErr (length s - m)
  | PDiv => PLoop
  end.
