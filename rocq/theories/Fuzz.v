(** Model of scripts/gen_random_pkt.py, which writes a random schema. Each random choice is an argument: [defn] holds the
    choices for one definition and [possible] says which choices the calls of [random] can return. Texts are ASCII. *)
From Coq Require Import NArith.
From Verif Require Export ParserSpec CheckSpec.

Definition lower_letters : text := txt "abcdefghijklmnopqrstuvwxyz".
Definition upper_letters : text := txt "ABCDEFGHIJKLMNOPQRSTUVWXYZ".
Definition underscore : ascii := "_"%char.

(** gen_random_pkt.py:27-31 [identifier]: what it can return. *)
Definition identifier (t : text) : Prop :=
  exists c r, t = c :: r /\ (c ∈ lower_letters \/ c = underscore) /\ Forall name_char r /\ 1 <= length r <= 100.
(** gen_random_pkt.py:34-35 [whitespace] *)
Definition whitespace (t : text) : Prop := Forall (fun c => c = " "%char) t /\ length t <= 10.
(** gen_random_pkt.py:38-42 [whitespace_with_newlines] *)
Definition whitespace_with_newlines (t : text) : Prop :=
  Forall (fun c => c = " "%char \/ c = lf) t /\ length t <= 2.

(** Python's str.upper and str.capitalize for ASCII *)
Definition upper_char (c : ascii) : ascii :=
  if decide (c ∈ lower_letters) then ascii_of_nat (nat_of_ascii c - 32) else c.
Definition lower_char (c : ascii) : ascii :=
  if decide (c ∈ upper_letters) then ascii_of_nat (nat_of_ascii c + 32) else c.
Definition upper (t : text) : text := map upper_char t.
Definition capitalize (t : text) : text :=
  match t with [] => [] | c :: r => upper_char c :: map lower_char r end.

(** Python's [sep.join(l)] *)
Fixpoint tjoin (sep : text) (l : list text) : text :=
  match l with [] => [] | [x] => x | x :: l' => x ++ sep ++ tjoin sep l' end.
(** Python's [k in s] *)
Fixpoint occurs (k s : text) : bool :=
  bool_decide (k `prefix_of` s) || match s with [] => false | _ :: s' => occurs k s' end.

(** The choices for one definition. Fields: identifier, type, array or not. *)
Inductive defn :=
| FComment (t : text)
| FEnum (op cl w1 w2 : text) (vs : list (text * text)) (id : text)
| FStruct (op cl w1 w2 : text) (fs : list (text * text * bool)) (id : text).

(** gen_random_pkt.py:49-75 [generate_type], 78-81 [maybe_array] and 84-90 [generate_definition] as relations: which
    choices are possible when [types] are the types so far. random.sample returns different elements. *)
Definition possible (types : list text) (d : defn) : Prop :=
  match d with
  | FComment t => Forall (fun c => c ∈ lower_letters \/ c ∈ upper_letters \/ c ∈ digits \/ blank_char c) t /\ length t <= 100
  | FEnum op cl w1 w2 vs id =>
      whitespace_with_newlines op /\ whitespace_with_newlines cl /\ whitespace w1 /\ whitespace w2 /\ identifier id /\
      Forall (fun v => identifier v.1 /\ whitespace_with_newlines v.2) vs /\ 1 <= length vs <= 32
  | FStruct op cl w1 w2 fs id =>
      whitespace_with_newlines op /\ whitespace_with_newlines cl /\ whitespace w1 /\ whitespace w2 /\ identifier id /\
      Forall (fun f => identifier f.1.1 /\ f.1.2 ∈ types) fs /\ NoDup (map (fun f => f.1.2) fs) /\ 1 <= length fs <= 100
  end.

(** ... and what they return: the name and the text. *)
Definition fname (d : defn) : option text :=
  match d with
  | FComment _ => None
  | FEnum _ _ _ _ _ id | FStruct _ _ _ _ _ id => Some (capitalize id)
  end.
Definition field_text (f : text * text * bool) : text :=
  txt "    " ++ upper f.1.1 ++ txt ": " ++ f.1.2 ++ (if f.2 then txt "[]" else []).
Definition fline (d : defn) : text :=
  match d with
  | FComment t => txt "#" ++ t
  | FEnum op cl w1 w2 vs id =>
      capitalize id ++ txt ":" ++ w1 ++ txt "enum" ++ w2 ++ (txt "{" ++ op) ++
      tjoin (txt ",") (map (fun v => v.1 ++ v.2) vs) ++ (txt "}" ++ cl)
  | FStruct op cl w1 w2 fs id =>
      capitalize id ++ txt ":" ++ w1 ++ txt "struct" ++ w2 ++ (txt "{" ++ op) ++
      tjoin (txt "," ++ [lf]) (map field_text fs) ++ (txt "}" ++ cl)
  end.
Definition add_type (types : list text) (d : defn) : list text :=
  match fname d with Some n => types ++ [n] | None => types end.

(** gen_random_pkt.py:98-108: the loop. [export] is a variable that may be unbound ([None]) or hold Python's None
    ([Some None]). The file has at most 1024 KB when a definition is added. *)
Fixpoint floop (ds : list defn) (size : N) (out : text) (export : option (option text)) : text * option (option text) :=
  match ds with
  | [] => (out, export)
  | d :: ds' =>
      if (1048576 <=? size)%N then (out, export) else
      let line := fline d ++ [lf] in
      floop ds' (size + N.of_nat (length line)) (out ++ line)
        (if occurs (txt "struct") line then Some (fname d) else export)
  end.
(** gen_random_pkt.py:93-110: the file's content, or [None] if the last line raises NameError or TypeError. *)
Definition script (ds : list defn) : option text :=
  match floop ds 0 [] None with
  | (out, Some (Some e)) => Some (out ++ [lf] ++ txt " export " ++ e)
  | _ => None
  end.

(** Choices for a run: possible one after the other. *)
Fixpoint possible_run (types : list text) (ds : list defn) : Prop :=
  match ds with
  | [] => True
  | d :: ds' => possible types d /\ possible_run (add_type types d) ds'
  end.
Definition pkt_types : list text := map txt builtin_names.
Definition a_run (ds : list defn) : Prop := length ds = 100 /\ possible_run pkt_types ds.

(** Nothing collides: names of definitions, variants of an enum, fields of a struct are different after the change of
    case, no variant begins with a reserved word, and "struct" occurs in the texts of structs only. *)
Definition tidy (d : defn) : Prop :=
  match d with
  | FComment t => occurs (txt "struct") (fline d ++ [lf]) = false
  | FEnum _ _ _ _ vs _ => occurs (txt "struct") (fline d ++ [lf]) = false /\ NoDup (map fst vs) /\
      forall v k, v ∈ map fst vs -> k ∈ reserved_list -> ~ txt k `prefix_of` v
  | FStruct _ _ _ _ fs _ => NoDup (map (fun f => upper f.1.1) fs)
  end.
Definition no_collisions (ds : list defn) : Prop := NoDup (omap fname ds) /\ Forall tidy ds.
