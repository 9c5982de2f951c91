(** Specification of the parse error report. *)
From Verif Require Export ParserSpec.

Definition byte (c : ascii) : nat := nat_of_ascii c.
Definition in_range (lo hi : nat) (c : ascii) : Prop := lo <= byte c <= hi.
(** The UTF-8 encoding of one character (RFC 3629). *)
Definition utf8_char (g : text) : Prop :=
  match g with
  | [a] => in_range 0 127 a
  | [a; b] => in_range 194 223 a /\ in_range 128 191 b
  | [a; b; c] =>
      ((in_range 224 224 a /\ in_range 160 191 b) \/ (in_range 225 236 a /\ in_range 128 191 b) \/
       (in_range 237 237 a /\ in_range 128 159 b) \/ (in_range 238 239 a /\ in_range 128 191 b)) /\
      in_range 128 191 c
  | [a; b; c; d] =>
      ((in_range 240 240 a /\ in_range 144 191 b) \/ (in_range 241 243 a /\ in_range 128 191 b) \/
       (in_range 244 244 a /\ in_range 128 143 b)) /\
      in_range 128 191 c /\ in_range 128 191 d
  | _ => False
  end.
(** [s] is the text made of the characters [gs]. *)
Definition spells (gs : list text) (s : text) : Prop := Forall utf8_char gs /\ s = concat gs.
Definition utf8 (s : text) : Prop := exists gs, spells gs s.
Definition ascii_only (s : text) : Prop := Forall (in_range 0 127) s.

(** The place that divides the text into [before] and [after], as a user would describe it:
    [lines] complete lines, then the characters [cur] on the current line, then [rest] of that line. *)
Inductive place (before after : text) (lines : nat) (cur : list text) (rest : text) : Prop :=
| place_intro (full : list text) (line : text) (more : text) :
    length full = lines ->
    Forall (fun l => lf ∉ l) full ->
    before = concat (map (fun l => l ++ [lf]) full) ++ line ->
    spells cur line -> lf ∉ line ->
    after = rest ++ more -> lf ∉ rest -> (more = [] \/ exists m, more = lf :: m) ->
    place before after lines cur rest.

(** The report that names a place and a token. *)
Definition report (token : text) (lines : nat) (cur : list text) (rest : text) : text :=
  [lf] ++ txt "Unexpected token '" ++ token ++ txt "' at line " ++ txt (string_of_nat (S lines)) ++
  txt ", column " ++ txt (string_of_nat (S (length cur))) ++
  [lf] ++ txt "|" ++ [lf] ++ txt "|  " ++ concat cur ++ rest ++ [lf] ++
  txt "|~~" ++ concat (repeat (txt "~") (length cur)) ++ txt "^" ++ [lf].

(** The character that a text begins with; NUL at the end. *)
Definition first_char (s : text) (g : text) : Prop :=
  (s = [] /\ g = [ascii_of_nat 0]) \/ exists r, s = g ++ r /\ utf8_char g.
