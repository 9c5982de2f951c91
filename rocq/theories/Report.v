(** Model of the error report of src/lib/lib.rs and of rust-peg's position_repr. *)
From Verif Require Export Parser.

(** Bytes 0x80..0xBF only occur inside a multi-byte character. *)
Definition is_cont (c : ascii) : bool := byte_in 128 191 c.
(** str::chars: the characters of a valid UTF-8 text, each as its bytes. *)
Fixpoint chars (s : text) : list text :=
  match s with
  | [] => []
  | c :: s' =>
      match s' with
      | d :: _ =>
          if is_cont d then match chars s' with g :: gs => (c :: g) :: gs | [] => [[c]] end
          else [c] :: chars s'
      | [] => [[c]]
      end
  end.
(** str::is_char_boundary *)
Definition is_char_boundary (s : text) (pos : nat) : bool :=
  match drop pos s with
  | c :: _ => negb (is_cont c)
  | [] => (pos =? length s)%nat
  end.
Fixpoint take_while {A} (f : A -> bool) (l : list A) : list A :=
  match l with a :: l' => if f a then a :: take_while f l' else [] | [] => [] end.

Record line_col := LineCol { lc_line : nat; lc_column : nat; lc_offset : nat }.
(** rust-peg 0.6.3, [impl Parse for str]: position_repr; slicing inside a character panics *)
Definition position_repr (s : text) (pos : nat) : res line_col :=
  if is_char_boundary s pos then
    let before := take pos s in
    Ok (LineCol (length (List.filter (fun c => Ascii.eqb c LF) before) + 1)
                (length (take_while (fun g => negb (bool_decide (g = [LF]))) (rev (chars before))) + 1)
                pos)
  else Panic "byte index is not a char boundary".

(** str::split('\n') *)
Fixpoint split_lf (s : text) : list text :=
  match s with
  | [] => [[]]
  | c :: s' =>
      if Ascii.eqb c LF then [] :: split_lf s'
      else match split_lf s' with l :: ls => (c :: l) :: ls | [] => [[c]] end
  end.

(** lib.rs:24-41 *)
Definition pretty_error (file : text) (loc : line_col) : res text :=
  match lc_line loc with
  | O => Panic "attempt to subtract with overflow"
  | S line0 =>
      let token := default [ch 0] (chars file !! lc_offset loc) in
      let line := default [ch 0] (split_lf file !! line0) in
      let mark_column := lc_column loc - 1 in
      Ok (T NL ++ T "Unexpected token '" ++ token ++ T "' at line " ++ T (string_of_nat (lc_line loc)) ++
          T ", column " ++ T (string_of_nat (lc_column loc)) ++
          T NL ++ T "|" ++ T NL ++ T "|  " ++ line ++ T NL ++
          T "|~~" ++ concat (repeat (T "~") mark_column) ++ T "^" ++ T NL)
  end.

(** The text of Error::Parse for a parse error at [pos], lib.rs:49 *)
Definition parse_message (file : text) (pos : nat) : res text :=
  do loc <- position_repr file pos; pretty_error file loc.
