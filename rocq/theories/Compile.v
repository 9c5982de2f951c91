(** Model of compile, src/lib/lib.rs:43-56. *)
From Verif Require Export Report TsGen.

(** lib.rs:16-22; [Code] is the Ok case of the Rust result *)
Inductive compiled := Code (text : string) | ParseError (msg : text) | CheckError (msg : string).

(** lib.rs:43-56. The oracles stand for what changes from run to run: hash orders and the clock. *)
Definition compile (iter : gmap string atype -> list (string * atype)) (version now : string)
    (titer : tymap -> list (string * (string * rtype))) (schema : text) : res compiled :=
  match parse_schema schema with
  | POk ast =>
      match type_check iter ast with
      | Ok r => do code <- generate version now titer r; Ok (Code code)
      | Err e => Ok (CheckError e)
      | Panic m => Panic m
      | Diverge => Diverge
      end
  | PErr off => do m <- parse_message schema off; Ok (ParseError m)
  | PLoop => Diverge
  end.

(** Display of Error, lib.rs:17-21 *)
Definition error_text (c : compiled) : option text :=
  match c with
  | Code _ => None
  | ParseError m => Some (T "Parsing failed with:" ++ T NL ++ m)
  | CheckError m => Some (T "One or more type errors:" ++ T NL ++ T m)
  end.
