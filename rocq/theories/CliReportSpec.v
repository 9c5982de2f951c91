(** What the command reports about a schema that cannot be compiled (C109). *)
From Verif Require Export CliSpec MessageSpec.

(** The text of the error, lib.rs:15-22 and 24-41, for a file with content [c]. *)
Inductive message (c : text) : text -> Prop :=
| message_bytes : ~ utf8 c -> message c (txt "stream did not contain valid UTF-8")
| message_parse before after lines cur rest token : utf8 c -> (forall a, ~ layout a c) -> c = before ++ after -> parse_schema c = PErr (length before) ->
    place before after lines cur rest -> (ascii_only before -> first_char after token) ->
    message c (txt "Parsing failed with:" ++ [lf] ++ report token lines cur rest)
| message_check a e : utf8 c -> layout a c -> ~ valid_schema a -> (no_builtin_decl a -> possible a e) -> message c (txt "One or more type errors:" ++ [lf] ++ txt e).
(** The same for a file [s.pkt] below a directory. *)
Definition complaint (s : string) (c t : text) : Prop := ~ utf8 (txt s) /\ t = txt "invalid path" \/ utf8 (txt s) /\ message c t.
