(** What the command prints: main.rs:94-140 again, with standard output. Everything else is as in Cli.v. *)
From Verif Require Export Cli.

Section print.
  (** [mute n]: line [n] cannot be printed (a closed pipe, a full disk), so println! panics. Failing at a flush is not modelled.
      [lossy]: what Path::display shows for a path that is not UTF-8. *)
  Context (E : env) (mute : nat -> bool) (lossy : string -> string).
  Definition said (A : Type) : Type := world -> list string -> world * list string * res A.
  Definition silent {A} (m : io A) : said A := fun w ls => let '(w, r) := m w in (w, ls, r).
  Definition sbind {A B} (m : said A) (k : A -> said B) : said B := fun w ls =>
    match m w ls with
    | (w, ls, Ok a) => k a w ls
    | (w, ls, Err e) => (w, ls, Err e)
    | (w, ls, Panic e) => (w, ls, Panic e)
    | (w, ls, Diverge) => (w, ls, Diverge)
    end.
  Definition println (s : string) : said unit := fun w ls =>
    if mute (length ls) then (w, ls, Panic "failed printing to stdout") else (w, ls ++ [s], Ok ()).
  Definition display (s : string) : string := if to_str_ok s then s else lossy s.
  Definition announce (p : string) : string := "Writing to " +:+ display p.
  (** save_one, 95-102 *)
  Definition save_one_out (s : schema) (out : string) : said unit := sbind (println (announce out)) (fun _ => silent (save_one E s out)).
  (** format_path, 104-120; prints in its second branch *)
  Definition format_path_out (file base out : string) (preserve : bool) : said string :=
    if preserve then silent (ilift (format_path file base out true))
    else sbind (println (display out)) (fun _ => silent (ilift (format_path file base out false))).
  (** the loop in main, 128-131 *)
  Fixpoint save_all_out (base out : string) (found : list schema) : said unit :=
    match found with
    | [] => silent (iret ())
    | s :: found =>
        sbind (format_path_out (s_path s) base out true) (fun p =>
        sbind (save_one_out s p) (fun _ => save_all_out base out found))
    end.
  (** 122-140 *)
  Definition main_out (path out : string) : said unit := fun w ls =>
    match metadata E path w with
    | (w, Ok Dir) => sbind (silent (run_all E path)) (save_all_out path out) w ls
    | (w, Ok (File _)) => sbind (silent (run_one E path)) (fun s => sbind (format_path_out (s_path s) path out false) (save_one_out s)) w ls
    | (w, _) => (w, ls, Ok ())
    end.
  Definition run_out (path out : string) (f : fs) : fs * list string * res unit :=
    let '(w, ls, r) := main_out path out (start f) [] in (w_fs w, ls, r).
End print.
