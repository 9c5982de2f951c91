(** The command, main.rs:68-140, in a file system with symbolic links. No operation fails here but for what is found.
    Simplified: the schemas are compiled after the walk, not during it; neither changes a file, so this matters for the text of an error only. *)
From Verif Require Export CliLinks.

Section run.
  (** as in CliLinks.v, and pkt::compile for the file at a path *)
  Context (links : nat) (here : location) (order : string -> list string -> list string) (gen : string -> text -> res string).

  (** fs::read_to_string *)
  Definition lread (f : lfs) (s : string) : res text :=
    match lead links here f s with
    | Some (_, l) =>
        match node_at f l with
        | Some (LFile c) => if from_utf8 c then Ok c else Err "stream did not contain valid UTF-8"
        | Some _ => Err "Is a directory"
        | None => Err "No such file or directory"
        end
    | None => Err "No such file or directory"
    end.
  (** mkdir for each prefix that is missing; mkdir(2) does not follow a link, so that one that leads nowhere is an error *)
  Fixpoint lmake_dirs (f : lfs) (k : nat) (l : location) (ps : list string) : lfs * bool :=
    match ps with
    | [] => (f, true)
    | p :: ps =>
        if junk p then lmake_dirs f k l ps
        else if decide (p = "..") then lmake_dirs f k (removelast l) ps
        else match f !! (l ++ [p]) with
             | None => lmake_dirs (<[l ++ [p] := LDir]> f) k (l ++ [p]) ps
             | Some _ =>
                 match lwalk f k l [p] with
                 | Some (k', l') => match node_at f l' with Some LDir => lmake_dirs f k' l' ps | _ => (f, false) end
                 | None => (f, false)
                 end
             end
    end.
  (** fs::create_dir_all *)
  Definition lcreate_dir_all (f : lfs) (s : string) : lfs * bool :=
    lmake_dirs f links (if has_root s then [] else here) (if decide (s = "") then [] else pieces s).
  (** fs::write: open(2) follows a link at the end of the path, and makes the file that it names *)
  Definition lwrite (f : lfs) (s : string) (c : text) : lfs * bool :=
    match lead links here f s with
    | Some (_, l) => match node_at f l with Some (LFile _) | None => (<[l := LFile c]> f, true) | _ => (f, false) end
    | None => (f, false)
    end.
  (** save_one, 95-102 *)
  Definition lsave_one (f : lfs) (code out : string) : lfs * bool :=
    let '(f, ok) := match parent out with Some p => lcreate_dir_all f p | None => (f, true) end in
    if ok then lwrite f out (T code) else (f, false).
  (** run_one, 68-77 *)
  Definition lrun_one (f : lfs) (path : string) : res (string * string) := do c <- lread f path; do t <- gen path c; Ok (path, t).
  Fixpoint lrun_each (f : lfs) (paths : list string) : res (list (string * string)) :=
    match paths with [] => Ok [] | p :: paths => do s <- (if to_str_ok p then lrun_one f p else Err "invalid path"); do found <- lrun_each f paths; Ok (s :: found) end.
  (** the loop in main, 128-131 *)
  Fixpoint lsave_all (f : lfs) (base out : string) (found : list (string * string)) : lfs * res unit :=
    match found with
    | [] => (f, Ok ())
    | (path, code) :: found =>
        match format_path path base out true with
        | Ok p => match lsave_one f code p with (f, true) => lsave_all f base out found | (f, false) => (f, Err "I/O error") end
        | Err m => (f, Err m) | Panic m => (f, Panic m) | Diverge => (f, Diverge)
        end
    end.
  (** main, 122-140 *)
  Definition lrun (path out : string) (f : lfs) : lfs * res unit :=
    match lead links here f path ≫= (fun x => node_at f x.2) with
    | Some LDir =>
        match (do paths <- search links here order f (steps links f) path; lrun_each f paths) with
        | Ok found => lsave_all f path out found
        | Err m => (f, Err m) | Panic m => (f, Panic m) | Diverge => (f, Diverge)
        end
    | Some _ =>
        match (do s <- lrun_one f path; do p <- format_path path path out false; Ok (s.2, p)) with
        | Ok (code, p) => match lsave_one f code p with (f, true) => (f, Ok ()) | (f, false) => (f, Err "I/O error") end
        | Err m => (f, Err m) | Panic m => (f, Panic m) | Diverge => (f, Diverge)
        end
    | None => (f, Ok ())
    end.
End run.
