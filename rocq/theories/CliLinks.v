(** The walk of main.rs:47-60 in a file system with symbolic links. No operation fails here; what is found is recorded, not compiled. *)
From Verif Require Export Cli.

Inductive lnode := LFile (c : text) | LDir | LLink (to : string).
Notation lfs := (gmap location lnode).
Definition node_at (f : lfs) (l : location) : option lnode := match l with [] => Some LDir | _ => f !! l end.
(** names in a directory *)
Definition skeleton (f : lfs) : fs := (fun _ => Dir) <$> f.
Definition names_in (f : lfs) (l : location) : list string := children (skeleton f) l.

(** Where a path leads, and how many links may still be followed (path_resolution(7): at most 40 per path on Linux). *)
Fixpoint lgo (f : lfs) (next : option (location -> list string -> option (nat * location))) (k : nat) (l : location) (ps : list string) : option (nat * location) :=
  match ps with
  | [] => Some (k, l)
  | p :: ps' =>
      match node_at f l with
      | Some LDir =>
          if junk p then lgo f next k l ps'
          else if decide (p = "..") then lgo f next k (removelast l) ps'
          else match f !! (l ++ [p]) with
               | Some (LLink to) =>
                   match next with
                   | Some next => if decide (to = "") then None else next (if has_root to then [] else l) (pieces to ++ ps')
                   | None => None
                   end
               | _ => lgo f next k (l ++ [p]) ps'
               end
      | _ => None
      end
  end.
Fixpoint lwalk (f : lfs) (k : nat) : location -> list string -> option (nat * location) :=
  match k with O => lgo f None 0 | S k' => lgo f (Some (lwalk f k')) (S k') end.

Section walk.
  (** the number of links that may be followed, the working directory, the order in which directories are listed *)
  Context (links : nat) (here : location) (order : string -> list string -> list string) (f : lfs).
  Definition lead (s : string) : option (nat * location) :=
    if decide (s = "") then None else lwalk f links (if has_root s then [] else here) (pieces s).
  (** Path::is_dir *)
  Definition dir_there (s : string) : bool :=
    match lead s with Some (_, l) => match node_at f l with Some LDir => true | _ => false end | None => false end.
  (** the loop in visit_files, 49-57, with a callback that records the path *)
  Fixpoint search_entries (search : string -> res (list string)) (dir : string) (names : list string) : res (list string) :=
    match names with
    | [] => Ok []
    | n :: names =>
        let path := push dir n in
        do found <-
          (if dir_there path then
             if to_str_ok path then search path else Panic "called `Option::unwrap()` on a `None` value"
           else if decide (extension_of path = Some "pkt") then Ok [path] else Ok []);
        do more <- search_entries search dir names;
        Ok (found ++ more)
    end.
  (** visit_files, 47-60 *)
  Fixpoint search (fuel : nat) (dir : string) : res (list string) :=
    match fuel with
    | O => Diverge
    | S fuel =>
        match lead dir with
        | Some (_, l) =>
            match node_at f l with
            | Some LDir => search_entries (search fuel) dir (order dir (names_in f l))
            | Some _ => Ok []
            | None => Err "No such file or directory"
            end
        | None => Err "No such file or directory"
        end
    end.
  (** enough: between two links the walk goes down *)
  Definition steps : nat := S (S links * S (depth (skeleton f))).
End walk.
