(** The command, main.rs:47-140, while other processes change the file system.
    Before each operation the others may do anything to it ([meddle]). The command's own actions are recorded.
    Simplified: the names in a directory are those at the time it is opened, and a file is written in one go. *)
From Verif Require Export Cli.

(** what the command does: it read text [c] at a path, made a directory, or wrote the text [c] to a place *)
Inductive event := Read (s : string) (c : text) | Mkdir (l : location) | Wrote (l : location) (c : text).
Record place := Place { p_fs : fs; p_op : nat; p_events : list event }.
Definition shio (A : Type) : Type := place -> place * res A.
Definition hret {A} (a : A) : shio A := fun w => (w, Ok a).
Definition hlift {A} (r : res A) : shio A := fun w => (w, r).
Definition hbind {A B} (m : shio A) (k : A -> shio B) : shio B := fun w =>
  match m w with
  | (w, Ok a) => k a w
  | (w, Err e) => (w, Err e)
  | (w, Panic e) => (w, Panic e)
  | (w, Diverge) => (w, Diverge)
  end.
Notation "'fetch' x <- m ; k" := (hbind m (fun x => k)) (at level 200, x pattern, m at level 100, k at level 200).

(** mkdir(2): made; no such directory to make it in; any other error *)
Inductive mkdir_result := Made | Absent | Refused.
(** whether a path cannot be followed because something is missing (ENOENT, and not ENOTDIR) *)
Fixpoint missing (f : fs) (l : location) (ps : list string) : bool :=
  match ps with
  | [] => false
  | p :: ps => match entry_at f l with Some Dir => missing f (descend l p) ps | Some (File _) => false | None => true end
  end.

Section shared.
  Context (E : env) (meddle : nat -> fs -> fs).
  Definition htick {A} (op : nat -> fs -> fs * list event * res A) : shio A := fun w =>
    let '(f, ev, r) := op (p_op w) (meddle (p_op w) (p_fs w)) in (Place f (S (p_op w)) (p_events w ++ ev), r).
  (** fs::metadata *)
  Definition hmetadata (s : string) : shio entry := htick (fun n f => (f, [], do x <- inspect E n f s; Ok x.2)).
  (** Path::is_dir *)
  Definition his_dir (s : string) : shio bool := htick (fun n f =>
    (f, [], Ok (match resolve E f s with
                | Some l => match entry_at f l with Some Dir => negb (blind E n l) | _ => false end
                | None => false
                end))).
  (** fs::read_dir *)
  Definition hread_dir (s : string) : shio (list string) := htick (fun n f =>
    (f, [], do x <- inspect E n f s; match x.2 with Dir => Ok (listing E n (children f x.1)) | File _ => Err "Not a directory" end)).
  (** the next item of that iterator *)
  Definition hnext_entry : shio unit := htick (fun n f => (f, [], if fault E n [] then Err "I/O error" else Ok ())).
  (** fs::read_to_string *)
  Definition hread_to_string (s : string) : shio text := htick (fun n f =>
    match inspect E n f s with
    | Ok (_, File c) => if from_utf8 c then (f, [Read s c], Ok c) else (f, [], Err "stream did not contain valid UTF-8")
    | Ok (_, Dir) => (f, [], Err "Is a directory")
    | _ => (f, [], Err "I/O error")
    end).
  Definition hcompile (c : text) : shio string := htick (fun n f => (f, [], (compile_io E c (World f n)).2)).
  (** mkdir(2) *)
  Definition hmkdir (s : string) : shio mkdir_result := htick (fun n f =>
    match resolve E f s with
    | Some l => match entry_at f l, torn E n with
                | None, None => (<[l := Dir]> f, [Mkdir l], Ok Made)
                | _, _ => (f, [], Ok Refused)
                end
    | None => (f, [], Ok (if missing f (if has_root s then [] else cwd E) (pieces s) then Absent else Refused))
    end).
  (** DirBuilder::create_dir_all of std::fs *)
  Fixpoint hcreate_dir_all (fuel : nat) (s : string) : shio unit :=
    match fuel with
    | O => hlift Diverge
    | S fuel =>
        let or_there := fetch d <- his_dir s; if d : bool then hret () else hlift (Err "I/O error") in
        if decide (s = "") then hret ()
        else fetch r <- hmkdir s;
          match r with
          | Made => hret ()
          | Refused => or_there
          | Absent =>
              fetch _ <- match parent s with Some p => hcreate_dir_all fuel p | None => hlift (Err "failed to create whole tree") end;
              fetch r <- hmkdir s;
              match r with Made => hret () | _ => or_there end
          end
    end.
  (** fs::write *)
  Definition hwrite (s : string) (c : text) : shio unit := htick (fun n f =>
    match resolve E f s with
    | Some l =>
        match entry_at f l with
        | Some Dir => (f, [], Err "Is a directory")
        | _ => match torn E n with
               | None => (<[l := File c]> f, [Wrote l c], Ok ())
               | Some 0 => (f, [], Err "I/O error")
               | Some (S k) => (<[l := File (take k c)]> f, [Wrote l (take k c)], Err "I/O error")
               end
        end
    | None => (f, [], Err "No such file or directory")
    end).

  (** run_one, 68-77 *)
  Definition hrun_one (path : string) : shio schema := fetch c <- hread_to_string path; fetch t <- hcompile c; hret (Schema path t).
  (** visit_files with the callback of run_all, 47-60 and 79-93 *)
  Fixpoint hvisit_entries (visit : string -> shio (list schema)) (dir : string) (names : list string) : shio (list schema) :=
    match names with
    | [] => hret []
    | n :: names =>
        fetch _ <- hnext_entry;
        let path := push dir n in
        fetch d <- his_dir path;
        fetch found <-
          (if d : bool then
             if to_str_ok path then visit path else hlift (Panic "called `Option::unwrap()` on a `None` value")
           else if decide (extension_of path = Some "pkt") then
             if to_str_ok path then fetch s <- hrun_one path; hret [s] else hlift (Err "invalid path")
           else hret []);
        fetch more <- hvisit_entries visit dir names;
        hret (found ++ more)
    end.
  Fixpoint hvisit_files (fuel : nat) (dir : string) : shio (list schema) :=
    match fuel with
    | O => hlift Diverge
    | S fuel =>
        fetch meta <- hmetadata dir;
        match meta with
        | File _ => hret []
        | Dir => fetch names <- hread_dir dir; hvisit_entries (hvisit_files fuel) dir names
        end
    end.
  (** save_one, 95-102 *)
  Definition hsave_one (s : schema) (out : string) : shio unit :=
    fetch _ <- match parent out with Some p => hcreate_dir_all (S (String.length p)) p | None => hret () end;
    hwrite out (T (s_generated s)).
  (** the loop in main, 128-131 *)
  Fixpoint hsave_all (base out : string) (found : list schema) : shio unit :=
    match found with
    | [] => hret ()
    | s :: found =>
        fetch p <- hlift (format_path (s_path s) base out true);
        fetch _ <- hsave_one s p;
        hsave_all base out found
    end.
  (** main, 122-140; [fuel] bounds how deep the walk goes *)
  Definition hmain (fuel : nat) (path out : string) : shio unit := fun w =>
    match hmetadata path w with
    | (w, Ok Dir) => (fetch found <- hvisit_files fuel path; hsave_all path out found) w
    | (w, Ok (File _)) => (fetch s <- hrun_one path; fetch p <- hlift (format_path (s_path s) path out false); hsave_one s p) w
    | (w, _) => (w, Ok ())
    end.
  Definition hrun (fuel : nat) (path out : string) (f : fs) : place * res unit := hmain fuel path out (Place f 0 []).
End shared.
