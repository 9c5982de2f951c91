(** The command, main.rs:47-140, as a sequence of calls to the operating system, which may answer anything.
    The calls and their answers are recorded. *)
From Verif Require Export CliShared.

(** a call with its answer *)
Inductive call :=
  | Meta (s : string) (answer : option bool)   (* fs::metadata: an error, or whether it is a directory *)
  | IsDir (s : string) (answer : bool)         (* Path::is_dir *)
  | Lists (s : string) (answer : option (list string))  (* fs::read_dir *)
  | Next (s : string) (answer : bool)          (* the next item of that iterator: whether it is Ok *)
  | Reads (s : string) (answer : option text)  (* fs::read_to_string *)
  | Prints (s : string) (answer : bool)        (* println! with this path: whether it can be printed *)
  | Makes (s : string) (answer : mkdir_result) (* mkdir(2) *)
  | Writes (s : string) (c : text) (answer : bool).  (* fs::write *)
(** An answer may depend on everything that happened. *)
Record os := Os {
  o_meta : list call -> string -> option bool;
  o_is_dir : list call -> string -> bool;
  o_list : list call -> string -> option (list string);
  o_next : list call -> string -> bool;
  o_read : list call -> string -> option text;
  o_print : list call -> string -> bool;
  o_mkdir : list call -> string -> mkdir_result;
  o_write : list call -> string -> text -> bool;
  o_time : list call -> nat }.
Definition oio (A : Type) : Type := list call -> list call * res A.
Definition olift {A} (r : res A) : oio A := fun tr => (tr, r).
Definition oret {A} (a : A) : oio A := olift (Ok a).
Definition obind {A B} (m : oio A) (k : A -> oio B) : oio B := fun tr =>
  match m tr with
  | (tr, Ok a) => k a tr
  | (tr, Err e) => (tr, Err e)
  | (tr, Panic e) => (tr, Panic e)
  | (tr, Diverge) => (tr, Diverge)
  end.
Notation "'query' x <- m ; k" := (obind m (fun x => k)) (at level 200, x pattern, m at level 100, k at level 200).
Definition or_fail {A} (o : option A) : res A := match o with Some a => Ok a | None => Err "I/O error" end.

Section calls.
  Context (O : os) (E : env).
  Definition ometadata (s : string) : oio bool := fun tr => let a := o_meta O tr s in (tr ++ [Meta s a], or_fail a).
  Definition ois_dir (s : string) : oio bool := fun tr => let a := o_is_dir O tr s in (tr ++ [IsDir s a], Ok a).
  Definition oread_dir (s : string) : oio (list string) := fun tr => let a := o_list O tr s in (tr ++ [Lists s a], or_fail a).
  Definition onext (s : string) : oio unit := fun tr => let a := o_next O tr s in (tr ++ [Next s a], if a then Ok () else Err "I/O error").
  (** fs::read_to_string fails if the contents are not UTF-8 *)
  Definition oread (s : string) : oio text := fun tr =>
    let a := match o_read O tr s with Some c => if from_utf8 c then Some c else None | None => None end in (tr ++ [Reads s a], or_fail a).
  (** println! panics if it cannot print *)
  Definition oprint (s : string) : oio unit := fun tr => let a := o_print O tr s in (tr ++ [Prints s a], if a then Ok () else Panic "failed printing to stdout").
  Definition omkdir (s : string) : oio mkdir_result := fun tr => let a := o_mkdir O tr s in (tr ++ [Makes s a], Ok a).
  Definition owrite (s : string) (c : text) : oio unit := fun tr => let a := o_write O tr s c in (tr ++ [Writes s c a], if a then Ok () else Err "I/O error").
  (** pkt::compile makes no calls; hash orders and the clock are those of some time *)
  Definition ocompile (c : text) : oio string := fun tr => (tr, (compile_io E c (World ∅ (o_time O tr))).2).
  (** DirBuilder::create_dir_all of std::fs *)
  Fixpoint ocreate_dir_all (fuel : nat) (s : string) : oio unit :=
    match fuel with
    | 0 => olift Diverge
    | S fuel =>
        let or_there := query d <- ois_dir s; if d : bool then oret () else olift (Err "I/O error") in
        if decide (s = "") then oret ()
        else query r <- omkdir s;
          match r with
          | Made => oret ()
          | Refused => or_there
          | Absent =>
              query _ <- match parent s with Some p => ocreate_dir_all fuel p | None => olift (Err "failed to create whole tree") end;
              query r <- omkdir s;
              match r with Made => oret () | _ => or_there end
          end
    end.
  (** run_one, 68-77 *)
  Definition orun_one (path : string) : oio schema := query c <- oread path; query t <- ocompile c; oret (Schema path t).
  (** visit_files with the callback of run_all, 47-60 and 79-93 *)
  Fixpoint ovisit_entries (visit : string -> oio (list schema)) (dir : string) (names : list string) : oio (list schema) :=
    match names with
    | [] => oret []
    | n :: names =>
        query _ <- onext dir;
        let path := push dir n in
        query d <- ois_dir path;
        query found <-
          (if d : bool then
             if to_str_ok path then visit path else olift (Panic "called `Option::unwrap()` on a `None` value")
           else if decide (extension_of path = Some "pkt") then
             if to_str_ok path then query s <- orun_one path; oret [s] else olift (Err "invalid path")
           else oret []);
        query more <- ovisit_entries visit dir names;
        oret (found ++ more)
    end.
  Fixpoint ovisit_files (fuel : nat) (dir : string) : oio (list schema) :=
    match fuel with
    | 0 => olift Diverge
    | S fuel =>
        query meta <- ometadata dir;
        if meta : bool then query names <- oread_dir dir; ovisit_entries (ovisit_files fuel) dir names else oret []
    end.
  (** save_one, 95-102 *)
  Definition osave_one (s : schema) (out : string) : oio unit :=
    query _ <- oprint out;
    query _ <- match parent out with Some p => ocreate_dir_all (S (String.length p)) p | None => oret () end;
    owrite out (T (s_generated s)).
  (** the loop in main, 128-131 *)
  Fixpoint osave_all (base out : string) (found : list schema) : oio unit :=
    match found with
    | [] => oret ()
    | s :: found =>
        query p <- olift (format_path (s_path s) base out true);
        query _ <- osave_one s p;
        osave_all base out found
    end.
  (** main, 122-140; format_path prints the output directory of a single file, 112 *)
  Definition omain (fuel : nat) (path out : string) : oio unit := fun tr =>
    match ometadata path tr with
    | (tr, Ok true) => (query found <- ovisit_files fuel path; osave_all path out found) tr
    | (tr, Ok false) => (query s <- orun_one path; query _ <- oprint out; query p <- olift (format_path (s_path s) path out false); osave_one s p) tr
    | (tr, _) => (tr, Ok ())
    end.
  Definition orun (fuel : nat) (path out : string) : list call * res unit := omain fuel path out [].
End calls.
