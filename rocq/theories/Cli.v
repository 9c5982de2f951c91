(** Model of the command line driver, src/main.rs, on a model of a Unix file system.

    Not modelled: links, permissions other than as faults, other processes, standard output, arguments beyond the
    two paths (clap) and the language name. *)
From Verif Require Export Compile.

(** ** Paths: std::path on Unix, on strings of bytes *)
Definition SLASH : ascii := "/"%char.
Definition DOT : ascii := "."%char.
(** the pieces between slashes *)
Fixpoint pieces (s : string) : list string :=
  match s with
  | EmptyString => [""]
  | String c s' =>
      if decide (c = SLASH) then "" :: pieces s'
      else match pieces s' with p :: ps => String c p :: ps | [] => [String c ""] end
  end.
Definition has_root (s : string) : bool := match s with String c _ => bool_decide (c = SLASH) | _ => false end.
Inductive component := Root | CurDir | ParentDir | Normal (s : string).
Definition comp_str (c : component) : string := match c with Root => "/" | CurDir => "." | ParentDir => ".." | Normal s => s end.
Definition to_component (p : string) : option component :=
  if decide (p = "" \/ p = ".") then None else if decide (p = "..") then Some ParentDir else Some (Normal p).
(** Path::components *)
Definition components (s : string) : list component :=
  (if has_root s then [Root] else match pieces s with "." :: _ => [CurDir] | _ => [] end) ++ omap to_component (pieces s).
Definition ends_in_slash (s : string) : bool := match rev (list_ascii_of_string s) with c :: _ => bool_decide (c = SLASH) | [] => false end.
(** PathBuf::push, Path::join *)
Definition push (buf p : string) : string :=
  if has_root p then p
  else if decide (buf = "" \/ ends_in_slash buf = true) then buf +:+ p
  else buf +:+ "/" +:+ p.
(** components.collect::<PathBuf>() *)
Definition collect (cs : list component) : string := foldl push "" (List.map comp_str cs).

Definition junk (p : string) : bool := bool_decide (p = "" \/ p = ".").
Fixpoint drop_while {A} (f : A -> bool) (l : list A) : list A :=
  match l with a :: l' => if f a then drop_while f l' else l | [] => [] end.
(** what stands before the file name, and the file name; nothing for paths that end in .. or have no name *)
Definition split_file_name (s : string) : option (string * string) :=
  match drop_while junk (rev (pieces s)) with
  | [] => None
  | n :: before => if decide (n = "..") then None
                   else Some (match before with [] => "" | _ => join "/" (rev before) +:+ "/" end, n)
  end.
(** Path::file_name *)
Definition file_name (s : string) : option string := snd <$> split_file_name s.
(** the parts before and after the last dot *)
Fixpoint split_last_dot (n : string) : option (string * string) :=
  match n with
  | EmptyString => None
  | String c n' =>
      match split_last_dot n' with
      | Some (b, a) => Some (String c b, a)
      | None => if decide (c = DOT) then Some ("", n') else None
      end
  end.
(** rsplit_file_at_dot of std::path: a name that only begins with a dot has no extension *)
Definition name_stem (n : string) : string :=
  match split_last_dot n with Some (b, _) => if decide (b = "") then n else b | None => n end.
Definition name_ext (n : string) : option string :=
  match split_last_dot n with Some (b, a) => if decide (b = "") then None else Some a | None => None end.
(** Path::file_stem, Path::extension *)
Definition file_stem (s : string) : option string := name_stem <$> file_name s.
Definition extension_of (s : string) : option string := file_name s ≫= name_ext.
(** Path::with_extension *)
Definition with_extension (s e : string) : string :=
  match split_file_name s with
  | Some (before, n) => before +:+ name_stem n +:+ "." +:+ e
  | None => s
  end.
(** Path::parent *)
Definition parent (s : string) : option string :=
  match drop_while junk (rev (pieces s)) with
  | [] => match pieces s with "." :: _ => Some "" | _ => None end
  | _ :: before =>
      match drop_while junk before with
      | [] => Some (if has_root s then "/" else match rev before with "." :: _ => "." | _ => "" end)
      | ps => Some (join "/" (rev ps))
      end
  end.
(** Path::strip_prefix, as components *)
Fixpoint strip_base (cs base : list component) : option (list component) :=
  match base, cs with
  | [], _ => Some cs
  | b :: base, c :: cs =>
      match b, c with
      | Root, Root | CurDir, CurDir | ParentDir, ParentDir => strip_base cs base
      | Normal x, Normal y => if decide (x = y) then strip_base cs base else None
      | _, _ => None
      end
  | _, _ => None
  end.
(** std::str::from_utf8: whether bytes are UTF-8 *)
Definition within (lo hi : nat) (c : ascii) : bool := (lo <=? nat_of_ascii c)%nat && (nat_of_ascii c <=? hi)%nat.
Fixpoint from_utf8 (s : text) : bool :=
  match s with
  | [] => true
  | a :: s =>
      if within 0 127 a then from_utf8 s
      else match s with
      | [] => false
      | b :: s =>
          if within 194 223 a then within 128 191 b && from_utf8 s
          else match s with
          | [] => false
          | c :: s =>
              if within 224 239 a then
                (if within 224 224 a then within 160 191 b else if within 237 237 a then within 128 159 b else within 128 191 b) &&
                within 128 191 c && from_utf8 s
              else match s with
              | [] => false
              | d :: s =>
                  (if within 240 240 a then within 144 191 b else if within 241 243 a then within 128 191 b
                   else within 244 244 a && within 128 143 b) &&
                  within 128 191 c && within 128 191 d && from_utf8 s
              end
          end
      end
  end.
(** Path::to_str: gives a string for these paths only *)
Definition to_str_ok (s : string) : bool := from_utf8 (T s).

(** ** The file system: what is at a location, given by the names from the root *)
Inductive entry := File (content : text) | Dir.
Notation location := (list string).
Notation fs := (gmap (list string) entry).
Definition entry_at (f : fs) (l : location) : option entry := match l with [] => Some Dir | _ => f !! l end.
Definition descend (l : location) (p : string) : location :=
  if junk p then l else if decide (p = "..") then removelast l else l ++ [p].
Fixpoint follow (f : fs) (l : location) (ps : list string) : option location :=
  match ps with
  | [] => Some l
  | p :: ps => match entry_at f l with Some Dir => follow f (descend l p) ps | _ => None end
  end.
(** names in a directory *)
Definition children (f : fs) (l : location) : list string :=
  omap (fun p => match rev p with n :: r => if decide (rev r = l) then Some n else None | [] => None end) (map_to_list f).*1.

(** What a run depends on besides the file system: the working directory, which operations fail, the order in which
    directories are listed, and what compile depends on. The number is that of the operation. *)
Record env := Env {
  cwd : location;
  fault : nat -> location -> bool;  (* metadata, read_dir, its entries, read_to_string *)
  blind : nat -> location -> bool;  (* Path::is_dir: answers no if the operation fails *)
  torn : nat -> option nat;         (* create_dir_all, write: fail, having done so much *)
  listing : nat -> list string -> list string;
  hash1 : nat -> gmap string atype -> list (string * atype);             (* oracles of compile *)
  hash2 : nat -> tymap -> list (string * (string * rtype));
  version : string;
  clock : nat -> string }.
Record world := World { w_fs : fs; w_op : nat }.
Definition io (A : Type) : Type := world -> world * res A.
Definition iret {A} (a : A) : io A := fun w => (w, Ok a).
Definition ifail {A} (m : string) : io A := fun w => (w, Err m).
Definition ibind {A B} (m : io A) (k : A -> io B) : io B := fun w =>
  match m w with
  | (w, Ok a) => k a w
  | (w, Err e) => (w, Err e)
  | (w, Panic e) => (w, Panic e)
  | (w, Diverge) => (w, Diverge)
  end.
Notation "'bring' x <- m ; k" := (ibind m (fun x => k)) (at level 200, x pattern, m at level 100, k at level 200).

(** 62-66 *)
Record schema := Schema { s_path : string; s_generated : string }.

Section run.
  Context (E : env).
  (** open(2): the location that a path leads to *)
  Definition resolve (f : fs) (s : string) : option location :=
    if decide (s = "") then None else follow f (if has_root s then [] else cwd E) (pieces s).
  (** a numbered operation *)
  Definition tick {A} (op : nat -> fs -> fs * res A) : io A := fun w =>
    let '(f, r) := op (w_op w) (w_fs w) in (World f (S (w_op w)), r).

  (** what an operation finds at a path *)
  Definition inspect (n : nat) (f : fs) (s : string) : res (location * entry) :=
    match resolve f s with
    | Some l => match entry_at f l with
                | Some e => if fault E n l then Err "I/O error" else Ok (l, e)
                | None => Err "No such file or directory"
                end
    | None => Err "No such file or directory"
    end.
  (** fs::metadata *)
  Definition metadata (s : string) : io entry := tick (fun n f =>
    (f, do x <- inspect n f s; Ok x.2)).
  (** Path::is_dir *)
  Definition is_dir (s : string) : io bool := tick (fun n f =>
    (f, Ok (match resolve f s with
            | Some l => match entry_at f l with Some Dir => negb (blind E n l) | _ => false end
            | None => false
            end))).
  (** fs::read_dir *)
  Definition read_dir (s : string) : io (list string) := tick (fun n f =>
    (f, do x <- inspect n f s; match x.2 with Dir => Ok (listing E n (children f x.1)) | File _ => Err "Not a directory" end)).
  (** the next item of that iterator: io::Result<DirEntry> *)
  Definition next_entry (s : string) : io unit := tick (fun n f => (f, do _ <- inspect n f s; Ok ())).
  (** fs::read_to_string *)
  Definition read_to_string (s : string) : io text := tick (fun n f =>
    (f, do x <- inspect n f s;
        match x.2 with
        | File c => if from_utf8 c then Ok c else Err "stream did not contain valid UTF-8"
        | Dir => Err "Is a directory"
        end)).
  (** mkdir for each prefix that is missing *)
  Fixpoint make_dirs (f : fs) (l : location) (ps : list string) : fs * bool :=
    match ps with
    | [] => (f, true)
    | p :: ps =>
        let l' := descend l p in
        match entry_at f l' with
        | Some Dir => make_dirs f l' ps
        | None => make_dirs (<[l' := Dir]> f) l' ps
        | Some (File _) => (f, false)
        end
    end.
  (** fs::create_dir_all; succeeds for the empty path *)
  Definition create_dir_all (s : string) : io unit := tick (fun n f =>
    let start := if has_root s then [] else cwd E in
    let ps := if decide (s = "") then [] else pieces s in
    match torn E n with
    | None => let '(f, ok) := make_dirs f start ps in (f, if ok then Ok () else Err "File exists")
    | Some k => ((make_dirs f start (take k ps)).1, Err "I/O error")
    end).
  (** fs::write: creates or truncates, then writes *)
  Definition write_file (s : string) (c : text) : io unit := tick (fun n f =>
    match resolve f s with
    | Some l =>
        match entry_at f l with
        | Some Dir => (f, Err "Is a directory")
        | _ => match torn E n with
               | None => (<[l := File c]> f, Ok ())
               | Some 0 => (f, Err "I/O error")
               | Some (S k) => (<[l := File (take k c)]> f, Err "I/O error")
               end
        end
    | None => (f, Err "No such file or directory")
    end).
  (** pkt::compile; an error is kept as the text that Display gives *)
  Definition compile_io (c : text) : io string := tick (fun n f =>
    (f, match compile (hash1 E n) (version E) (clock E n) (hash2 E n) c with
        | Ok (Code t) => Ok t
        | Ok e => Err (string_of_list_ascii (default [] (error_text e)))
        | Err m => Err m
        | Panic m => Panic m
        | Diverge => Diverge
        end)).

  (** ** main.rs *)
  (** 68-77 *)
  Definition run_one (path : string) : io schema :=
    bring c <- read_to_string path; bring t <- compile_io c; iret (Schema path t).
  (** the callback of run_all, 81-91 *)
  Definition visit_one (path : string) : io schema :=
    if to_str_ok path then run_one path else ifail "invalid path".
  (** 49-57 with the callback of run_all; the schemas in the order in which they are found *)
  Fixpoint visit_entries (visit : string -> io (list schema)) (dir : string) (names : list string) : io (list schema) :=
    match names with
    | [] => iret []
    | n :: names =>
        bring _ <- next_entry dir;
        let path := push dir n in
        bring d <- is_dir path;
        bring found <-
          (if d : bool then
             if to_str_ok path then visit path else fun w => (w, Panic "called `Option::unwrap()` on a `None` value")
           else if decide (extension_of path = Some "pkt") then bring s <- visit_one path; iret [s]
           else iret []);
        bring more <- visit_entries visit dir names;
        iret (found ++ more)
    end.
  (** 47-60 *)
  Fixpoint visit_files (fuel : nat) (dir : string) : io (list schema) :=
    match fuel with
    | O => fun w => (w, Diverge)
    | S fuel =>
        bring meta <- metadata dir;
        match meta with
        | File _ => iret []
        | Dir => bring names <- read_dir dir; visit_entries (visit_files fuel) dir names
        end
    end.
  (** enough for every tree *)
  Definition depth (f : fs) : nat := foldr (fun p d => S (length p.1) `max` d) 1 (map_to_list f).
  (** 79-93 *)
  Definition run_all (dir : string) : io (list schema) := fun w => visit_files (S (depth (w_fs w))) dir w.
  (** 95-102 *)
  Definition save_one (s : schema) (out : string) : io unit :=
    bring _ <- match parent out with Some p => create_dir_all p | None => iret () end;
    write_file out (T (s_generated s)).
  (** 40-45: the only language is TypeScript *)
  Definition extension : string := "ts".
  (** 104-120 *)
  Definition format_path (file base out : string) (preserve : bool) : res string :=
    if preserve then
      match strip_base (components file) (components base) with
      | Some rest => Ok (with_extension (collect (components out ++ rest)) extension)
      | None => Err "prefix not found"
      end
    else match file_stem file with
         | Some stem => Ok (with_extension (collect (components out ++ [Normal stem])) extension)
         | None => Panic "called `Option::unwrap()` on a `None` value"
         end.
  Definition ilift {A} (r : res A) : io A := fun w => (w, r).
  (** the loop in main, 128-131 *)
  Fixpoint save_all (base out : string) (found : list schema) : io unit :=
    match found with
    | [] => iret ()
    | s :: found =>
        bring p <- ilift (format_path (s_path s) base out true);
        bring _ <- save_one s p;
        save_all base out found
    end.
  (** 122-140 *)
  Definition main (path out : string) : io unit := fun w =>
    match metadata path w with
    | (w, Ok Dir) => (bring found <- run_all path; save_all path out found) w
    | (w, Ok (File _)) =>
        (bring s <- run_one path; bring p <- ilift (format_path (s_path s) path out false); save_one s p) w
    | (w, _) => (w, Ok ())
    end.
  Definition start (f : fs) : world := World f 0.
  Definition run (path out : string) (f : fs) : fs * res unit := let '(w, r) := main path out (start f) in (w_fs w, r).
End run.

(** Lang::from_str, 25-38 *)
Definition lower (c : ascii) : ascii :=
  let n := nat_of_ascii c in if (65 <=? n)%nat && (n <=? 90)%nat then ascii_of_nat (n + 32) else c.
Definition lang_ok (s : string) : bool := bool_decide (List.map lower (list_ascii_of_string s) = list_ascii_of_string "ts").
