(** Vocabulary for the properties of the command. *)
From Verif Require Export Cli ReportSpec GenSpec.

Definition proper_name (n : string) : Prop := n ≠ "" /\ n ≠ "." /\ n ≠ ".." /\ SLASH ∉ txt n.
(** Every entry has a proper path and stands in a directory. *)
Record tree (f : fs) : Prop := {
  tree_root : f !! [] = None;
  tree_names : forall l e, f !! l = Some e -> Forall proper_name l;
  tree_parent : forall l n e, f !! (l ++ [n]) = Some e -> entry_at f l = Some Dir }.
(** The oracles are what they stand for; the program runs in some directory. *)
Record sane (E : env) (f : fs) : Prop := {
  sane_tree : tree f;
  sane_cwd : entry_at f (cwd E) = Some Dir;
  sane_order : forall n l, listing E n l ≡ₚ l;
  sane_hash1 : forall n, fair_order (hash1 E n);
  sane_hash2 : forall n, fair_types (hash2 E n) }.
(** The argument [path] leads to the directory [base]. *)
Definition input_dir (E : env) (f : fs) (path : string) (base : location) : Prop :=
  resolve E f path = Some base /\ entry_at f base = Some Dir.
Definition input_file (E : env) (f : fs) (path : string) (l : location) (c : text) : Prop :=
  resolve E f path = Some l /\ entry_at f l = Some (File c).
(** There is a schema file [dirs/s.pkt] with content [c] in [base]. *)
Definition schema_at (f : fs) (base dirs : location) (s : string) (c : text) : Prop :=
  s ≠ "" /\ f !! (base ++ dirs ++ [s +:+ ".pkt"]) = Some (File c).
Definition compiles (c : text) : Prop := utf8 c /\ exists a, layout a c /\ valid_schema a.
(** Some call of compile in this environment gives [t]. *)
Definition code_for (E : env) (c : text) (t : string) : Prop :=
  exists n, compile (hash1 E n) (version E) (clock E n) (hash2 E n) c = Ok (Code t).
(** Where a path leads if all of it exists; links are not modelled. *)
Definition origin (E : env) (s : string) : location := if has_root s then [] else cwd E.
Definition leads_to (E : env) (s : string) : location := foldl descend (origin E s) (pieces s).
(** Where the code for [dirs/s.pkt] belongs. *)
Definition target (E : env) (out : string) (dirs : location) (s : string) : location := leads_to E out ++ dirs ++ [s +:+ ".ts"].
(** The places that a walk to that directory passes. *)
Definition on_way (E : env) (out : string) (dirs : location) (x : location) : Prop :=
  exists k, x = foldl descend (origin E out) (take k (pieces out ++ dirs)).
(** Only a directory was made at [x]. *)
Definition made_dir (f f' : fs) (x : location) : Prop := f !! x = None /\ f' !! x = Some Dir.
Definition is_file (f : fs) (x : location) : Prop := exists c, f !! x = Some (File c).
(** The names of the directories below [base], and of its schemas, are UTF-8. *)
Definition dirs_named (f : fs) (base : location) : Prop := forall dirs, f !! (base ++ dirs) = Some Dir -> Forall (fun n => utf8 (txt n)) dirs.
Definition files_named (f : fs) (base : location) : Prop := forall dirs s c, schema_at f base dirs s c -> utf8 (txt s).
(** No operation fails; no inspection by is_dir fails (which the program takes for "not a directory"). *)
Definition no_fault (E : env) : Prop := forall n l, fault E n l = false.
Definition no_blind (E : env) : Prop := forall n l, blind E n l = false.
(** [x] is the place of an output, or passed on the way to one. *)
Definition is_target (E : env) (f : fs) (out : string) (base : location) (x : location) : Prop := exists dirs s c, schema_at f base dirs s c /\ x = target E out dirs s.
Definition passed (E : env) (f : fs) (out : string) (base : location) (x : location) : Prop := exists dirs s c, schema_at f base dirs s c /\ on_way E out dirs x.
(** No file is where a directory is needed, no directory where an output goes, and no output where another output needs a directory. *)
Definition unobstructed (E : env) (f : fs) (out : string) (base : location) : Prop := forall dirs s c, schema_at f base dirs s c ->
  (forall x, on_way E out dirs x -> x ≠ [] -> ~ is_file f x) /\ f !! target E out dirs s ≠ Some Dir /\
  forall dirs' s' c', schema_at f base dirs' s' c' -> ~ on_way E out dirs (target E out dirs' s').
(** Nothing changes but files with extension ts and new directories. *)
Definition ts_name (x : location) : Prop := exists m s, s ≠ "" /\ x = m ++ [s +:+ ".ts"].
Definition only_ts (f f' : fs) : Prop := forall x, f' !! x = f !! x \/ made_dir f f' x \/ (ts_name x /\ f !! x ≠ Some Dir /\ is_file f' x).
