(** Vocabulary for C111: what the command changes if there are symbolic links. *)
From Verif Require Export CliLinkRun CliLinksSpec.

(** every entry stands in a directory *)
Definition in_dirs (f : lfs) : Prop := f !! [] = None /\ forall l n e, f !! (l ++ [n]) = Some e -> node_at f l = Some LDir.
(** Between [f] and [f'] directories were made, and files written: file [x] with text [t] only if [Q x t]. Links and directories stay. *)
Definition touched (Q : location -> text -> Prop) (f f' : lfs) : Prop := forall x,
  f' !! x = f !! x \/ (f !! x = None /\ f' !! x = Some LDir) \/
  exists t, Q x t /\ f' !! x = Some (LFile t) /\ (f !! x = None \/ exists c, f !! x = Some (LFile c)).
(** no link has a name with extension ts *)
Definition no_ts_links (f : lfs) : Prop := forall l s to, s ≠ "" -> f !! (l ++ [s +:+ ".ts"]) ≠ Some (LLink to).
(** [t] is the code of a file of [f], and its output path leads to [x] in [f']. *)
Definition output_of (links : nat) (here : location) (gen : string -> text -> res string) (f f' : lfs) (path out : string) (x : location) (t : text) : Prop :=
  exists p k l c code preserve q k', path_to links here f p k l /\ f !! l = Some (LFile c) /\ gen p c = Ok code /\ t = txt code /\
    format_path p path out preserve = Ok q /\ path_to links here f' q k' x.
(** the compiler, with the oracles of an environment *)
Definition compiler (E : env) : string -> text -> res string := fun _ c => (compile_io E c (World ∅ 0)).2.
(** A file system without links, as one that may have some. *)
Definition raise_node (e : entry) : lnode := match e with File c => LFile c | Dir => LDir end.
Definition with_links (f : fs) : lfs := raise_node <$> f.
(** No operation fails, and nothing depends on when it is done. *)
Record calm_env (E : env) : Prop := {
  calm_fault : forall n l, fault E n l = false;
  calm_blind : forall n l, blind E n l = false;
  calm_torn : forall n, torn E n = None;
  calm_listing : forall n, listing E n = listing E 0;
  calm_hash1 : forall n, hash1 E n = hash1 E 0;
  calm_hash2 : forall n, hash2 E n = hash2 E 0;
  calm_clock : forall n, clock E n = clock E 0 }.
