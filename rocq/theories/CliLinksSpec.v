(** Vocabulary for C110: what the walk finds if there are symbolic links. *)
From Verif Require Export CliLinks CliSpec.

Record ltree (f : lfs) : Prop := {
  ltree_root : f !! [] = None;
  ltree_names : forall l e, f !! l = Some e -> Forall proper_name l /\ Forall (fun n => utf8 (txt n)) l;
  ltree_parent : forall l n e, f !! (l ++ [n]) = Some e -> node_at f l = Some LDir }.
(** Names, dots and slashes in a path: [ps] are the parts of [s] between slashes. *)
Definition path_parts (s : string) (ps : list string) : Prop := ps ≠ [] /\ Forall (fun p => SLASH ∉ txt p) ps /\ s = join "/" ps.
Definition absolute (s : string) : Prop := exists t, s = String SLASH t.
(** path_resolution(7): a path with the parts [ps] leads from [l] to [l'], [k] links may be followed and then [k'] more. *)
Inductive arrives (f : lfs) : nat -> location -> list string -> nat -> location -> Prop :=
| ar_end k l : arrives f k l [] k l
| ar_stay k l p ps k' l' : p = "" \/ p = "." -> node_at f l = Some LDir -> arrives f k l ps k' l' -> arrives f k l (p :: ps) k' l'
| ar_top k ps k' l' : arrives f k [] ps k' l' -> arrives f k [] (".." :: ps) k' l'
| ar_up k l n ps k' l' : node_at f (l ++ [n]) = Some LDir -> arrives f k l ps k' l' -> arrives f k (l ++ [n]) (".." :: ps) k' l'
| ar_down k l p ps k' l' : p ∉ [""; "."; ".."] -> node_at f l = Some LDir -> (forall to, f !! (l ++ [p]) ≠ Some (LLink to)) ->
    arrives f k (l ++ [p]) ps k' l' -> arrives f k l (p :: ps) k' l'
| ar_link k l p to qs ps k' l' : p ∉ [""; "."; ".."] -> node_at f l = Some LDir -> f !! (l ++ [p]) = Some (LLink to) -> to ≠ "" -> ~ absolute to -> path_parts to qs ->
    arrives f k l (qs ++ ps) k' l' -> arrives f (S k) l (p :: ps) k' l'
| ar_root_link k l p to qs ps k' l' : p ∉ [""; "."; ".."] -> node_at f l = Some LDir -> f !! (l ++ [p]) = Some (LLink to) -> absolute to -> path_parts to qs ->
    arrives f k [] (qs ++ ps) k' l' -> arrives f (S k) l (p :: ps) k' l'.
(** A path leads to [l]; [k] of the [links] links that may be followed are left. *)
Definition path_to (links : nat) (here : location) (f : lfs) (s : string) (k : nat) (l : location) : Prop :=
  s ≠ "" /\ exists ps, path_parts s ps /\ (absolute s /\ arrives f links [] ps k l \/ ~ absolute s /\ arrives f links here ps k l).
(** The names [rel] lead from the directory [l] to something that the walk takes for a schema, if [k] links may be followed. *)
Inductive finds (f : lfs) : nat -> location -> list string -> Prop :=
| finds_file k l n s : is_Some (f !! (l ++ [n])) -> (forall k' l', arrives f k l [n] k' l' -> node_at f l' ≠ Some LDir) ->
    s ≠ "" -> n = s +:+ ".pkt" -> finds f k l [n]
| finds_dir k l n k' l' rel : is_Some (f !! (l ++ [n])) -> arrives f k l [n] k' l' -> node_at f l' = Some LDir -> finds f k' l' rel -> finds f k l (n :: rel).
Definition no_links (f : lfs) : Prop := forall l to, f !! l ≠ Some (LLink to).
