(** Property theorems C110 and C111: the command in a file system with symbolic links. *)
From Verif Require Import CliLinkSame CliLinksWitness CliLinkRunWitness.

(** C110, what is proved. Whatever links there are, the walk ends, and what it finds is exactly what [finds] says: along each path that follows at most [links] links. *)
Theorem C110_found : forall links here order f dir k l, ltree f -> (forall d names, order d names ≡ₚ names) -> utf8 (txt dir) ->
  path_to links here f dir k l -> node_at f l = Some LDir ->
  exists rels, search links here order f (steps links f) dir = Ok (foldl push dir <$> rels) /\ NoDup rels /\ forall rel, rel ∈ rels <-> finds f k l rel.
Proof. exact search_finds. Qed.
Print Assumptions C110_found.
Example C110_found_nonvacuous : ltree twin /\ utf8 (txt "in/y") /\ path_to 2 [] twin "in/y" 1 ["in"] /\ node_at twin ["in"] = Some LDir /\
  search 2 [] (fun _ names => names) twin (steps 2 twin) "in/y" = Ok ["in/y/a.pkt"; "in/y/x/a.pkt"; "in/y/y/a.pkt"].
Proof. split; [apply twin_tree|]. split; [by apply from_utf8_spec|]. split; [apply lead_path; by vm_compute|]. split; by vm_compute. Qed.
(** If there are no links, each schema file below the directory is found once. *)
Theorem C110_without_links_partial : forall links here order f dir k l, ltree f -> no_links f -> (forall d names, order d names ≡ₚ names) -> utf8 (txt dir) ->
  path_to links here f dir k l -> node_at f l = Some LDir ->
  exists rels, search links here order f (steps links f) dir = Ok (foldl push dir <$> rels) /\ NoDup rels /\
    forall rel, rel ∈ rels <-> exists dirs s c, s ≠ "" /\ rel = dirs ++ [s +:+ ".pkt"] /\ f !! (l ++ rel) = Some (LFile c).
Proof. exact search_plain. Qed.
Print Assumptions C110_without_links_partial.
Example C110_without_links_nonvacuous : ltree unlinked /\ no_links unlinked /\ path_to 40 ["in"] unlinked "../in" 40 ["in"] /\ node_at unlinked ["in"] = Some LDir /\
  search 40 ["in"] (fun _ names => rev names) unlinked (steps 40 unlinked) "../in" = Ok ["../in/a.pkt"].
Proof. split; [apply unlinked_tree|]. split; [apply unlinked_links|]. split; [apply lead_path; by vm_compute|]. split; by vm_compute. Qed.
(** C110, full statement: each schema file below the directory is found once. False: a directory with one schema and two links to the directory; the schema is compiled
    [2 ^ (links + 1) - 1] times, in whatever order directories are listed. On Linux [links] is 40. *)
Theorem C110_once_refuted : exists f dir only, ltree f /\ (forall l c, f !! l = Some (LFile c) -> l = only) /\ size f = 4 /\
  forall links order, (forall d names, order d names ≡ₚ names) -> path_to links [] f dir links [dir] /\ node_at f [dir] = Some LDir /\
    exists found, search links [] order f (steps links f) dir = Ok found /\ S (length found) = 2 ^ S links.
Proof. exact once_false. Qed.
Print Assumptions C110_once_refuted.

(** C111, what is proved. Whatever links there are, a run removes nothing, leaves links and directories as they are, and writes nothing but the code of a file
    to the place where its output path leads; *)
Theorem C111_links_stay : forall links here order gen f path out f' r, in_dirs f -> node_at f here = Some LDir ->
  lrun links here order gen path out f = (f', r) -> touched (output_of links here gen f f' path out) f f'.
Proof. exact run_stays. Qed.
Print Assumptions C111_links_stay.
Example C111_links_stay_nonvacuous : in_dirs snare /\ node_at snare [] = Some LDir /\ let r := lrun 40 [] keep (compiler calm) "in" "out" snare in
  ended r.2 = true /\ has_code (r.1 !! ["in"; "a.pkt"]) first_text = true.
Proof. split; [apply in_dirs_check; by vm_compute|]. split; [done|]. split; by vm_compute. Qed.
(** and only into files with extension ts if no link has such a name. *)
Theorem C111_only_ts_partial : forall links here order gen f path out f' r, in_dirs f -> node_at f here = Some LDir -> no_ts_links f ->
  lrun links here order gen path out f = (f', r) -> touched (fun x t => ts_name x /\ output_of links here gen f f' path out x t) f f'.
Proof. exact run_ts. Qed.
Print Assumptions C111_only_ts_partial.
Example C111_only_ts_nonvacuous : in_dirs apart /\ node_at apart [] = Some LDir /\ no_ts_links apart /\ let r := lrun 40 [] keep (compiler calm) "in" "out/new" apart in
  ended r.2 = true /\ has_code (r.1 !! ["disk"; "new"; "a.ts"]) first_text = true.
Proof. split; [apply in_dirs_check; by vm_compute|]. split; [done|]. split; [apply apart_links|]. split; by vm_compute. Qed.
(** If a schema that is found cannot be read or compiled, nothing changes, and the command fails. *)
Theorem C111_nothing_partial : forall links here order gen f path out k l rel, ltree f -> (forall d names, order d names ≡ₚ names) -> utf8 (txt path) ->
  path_to links here f path k l -> node_at f l = Some LDir -> finds f k l rel ->
  (forall k' x c t, path_to links here f (foldl push path rel) k' x -> f !! x = Some (LFile c) -> utf8 c -> gen (foldl push path rel) c ≠ Ok t) ->
  exists r, lrun links here order gen path out f = (f, r) /\ r ≠ Ok ().
Proof. exact run_nothing. Qed.
Print Assumptions C111_nothing_partial.
Example C111_nothing_nonvacuous : ltree astray /\ path_to 40 [] astray "in" 40 ["in"] /\ node_at astray ["in"] = Some LDir /\ finds astray 40 ["in"] ["b.pkt"] /\
  (forall k' x c t, path_to 40 [] astray (foldl push "in" ["b.pkt"]) k' x -> astray !! x = Some (LFile c) -> utf8 c -> compiler calm (foldl push "in" ["b.pkt"]) c ≠ Ok t) /\
  ended (lrun 40 [] keep (compiler calm) "in" "out" astray).2 = false.
Proof.
  split; [apply astray_tree|]. split; [apply lead_path; by vm_compute|]. split; [done|]. split; [apply astray_finds|]. split; [apply astray_bad|]. by vm_compute.
Qed.
(** If it succeeds, the output path of each schema found leads to a file, with the code of a schema whose output path leads there too. *)
Theorem C111_outputs_partial : forall links here order gen f path out f' k l, ltree f -> node_at f here = Some LDir -> (forall d names, order d names ≡ₚ names) -> utf8 (txt path) ->
  path_to links here f path k l -> node_at f l = Some LDir -> lrun links here order gen path out f = (f', Ok ()) -> forall rel, finds f k l rel ->
  exists q k' x t, format_path (foldl push path rel) path out true = Ok q /\ path_to links here f' q k' x /\ f' !! x = Some (LFile t) /\ output_of links here gen f f' path out x t.
Proof. exact run_outputs. Qed.
Print Assumptions C111_outputs_partial.
Example C111_outputs_nonvacuous : ltree apart /\ node_at apart [] = Some LDir /\ path_to 40 [] apart "in" 40 ["in"] /\ node_at apart ["in"] = Some LDir /\ finds apart 40 ["in"] ["a.pkt"] /\
  let r := lrun 40 [] keep (compiler calm) "in" "out/new" apart in ended r.2 = true /\ path_to 40 [] r.1 "out/new/a.ts" 39 ["disk"; "new"; "a.ts"].
Proof.
  split; [apply apart_tree|]. split; [done|]. split; [apply lead_path; by vm_compute|]. split; [done|]. split; [apply apart_finds|]. split; [by vm_compute|]. apply lead_path. by vm_compute.
Qed.
(** Without links and failing operations, the run is one of [Cli.run]: C40 to C58 apply. *)
Theorem C111_without_links_partial : forall links E f path out, calm_env E -> sane E f -> exists order, (forall d names, order d names ≡ₚ names) /\
  forall f' r, run E path out f = (f', r) -> exists r', lrun links (cwd E) order (compiler E) path out (with_links f) = (with_links f', r') /\ (r' = Ok () <-> r = Ok ()).
Proof. exact run_raise. Qed.
Print Assumptions C111_without_links_partial.
Example C111_without_links_nonvacuous : calm_env calm /\ sane calm some_tree /\ ended (run calm "in" "out" some_tree).2 = true /\
  ended (lrun 40 [] keep (compiler calm) "in" "out" (with_links some_tree)).2 = true.
Proof. split; [done|]. split; [apply calm_sane; by vm_compute|]. split; by vm_compute. Qed.
(** C111, full statement: a run leaves schemas as they are, and if it succeeds there is code for each. False: an output that is a link to a schema replaces the schema, *)
Theorem C111_schemas_refuted : ~ forall links here order E path out f f' r x s c, in_dirs f -> node_at f here = Some LDir -> (forall d names, order d names ≡ₚ names) ->
  lrun links here order (compiler E) path out f = (f', r) -> f !! (x ++ [s +:+ ".pkt"]) = Some (LFile c) -> f' !! (x ++ [s +:+ ".pkt"]) = Some (LFile c).
Proof. exact schemas_lost. Qed.
Print Assumptions C111_schemas_refuted.
(** and if two output directories are one, schemas of the same name have one output. *)
Theorem C111_outputs_refuted : ~ forall links here order E path out f f' x s c t, in_dirs f -> node_at f here = Some LDir -> (forall d names, order d names ≡ₚ names) ->
  path_to links here f path links (here ++ [path]) -> lrun links here order (compiler E) path out f = (f', Ok ()) -> f !! (here ++ path :: x ++ [s +:+ ".pkt"]) = Some (LFile c) ->
  compiler E path c = Ok t -> exists y, f' !! y = Some (LFile (txt t)).
Proof. exact outputs_lost. Qed.
Print Assumptions C111_outputs_refuted.
