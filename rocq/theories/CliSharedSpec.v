(** Vocabulary for C112. *)
From Verif Require Export CliShared CliSpec.

(** Other processes leave a file system behind. *)
Definition keeps_tree (meddle : nat -> fs -> fs) : Prop := forall n f, tree f -> tree (meddle n f).
Definition keeps_depth (D : nat) (meddle : nat -> fs -> fs) : Prop := forall n f, depth f <= D -> depth (meddle n f) <= D.
Definition a_read (e : event) : Prop := exists s c, e = Read s c /\ utf8 c.
(** [p] is the output path of a file that was read. *)
Definition out_path (path out : string) (rs : list event) (s : string) (c : text) (p : string) : Prop :=
  Read s c ∈ rs /\ exists preserve, format_path s path out preserve = Ok p.
(** A directory above an output, or (a beginning of) the code of a text that was read, in its output with extension ts. *)
Definition own_output (E : env) (path out : string) (rs : list event) (e : event) : Prop :=
  (exists s c p q, out_path path out rs s c p /\ tc (fun a b => parent a = Some b) p q /\ e = Mkdir (leads_to E q)) \/
  exists s c p t k, out_path path out rs s c p /\ code_for E c t /\ ts_name (leads_to E p) /\ e = Wrote (leads_to E p) (take k (txt t)).
(** A directory, or all of the code of a text that was read, in its output. *)
Definition whole_output (E : env) (path out : string) (rs : list event) (e : event) : Prop :=
  (exists l, e = Mkdir l) \/ exists s c p t, out_path path out rs s c p /\ code_for E c t /\ e = Wrote (leads_to E p) (txt t).
(** Other processes leave what has extension ts alone. *)
Definition spares_ts (meddle : nat -> fs -> fs) : Prop := forall n f l, ts_name l -> meddle n f !! l = f !! l.
