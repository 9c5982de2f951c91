(** Specification vocabulary for generated text. *)
From Verif Require Export TsText ParserSpec CheckSpec.

(** A HashMap of types may list its entries in any order, each once. *)
Definition fair_types (titer : tymap -> list (string * (string * rtype))) : Prop :=
  forall m, titer m ≡ₚ map_to_list m.

(** ** C19: brackets and indentation, as a scan over the characters *)
Record opened := Opened { o_char : ascii; o_indent : nat; o_line : nat }.
Record scan_state := Scan { s_open : list opened; s_line : nat; s_indent : nat; s_start : bool }.

Definition closer (c : ascii) : option ascii :=
  if decide (c = ")")%char then Some "("%char else
  if decide (c = "]")%char then Some "["%char else
  if decide (c = "}")%char then Some "{"%char else None.
Definition is_opener (c : ascii) : Prop := c = "("%char \/ c = "["%char \/ c = "{"%char.
Global Instance is_opener_dec c : Decision (is_opener c).
Proof. unfold is_opener. apply _. Defined.

(** One character. A closing bracket must match the innermost open one; if that was opened on an
    earlier line, both lines must have the same indentation. *)
Definition scan1 (c : ascii) (s : scan_state) : option scan_state :=
  let '(Scan o l i st) := s in
  if decide (c = "010")%char then Some (Scan o (S l) 0 true)
  else if st && bool_decide (c = " ")%char then Some (Scan o l (S i) true)
  else if decide (is_opener c) then Some (Scan (Opened c i l :: o) l i false)
  else match closer c with
       | Some c' =>
           match o with
           | [] => None
           | b :: o' =>
               if decide (o_char b = c' /\ (o_line b = l \/ o_indent b = i)) then Some (Scan o' l i false) else None
           end
       | None => Some (Scan o l i false)
       end.
Fixpoint scan (t : string) (s : scan_state) : option scan_state :=
  match t with
  | EmptyString => Some s
  | String c t' => match scan1 c s with Some s' => scan t' s' | None => None end
  end.
(** every bracket is closed, in the right order, at the indentation of the line that opened it *)
Definition well_bracketed (t : string) : Prop :=
  exists l i st, scan t (Scan [] 0 0 true) = Some (Scan [] l i st).

(** text without brackets and line ends *)
Fixpoint plain_text (t : string) : Prop :=
  match t with
  | EmptyString => True
  | String c t' => c ≠ "010"%char /\ ~ is_opener c /\ closer c = None /\ plain_text t'
  end.

(** ** C23: the locals of read and write *)
(** A field of struct type that is neither an array nor optional is handled in the block of the struct around it. *)
Definition inlined (a : ast) (u : unresolved) (gs : list (string * unresolved)) : Prop :=
  u_array u = false /\ u_opt u = false /\ declares_struct a (u_name u) gs.
(** Locals are called after the path of the field, with underscores between the names. [read_local a u t]: code that reads
    a field x of type u declares, in the block in which the field is read, a local whose name ends in x followed by t. *)
Inductive read_local (a : ast) : unresolved -> string -> Prop :=
| rl_len u : u_opt u = false -> u_array u = true \/ u_name u = "string" -> read_local a u "_len"
| rl_temp u vs : u_opt u = false -> u_array u = false -> declares_enum a (u_name u) vs -> read_local a u "_temp"
| rl_self u gs : inlined a u gs -> read_local a u ""
| rl_field u gs x v t : inlined a u gs -> (x, v) ∈ gs -> read_local a v t -> read_local a u ("_" +:+ x +:+ t).
(** the same for code that writes the field *)
Inductive write_local (a : ast) : unresolved -> string -> Prop :=
| wl_self u : u_opt u = true -> write_local a u ""
| wl_field u gs x v t : inlined a u gs -> (x, v) ∈ gs -> write_local a v t -> write_local a u ("_" +:+ x +:+ t).
(** No two fields of a struct have a local of the same name. *)
Definition kept_apart (local : unresolved -> string -> Prop) (fs : list (string * unresolved)) : Prop :=
  forall i j x u t y v t', i ≠ j -> fs !! i = Some (x, u) -> fs !! j = Some (y, v) -> local u t -> local v t' ->
    x +:+ t ≠ y +:+ t'.

(** A sufficient condition: if x and x_s are fields of one struct, x is not an inlined struct, and if s is len or temp
    then neither is x_s. *)
Definition distinguishable (a : ast) (fs : list (string * unresolved)) : Prop :=
  NoDup fs.*1 /\ forall x u s v, (x, u) ∈ fs -> (x +:+ "_" +:+ s, v) ∈ fs ->
    (forall gs, ~ inlined a u gs) /\ (s = "len" \/ s = "temp" -> forall gs, ~ inlined a v gs).
Definition plain_fields (a : ast) : Prop := forall n fs, declares_struct a n fs -> distinguishable a fs.

(** ** C20, C50: the declarations *)
(** TypeScript's spelling of a schema type *)
Definition ts_name (tn : string) : string :=
  if decide (tn = "string") then "string"
  else if decide (tn ∈ builtin_names) then "number" else tn.

(** [d] is the declaration of [n] *)
Definition declares (a : ast) (n : string) (d : decl) : Prop :=
  (exists vs, declares_enum a n vs /\ d = DEnum n (imap (fun i v => (v, i)) vs)) \/
  (exists fs ds, declares_struct a n fs /\ ds ≡ₚ fs /\
     d = DInterface n (List.map (fun '(f, u) => (f, u_opt u, ts_name (u_name u) +:+ (if u_array u then "[]" else ""))) ds)).
(** type of the constructor parameter for a field of the export [e] *)
Definition param_type (e : string) (u : unresolved) : string :=
  (if decide (u_name u ∈ builtin_names) then ts_name (u_name u) else e +:+ "." +:+ u_name u)
  +:+ (if u_array u then "[]" else "") +:+ (if u_opt u then " | undefined" else "").

(** ** The emitted text: [P] holds of the declarations and the class that the text of any run reads as *)
Definition for_text (a : ast) (P : list decl -> cls -> Prop) : Prop :=
  forall iter r version now titer, fair_order iter -> legal_ast a -> type_check iter a = Ok r -> fair_types titer ->
    on_one_line version -> on_one_line now ->
    exists t ds k, generate version now titer r = Ok t /\ read_ts t = Some (ds, k) /\ P ds k.
