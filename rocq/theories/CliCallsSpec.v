(** Vocabulary for C113 and C114. *)
From Verif Require Export CliCalls CliSpec.

(** the texts that were read, with their paths; the texts that were written, or tried to *)
Definition texts_read : list call -> list (string * text) := omap (fun c => match c with Reads s (Some t) => Some (s, t) | _ => None end).
Definition texts_written : list call -> list (string * text) := omap (fun c => match c with Writes s t _ => Some (s, t) | _ => None end).
(** the answer is no error that ends the command (mkdir may fail because the directory is there) *)
Definition no_error (c : call) : Prop :=
  match c with
  | Meta _ None | Lists _ None | Reads _ None => False
  | Next _ a | Prints _ a | Writes _ _ a => a = true
  | _ => True
  end.
Definition under (base s : string) : Prop := exists names, s = foldl push base names.
(** calls while schemas are looked for: only below [base], and in a directory only files with extension pkt are read *)
Definition looks (base : string) (dir : bool) (c : call) : Prop :=
  match c with
  | Meta s _ | IsDir s _ | Lists s _ | Next s _ => under base s
  | Reads s _ => if dir then under base s /\ extension_of s = Some "pkt" else s = base
  | _ => False
  end.
(** calls while outputs are written: with the output of a text that was read, or a directory above it *)
Definition saves (base out : string) (dir : bool) (texts : list (string * text)) (c : call) : Prop :=
  (dir = false /\ exists a, c = Prints out a) \/
  exists s t p, (s, t) ∈ texts /\ format_path s base out dir = Ok p /\
    match c with
    | Prints q _ | Writes q _ _ => q = p
    | Makes q _ | IsDir q _ => tc (fun a b => parent a = Some b) p q
    | _ => False
    end.
(** [wr] is what has to be written for [rd] *)
Definition output_for (E : env) (base out : string) (dir : bool) (rd wr : string * text) : Prop :=
  exists t, code_for E rd.2 t /\ format_path rd.1 base out dir = Ok wr.1 /\ wr.2 = txt t.
(** what was found out with [c] was pursued: a directory was listed, each name in it was looked at, a file with extension pkt was read *)
Definition pursued (calls : list call) (c : call) : Prop :=
  match c with
  | Meta s (Some true) => exists names, Lists s (Some names) ∈ calls
  | Lists s (Some names) => forall n, n ∈ names -> exists b, IsDir (push s n) b ∈ calls
  | IsDir s true => exists b, Meta s (Some b) ∈ calls
  | IsDir s false => extension_of s = Some "pkt" -> exists t, Reads s (Some t) ∈ calls
  | _ => True
  end.
Definition found_all (base : string) (dir : bool) (calls : list call) : Prop :=
  Forall (pursued calls) calls /\ if dir then exists b, Meta base (Some b) ∈ calls else exists t, Reads base (Some t) ∈ calls.
(** Each write was announced, and its directory was there or made at some time before. *)
Definition prepared (calls : list call) : Prop := forall i s c a, calls !! i = Some (Writes s c a) ->
  Prints s true ∈ take i calls /\ forall d, parent s = Some d -> d = "" \/ Makes d Made ∈ take i calls \/ IsDir d true ∈ take i calls.
(** The same outcome, whatever the text of an error. *)
Definition same_end {A B : Type} (R : A -> B -> Prop) (r : res A) (r' : res B) : Prop :=
  match r, r' with
  | Ok a, Ok b => R a b
  | Err _, Err _ | Panic _, Panic _ | Diverge, Diverge => True
  | _, _ => False
  end.
(** the texts read by the command of CliShared.v *)
Definition event_texts : list event -> list (string * text) := omap (fun e => match e with Read s c => Some (s, c) | _ => None end).
(** The event of CliShared.v comes from one of the calls; and the other way round. *)
Definition comes_from (E : env) (calls : list call) (e : event) : Prop :=
  match e with
  | Read s c => Reads s (Some c) ∈ calls
  | Mkdir l => exists s, Makes s Made ∈ calls /\ leads_to E s = l
  | Wrote l c => exists s c' a, Writes s c' a ∈ calls /\ leads_to E s = l /\ c `prefix_of` c' /\ (a = true -> c = c')
  end.
Definition shows_in (E : env) (events : list event) (c : call) : Prop :=
  match c with
  | Reads s (Some t) => Read s t ∈ events
  | Makes s Made => Mkdir (leads_to E s) ∈ events
  | Writes s t true => Wrote (leads_to E s) t ∈ events
  | _ => True
  end.
(** The names that are listed are names of entries; there is a limit on the length of a path to a directory (on Linux 4096). *)
Definition names_proper (O : os) : Prop := forall tr s names, o_list O tr s = Some names -> Forall proper_name names.
Definition path_limit (L : nat) (O : os) : Prop := forall tr s, L < String.length s -> o_is_dir O tr s = false.
