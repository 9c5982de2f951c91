(** What callers of the emitted code do: create an instance of the exported class, call its write method. *)
From Verif Require Export TsSem.

(** [new K(args)], ts.rs lines 259-266: all parameters are parameter properties, so TypeScript emits one assignment
    [this.p = p] for each, in order. Missing arguments are undefined, additional ones are ignored. *)
Fixpoint assign_all (h : heap) (this : val) (ps : list string) (args : list val) : out heap :=
  match ps with
  | [] => Done h
  | p :: ps => go h <- set_prop h this p (default JUndef (head args)); assign_all h this ps (tail args)
  end.
Definition construct (k : cls) (h : heap) (args : list val) : out (val * heap) :=
  if decide (loads k) then
    let this := JLoc (length h) in
    go h <- assign_all (h ++ [OPlain PClass []]) this (k_params k).*1 args; Done (this, h)
  else Throws "SyntaxError".

(** [x.write()]. The only function that the property write can hold here is the method of the class. *)
Definition calls_write (rt : runtime) (k : cls) (h : heap) (x : val) (r : out (list byte * mach)) : Prop :=
  match get_prop h x "write" with
  | Done JFun => writes rt k h x r
  | Done _ => r = Throws "TypeError"
  | Throws e => r = Throws e
  | Stuck => False
  end.
