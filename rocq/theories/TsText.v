(** A reader for the fragment of TypeScript that is emitted: from text to the syntax trees of TsAst.v. Written from the
    lexical and syntactic grammar of ECMAScript and TypeScript, without reference to the printer. A text outside the
    fragment gives [None]. Names are read whether or not they are reserved words; TsStatic.v says which are legal. *)
From Coq Require Import DecimalString DecimalNat DecimalZ.
From Verif Require Export TsAst.

(** ** Tokens *)
Inductive token := TId (s : string) | TNum (s : string) | TStr (s : string) | TSym (s : string).
#[export] Instance token_eq_dec : EqDecision token.
Proof. solve_decision. Defined.

Definition char_in (lo hi : nat) (c : ascii) : bool := (lo <=? nat_of_ascii c)%nat && (nat_of_ascii c <=? hi)%nat.
Definition js_digit (c : ascii) : bool := char_in 48 57 c.
(** IdentifierStart and IdentifierPart, ASCII only *)
Definition js_start (c : ascii) : bool := char_in 97 122 c || char_in 65 90 c || bool_decide (c = "_"%char) || bool_decide (c = "$"%char).
Definition js_part (c : ascii) : bool := js_start c || js_digit c.
Definition js_space (c : ascii) : bool := bool_decide (c = " "%char) || char_in 9 13 c.
Definition chr (c : ascii) : string := String c "".

(** what has been read of a token *)
Inductive lstate := L0 | LId (s : string) | LNum (s : string) | LStr (s : string) | LSym (c : ascii) | LComment.
(** characters that begin a symbol of two characters, and those symbols *)
Definition begins (c : ascii) : bool := bool_decide (c ∈ list_ascii_of_string "+<>&|=/-!*").
Definition pairs : list string := ["++"; "--"; "<="; ">="; "<<"; ">>"; "&&"; "||"; "=="; "!="; "=>"; "+="; "-="; "**"].
Definition feed0 (c : ascii) : list token * lstate :=
  if js_space c then ([], L0)
  else if js_start c then ([], LId (chr c))
  else if js_digit c then ([], LNum (chr c))
  else if bool_decide (c = "034"%char) then ([], LStr "")
  else if begins c then ([], LSym c)
  else ([TSym (chr c)], L0).
Definition after (t : token) (x : list token * lstate) : list token * lstate := (t :: x.1, x.2).
Definition feed (st : lstate) (c : ascii) : list token * lstate :=
  match st with
  | L0 => feed0 c
  | LId s => if js_part c then ([], LId (s +:+ chr c)) else after (TId s) (feed0 c)
  | LNum s => if js_part c then ([], LNum (s +:+ chr c)) else after (TNum s) (feed0 c)
  | LStr s => if bool_decide (c = "034"%char) then ([TStr s], L0) else ([], LStr (s +:+ chr c))
  | LSym d =>
      if bool_decide (d = "/"%char /\ c = "/"%char) then ([], LComment)
      else if bool_decide (chr d +:+ chr c ∈ pairs) then ([TSym (chr d +:+ chr c)], L0)
      else after (TSym (chr d)) (feed0 c)
  | LComment => if char_in 10 10 c || char_in 13 13 c then ([], L0) else ([], LComment)
  end.
Definition flush (st : lstate) : list token :=
  match st with
  | L0 | LComment => []
  | LId s => [TId s]
  | LNum s => [TNum s]
  | LStr s => [TStr s; TSym "unterminated"]
  | LSym c => [TSym (chr c)]
  end.
Fixpoint scan_from (st : lstate) (s : string) : list token * lstate :=
  match s with
  | EmptyString => ([], st)
  | String c s => let x := feed st c in let y := scan_from x.2 s in (x.1 ++ y.1, y.2)
  end.
Definition tokens (s : string) : list token := let x := scan_from L0 s in x.1 ++ flush x.2.

(** ** Grammar *)
Definition tparser (A : Type) : Type := list token -> option (A * list token).
Definition tret {A} (a : A) : tparser A := fun ts => Some (a, ts).
Definition tbind {A B} (p : tparser A) (k : A -> tparser B) : tparser B := fun ts =>
  match p ts with Some (a, ts) => k a ts | None => None end.
Notation "'get' x <- p ; k" := (tbind p (fun x => k)) (at level 200, x pattern, p at level 100, k at level 200).
Fixpoint eats (l : list token) : tparser unit := fun ts =>
  match l, ts with
  | [], _ => Some ((), ts)
  | t :: l, u :: ts => if decide (t = u) then eats l ts else None
  | _, _ => None
  end.
(** these tokens are next *)
Definition eat (s : string) : tparser unit := eats (tokens s).
Definition next_is (s : string) (ts : list token) : bool := match eat s ts with Some _ => true | None => false end.
(** [p] if these tokens are next, else [q] *)
Definition when {A} (s : string) (p q : tparser A) : tparser A := fun ts => if next_is s ts then p ts else q ts.
Definition a_name : tparser string := fun ts => match ts with TId x :: ts => Some (x, ts) | _ => None end.
(** this a_name again *)
Definition again (x : string) : tparser unit := eats [TId x].
(** decimal literals *)
Definition natural : tparser nat := fun ts =>
  match ts with TNum s :: ts => match NilZero.uint_of_string s with Some d => Some (Nat.of_uint d, ts) | None => None end | _ => None end.
Definition integer : tparser Z := fun ts =>
  match ts with TNum s :: ts => match NilZero.uint_of_string s with Some d => Some (Z.of_uint d, ts) | None => None end | _ => None end.
(** [p] up to the token [stop] *)
Fixpoint many {A} (n : nat) (stop : list token -> bool) (p : tparser A) : tparser (list A) := fun ts =>
  if stop ts then Some ([], ts)
  else match n with
       | O => None
       | S n => (get a <- p; get l <- many n stop p; tret (a :: l)) ts
       end.
Fixpoint without (p s : string) : option string :=
  match p, s with
  | EmptyString, _ => Some s
  | String a p, String b s => if decide (a = b) then without p s else None
  | _, _ => None
  end.

(** member expressions: e.f and e[i] *)
Fixpoint p_members (n : nat) (p : tparser expr) (e : expr) : tparser expr :=
  match n with
  | O => fun _ => None
  | S n =>
      when "." (get _ <- eat "."; get f <- a_name; p_members n p (EProp e f))
      (when "[" (get _ <- eat "["; get i <- p; get _ <- eat "]"; p_members n p (EElem e i))
      (tret e))
  end.
(** methods of the reader *)
Definition p_call (p : tparser expr) : tparser expr :=
  get m <- a_name;
  match without "read_" m with
  | Some m => if decide (m = "string") then get _ <- eat "("; get e <- p; get _ <- eat ")"; tret (EReadStr e)
              else get _ <- eat "()"; tret (ERead m)
  | None => fun _ => None
  end.
(** [n]: nesting depth *)
Fixpoint p_expr (n : nat) : tparser expr :=
  match n with
  | O => fun _ => None
  | S n =>
      let primary : tparser expr :=
        when "-" (get _ <- eat "-"; get z <- integer; tret (ENum (- z)))
        (when "{" (get _ <- eat "{}"; tret EObj)
        (when "undefined" (get _ <- eat "undefined"; tret EUndef)
        (when "new" (get _ <- eat "new Array("; get e <- p_expr n; get _ <- eat ")"; tret (ENewArr e))
        (when "reader." (get _ <- eat "reader."; p_call (p_expr n))
        (fun ts => match ts with
                   | TId x :: ts => p_members (S (length ts)) (p_expr n) (EVar x) ts
                   | _ => (get z <- integer; tret (ENum z)) ts
                   end))))) in
      let unit := get e <- primary; when "as number" (get _ <- eat "as number"; tret (EAs e)) (tret e) in
      let compare :=
        get a <- unit;
        when "<=" (get _ <- eat "<="; get b <- unit; tret (ELe a b))
        (when ">" (get _ <- eat ">"; get b <- unit; tret (EGt a b)) (tret a)) in
      get a <- compare;
      when "&&" (get _ <- eat "&&"; get b <- compare; tret (EAnd a b)) (tret a)
  end.
(** enough for the expressions that occur *)
Definition expression : tparser expr := p_expr 3.

Definition p_simple : tparser simple :=
  when "let" (get _ <- eat "let"; get x <- a_name;
              get any <- when ":" (get _ <- eat ": any"; tret true) (tret false);
              get _ <- eat "="; get e <- expression; get _ <- eat ";"; tret (Let any x e))
  (when "writer." (get _ <- eat "writer."; get m <- a_name;
                   match without "write_" m with
                   | Some m => get _ <- eat "("; get e <- expression; get _ <- eat ");"; tret (Write m e)
                   | None => fun _ => None
                   end)
  (when "reader." (get _ <- eat "reader.failed = true;"; tret Fail)
  (get l <- expression; get _ <- eat "="; get e <- expression; get _ <- eat ";"; tret (Assign l e)))).

(** where a list of statements ends: at a closing brace, or at the epilogue of a method *)
Definition block_ends (ts : list token) : bool := next_is "}" ts || next_is "return" ts || next_is "if (reader.failed)" ts.
Fixpoint p_stmt (n : nat) : tparser stmt :=
  match n with
  | O => fun _ => None
  | S n =>
      let block : tparser (list stmt) := fun ts => many (length ts) block_ends (p_stmt n) ts in
      when "if" (get _ <- eat "if ("; get c <- expression; get _ <- eat ")";
                 when "{" (get _ <- eat "{"; get b1 <- block; get _ <- eat "} else {"; get b2 <- block; get _ <- eat "}"; tret (SIf c b1 b2))
                 (get s1 <- p_simple; get _ <- eat "else"; get s2 <- p_simple; tret (SIfLine c s1 s2)))
      (when "for" (get _ <- eat "for (let"; get i <- a_name; get _ <- eat "= 0;"; get _ <- again i; get _ <- eat "<";
                   get e <- expression; get _ <- eat "; ++"; get _ <- again i; get _ <- eat ") {"; get b <- block; get _ <- eat "}";
                   tret (SFor i e b))
      (when "switch" (get _ <- eat "switch ("; get e <- expression; get _ <- eat ") { case undefined: case null:"; get s <- p_simple;
                      get _ <- eat "break; default: {"; get b <- block; get _ <- eat "} }"; tret (SSwitch e s b))
      (get s <- p_simple; tret (SSimple s))))
  end.
Definition statements : tparser (list stmt) := fun ts => many (length ts) block_ends (p_stmt (length ts)) ts.

(** T, N.T, T[], T | undefined *)
Definition p_type : tparser string :=
  get a <- a_name;
  get b <- when "." (get _ <- eat "."; get b <- a_name; tret ("." +:+ b)) (tret "");
  get c <- when "[" (get _ <- eat "[]"; tret "[]") (tret "");
  get d <- when "|" (get _ <- eat "| undefined"; tret " | undefined") (tret "");
  tret (a +:+ b +:+ c +:+ d).
Definition p_param : tparser (string * string) :=
  get _ <- eat "public"; get x <- a_name; get _ <- eat ":"; get t <- p_type; get _ <- eat ","; tret (x, t).
Definition p_class : tparser cls :=
  get _ <- eat "export class"; get k <- a_name; get _ <- eat "{ constructor(";
  get ps <- (fun ts => many (length ts) (next_is ")") p_param ts);
  get _ <- eat ") {} static read(data: ArrayBuffer):"; get _ <- again k; get _ <- eat "| null {
    let reader = new Reader(data);
    let output = Object.create("; get _ <- again k; get _ <- eat ");";
  get r <- statements;
  get _ <- eat "if (reader.failed) return null; return output; }
    write(buffer?: ArrayBuffer): ArrayBuffer {
      let writer = buffer ? new Writer(buffer) : new Writer();";
  get w <- statements;
  get _ <- eat "return writer.finish(); } }";
  tret (Cls k ps r w).
Definition p_variant : tparser (string * nat) :=
  get v <- a_name; get _ <- eat "= 1 <<"; get n <- natural; get _ <- eat ","; tret (v, n).
Definition p_member : tparser (string * bool * string) :=
  get m <- a_name; get o <- when "?" (get _ <- eat "?"; tret true) (tret false); get _ <- eat ":"; get t <- p_type; get _ <- eat ","; tret (m, o, t).
Definition p_decl : tparser decl :=
  when "export const" (get _ <- eat "export const enum"; get n <- a_name; get _ <- eat "{";
                       get vs <- (fun ts => many (length ts) (next_is "}") p_variant ts); get _ <- eat "}"; tret (DEnum n vs))
  (get _ <- eat "export interface"; get n <- a_name; get _ <- eat "{";
   get ms <- (fun ts => many (length ts) (next_is "}") p_member ts); get _ <- eat "}"; tret (DInterface n ms)).
Definition p_module : tparser (list decl * cls) :=
  get _ <- eats [TId "import"; TSym "{"; TId "Reader"; TSym ","; TId "Writer"; TSym "}"; TId "from"; TStr "packet"; TSym ";"];
  get _ <- eat "export namespace"; get e <- a_name; get _ <- eat "{";
  get ds <- (fun ts => many (length ts) (next_is "}") p_decl ts); get _ <- eat "}";
  get k <- p_class;
  if decide (k_name k = e) then tret (ds, k) else fun _ => None.
(** the declarations and the class of a module *)
Definition read_ts (t : string) : option (list decl * cls) :=
  match p_module (tokens t) with Some (m, []) => Some m | _ => None end.

(** Printable ASCII on one line, such as the version and the time in the first line of a module. *)
Definition on_one_line (s : string) : Prop := Forall (fun c => char_in 32 126 c = true) (list_ascii_of_string s).
