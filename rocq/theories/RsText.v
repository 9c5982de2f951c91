(** A reader for the fragment of Rust that is emitted: from text to the syntax trees of RsAst.v, over the tokens of
    TsText.v, which for this fragment are also those of Rust ("::" counts as two, as does ".."; a literal carries its
    type, as in 1u8). Written from the grammar of Rust, without reference to the printer. A text outside the fragment
    gives [None]. Names are read whether or not they are reserved words. *)
From Coq Require Import DecimalString DecimalNat DecimalZ.
From Verif Require Export RsAst TsText.

Definition none {A} : tparser A := fun _ => None.
(** 1u8 *)
Definition byte_literal : tparser nat := fun ts =>
  match ts with
  | TNum s :: ts =>
      let d := String.substring 0 (String.length s - 2) s in
      if decide (s = d +:+ "u8")
      then match NilZero.uint_of_string d with Some d => Some (Nat.of_uint d, ts) | None => None end
      else None
  | _ => None
  end.
(** x.f.g *)
Fixpoint p_path (n : nat) : tparser (list string) :=
  match n with
  | O => none
  | S n => when "." (get _ <- eat "."; get f <- a_name; get ps <- p_path n; tret (f :: ps)) (tret [])
  end.
Definition p_place : tparser place :=
  get x <- a_name; get ps <- (fun ts => p_path (S (length ts)) ts); tret (Place x ps).
(** p.m: the place and the method *)
Definition method (p : place) : option (place * string) :=
  match List.rev (pl_path p) with m :: ps => Some (Place (pl_root p) (List.rev ps), m) | [] => None end.
Definition p_on (m : string) : tparser place :=
  get p <- p_place; match method p with Some (p, m') => if decide (m' = m) then tret p else none | None => none end.

Definition p_write : tparser rstmt :=
  get _ <- eat "writer."; get m <- a_name;
  match without "write_" m with
  | Some m =>
      get _ <- eat "(";
      when "&" (get _ <- eat "&"; get p <- p_place; get _ <- eat ");"; if decide (m = "string") then tret (WText p) else none)
      (fun ts => match ts with
                 | TNum _ :: _ => (get n <- byte_literal; get _ <- eat ");"; if decide (m = "uint8") then tret (WByte n) else none) ts
                 | _ => (get p <- p_place;
                         when "(" (get _ <- eat "() as u32);";
                                   match method p with
                                   | Some (p, l) => if decide (m = "uint32" /\ l = "len") then tret (WCount p) else none
                                   | None => none
                                   end)
                         (when "as" (get _ <- eat "as"; get t <- a_name; get _ <- eat ");"; tret (WCast m p t))
                         (get _ <- eat ");"; tret (WCall m p)))) ts
                 end)
  | None => none
  end.
(** what follows p = *)
Definition p_assign (p : place) : tparser rstmt :=
  when "reader." (get _ <- eat "reader."; get m <- a_name;
                  match without "read_" m with
                  | Some m => if decide (m = "string") then get _ <- eat "("; get x <- a_name; get _ <- eat ")?;"; tret (RText p x)
                              else get _ <- eat "()?;"; tret (RCall p m)
                  | None => none
                  end)
  (when "Some(" (get _ <- eat "Some("; get x <- a_name; get _ <- eat ");"; tret (RSome p x))
  (get t <- a_name; get _ <- eat "::try_from(reader."; get m <- a_name;
   match without "read_" m with Some m => get _ <- eat "()?)?;"; tret (RTry p t m) | None => none end)).

(** where a list of statements ends *)
Definition rs_ends (ts : list token) : bool := next_is "}" ts || next_is "Ok(" ts.
Fixpoint p_rs (n : nat) : tparser rstmt :=
  match n with
  | O => none
  | S n =>
      let block : tparser (list rstmt) := fun ts => many (length ts) rs_ends (p_rs n) ts in
      when "writer." p_write
      (when "for _" (get _ <- eat "for _ in 0.."; get x <- a_name; get _ <- eat "{"; get b <- block; get _ <- eat "}"; tret (RFor x b))
      (when "for" (get _ <- eat "for"; get x <- a_name; get _ <- eat "in"; get p <- p_on "iter"; get _ <- eat "() {"; get b <- block; get _ <- eat "}";
                   tret (WFor x p b))
      (when "match" (get _ <- eat "match"; get r <- when "&" (get _ <- eat "&"; tret true) (tret false); get p <- p_place;
                     get _ <- eat "{ None => writer.write_uint8("; get k <- byte_literal; get _ <- eat "), Some("; get x <- a_name;
                     get _ <- eat ") => {"; get b <- block; get _ <- eat "} }"; tret (WMatch r p k x b))
      (when "let mut" (get _ <- eat "let mut"; get x <- a_name; get _ <- eat "="; get t <- a_name; get _ <- eat "::default();"; tret (RDefault x t))
      (when "let" (get _ <- eat "let"; get x <- a_name; get _ <- eat "= reader.read_uint32()? as usize;"; tret (RCount x))
      (when "if" (get _ <- eat "if reader.read_uint8()? > 0 {"; get b <- block; get _ <- eat "}"; tret (RIf b))
      (get p <- p_place;
       when "(" (get _ <- eat "("; get x <- a_name; get _ <- eat ");";
                 match method p with
                 | Some (p, m) => if decide (m = "reserve") then tret (RReserve p x) else if decide (m = "push") then tret (RPush p x) else none
                 | None => none
                 end)
       (get _ <- eat "="; p_assign p))))))))
  end.
Definition rs_statements : tparser (list rstmt) := fun ts => many (length ts) rs_ends (p_rs (length ts)) ts.

(** T, Vec<T>, Option<T>, Option<Vec<T>>; a type may be called Vec or Option *)
Definition p_rs_type : tparser rs_type :=
  when "Option<Vec<" (get _ <- eat "Option<Vec<"; get b <- a_name; get _ <- eat ">>"; tret (RsType true true b))
  (when "Option<" (get _ <- eat "Option<"; get b <- a_name; get _ <- eat ">"; tret (RsType true false b))
  (when "Vec<" (get _ <- eat "Vec<"; get b <- a_name; get _ <- eat ">"; tret (RsType false true b))
  (get b <- a_name; tret (RsType false false b)))).
Definition p_rs_field : tparser (string * rs_type) :=
  get _ <- eat "pub"; get f <- a_name; get _ <- eat ":"; get t <- p_rs_type; get _ <- eat ","; tret (f, t).
Definition signed : tparser Z := when "-" (get _ <- eat "-"; get z <- integer; tret (- z)%Z) integer.
Definition p_arm (n : string) : tparser (Z * string) :=
  get z <- signed; get _ <- eat "=> Ok("; get _ <- again n; get _ <- eat "::"; get v <- a_name; get _ <- eat "),"; tret (z, v).
Definition p_item : tparser rs_item :=
  when "#[derive(Clone, PartialEq" (
    get _ <- eat "#[derive(Clone, PartialEq, Debug, Default)] pub struct"; get n <- a_name; get _ <- eat "{";
    get fs <- (fun ts => many (length ts) (next_is "}") p_rs_field ts); get _ <- eat "}"; tret (IStruct n fs))
  (get _ <- eat "#[derive(Clone, Copy, PartialEq, Debug)] #[repr("; get r <- a_name; get _ <- eat ")] pub enum"; get n <- a_name; get _ <- eat "{";
   get vs <- (fun ts => many (length ts) (next_is "}") p_variant ts);
   get _ <- eat "} impl Default for"; get _ <- again n; get _ <- eat "{ fn default() -> Self {"; get _ <- again n; get _ <- eat "::"; get d <- a_name;
   get _ <- eat "} } impl std::convert::TryFrom<"; get _ <- again r; get _ <- eat "> for"; get _ <- again n;
   get _ <- eat "{ type Error = packet::Error; fn try_from(value:"; get _ <- again r; get _ <- eat ") -> Result<Self, Self::Error> { match value {";
   get arms <- (fun ts => many (length ts) (next_is "_") (p_arm n) ts);
   get _ <- eat "_ => Err(packet::Error::InvalidEnumValue(value as usize,"; get _ <- eats [TStr n]; get _ <- eat ")) } } }";
   tret (IEnum n r vs d arms)).
Definition p_rs_module : tparser rs_module :=
  get _ <- eat "#![allow(dead_code, non_camel_case_types, unused_imports, unused_assignments, clippy::field_reassign_with_default)]
    use std::convert::TryFrom;";
  get is <- (fun ts => many (length ts) (next_is "pub") p_item ts);
  get _ <- eat "pub fn read(reader: &mut packet::reader::Reader, output: &mut"; get t <- a_name;
  get _ <- eat ") -> Result<(), packet::Error> {"; get r <- rs_statements;
  get _ <- eat "Ok(()) } pub fn write(writer: &mut packet::writer::Writer, input: &"; get _ <- again t; get _ <- eat ") {";
  get w <- rs_statements; get _ <- eat "}";
  tret (RsMod is t r w).
Definition read_rs (t : string) : option rs_module :=
  match p_rs_module (tokens t) with Some (m, []) => Some m | _ => None end.
