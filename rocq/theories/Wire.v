(** Specification: values of a schema type, the documented wire format (format.md, README.md), what it means
    for a JavaScript object to represent a value, and what the runtime library must do. Refers to the
    interpreter only for the representation of JavaScript values. *)
From Verif Require Export TsSem.

Inductive value := VNum (n : num) | VStr (s : jstr) | VArr (l : list value) | VRec (fs : list (string * value)) | VNone.

Definition builtin_kind (b : builtin) : option kind :=
  match b with
  | Uint8 => Some KU8 | Uint16 => Some KU16 | Uint32 => Some KU32
  | Int8 => Some KI8 | Int16 => Some KI16 | Int32 => Some KI32
  | Float => Some KF32 | BString => None
  end.
Definition repr_kind (r : enum_repr) : kind := match r with U8 => KU8 | U16 => KU16 | U32 => KU32 end.
Definition width (k : kind) : nat := match k with KU8 | KI8 => 1 | KU16 | KI16 => 2 | _ => 4 end.
(** JavaScript has one NaN, which stands for all bit patterns of NaN. *)
Definition one_nan : Z := 2143289344.
Definition in_kind (k : kind) (n : num) : Prop :=
  match k, n with
  | KU8, NInt z => 0 <= z < 2 ^ 8 | KU16, NInt z => 0 <= z < 2 ^ 16 | KU32, NInt z => 0 <= z < 2 ^ 32
  | KI8, NInt z => - 2 ^ 7 <= z < 2 ^ 7 | KI16, NInt z => - 2 ^ 15 <= z < 2 ^ 15 | KI32, NInt z => - 2 ^ 31 <= z < 2 ^ 31
  | KF32, NFloat b => 0 <= b < 2 ^ 32 /\ (b mod 2 ^ 31 <= 2139095040 \/ b = one_nan)
  | _, _ => False
  end%Z.
(** JavaScript's 1 << n *)
Definition variant_value (n : nat) : num := NInt (if decide (n = 31%nat) then - 2 ^ 31 else 2 ^ Z.of_nat n)%Z.

(** ** Values of a type. [enum_ok]: the numbers of an enum; [str_ok]: strings that the runtime library
    transmits faithfully. *)
Section typing.
  Context (enum_ok : enum -> num -> Prop) (str_ok : jstr -> Prop).
  Definition wrapped (array opt : bool) (P : value -> Prop) (v : value) : Prop :=
    (opt = true /\ v = VNone) \/
    (if array then exists l, v = VArr l /\ (Z.of_nat (length l) < 2 ^ 32)%Z /\ Forall P l else P v).
  Fixpoint shape (t : rtype) (v : value) {struct t} : Prop :=
    match t with
    | TBuiltin b => match builtin_kind b with
                    | Some k => exists n, v = VNum n /\ in_kind k n
                    | None => exists s, v = VStr s /\ (Z.of_nat (length s) < 2 ^ 32)%Z /\ str_ok s
                    end
    | TEnum e => exists n, v = VNum n /\ enum_ok e n
    | TStruct fs => exists vs, v = VRec vs /\
        (fix fields (fs : list sfield) (vs : list (string * value)) : Prop :=
           match fs, vs with
           | [], [] => True
           | f :: fs, (g, v) :: vs => g = f_name f /\ wrapped (f_array f) (f_opt f) (shape (f_ty f)) v /\ fields fs vs
           | _, _ => False
           end) fs vs
    end.
End typing.
(** the number of a declared variant *)
Definition declared (e : enum) (n : num) : Prop := exists x, x ∈ e_variants e /\ n = variant_value (ev_value x).
Definition has_type (str_ok : jstr -> Prop) : rtype -> value -> Prop := shape declared str_ok.
Definition any_string (s : jstr) : Prop := True.
(** what write can be called with: any numbers for enums, any strings *)
Definition writable : rtype -> value -> Prop := shape (fun _ _ => True) any_string.

(** ** The wire format: [enc], [encs] are the encodings of numbers and of the characters of a string *)
Section format.
  Context (enc : kind -> num -> list byte) (encs : jstr -> list byte).
  Definition count (n : nat) : list byte := enc KU32 (NInt (Z.of_nat n)).
  Definition wire_wrapped (array opt : bool) (e : value -> list byte) (v : value) : list byte :=
    let inner v := if array then match v with VArr l => count (length l) ++ concat (map e l) | _ => [] end else e v in
    if opt then match v with VNone => enc KU8 (NInt 0) | _ => enc KU8 (NInt 1) ++ inner v end else inner v.
  Fixpoint wire (t : rtype) (v : value) {struct t} : list byte :=
    match t, v with
    | TBuiltin b, VNum n => match builtin_kind b with Some k => enc k n | None => [] end
    | TBuiltin _, VStr s => count (length s) ++ encs s
    | TEnum e, VNum n => enc (repr_kind (e_repr e)) n
    | TStruct fs, VRec vs =>
        (fix fields (fs : list sfield) (vs : list (string * value)) : list byte :=
           match fs, vs with
           | f :: fs, (_, v) :: vs => wire_wrapped (f_array f) (f_opt f) (wire (f_ty f)) v ++ fields fs vs
           | _, _ => []
           end) fs vs
    | _, _ => []
    end.
End format.

(** ** Which JavaScript value stands for which value *)
Fixpoint rep (h : heap) (x : val) (v : value) {struct v} : Prop :=
  match v with
  | VNum n => x = JNum n
  | VStr s => x = JStr s
  | VNone => x = JUndef \/ x = JNull
  | VArr l => exists p items, x = JLoc p /\ h !! p = Some (OArr items) /\
      (fix all (l : list value) (items : list val) : Prop :=
         match l, items with
         | [], [] => True
         | v :: l, y :: items => rep h y v /\ all l items
         | _, _ => False
         end) l items
  | VRec fs => exists p pr props, x = JLoc p /\ h !! p = Some (OPlain pr props) /\
      (fix all (fs : list (string * value)) : Prop :=
         match fs with
         | [] => True
         | (f, v) :: fs => (exists y, get_prop h x f = Done y /\ rep h y v) /\ all fs
         end) fs
  end.

(** ** What is assumed of the runtime library *)
Record rt_ok (rt : runtime) (str_ok : jstr -> Prop) : Prop := {
  (** fixed widths *)
  enc_width : forall k n, length (rt_enc rt k n) = width k;
  (** reading inverts writing *)
  rd_enc : forall k n rest, in_kind k n -> rt_rd rt k (rt_enc rt k n ++ rest, false) = (n, (rest, false));
  (** enough bytes: some number of the kind, and exactly [width k] bytes are consumed *)
  rd_enough : forall k bs, width k <= length bs -> exists n, in_kind k n /\ rt_rd rt k (bs, false) = (n, (drop (width k) bs, false));
  (** integers have one encoding *)
  rd_exact : forall k bs n r, k ≠ KF32 -> width k <= length bs -> rt_rd rt k (bs, false) = (n, r) -> rt_enc rt k n = take (width k) bs;
  (** too few bytes: the reader fails, the result is still a number of the kind *)
  rd_short : forall k bs, length bs < width k -> exists n bs', in_kind k n /\ rt_rd rt k (bs, false) = (n, (bs', true));
  (** a reader that failed stays so *)
  rd_failed : forall k bs, exists n bs', in_kind k n /\ rt_rd rt k (bs, true) = (n, (bs', true));
  (** strings that are [str_ok]: as many bytes as units are consumed by reading, and they give the string back *)
  rds_enc : forall s rest, str_ok s -> rt_rds rt (Z.of_nat (length s)) (rt_encs rt s ++ rest, false) = (s, (rest, false));
  rds_short : forall s bs r, str_ok s -> bs `prefix_of` rt_encs rt s -> bs ≠ rt_encs rt s ->
    rt_rds rt (Z.of_nat (length s)) (bs, false) = r -> r.2.2 = true;
  rds_failed : forall n bs, (rt_rds rt n (bs, true)).2.2 = true;
  (** strings read from [n] bytes have at most [n] units; reading does not go back *)
  rds_units : forall n bs b, length (rt_rds rt n (bs, b)).1 <= Z.to_nat n;
  rds_forward : forall n bs b, length (rt_rds rt n (bs, b)).2.1 <= length bs }.
