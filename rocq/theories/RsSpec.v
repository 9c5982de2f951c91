(** Vocabulary for the statements about emitted Rust: what is assumed of the crate [packet], which Rust values stand for
    which values, which packets stand for which values. *)
From Verif Require Export RsSem RsText Accept.

(** ** The emitted text *)
(** [P] holds of the module that the text of any run reads as, and of the type that the export denotes. *)
Definition for_rust (a : ast) (P : rs_module -> rtype -> Prop) : Prop :=
  forall iter r version now titer, fair_order iter -> legal_ast a -> type_check iter a = Ok r -> fair_types titer ->
    on_one_line version -> on_one_line now ->
    exists t m ty, rs_generate version now titer r = Ok t /\ read_rs t = Some m /\
      exports a = [rm_type m] /\ denotes Permutation a (rm_type m) ty /\ P m ty.
(** the same for what one run emits in both languages *)
Definition for_both (a : ast) (P : cls -> rs_module -> rtype -> Prop) : Prop :=
  forall iter r version now titer, fair_order iter -> legal_ast a -> type_check iter a = Ok r -> fair_types titer ->
    on_one_line version -> on_one_line now ->
    exists t1 t2 ds k m ty, generate version now titer r = Ok t1 /\ rs_generate version now titer r = Ok t2 /\
      read_ts t1 = Some (ds, k) /\ read_rs t2 = Some m /\
      exports a = [rm_type m] /\ k_name k = rm_type m /\ denotes Permutation a (rm_type m) ty /\ P k m ty.

(** Names for which the meaning given to the code is that of Rust: fields of a struct are distinct and no declared type
    is called like a type of Rust that the code mentions. *)
Definition rust_prims : list string := ["u8"; "u16"; "u32"; "i8"; "i16"; "i32"; "f32"; "String"].
Record rust_names (a : ast) : Prop := {
  rn_fields : forall n fs, declares_struct a n fs -> NoDup fs.*1;
  rn_types : forall n, n ∈ decl_names a -> n ∉ rust_prims }.

(** ** The crate packet. All NaNs are one value (see [in_kind]); the contract says nothing of the patterns of the others. *)
Record rs_lib_ok (lib : rs_lib) (str_ok : rstr -> Prop) : Prop := {
  lk_width : forall k n, length (lb_enc lib k n) = width k;
  lk_enc : forall k n rest, in_kind k n -> lb_rd lib k (lb_enc lib k n ++ rest) = Some (n, rest);
  lk_enough : forall k bs, width k <= length bs -> exists n, in_kind k n /\ lb_rd lib k bs = Some (n, drop (width k) bs);
  lk_short : forall k bs, length bs < width k -> lb_rd lib k bs = None;
  lk_exact : forall k bs n rest, k ≠ KF32 -> lb_rd lib k bs = Some (n, rest) -> bs = lb_enc lib k n ++ rest;
  lk_local : forall k bs n rest more, lb_rd lib k bs = Some (n, rest) -> lb_rd lib k (bs ++ more) = Some (n, rest ++ more);
  (** a string of [n] bytes is read, or it is an error: too few bytes, or not UTF-8 *)
  lk_encs : forall s, str_ok s -> length (lb_encs lib s) = length s;
  lk_str : forall s rest, str_ok s -> lb_rds lib (Z.of_nat (length s)) (lb_encs lib s ++ rest) = Some (s, rest);
  lk_str_exact : forall n bs s rest, (0 <= n)%Z -> lb_rds lib n bs = Some (s, rest) ->
    str_ok s /\ n = Z.of_nat (length s) /\ bs = lb_encs lib s ++ rest }.

(** ** Values *)
(** the number of a variant in Rust: 1 << n *)
Definition is_variant (e : enum) (n : num) : Prop := exists x, x ∈ e_variants e /\ n = NInt (2 ^ Z.of_nat (ev_value x)).
Section stands.
  Context (str_ok : rstr -> Prop).
  Definition stands_items (array : bool) (P : rval -> value -> Prop) (x : rval) (v : value) : Prop :=
    if array then exists l l', x = RVec l /\ v = VArr l' /\ (Z.of_nat (length l) < 2 ^ 32)%Z /\ Forall2 P l l' else P x v.
  Definition stands_wrapped (array opt : bool) (P : rval -> value -> Prop) (x : rval) (v : value) : Prop :=
    if opt then (x = ROpt None /\ v = VNone) \/ (exists y, x = ROpt (Some y) /\ stands_items array P y v) else stands_items array P x v.
  (** the Rust value [x] of the type called [tn] stands for [v]; strings are given by their bytes *)
  Fixpoint stands (t : rtype) (tn : string) (x : rval) (v : value) {struct t} : Prop :=
    match t with
    | TBuiltin b => match builtin_kind b with
                    | Some k => exists n, x = RNum n /\ v = VNum n /\ in_kind k n
                    | None => exists s, x = RStr s /\ v = VStr s /\ (Z.of_nat (length s) < 2 ^ 32)%Z /\ str_ok s
                    end
    | TEnum e => exists y, y ∈ e_variants e /\ x = RVariant tn (ev_name y) /\ v = VNum (NInt (2 ^ Z.of_nat (ev_value y)))
    | TStruct fs => exists xs vs, x = RRec xs /\ v = VRec vs /\
        (fix fields (fs : list sfield) (xs : list (string * rval)) (vs : list (string * value)) : Prop :=
           match fs, xs, vs with
           | [], [], [] => True
           | f :: fs, (g, x) :: xs, (h, v) :: vs =>
               g = f_name f /\ h = f_name f /\ stands_wrapped (f_array f) (f_opt f) (stands (f_ty f) (f_tname f)) x v /\ fields fs xs vs
           | _, _, _ => False
           end) fs xs vs
    end.
  (** a value that a variable of the type can hold *)
  Definition typed (t : rtype) (tn : string) (x : rval) : Prop := exists v, stands t tn x v.
End stands.

(** ** Packets: [packet t v data rest]: [data] is a packet that stands for [v], followed by [rest] *)
Section packet.
  Context (lib : rs_lib) (str_ok : rstr -> Prop).
  Definition rs_number (k : kind) (n : num) (data rest : list byte) : Prop :=
    in_kind k n /\ match k with KF32 => lb_rd lib k data = Some (n, rest) | _ => data = lb_enc lib k n ++ rest end.
  Definition packet_items (array : bool) (P : value -> list byte -> list byte -> Prop) (v : value) (data rest : list byte) : Prop :=
    if array then exists l mid, v = VArr l /\ rs_number KU32 (NInt (Z.of_nat (length l))) data mid /\ each P l mid rest else P v data rest.
  Definition packet_wrapped (array opt : bool) (P : value -> list byte -> list byte -> Prop) (v : value) (data rest : list byte) : Prop :=
    if opt then (v = VNone /\ rs_number KU8 (NInt 0) data rest) \/
                exists flag mid, flag ≠ 0%Z /\ rs_number KU8 (NInt flag) data mid /\ packet_items array P v mid rest
    else packet_items array P v data rest.
  Fixpoint packet (t : rtype) (v : value) (data rest : list byte) {struct t} : Prop :=
    match t with
    | TBuiltin b => match builtin_kind b with
                    | Some k => exists n, v = VNum n /\ rs_number k n data rest
                    | None => exists s mid, v = VStr s /\ rs_number KU32 (NInt (Z.of_nat (length s))) data mid /\ str_ok s /\ mid = lb_encs lib s ++ rest
                    end
    | TEnum e => exists n, v = VNum n /\ is_variant e n /\ rs_number (repr_kind (e_repr e)) n data rest
    | TStruct fs => exists vs, v = VRec vs /\
        (fix fields (fs : list sfield) (vs : list (string * value)) (data : list byte) : Prop :=
           match fs, vs with
           | [], [] => data = rest
           | f :: fs, (g, v) :: vs => g = f_name f /\ exists mid, packet_wrapped (f_array f) (f_opt f) (packet (f_ty f)) v data mid /\ fields fs vs mid
           | _, _ => False
           end) fs vs data
    end.
End packet.

(** ** Reading into a value that is not fresh: what [read] leaves of [old] when [new] is what it would read into a fresh
    value. Arrays are appended to; an optional field that is absent from the packet keeps its value. *)
Definition onto_wrapped (array opt : bool) (P : rval -> rval -> rval) (old new : rval) : rval :=
  if opt then match new with ROpt None => old | _ => new end
  else if array then match old, new with RVec l, RVec l' => RVec (l ++ l') | _, _ => new end
  else P old new.
Fixpoint onto (t : rtype) (old new : rval) {struct t} : rval :=
  match t, old, new with
  | TStruct fs, RRec xs, RRec ys => RRec (
      (fix fields (fs : list sfield) (xs ys : list (string * rval)) : list (string * rval) :=
         match fs, xs, ys with
         | f :: fs, (_, x) :: xs, (g, y) :: ys => (g, onto_wrapped (f_array f) (f_opt f) (onto (f_ty f)) x y) :: fields fs xs ys
         | _, _, _ => []
         end) fs xs ys)
  | _, _, _ => new
  end.

(** ** Both languages *)
(** The two libraries agree on numbers, and on the strings in [both]. *)
Record same_format (rt : runtime) (lib : rs_lib) (both : list Z -> Prop) : Prop := {
  sf_enc : forall k n, in_kind k n -> rt_enc rt k n = lb_enc lib k n;
  sf_rd : forall k bs n rest, rt_rd rt k (bs, false) = (n, (rest, false)) <-> lb_rd lib k bs = Some (n, rest);
  sf_encs : forall s, both s -> rt_encs rt s = lb_encs lib s;
  sf_rds : forall s rest, both s -> rt_rds rt (Z.of_nat (length s)) (lb_encs lib s ++ rest, false) = (s, (rest, false)) }.
(** all strings in the value are in [P] *)
Fixpoint strings_in (P : list Z -> Prop) (v : value) : Prop :=
  match v with
  | VStr s => P s
  | VArr l => fold_right (fun v Q => strings_in P v /\ Q) True l
  | VRec fs => fold_right (fun fv Q => strings_in P fv.2 /\ Q) True fs
  | _ => True
  end.

(** ** Declarations *)
Definition rust_type_name (n : string) : string :=
  match builtin_of_name n with
  | Some Uint8 => "u8" | Some Uint16 => "u16" | Some Uint32 => "u32" | Some Int8 => "i8" | Some Int16 => "i16" | Some Int32 => "i32"
  | Some Float => "f32" | Some BString => "String" | None => n
  end.
Definition rust_type (u : unresolved) : rs_type := RsType (u_opt u) (u_array u) (rust_type_name (u_name u)).
Definition rust_repr (r : enum_repr) : string := match r with U8 => "u8" | U16 => "u16" | U32 => "u32" end.
(** the item says what the schema says of its name: the fields of a struct in some order; for an enum, the smallest
    representation, 1 << i for the ith variant, the first one as the default, and the same numbers in [try_from], apart
    from that of a 32nd variant, which is negative *)
Definition rs_declares (a : ast) (i : rs_item) : Prop :=
  match i with
  | IStruct n fs => exists ds, declares_struct a n ds /\ fs ≡ₚ map (fun d => (d.1, rust_type d.2)) ds
  | IEnum n repr vs d arms => exists names r, declares_enum a n names /\ smallest_repr (length names) r /\ repr = rust_repr r /\
      vs = imap (fun i v => (v, i)) names /\ head names = Some d /\ arms.*2 = names /\
      (forall i v, names !! i = Some v -> i < 31 -> arms !! i = Some (2 ^ Z.of_nat i, v)%Z) /\
      forall v, names !! 31 = Some v -> arms !! 31 = Some (- 2 ^ 31, v)%Z
  end.
(** no field of the types that [e] needs is an array or optional *)
Definition only_plain (a : ast) (e : string) : Prop :=
  forall n fs f u, needed a e n -> declares_struct a n fs -> (f, u) ∈ fs -> u_array u = false /\ u_opt u = false.
