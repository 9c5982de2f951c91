(** The unit tests of check.rs (check.rs:430-757), replayed on the model for two opposite hash orders, and the schemas of
    the documentation and of the resource directory. *)
From Verif Require Import CheckWitness Parser.

Definition both (r : res resolved -> bool) (a : ast) : Prop :=
  r (type_check iter_fwd a) = true /\ r (type_check iter_rev a) = true.
Definition fails_with (m : string) (r : res resolved) : bool :=
  match r with Err e => if decide (e = m) then true else false | _ => false end.
Definition has_type (n : string) (r : res resolved) : bool :=
  match r with Ok x => match r_types x !! n with Some _ => true | None => false end | _ => false end.
Ltac run := split; vm_compute; reflexivity.

Example type_check_passes : both (okb)
  [NDecl "Flag" (AEnum ["A"; "B"]);
   NDecl "Position" (AStruct [("x", Unresolved "float" false false); ("y", Unresolved "float" false false)]);
   NDecl "Value" (AStruct [("a", Unresolved "uint32" false false); ("b", Unresolved "int32" false false); ("c", Unresolved "uint8" false false); ("d", Unresolved "uint8" false false)]);
   NDecl "ComplexType" (AStruct [("flag", Unresolved "Flag" false false); ("pos", Unresolved "Position" false false); ("names", Unresolved "string" true false); ("values", Unresolved "Value" true false)]);
   NExport "ComplexType"].
Proof. run. Qed.
Example empty_enum : both (fails_with "Enum 'Flag' must have at least one variant")
  [NDecl "Flag" (AEnum []);
   NDecl "Test" (AStruct [("flag", Unresolved "Flag" false false)]);
   NExport "Test"].
Proof. run. Qed.
Example optional_and_array : both (fails_with "Field 'a' in struct 'Test' cannot be optional and array at once")
  [NDecl "Test" (AStruct [("a", Unresolved "uint8" true true)]);
   NExport "Test"].
Proof. run. Qed.
Example too_many_exports : both (fails_with "Schema has more than one export")
  [NDecl "Position" (AStruct [("x", Unresolved "float" false false); ("y", Unresolved "float" false false)]);
   NExport "Position";
   NExport "Position"].
Proof. run. Qed.
Example no_export : both (fails_with "Schema has no export")
  [NDecl "Position" (AStruct [("x", Unresolved "float" false false); ("y", Unresolved "float" false false)])].
Proof. run. Qed.
Example duplicate_enum_variants : both (fails_with "Duplicate variant 'A' on enum 'Flag'")
  [NDecl "Flag" (AEnum ["A"; "A"]);
   NDecl "Test" (AStruct [("flag", Unresolved "Flag" false false)]);
   NExport "Test"].
Proof. run. Qed.
Example duplicate_field_name : both (fails_with "Duplicate field 'x' on struct 'Position'")
  [NDecl "Position" (AStruct [("x", Unresolved "float" false false); ("x", Unresolved "float" false false)]);
   NExport "Position"].
Proof. run. Qed.
Example duplicate_declaration : both (fails_with "Schema has duplicate declaration: Position")
  [NDecl "Position" (AStruct [("x", Unresolved "float" false false); ("y", Unresolved "float" false false)]);
   NDecl "Position" (AStruct [("x", Unresolved "float" false false); ("y", Unresolved "float" false false)]);
   NExport "Position"].
Proof. run. Qed.
Example too_many_enum_variants : both (fails_with "Enum 'Flag' has too many variants (33/32)")
  [NDecl "Flag" (AEnum ["A0"; "A1"; "A2"; "A3"; "A4"; "A5"; "A6"; "A7"; "A8"; "A9"; "A10"; "A11"; "A12"; "A13"; "A14"; "A15"; "A16"; "A17"; "A18"; "A19"; "A20"; "A21"; "A22"; "A23"; "A24"; "A25"; "A26"; "A27"; "A28"; "A29"; "A30"; "A31"; "A32"]);
   NDecl "Test" (AStruct [("flag", Unresolved "Flag" false false)]);
   NExport "Test"].
Proof. run. Qed.
Example could_not_resolve_unknown : both (fails_with "Declaration for type 'Flag' does not exist")
  [NDecl "Test" (AStruct [("flag", Unresolved "Flag" false false)]);
   NExport "Test"].
Proof. run. Qed.
Example duplicate_type_uses_are_resolved : both (okb)
  [NDecl "A" (AStruct [("b", Unresolved "int32" false false)]);
   NDecl "B" (AStruct [("a", Unresolved "A" false false)]);
   NDecl "D" (AStruct [("b1", Unresolved "B" false false); ("b2", Unresolved "B" false false)]);
   NExport "D"].
Proof. run. Qed.
Example discards_unused : both (fun r => okb r && negb (has_type "UnusedType" r))
  [NDecl "UnusedType" (AStruct [("test", Unresolved "uint8" false false)]);
   NDecl "Flag" (AEnum ["A"; "B"]);
   NDecl "Test" (AStruct [("flag", Unresolved "Flag" false false)]);
   NExport "Test"].
Proof. run. Qed.
Example resolve_nested : both (okb)
  [NDecl "Flag" (AEnum ["A"; "B"]);
   NDecl "TestA" (AStruct [("test", Unresolved "Flag" false false)]);
   NDecl "TestB" (AStruct [("test", Unresolved "TestA" false false)]);
   NDecl "TestC" (AStruct [("test", Unresolved "TestB" false false)]);
   NExport "TestC"].
Proof. run. Qed.
Example could_not_resolve_recursive : both (fails_with "Found a cycle between two or more top level definitions in type 'Test'")
  [NDecl "Test" (AStruct [("test", Unresolved "Test" false false)]);
   NExport "Test"].
Proof. run. Qed.
Example could_not_resolve_export : both (fails_with "Export 'Test' could not be resolved")
  [NExport "Test"].
Proof. run. Qed.
Example export_only_struct : both (fails_with "Attempted to export 'Flag', which is not a struct")
  [NDecl "Flag" (AEnum ["A"; "B"]);
   NExport "Flag"].
Proof. run. Qed.

(** ** Schemas in the repository *)
Definition compiles (r : res resolved -> bool) (s : string) : bool :=
  match parse_schema (list_ascii_of_string s) with
  | POk a => r (type_check iter_fwd a) && r (type_check iter_rev a)
  | _ => false
  end.
Ltac run1 := vm_compute; reflexivity.
(** README.md:18-21 *)
Example readme_schema : compiles okb "Test: struct {
    value: uint8
}
export Test
" = true.
Proof. run1. Qed.
(** format.md:54-72 *)
Example format_schema : compiles okb "# This is a comment.
# Below is what a fairly complex packet may look like
Flag: enum { A, B }
Position: struct { x: float, y: float }
Value: struct { 
  a: uint32, b: int32, c: uint8, d: uint8
}
ComplexType: struct {
    flag: Flag,
    positions: Position[],
    names: string[],
    values: Value[],
    # Optional types exist, too
    test?: uint8,
}

export ComplexType
" = true.
Proof. run1. Qed.
(** format.md:92-97 *)
Example format_recursive : compiles (fails_with "Found a cycle between two or more top level definitions in type 'T'") "T: struct {
    v: T # Error
}

export T
" = true.
Proof. run1. Qed.
(** format.md:101-106, with a declaration of A *)
Example format_optional_array : compiles (fails_with "Field 'opt' in struct 'T' cannot be optional and array at once") "A: struct { x: uint8 }
T: struct {
    opt?: A[] # This is an error
}

export T
" = true.
Proof. run1. Qed.
(** resource/test.pkt *)
Example test_schema : compiles okb "# This is a comment.
# Below is what a fairly complex packet may look like
Flag: enum { A, B }
Position: struct { x: float, y: float }
Value: struct { 
  a: uint32, b: int32, c: uint8, d: uint8
}
ComplexType: struct {
    flag: Flag,
    positions: Position[],
    names: string[],
    values: Value[]
}

export ComplexType" = true.
Proof. run1. Qed.
(** resource/bench3KB.pkt *)
Example bench_schema : compiles okb "Wzqwz:struct {
    IMPC_X: int8[],
    KE: uint32[],
    SRGZI: uint8,
    QO: float,
    I_OCE: int16,
    RCS73: int32,
    NX: uint16,
    PC: string}

Tzgnhk:enum { ewaoJ8  ,ky4g
,sDdFa_
 ,n0F
,kBv }
Hqmhf5: struct {    AUBCLL: int8,
    AULRT: float,
    E5: string,
    F9: Wzqwz,
    _FTJ0T: int32,
    EFSFI: int16[],
    LFVDHC: uint16,
    FH: uint32,
    APL: Tzgnhk,
    OVCO: uint8[]}

Izs9z:enum{

i98Lw0,wJFo}
Nayisb: struct{
     FZRAB: string,
    BKLO: float,
    KAM: uint8,
    Y_LSJ: Wzqwz,
    F0CQLA: Izs9z,
    CN: int32,
    W_SBT3: uint32[],
    FGMK: int16,
    KG: int8[],
    QYFEIK: Tzgnhk,
    FG8BCL: Hqmhf5,
    O2HPH: uint16}

Qa5p8e: struct{    WDM48: uint8[],
    IH5J: uint16,
    ZJ: int32,
    _8: uint32,
    _Q: Izs9z[],
    HRVM0: Tzgnhk,
    LYD: Nayisb[],
    JDQA: float,
    MD_: string,
    VIPDA: Wzqwz,
    PT: int16,
    FIRF: int8,
    IFX: Hqmhf5[]}
H8qle:struct{    AK9B: Nayisb,
    NFAD: Wzqwz,
    X55: Hqmhf5,
    MKHMM: uint16}
Sfkd2e:struct {
     EGBSGC: Wzqwz,
    TGLJTL: string,
    EHHM: Hqmhf5,
    U5TS: Nayisb,
    HZYF: int8[],
    JTI_OX: float,
    F9ILR: uint32,
    GMUGXP: uint8,
    QMOEU: uint16,
    DVWCHP: Qa5p8e,
    _VJTRF: int16,
    UFN: H8qle,
    YF: Izs9z,
    WDH: Tzgnhk,
    XB2HKJ: int32}
Kulecr:struct{     ZLW: string,
    G80: int8,
    TX: int16,
    ZHYGX: uint16,
    Z18_L: Tzgnhk,
    FQEYF: float,
    ESW1V9: uint8,
    SQQ_X9: Nayisb[],
    JZ4: Hqmhf5,
    YYSA: int32[],
    GF5HI: Izs9z[],
    G9: uint32,
    TJHB: Sfkd2e,
    UDGRO: H8qle[],
    A8ZDFT: Wzqwz,
    A2QS: Qa5p8e}
Ps: struct {      KBIE6: H8qle,
    SVCT: uint8,
    TAQHQ: int32[],
    RI: Nayisb,
    SLAK: uint32[],
    JD: Kulecr,
    THB: Sfkd2e,
    JZPAX: uint16,
    PH5CO: int16,
    VJF: Hqmhf5[],
    FN: Tzgnhk,
    L0: string,
    YEO: int8,
    UY7VI: Wzqwz,
    BA: Izs9z,
    PB2WD: float,
    F4Z9Q: Qa5p8e}

Ytrh_:struct{
     DTQW: H8qle,
    DV_FCE: Qa5p8e,
    HUNW7Q: int32[],
    DU: string[],
    BY: Ps,
    FIW8: Kulecr,
    _AMLSH: uint16,
    TSC7X0: Izs9z,
    LPU: int8,
    XX0ALA: Hqmhf5,
    AGOSLC: Sfkd2e,
    GBU: int16,
    XDE: Tzgnhk,
    UUQ: Wzqwz,
    KHQIX: Nayisb,
    AHVCLZ: uint8[],
    NI: float[],
    HP: uint32}
#
Qp:enum{gnASL7,ug2i6S
,hcL8f
,tIgzW,yr2t1 ,q6,p14CIK ,qY ,eNp6xg,tI8C,_dUY
,nZu0W
 ,u5anu7  ,h3
,mMU4 ,ogRr5  ,u0d_D1 ,eeC ,nL ,sEEA  ,pK
}
Gslci: enum{
iyjlP,ue,bpUS,opx,sRd  ,wKE ,h3,cV_x ,m9HNYX  ,h0  ,rjbr
,tpaxdR ,aWk
,vrAt1  }

Tsd: struct {     WTWV: Kulecr,
    ZLA: int16,
    IRP: int8,
    ACW: Tzgnhk,
    NVIUEO: Wzqwz,
    FV_: Gslci[],
    FEN62M: Ps,
    D8N: uint8,
    GV: float[],
    XRET: Izs9z[],
    P1WO: H8qle}
Sff6: struct {    HO1ZK: int32,
    RT: int8,
    FR7: string[],
    ZK: Kulecr,
    POOLQ: Qa5p8e,
    SIK: H8qle,
    A4QQV: Qp,
    YKAZ: Gslci,
    S1: float,
    I2ONB: int16,
    EGC: Ytrh_,
    JJ: Izs9z,
    BF: Tzgnhk,
    PF: Wzqwz[],
    B_I: Ps[],
    BPOC: uint32,
    XBV: Hqmhf5,
    GM: Nayisb,
    DDOUI: uint8,
    C0: uint16,
    NA: Sfkd2e,
    OXFI: Tsd}

export Sff6
" = true.
Proof. run1. Qed.
