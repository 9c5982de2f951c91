(** Vocabulary for statements about emitted Rust of two schemas, or of two runs. *)
From Verif Require Export RsSpec EvolveSpec.

(** [P] holds of what any run on the first schema and any run on the second one emit. *)
Definition for_rusts (a1 a2 : ast) (P : rs_module -> rtype -> rs_module -> rtype -> Prop) : Prop :=
  for_rust a1 (fun m1 t1 => for_rust a2 (fun m2 t2 => P m1 t1 m2 t2)).

(** [P] holds of the TypeScript of a run that visits the declarations in the order of [iter1] and the Rust of a run that
    visits them in the order of [iter2]. A run of the compiler emits one language only (main.rs:68-77). *)
Definition for_apart (iter1 iter2 : gmap string atype -> list (string * atype)) (a : ast) (P : cls -> rtype -> rs_module -> rtype -> Prop) : Prop :=
  forall r1 r2 version1 version2 now1 now2 titer1 titer2, legal_ast a -> fair_types titer1 -> fair_types titer2 ->
    on_one_line version1 -> on_one_line version2 -> on_one_line now1 -> on_one_line now2 ->
    type_check iter1 a = Ok r1 -> type_check iter2 a = Ok r2 ->
    exists s1 s2 ds k m t1 t2, generate version1 now1 titer1 r1 = Ok s1 /\ rs_generate version2 now2 titer2 r2 = Ok s2 /\
      read_ts s1 = Some (ds, k) /\ read_rs s2 = Some m /\ exports a = [rm_type m] /\ k_name k = rm_type m /\
      denotes Permutation a (rm_type m) t1 /\ denotes Permutation a (rm_type m) t2 /\ P k t1 m t2.

(** [P] holds of the TypeScript and the Rust emitted for the first schema and of the TypeScript and the Rust emitted for
    the second one, each by a run of its own. *)
Definition for_four (a1 a2 : ast) (P : cls -> rs_module -> rtype -> cls -> rs_module -> rtype -> Prop) : Prop :=
  forall iter1 iter2 iter3 iter4, fair_order iter1 -> fair_order iter2 -> fair_order iter3 -> fair_order iter4 ->
    for_apart iter1 iter2 a1 (fun k1 _ m1 t1 => for_apart iter3 iter4 a2 (fun k2 _ m2 t2 => P k1 m1 t1 k2 m2 t2)).
