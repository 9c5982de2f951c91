(** Property theorems C81-C88: the Rust that src/lib/gen/rust.rs emits, at run time.

    [for_rust a P] says that every run of the compiler with the Rust back-end on the schema [a] that succeeds emits a text
    that reads as a module satisfying [P], where the second argument of [P] is the type that the schema gives its export;
    [for_both a P] speaks of what one run emits in both languages. [lib] stands for the crate packet, which is not part
    of the repository; [rs_lib_ok] says what is assumed of it. *)
From Verif Require Import RsWitness.

(** The assumptions can be met. *)
Example crate_exists : rs_lib_ok utf8_rs utf8_str /\ same_format utf8_lib utf8_rs ascii_ok /\ same_format latin1 utf8_rs ascii_ok /\ (forall s, ascii_ok s -> utf8_str s).
Proof. exact (conj utf8_rs_ok (conj utf8_format (conj latin1_format ascii_utf8))). Qed.
Example demo_fits : legal_ast demo_schema /\ accepted demo_schema /\ rust_names demo_schema /\ small_enums demo_schema /\ no_empty demo_schema.
Proof. repeat split; first [apply demo_facts|apply demo_rust]. Qed.

(** C81. The module declares the types that the export needs, each once and as the schema says. *)
Theorem C81_declarations : forall a, for_rust a (fun m t => NoDup (item_name <$> rm_items m) /\
  (forall n, n ∈ item_name <$> rm_items m <-> n ∉ builtin_names /\ needed a (rm_type m) n) /\ Forall (rs_declares a) (rm_items m)).
Proof. exact rust_declared. Qed.
Print Assumptions C81_declarations.
Example C81_nonvacuous : rm_items <$> demo_module = Some
  [IStruct "Position" [("x", RsType false false "f32"); ("y", RsType false false "f32")];
   IEnum "Flag" "u8" [("A", 0); ("B", 1)] "A" [(1%Z, "A"); (2%Z, "B")];
   IStruct "Value" [("a", RsType false false "u32"); ("b", RsType false false "i32"); ("c", RsType false false "u8"); ("d", RsType false false "u8")];
   IStruct "Complex" [("flag", RsType false false "Flag"); ("pos", RsType true false "Position"); ("names", RsType false true "String"); ("values", RsType false true "Value")];
   IStruct "Outer" [("id", RsType false false "u16"); ("inner", RsType false false "Complex")]].
Proof. by vm_compute. Qed.

(** C82. write appends the format of the value. *)
Theorem C82_wire_format : forall a lib str_ok, rust_names a -> for_rust a (fun m t => forall x v, stands str_ok t (rm_type m) x v ->
  rs_write lib m x = Some (wire (lb_enc lib) (lb_encs lib) t v)).
Proof. exact rust_writes. Qed.
Print Assumptions C82_wire_format.
Example C82_nonvacuous : stands utf8_str (TStruct (x_fields demo_export)) "Outer" demo_rval demo_value /\
  (match demo_module with Some m => rs_write utf8_rs m demo_rval | None => None end) = Some demo_bytes.
Proof. exact (conj demo_stands (proj1 demo_runs)). Qed.

(** C83. read gives back what was written, leaves what follows, and refuses every packet that has been cut off. *)
Theorem C83_round_trip : forall a lib str_ok, rs_lib_ok lib str_ok -> small_enums a -> rust_names a -> for_rust a (fun m t =>
  exists d, default_value (rm_items m) (rm_type m) = Some d /\
  forall x, typed str_ok t (rm_type m) x -> exists bytes, rs_write lib m x = Some bytes /\
    forall rest, exists i, rs_read lib m d (bytes ++ rest) = Good x i /\ ri_bytes i = rest).
Proof. exact rust_round_trip. Qed.
Print Assumptions C83_round_trip.
Theorem C83_truncated : forall a lib str_ok, rs_lib_ok lib str_ok -> small_enums a -> rust_names a -> for_rust a (fun m t =>
  exists d, default_value (rm_items m) (rm_type m) = Some d /\
  forall x bytes cut, typed str_ok t (rm_type m) x -> rs_write lib m x = Some bytes -> cut `prefix_of` bytes -> cut ≠ bytes ->
    exists i, rs_read lib m d cut = Bad i).
Proof. exact rust_truncated. Qed.
Print Assumptions C83_truncated.
Example C83_nonvacuous : typed utf8_str (TStruct (x_fields demo_export)) "Outer" demo_rval /\
  (match demo_module with Some m => match default_value (rm_items m) (rm_type m) with Some d => Some (rs_read utf8_rs m d demo_bytes) | None => None end | None => None end)
  = Some (Good demo_rval (RIn [] 13 3)).
Proof. split; [exists demo_value; exact demo_stands|exact (proj2 demo_runs)]. Qed.

(** C84. read takes exactly the packets of the format, and never a number that is no variant of its enum. *)
Theorem C84_decides : forall a lib str_ok, rs_lib_ok lib str_ok -> small_enums a -> rust_names a -> for_rust a (fun m t =>
  exists d, default_value (rm_items m) (rm_type m) = Some d /\ forall data,
  (exists x v i, rs_read lib m d data = Good x i /\ stands str_ok t (rm_type m) x v /\ packet lib str_ok t v data (ri_bytes i)) \/
  (exists i, rs_read lib m d data = Bad i /\ forall v rest, ~ packet lib str_ok t v data rest)).
Proof. exact rust_decides. Qed.
Print Assumptions C84_decides.
Theorem C84_takes : forall a lib str_ok, rs_lib_ok lib str_ok -> small_enums a -> rust_names a -> for_rust a (fun m t =>
  exists d, default_value (rm_items m) (rm_type m) = Some d /\ forall data v rest, packet lib str_ok t v data rest ->
  exists x i, rs_read lib m d data = Good x i /\ stands str_ok t (rm_type m) x v /\ ri_bytes i = rest).
Proof. exact rust_takes. Qed.
Print Assumptions C84_takes.
(** a packet that write never emits: any number but 0 says that an optional field is there *)
Example C84_nonvacuous : let t := TStruct (x_fields flag_export) in exists v data,
  packet utf8_rs utf8_str t v data [] /\ data ≠ wire (lb_enc utf8_rs) (lb_encs utf8_rs) t v.
Proof. exact flag_packet. Qed.

(** C85. What read leaves depends on the packet only: refuted. The arrays of the old value stay in front, and an optional
    field that the packet does not have keeps its value. *)
Theorem C85_appended_refuted : forall lib str_ok, rs_lib_ok lib str_ok -> accepted array_schema /\ for_rust array_schema (fun m t =>
  forall l, typed str_ok t (rm_type m) (RRec [("xs", RVec l)]) -> exists bytes i, rs_write lib m (RRec [("xs", RVec l)]) = Some bytes /\
    rs_read lib m (RRec [("xs", RVec l)]) bytes = Good (RRec [("xs", RVec (l ++ l))]) i).
Proof. exact doubled. Qed.
Print Assumptions C85_appended_refuted.
Theorem C85_kept_refuted : forall lib str_ok, rs_lib_ok lib str_ok -> accepted flag_schema /\ for_rust flag_schema (fun m t =>
  forall n, in_kind KU8 n -> exists bytes i, rs_write lib m (RRec [("x", ROpt None)]) = Some bytes /\
    rs_read lib m (RRec [("x", ROpt (Some (RNum n)))]) bytes = Good (RRec [("x", ROpt (Some (RNum n)))]) i).
Proof. exact kept. Qed.
Print Assumptions C85_kept_refuted.
Theorem C85_onto : forall a lib str_ok, rust_names a -> for_rust a (fun m t =>
  exists d, default_value (rm_items m) (rm_type m) = Some d /\ forall cur data, typed str_ok t (rm_type m) cur ->
  rs_read lib m cur data = match rs_read lib m d data with Good y i => Good (onto t cur y) i | Bad i => Bad i | Ill => Ill end).
Proof. exact rust_onto. Qed.
Print Assumptions C85_onto.
Theorem C85_packet_only_partial : forall a lib str_ok, rs_lib_ok lib str_ok -> small_enums a -> rust_names a -> for_rust a (fun m t => only_plain a (rm_type m) ->
  forall cur1 cur2 data, typed str_ok t (rm_type m) cur1 -> typed str_ok t (rm_type m) cur2 -> rs_read lib m cur1 data = rs_read lib m cur2 data).
Proof. exact rust_plain. Qed.
Print Assumptions C85_packet_only_partial.
Example C85_nonvacuous : accepted three_schema /\ only_plain three_schema "P" /\ rust_names three_schema /\ small_enums three_schema.
Proof. exact three_plain. Qed.

(** C86. Packets of either language are read by the other: for strings that both libraries encode alike. *)
Theorem C86_interoperate_partial : forall a rt lib rt_str str_ok both, rt_ok rt rt_str -> rs_lib_ok lib str_ok -> same_format rt lib both ->
  (forall s, both s -> str_ok s) -> small_enums a -> rust_names a ->
  for_both a (fun k m t => names_fine a k -> exists d, default_value (rm_items m) (rm_type m) = Some d /\
  forall v x h this, stands str_ok t (rm_type m) x v -> strings_in both v -> rep h this v ->
    exists bytes M, writes rt k h this (Done (bytes, M)) /\ rs_write lib m x = Some bytes /\ forall rest h',
      (exists l M, reads rt k h' (bytes ++ rest) (Done (JLoc l, M)) /\ rep (m_heap M) (JLoc l) v /\ r_rest (m_rd M) = rest) /\
      (exists i, rs_read lib m d (bytes ++ rest) = Good x i /\ ri_bytes i = rest)).
Proof. exact both_interoperate. Qed.
Print Assumptions C86_interoperate_partial.
Theorem C86_accents_refuted : accepted string_schema /\ for_both string_schema (fun k m t => exists d, default_value (rm_items m) (rm_type m) = Some d /\
  (* Rust to TypeScript *)
  (forall h, exists bytes l M, rs_write utf8_rs m (RRec [("s", RStr [195; 169]%Z)]) = Some bytes /\
     reads utf8_lib k h bytes (Done (JLoc l, M)) /\ get_prop (m_heap M) (JLoc l) "s" = Done (JStr [233%Z]) /\ r_rest (m_rd M) = []) /\
  (* TypeScript to Rust *)
  exists this_heap this bytes M i, rep this_heap this (VRec [("s", VStr [233%Z])]) /\ writes utf8_lib k this_heap this (Done (bytes, M)) /\ rs_read utf8_rs m d bytes = Bad i).
Proof. exact accents. Qed.
Print Assumptions C86_accents_refuted.
Example C86_nonvacuous : stands utf8_str (TStruct (x_fields demo_export)) "Outer" demo_rval demo_value /\ rep demo_heap (JLoc 0) demo_value /\
  strings_in ascii_ok demo_value /\ names_fine demo_schema (class_of demo_export).
Proof. exact demo_both. Qed.

(** C87. Both languages accept the same packets: what Rust accepts, TypeScript accepts. The converse is refuted by a sum
    of two variants, and by nothing else. *)
Theorem C87_included_partial : forall a rt lib rt_str str_ok both, rt_ok rt rt_str -> rs_lib_ok lib str_ok -> same_format rt lib both ->
  (forall s, both s -> str_ok s) -> small_enums a -> rust_names a ->
  for_both a (fun k m t => names_fine a k -> exists d, default_value (rm_items m) (rm_type m) = Some d /\
  forall h data x v i, rs_read lib m d data = Good x i -> stands str_ok t (rm_type m) x v -> strings_in both v ->
    exists l M, reads rt k h data (Done (JLoc l, M)) /\ rep (m_heap M) (JLoc l) v /\ r_rest (m_rd M) = ri_bytes i).
Proof. exact both_included. Qed.
Print Assumptions C87_included_partial.
Theorem C87_decided_partial : forall a rt lib rt_str str_ok both, rt_ok rt rt_str -> exact_strings rt -> rs_lib_ok lib str_ok -> same_format rt lib both ->
  (forall s, both s -> str_ok s) -> small_enums a -> rust_names a ->
  for_both a (fun k m t => names_fine a k -> exists d, default_value (rm_items m) (rm_type m) = Some d /\
  forall h data v rest, accepts rt t v data rest -> strings_in both v ->
    (exists l M, reads rt k h data (Done (JLoc l, M)) /\ rep (m_heap M) (JLoc l) v /\ r_rest (m_rd M) = rest) /\
    ((shape is_variant any_string t v /\ exists x i, rs_read lib m d data = Good x i /\ stands str_ok t (rm_type m) x v /\ ri_bytes i = rest) \/
     (~ shape is_variant any_string t v /\ exists i, rs_read lib m d data = Bad i))).
Proof. exact both_decided. Qed.
Print Assumptions C87_decided_partial.
Theorem C87_sums_refuted : forall rt rt_str lib str_ok both, rt_ok rt rt_str -> rs_lib_ok lib str_ok -> same_format rt lib both -> accepted three_schema /\
  for_both three_schema (fun k m t => exists d, default_value (rm_items m) (rm_type m) = Some d /\ forall h, exists data l M i,
    reads rt k h data (Done (JLoc l, M)) /\ get_prop (m_heap M) (JLoc l) "e" = Done (JNum (NInt 3)) /\ rs_read lib m d data = Bad i).
Proof. exact three_apart. Qed.
Print Assumptions C87_sums_refuted.

(** C88. Reading takes at most as many calls of the reader as the packet has bytes, and one more. The room that is reserved
    for a packet that is refused has no such bound; for packets that are accepted see PropItems.v. *)
Theorem C88_calls : forall a lib str_ok, rs_lib_ok lib str_ok -> rust_names a -> for_rust a (fun m t => forall cur data, typed str_ok t (rm_type m) cur ->
  match rs_read lib m cur data with
  | Good _ i => ri_calls i + length (ri_bytes i) <= length data
  | Bad i => ri_calls i + length (ri_bytes i) <= length data + 1
  | Ill => False
  end).
Proof. exact rust_calls. Qed.
Print Assumptions C88_calls.
Theorem C88_room_refuted : forall lib str_ok, rs_lib_ok lib str_ok -> accepted array_schema /\ for_rust array_schema (fun m t =>
  exists d, default_value (rm_items m) (rm_type m) = Some d /\
  forall z, (0 < z < 2 ^ 32)%Z -> exists data i, length data = 4 /\ rs_read lib m d data = Bad i /\ ri_room i = z /\ ri_calls i = 2).
Proof. exact reserves. Qed.
Print Assumptions C88_room_refuted.
Example C88_nonvacuous : typed utf8_str (TStruct (x_fields demo_export)) "Outer" demo_rval.
Proof. exists demo_value. exact demo_stands. Qed.
