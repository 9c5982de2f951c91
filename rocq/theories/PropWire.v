(** Property theorems C24-C38, C51, C61 and C68: the generated code at run time.

    [for_code a P] says that every run of the compiler on the schema [a] that succeeds emits code whose class
    satisfies [P], where the second argument of [P] is the type that the schema gives its export. [rt] stands for
    the runtime library; [rt_ok] says what is assumed of it, and Runtimes.v shows that the assumptions can be met. *)
From Verif Require Import WireWitness TsNewProofs AcceptWitness ReadWork.

(** The names used in a schema are harmless if and only if they are plain. *)
Theorem plain_names_suffice : forall a, plain_names a -> for_code a (fun k t => names_fine a k).
Proof. exact code_names. Qed.
Print Assumptions plain_names_suffice.
Theorem plain_names_exact : forall a, for_code a (fun k t => names_fine a k <-> plain_names a).
Proof. exact code_names_iff. Qed.
Print Assumptions plain_names_exact.
(** The assumptions can be met. *)
Example runtime_exists : rt_ok latin1 latin1_ok /\ exact_strings latin1 /\ rt_ok utf8_lib ascii_ok.
Proof. exact (conj latin1_rt_ok (conj latin1_exact utf8_rt_ok)). Qed.
Example demo_fits : legal_ast demo_schema /\ accepted demo_schema /\ plain_names demo_schema /\ small_enums demo_schema /\ all_fixed demo_schema /\
  no_inherited demo_schema /\ no_empty demo_schema.
Proof. exact demo_facts. Qed.
Example snake_fits : plain_names snake_schema /\ legal_ast snake_schema /\ accepted snake_schema.
Proof. exact snake_plain. Qed.

(** C24. write returns the documented format: with the fields in the order of the run, and in declared order where
    the compiler keeps it. *)
Theorem C24_wire_format : forall a rt, for_code a (fun k t => write_ready k -> forall v h this, writable t v -> rep h this v ->
  exists M, writes rt k h this (Done (wire (rt_enc rt) (rt_encs rt) t v, M))).
Proof. exact code_writes. Qed.
Print Assumptions C24_wire_format.
Theorem C24_wire_format_declared : forall a rt, all_fixed a -> for_code_declared a (fun k t => write_ready k -> forall v h this, writable t v -> rep h this v ->
  exists M, writes rt k h this (Done (wire (rt_enc rt) (rt_encs rt) t v, M))).
Proof. exact code_writes_declared. Qed.
Print Assumptions C24_wire_format_declared.
Example C24_nonvacuous : export_of demo_schema = Ok demo_export /\ has_type latin1_ok (TStruct (x_fields demo_export)) demo_value /\ rep demo_heap (JLoc 0) demo_value /\
  wire (rt_enc latin1) (rt_encs latin1) (TStruct (x_fields demo_export)) demo_value = demo_bytes.
Proof. split; [by vm_compute|]. split; [exact demo_typed|]. split; [exact demo_rep|by vm_compute]. Qed.
Example C24_run : fst <$> (match call_write latin1 20 (class_of demo_export) demo_heap (JLoc 0) with Some (Done x) => Some x | _ => None end) = Some demo_bytes /\
  fst <$> (match call_read latin1 20 (class_of demo_export) [] demo_bytes with Some (Done x) => Some x | _ => None end) = Some (JLoc 0).
Proof. exact demo_run. Qed.

(** C25. read inverts write. *)
Theorem C25_round_trip : forall a rt str_ok, rt_ok rt str_ok -> small_enums a -> for_code a (fun k t => names_fine a k ->
  forall v h this, has_type str_ok t v -> rep h this v -> exists bytes M, writes rt k h this (Done (bytes, M)) /\
    exists l M', reads rt k (m_heap M) bytes (Done (JLoc l, M')) /\ rep (m_heap M') (JLoc l) v).
Proof. exact code_round_trip. Qed.
Print Assumptions C25_round_trip.
Example C25_nonvacuous : small_enums demo_schema /\ names_fine demo_schema (class_of demo_export) /\
  has_type latin1_ok (TStruct (x_fields demo_export)) demo_value /\ rep demo_heap (JLoc 0) demo_value.
Proof.
  split; [apply demo_facts|]. split; [|exact (conj demo_typed demo_rep)]. apply export_fine; [apply demo_facts|by vm_compute|apply demo_facts].
Qed.

(** C26. Packets are self-delimiting. *)
Theorem C26_self_delimiting : forall a rt str_ok, rt_ok rt str_ok -> small_enums a -> for_code a (fun k t => names_fine a k ->
  forall v h this bytes M rest h', has_type str_ok t v -> rep h this v -> writes rt k h this (Done (bytes, M)) ->
    exists l M', reads rt k h' (bytes ++ rest) (Done (JLoc l, M')) /\ rep (m_heap M') (JLoc l) v /\ r_rest (m_rd M') = rest).
Proof. exact code_delimits. Qed.
Print Assumptions C26_self_delimiting.
Theorem C26_prefix_free : forall a rt str_ok, rt_ok rt str_ok -> small_enums a -> for_code a (fun k t => write_ready k ->
  forall v1 v2 h1 h2 this1 this2 b1 b2 M1 M2, has_type str_ok t v1 -> has_type str_ok t v2 -> rep h1 this1 v1 -> rep h2 this2 v2 ->
    writes rt k h1 this1 (Done (b1, M1)) -> writes rt k h2 this2 (Done (b2, M2)) -> b1 `prefix_of` b2 -> v1 = v2).
Proof. exact code_prefix_free. Qed.
Print Assumptions C26_prefix_free.
Example C26_nonvacuous : r_rest <$> (match call_read latin1 20 (class_of demo_export) [] (demo_bytes ++ ["x"%char]) with
  Some (Done (JLoc _, M)) => Some (m_rd M) | _ => None end) = Some ["x"%char].
Proof. by vm_compute. Qed.

(** C27. Truncated packets are reported. *)
Theorem C27_truncated : forall a rt str_ok, rt_ok rt str_ok -> small_enums a -> for_code a (fun k t => names_fine a k ->
  forall v h this bytes M cut h', has_type str_ok t v -> rep h this v -> writes rt k h this (Done (bytes, M)) ->
    cut `prefix_of` bytes -> cut ≠ bytes -> exists M', reads rt k h' cut (Done (JNull, M'))).
Proof. exact code_truncated. Qed.
Print Assumptions C27_truncated.
Example C27_nonvacuous : map (fun n => fst <$> (match call_read latin1 20 (class_of demo_export) [] (take n demo_bytes) with Some (Done x) => Some x | _ => None end))
  (seq 0 (length demo_bytes)) = replicate 32 (Some JNull).
Proof. by vm_compute. Qed.

(** C28. read never throws, provided that the names are harmless; it does throw if a field of the export is called
    like a property that functions have and that cannot be assigned. *)
Theorem C28_never_throws_partial : forall a rt str_ok, rt_ok rt str_ok -> for_code a (fun k t => names_fine a k ->
  forall h data, exists x M, reads rt k h data (Done (x, M)) /\ (x = JNull \/ exists l, x = JLoc l)).
Proof. exact code_never_throws. Qed.
Print Assumptions C28_never_throws_partial.
Theorem C28_never_throws_refuted : forall f rt, f ∈ readonly_names ->
  accepted (name_schema f) /\ for_code (name_schema f) (fun k t => forall h data, exists e, reads rt k h data (Throws e)).
Proof. exact readonly_throws. Qed.
Print Assumptions C28_never_throws_refuted.
Example C28_nonvacuous : "name" ∈ readonly_names /\ "length" ∈ readonly_names /\ names_fine demo_schema (class_of demo_export).
Proof.
  split; [by apply (bool_decide_unpack _); vm_compute|]. split; [by apply (bool_decide_unpack _); vm_compute|]. apply C25_nonvacuous.
Qed.

(** C29. Numbers between the first and the last variant get through, whether declared or not. *)
Theorem C29_enum_values_refuted : exists a, accepted a /\ plain_names a /\ small_enums a /\ forall rt str_ok, rt_ok rt str_ok -> for_code a (fun k t => forall h, exists data l M v,
  reads rt k h data (Done (JLoc l, M)) /\ rep (m_heap M) (JLoc l) v /\ writable t v /\ ~ has_type any_string t v /\
  get_prop (m_heap M) (JLoc l) "e" = Done (JNum (NInt 3))).
Proof. exact undeclared_refuted. Qed.
Print Assumptions C29_enum_values_refuted.
Theorem C29_enum_range_partial : forall a rt str_ok, rt_ok rt str_ok -> for_code a (fun k t => names_fine a k ->
  forall h data l M, reads rt k h data (Done (JLoc l, M)) -> exists v, rep (m_heap M) (JLoc l) v /\ shape from_first_to_last any_string t v).
Proof. exact code_enum_range. Qed.
Print Assumptions C29_enum_range_partial.
Theorem C29_enum_declared_partial : forall a rt str_ok, rt_ok rt str_ok -> tiny_enums a -> for_code a (fun k t => names_fine a k ->
  forall h data l M, reads rt k h data (Done (JLoc l, M)) -> exists v, rep (m_heap M) (JLoc l) v /\ has_type any_string t v).
Proof. exact code_enum_declared. Qed.
Print Assumptions C29_enum_declared_partial.
Example C29_nonvacuous : tiny_enums demo_schema /\
  fst <$> (match call_read latin1 20 (class_of demo_export) [] demo_bytes with Some (Done x) => Some x | _ => None end) = Some (JLoc 0) /\
  (* flag = 3 *)
  fst <$> (match call_read latin1 20 (class_of demo_export) [] (<[2 := ascii_of_N 3]> demo_bytes) with Some (Done x) => Some x | _ => None end) = Some JNull.
Proof. split; [|by vm_compute]. assert (forall n vs, declares_enum demo_schema n vs -> length vs <= 2) as H by (decl_cases; cbn; lia). exact H. Qed.

(** C30. Enums of up to 31 variants can be transmitted; no variant of an enum with 32 variants can. *)
Theorem C30_variants_partial : forall vs rt str_ok, 1 <= length vs <= 31 -> NoDup vs -> Forall (fun v => legal_name (txt v)) vs -> rt_ok rt str_ok ->
  accepted (enum_schema vs) /\ for_code (enum_schema vs) (fun k t => forall i h this h', i < length vs ->
    rep h this (VRec [("e", VNum (variant_value i))]) -> exists bytes M l M', writes rt k h this (Done (bytes, M)) /\
      reads rt k h' bytes (Done (JLoc l, M')) /\ get_prop (m_heap M') (JLoc l) "e" = Done (JNum (variant_value i))).
Proof. exact variants_transmitted. Qed.
Print Assumptions C30_variants_partial.
Theorem C30_variants_refuted : forall vs rt str_ok, length vs = 32 -> NoDup vs -> Forall (fun v => legal_name (txt v)) vs -> rt_ok rt str_ok ->
  accepted (enum_schema vs) /\ for_code (enum_schema vs) (fun k t => forall i h this h', i < length vs ->
    rep h this (VRec [("e", VNum (variant_value i))]) -> exists bytes M M', writes rt k h this (Done (bytes, M)) /\ reads rt k h' bytes (Done (JNull, M'))).
Proof. exact big_enum_refuted. Qed.
Print Assumptions C30_variants_refuted.
Example C30_nonvacuous : length many_names = 32 /\ NoDup many_names /\ Forall (fun v => legal_name (txt v)) many_names /\
  rep [OPlain PClass [("e", JNum (variant_value 5))]] (JLoc 0) (VRec [("e", VNum (variant_value 5))]).
Proof.
  destruct many_facts as (H1 & H2 & H3). split; [exact H1|]. split; [exact H2|]. split; [exact H3|].
  eexists _, _, _. split; [done|]. split; [done|]. split; [|done]. by eexists.
Qed.

(** C31. A field called __proto__ is lost (fields called as in C28 make read throw). *)
Theorem C31_field_names_partial : forall a rt str_ok, rt_ok rt str_ok -> for_code a (fun k t => names_fine a k ->
  forall h data l M, reads rt k h data (Done (JLoc l, M)) -> exists v, rep (m_heap M) (JLoc l) v /\ writable t v).
Proof. exact code_stores. Qed.
Print Assumptions C31_field_names_partial.
Theorem C31_field_names_refuted : forall rt str_ok, rt_ok rt str_ok -> accepted (name_schema "__proto__") /\ for_code (name_schema "__proto__") (fun k t => forall z h, in_kind KU8 (NInt z) ->
  exists l M, reads rt k h (rt_enc rt KU8 (NInt z)) (Done (JLoc l, M)) /\ get_prop (m_heap M) (JLoc l) "__proto__" = Done JFun /\ m_heap M !! l = Some (OPlain PCtor [])).
Proof. exact proto_lost. Qed.
Print Assumptions C31_field_names_refuted.
Example C31_nonvacuous : in_kind KU8 (NInt 200) /\ rt_enc latin1 KU8 (NInt 200) = [ascii_of_N 200] /\ names_fine demo_schema (class_of demo_export).
Proof. split; [by cbn|]. split; [by vm_compute|apply C25_nonvacuous]. Qed.

(** C32. Strings that the runtime library transmits faithfully survive. With a runtime library that encodes strings
    as UTF-8, others do not: the length that is written counts UTF-16 units, and read takes it to be in bytes. *)
Theorem C32_strings_partial : forall rt str_ok, rt_ok rt str_ok -> accepted string_schema /\ for_code string_schema (fun k t =>
  forall s h this h', str_ok s -> (Z.of_nat (length s) < 2 ^ 32)%Z ->
  rep h this (VRec [("s", VStr s)]) -> exists bytes M l M', writes rt k h this (Done (bytes, M)) /\ reads rt k h' bytes (Done (JLoc l, M')) /\
    get_prop (m_heap M') (JLoc l) "s" = Done (JStr s) /\ r_rest (m_rd M') = []).
Proof. exact strings_survive. Qed.
Print Assumptions C32_strings_partial.
Theorem C32_strings_refuted : for_code string_schema (fun k t => forall h, exists this_heap this bytes M l M',
  rep this_heap this (VRec [("s", VStr [233%Z])]) /\ writes utf8_lib k this_heap this (Done (bytes, M)) /\ reads utf8_lib k h bytes (Done (JLoc l, M')) /\
  get_prop (m_heap M') (JLoc l) "s" = Done (JStr [65533%Z]) /\ r_rest (m_rd M') ≠ []).
Proof. exact utf8_strings_refuted. Qed.
Print Assumptions C32_strings_refuted.
Example C32_nonvacuous : ascii_ok [104; 105]%Z /\ latin1_ok [233]%Z /\ ~ ascii_ok [233]%Z /\
  rt_encs utf8_lib [233]%Z = [ascii_of_N 195; ascii_of_N 169] /\ rt_encs utf8_lib [104; 105]%Z = ["h"%char; "i"%char].
Proof.
  split; [repeat constructor; lia|]. split; [repeat constructor; lia|]. split; [|by vm_compute]. intros H. apply Forall_cons in H as [H _]. lia.
Qed.

(** C33. The work done for an accepted packet is bounded by its length; a rejected packet of four bytes can cause
    2^32 reads. *)
Theorem C33_work_partial : forall a rt str_ok, rt_ok rt str_ok -> for_code a (fun k t => names_fine a k ->
  forall h data l M, reads rt k h data (Done (JLoc l, M)) -> r_calls (m_rd M) + length (r_rest (m_rd M)) <= length data).
Proof. exact code_cheap. Qed.
Print Assumptions C33_work_partial.
(** without arrays the work is bounded by the schema alone, for rejected packets too *)
Theorem C33_no_arrays_partial : forall a rt str_ok, rt_ok rt str_ok -> no_arrays a -> for_code a (fun k t => names_fine a k ->
  forall h data x M, reads rt k h data (Done (x, M)) -> r_calls (m_rd M) <= most_calls t).
Proof. exact code_calls. Qed.
Print Assumptions C33_no_arrays_partial.
(** with arrays, for any packet: each array may have the largest length, whatever a failed reader answers *)
Theorem C33_any_packet_partial : forall a rt str_ok, rt_ok rt str_ok -> for_code a (fun k t => names_fine a k ->
  forall h data x M, reads rt k h data (Done (x, M)) -> (Z.of_nat (r_calls (m_rd M)) <= most_reads t)%Z).
Proof. exact code_reads. Qed.
Print Assumptions C33_any_packet_partial.
(** if a failed reader answers 0, nested arrays do not multiply: the calls that the packet does not pay for are bounded by
    2^32 for each place of the code that calls the reader *)
Theorem C33_failed_zero_partial : forall a rt str_ok, rt_ok rt str_ok -> zero_after_failure rt -> for_code a (fun k t => names_fine a k ->
  forall h data x M, reads rt k h data (Done (x, M)) -> (Z.of_nat (r_calls (m_rd M)) <= Z.of_nat (length data) + 2 ^ 32 * read_places t)%Z).
Proof. exact code_paid. Qed.
Print Assumptions C33_failed_zero_partial.
Theorem C33_work_refuted : forall rt str_ok, rt_ok rt str_ok -> accepted array_schema /\ for_code array_schema (fun k t => forall z h, (0 < z < 2 ^ 32)%Z ->
  exists data M, length data = 4 /\ reads rt k h data (Done (JNull, M)) /\ Z.of_nat (r_calls (m_rd M)) = (z + 1)%Z).
Proof. exact long_reads. Qed.
Print Assumptions C33_work_refuted.
Example C33_nonvacuous : (r_calls <$> (match call_read latin1 20 (class_of demo_export) [] demo_bytes with Some (Done (JLoc _, M)) => Some (m_rd M) | _ => None end)) = Some 13 /\
  length demo_bytes = 32.
Proof. by vm_compute. Qed.

Example C33_no_arrays : no_arrays flag_schema /\ most_calls (TStruct (x_fields flag_export)) = 2 /\
  (r_calls <$> (match call_read latin1 20 (class_of flag_export) [] [ascii_of_N 9] with Some (Done (JNull, M)) => Some (m_rd M) | _ => None end)) = Some 2.
Proof. split; [apply flag_no_float|]. split; [apply flag_no_float|by vm_compute]. Qed.

(** the first bound is reached by the packet of [C33_work_refuted] *)
Example C33_any_packet : most_reads (TStruct (x_fields array_export)) = (2 ^ 32)%Z /\ read_places (TStruct (x_fields array_export)) = 2%Z /\ zero_after_failure latin1.
Proof. split; [done|]. split; [done|exact latin1_zero]. Qed.

(** C34. Integers, strings, enums, arrays and structs have one encoding; the flag of an optional field has 255. *)
Theorem C34_one_encoding_partial : forall a rt str_ok, rt_ok rt str_ok -> exact_strings rt -> no_opt_float a -> for_code a (fun k t => names_fine a k ->
  forall h data l M, reads rt k h data (Done (JLoc l, M)) ->
    exists v, rep (m_heap M) (JLoc l) v /\ data = wire (rt_enc rt) (rt_encs rt) t v ++ r_rest (m_rd M)).
Proof. exact code_exact. Qed.
Print Assumptions C34_one_encoding_partial.
(** with optional fields: packets that read as the same value differ in flags at most *)
Theorem C34_flags_only_partial : forall a rt str_ok, rt_ok rt str_ok -> exact_strings rt -> small_enums a -> no_float a -> for_code a (fun k t => names_fine a k ->
  forall h data l M, reads rt k h data (Done (JLoc l, M)) ->
    exists v w, rep (m_heap M) (JLoc l) v /\ data = w ++ r_rest (m_rd M) /\ Forall2 (flag_apart rt) w (wire (rt_enc rt) (rt_encs rt) t v)).
Proof. exact code_flags_only. Qed.
Print Assumptions C34_flags_only_partial.
(** with floats as well: they have the same length *)
Theorem C34_same_length_partial : forall a rt str_ok, rt_ok rt str_ok -> exact_strings rt -> small_enums a -> for_code a (fun k t => names_fine a k ->
  forall h data l M, reads rt k h data (Done (JLoc l, M)) ->
    exists v, rep (m_heap M) (JLoc l) v /\ length data = length (wire (rt_enc rt) (rt_encs rt) t v) + length (r_rest (m_rd M))).
Proof. exact code_same_length. Qed.
Print Assumptions C34_same_length_partial.
Theorem C34_one_encoding_refuted : forall rt str_ok, rt_ok rt str_ok -> accepted flag_schema /\ for_code flag_schema (fun k t => forall h, exists data l M v,
  reads rt k h data (Done (JLoc l, M)) /\ r_rest (m_rd M) = [] /\ rep (m_heap M) (JLoc l) v /\ has_type str_ok t v /\
  forall h' this bytes M', rep h' this v -> writes rt k h' this (Done (bytes, M')) -> bytes ≠ data).
Proof. exact two_encodings. Qed.
Print Assumptions C34_one_encoding_refuted.
Example C34_nonvacuous : no_opt_float order_schema /\ ~ no_opt_float flag_schema.
Proof.
  split.
  - assert (forall n fs, declares_struct order_schema n fs -> Forall (fun d => u_opt d.2 = false /\ u_name d.2 ≠ "float") fs) as H.
    { decl_cases; repeat (apply Forall_cons; split; [by split|]); apply Forall_nil; exact I. }
    intros n fs f u Hd Hin. specialize (H n fs Hd). rewrite Forall_forall in H. by apply (H (f, u)).
  - intros H. destruct (H "P" [("x", opt "uint8")] "x" (opt "uint8")) as [? _]; [left|left|done].
Qed.

Example C34_flags : no_float flag_schema /\ small_enums demo_schema /\
  let t := TStruct (x_fields flag_export) in let v := VRec [("x", VNum (NInt 7))] in
  accepts latin1 t v [ascii_of_N 9; ascii_of_N 7] [] /\ wire (rt_enc latin1) (rt_encs latin1) t v = [ascii_of_N 1; ascii_of_N 7] /\
  flag_apart latin1 (ascii_of_N 9) (ascii_of_N 1) /\ ~ flag_apart latin1 (ascii_of_N 0) (ascii_of_N 1) /\ ~ flag_apart latin1 (ascii_of_N 9) (ascii_of_N 7).
Proof. split; [apply flag_no_float|]. split; [apply demo_facts|]. exact flag_accepts. Qed.

(** C35. Two runs agree if the compiler keeps the declared order; otherwise they may not. *)
Theorem C35_interoperate_partial : forall a rt str_ok iter1 iter2, rt_ok rt str_ok -> small_enums a -> all_fixed a ->
  fair_order iter1 -> fair_order iter2 -> for_runs iter1 iter2 a (fun k1 k2 t => names_fine a k2 ->
  forall v h this bytes M h', has_type str_ok t v -> rep h this v -> writes rt k1 h this (Done (bytes, M)) ->
    exists l M', reads rt k2 h' bytes (Done (JLoc l, M')) /\ rep (m_heap M') (JLoc l) v).
Proof. exact runs_interop. Qed.
Print Assumptions C35_interoperate_partial.
Theorem C35_interoperate_refuted : exists a iter1 iter2, accepted a /\ plain_names a /\ small_enums a /\ fair_order iter1 /\ fair_order iter2 /\
  forall rt str_ok, rt_ok rt str_ok -> for_runs iter1 iter2 a (fun k1 k2 t =>
    exists v h this bytes M l M', has_type str_ok t v /\ rep h this v /\ writes rt k1 h this (Done (bytes, M)) /\
      reads rt k2 h bytes (Done (JLoc l, M')) /\ get_prop h this "x" = Done (JNum (NInt 2)) /\ get_prop (m_heap M') (JLoc l) "x" = Done (JNum (NInt 1))).
Proof. exact runs_differ. Qed.
Print Assumptions C35_interoperate_refuted.
Example C35_nonvacuous : all_fixed demo_schema /\ fair_order iter_fwd /\ fair_order iter_rev /\ is_ok (type_check iter_rev demo_schema).
Proof. split; [apply demo_facts|]. split; [apply fair_fwd|]. split; [apply fair_rev|]. apply okb_ok. by vm_compute. Qed.

(** C36. The object that read returns has no write method (unless a field is called write), although passing it to
    write as this would work. *)
Theorem C36_rewrite_refuted : forall a rt str_ok, rt_ok rt str_ok -> for_code a (fun k t => names_fine a k -> "write" ∉ (k_params k).*1 ->
  forall h data l M, reads rt k h data (Done (JLoc l, M)) -> calls_write rt k (m_heap M) (JLoc l) (Throws "TypeError")).
Proof. exact result_has_no_write. Qed.
Print Assumptions C36_rewrite_refuted.
Theorem C36_rewrite_partial : forall a rt str_ok, rt_ok rt str_ok -> for_code a (fun k t => names_fine a k ->
  forall h data l M, reads rt k h data (Done (JLoc l, M)) ->
    exists v M', rep (m_heap M) (JLoc l) v /\ writes rt k (m_heap M) (JLoc l) (Done (wire (rt_enc rt) (rt_encs rt) t v, M'))).
Proof. exact code_rewrites. Qed.
Print Assumptions C36_rewrite_partial.
Example C36_nonvacuous : names_fine demo_schema (class_of demo_export) /\ "write" ∉ (k_params (class_of demo_export)).*1 /\
  (match call_read latin1 20 (class_of demo_export) [] demo_bytes with Some (Done (x, M)) => get_prop (m_heap M) x "write" | _ => Stuck end) = Done JUndef /\
  get_prop demo_heap (JLoc 0) "write" = Done JFun.
Proof. split; [apply C25_nonvacuous|]. split; [apply (bool_decide_unpack _); by vm_compute|]. by vm_compute. Qed.

(** C37. The size of a packet. *)
Theorem C37_size : forall a rt str_ok, rt_ok rt str_ok -> for_code a (fun k t => write_ready k -> forall v h this bytes M, writable t v -> rep h this v ->
  writes rt k h this (Done (bytes, M)) -> length bytes = byte_size (rt_encs rt) t v).
Proof. exact code_size. Qed.
Print Assumptions C37_size.
Example C37_nonvacuous : byte_size (rt_encs latin1) (TStruct (x_fields demo_export)) demo_value = 32.
Proof. by vm_compute. Qed.

(** C38. read and write change no object that existed before. *)
Theorem C38_no_effect : forall a rt str_ok, rt_ok rt str_ok -> for_code a (fun k t =>
  (names_fine a k -> forall h data x M, reads rt k h data (Done (x, M)) -> forall p, p < length h -> m_heap M !! p = h !! p) /\
  (write_ready k -> forall v h this bytes M, writable t v -> rep h this v -> writes rt k h this (Done (bytes, M)) -> m_heap M = h)).
Proof. exact code_no_effect. Qed.
Print Assumptions C38_no_effect.
Example C38_nonvacuous : (match call_read latin1 20 (class_of demo_export) demo_heap demo_bytes with Some (Done (x, M)) => Some (x, take 5 (m_heap M)) | _ => None end) =
  Some (JLoc 5, demo_heap).
Proof. by vm_compute. Qed.

(** C51. Optional fields may be left out of the objects given to write, except fields that are called like something
    every object inherits: each of those names makes it fail. *)
Theorem C51_left_out_partial : forall a rt, no_inherited a -> for_code a (fun k t => write_ready k -> forall v h this, writable t v -> holds h this v ->
  exists M, writes rt k h this (Done (wire (rt_enc rt) (rt_encs rt) t v, M))).
Proof. exact code_omitted. Qed.
Print Assumptions C51_left_out_partial.
Theorem C51_left_out_refuted : forall rt str_ok f, rt_ok rt str_ok -> f ∈ "write" :: object_names ->
  accepted (omit_schema f) /\ (no_underscore f -> plain_names (omit_schema f)) /\ for_code (omit_schema f) (fun k t => exists v h this bytes M,
  has_type str_ok t v /\ holds h this v /\ writes rt k h this (Done (bytes, M)) /\ bytes ≠ wire (rt_enc rt) (rt_encs rt) t v).
Proof. exact omitted_refuted. Qed.
Print Assumptions C51_left_out_refuted.
Example C51_nonvacuous : no_inherited demo_schema /\ "toString" ∈ object_names.
Proof. split; [apply demo_facts|]. apply (bool_decide_unpack _). by vm_compute. Qed.

(** C61. new K(...) with the field values in declared order gives an object that stands for them, and calling its write
    method gives the documented format, if the compiler keeps the declared order and no field of the export is called
    __proto__ or write. *)
Theorem C61_construct_partial : forall a rt, all_fixed a -> for_code_declared a (fun k t => write_ready k -> "__proto__" ∉ (k_params k).*1 ->
  forall fs h args, writable t (VRec fs) -> Forall2 (rep h) args fs.*2 ->
  exists x h', construct k h args = Done (x, h') /\ rep h' x (VRec fs) /\
    ("write" ∉ fs.*1 -> exists M, calls_write rt k h' x (Done (wire (rt_enc rt) (rt_encs rt) t (VRec fs), M)))).
Proof. exact code_built_declared. Qed.
Print Assumptions C61_construct_partial.
(** the same with the parameters in the order of the run *)
Theorem C61_construct_run_partial : forall a rt, for_code a (fun k t => write_ready k -> "__proto__" ∉ (k_params k).*1 ->
  forall fs h args, writable t (VRec fs) -> Forall2 (rep h) args fs.*2 ->
  exists x h', construct k h args = Done (x, h') /\ rep h' x (VRec fs) /\
    ("write" ∉ fs.*1 -> exists M, calls_write rt k h' x (Done (wire (rt_enc rt) (rt_encs rt) t (VRec fs), M)))).
Proof. exact code_built. Qed.
Print Assumptions C61_construct_run_partial.
Theorem C61_parameter_order_refuted : exists a iter1 iter2, accepted a /\ plain_names a /\ fair_order iter1 /\ fair_order iter2 /\
  for_runs iter1 iter2 a (fun k1 k2 t => forall h v w, exists x h1 h2, construct k1 h [v; w] = Done (x, h1) /\ construct k2 h [v; w] = Done (x, h2) /\
    get_prop h1 x "x" = Done w /\ get_prop h2 x "x" = Done v).
Proof. exact params_differ. Qed.
Print Assumptions C61_parameter_order_refuted.
Theorem C61_write_field_refuted : forall rt, accepted (name_schema "write") /\ plain_names (name_schema "write") /\ for_code (name_schema "write") (fun k t => forall h n,
  exists x h', construct k h [JNum n] = Done (x, h') /\ rep h' x (VRec [("write", VNum n)]) /\ calls_write rt k h' x (Throws "TypeError")).
Proof. exact write_hidden. Qed.
Print Assumptions C61_write_field_refuted.
Example C61_nonvacuous : all_fixed demo_schema /\ construct (class_of demo_export) (drop 1 demo_heap) [jnum 513; JLoc 0] =
    Done (JLoc 4, drop 1 demo_heap ++ [OPlain PClass [("id", jnum 513); ("inner", JLoc 0)]]) /\
  construct (class_of demo_export) [] [jnum 1] = Done (JLoc 0, [OPlain PClass [("id", jnum 1); ("inner", JUndef)]]).
Proof. split; [apply demo_facts|]. by vm_compute. Qed.

(** C68. read accepts exactly the packets of the format, gives the value they stand for and stops behind it; for all
    other bytes it returns null. *)
Theorem C68_accepted_packets : forall a rt str_ok, rt_ok rt str_ok -> small_enums a -> for_code a (fun k t => names_fine a k -> forall h data,
  (exists v rest l M, accepts rt t v data rest /\ reads rt k h data (Done (JLoc l, M)) /\ rep (m_heap M) (JLoc l) v /\ r_rest (m_rd M) = rest /\
     forall v' rest', accepts rt t v' data rest' -> v' = v /\ rest' = rest) \/
  ((forall v rest, ~ accepts rt t v data rest) /\ exists M, reads rt k h data (Done (JNull, M)))).
Proof. exact code_accepts. Qed.
Print Assumptions C68_accepted_packets.
Example C68_nonvacuous : let t := TStruct (x_fields demo_export) in accepts latin1 t demo_value (demo_bytes ++ ["x"%char]) ["x"%char] /\
  forall v rest, ~ accepts latin1 t v (take 2 demo_bytes ++ [ascii_of_N 4] ++ drop 3 demo_bytes) rest.
Proof. exact demo_accepts. Qed.
