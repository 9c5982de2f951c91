(** Property theorems C98 and C99: the packets that the emitted Rust reads, beside the ones that it writes. *)
From Verif Require Import RsOneWitness.

(** C98. Everything that was read can be written again: write succeeds, its packet has as many bytes as were read, and
    reading it gives the same value, whatever follows. *)
Theorem C98_rewrite : forall a lib str_ok, rs_lib_ok lib str_ok -> small_enums a -> rust_names a -> for_rust a (fun m t =>
  exists d, default_value (rm_items m) (rm_type m) = Some d /\ forall data x i, rs_read lib m d data = Good x i ->
    exists bytes, rs_write lib m x = Some bytes /\ length data = length bytes + length (ri_bytes i) /\
      forall rest, exists j, rs_read lib m d (bytes ++ rest) = Good x j /\ ri_bytes j = rest).
Proof. exact rust_rewrite. Qed.
Print Assumptions C98_rewrite.
Example C98_nonvacuous : accepted demo_schema /\ small_enums demo_schema /\ rust_names demo_schema /\ rs_lib_ok utf8_rs utf8_str /\
  stands utf8_str (TStruct (x_fields demo_export)) "Outer" demo_rval demo_value.
Proof. split; [apply demo_facts|]. split; [apply demo_facts|]. split; [exact demo_rust|]. split; [exact utf8_rs_ok|exact demo_stands]. Qed.
(** The packet is not the one that was read in general: any flag but 0 says that an optional field is there. *)
Theorem C98_one_encoding_refuted : forall lib str_ok, rs_lib_ok lib str_ok -> accepted flag_schema /\ for_rust flag_schema (fun m t =>
  exists d, default_value (rm_items m) (rm_type m) = Some d /\
  exists bytes, rs_write lib m (RRec [("x", ROpt (Some (RNum (NInt 7))))]) = Some bytes /\
    exists data i, rs_read lib m d data = Good (RRec [("x", ROpt (Some (RNum (NInt 7))))]) i /\ ri_bytes i = [] /\ data ≠ bytes).
Proof. exact rust_two_encodings. Qed.
Print Assumptions C98_one_encoding_refuted.
(** Without floats nothing but these flags can differ, *)
Theorem C98_flags_only_partial : forall a lib str_ok, rs_lib_ok lib str_ok -> small_enums a -> rust_names a -> no_float a -> for_rust a (fun m t =>
  exists d, default_value (rm_items m) (rm_type m) = Some d /\ forall data x i, rs_read lib m d data = Good x i ->
    exists w bytes, rs_write lib m x = Some bytes /\ data = w ++ ri_bytes i /\ Forall2 (rs_flag_apart lib) w bytes).
Proof. exact rust_flags_only. Qed.
Print Assumptions C98_flags_only_partial.
Example C98_flags : no_float flag_schema /\ small_enums flag_schema /\ rust_names flag_schema /\
  rs_flag_apart utf8_rs (ascii_of_N 9) (ascii_of_N 1) /\ ~ rs_flag_apart utf8_rs (ascii_of_N 0) (ascii_of_N 1) /\ ~ rs_flag_apart utf8_rs (ascii_of_N 9) (ascii_of_N 7).
Proof. exact rust_flag_apart. Qed.
(** and without optional fields nothing. *)
Theorem C98_one_encoding_partial : forall a lib str_ok, rs_lib_ok lib str_ok -> small_enums a -> rust_names a -> no_opt_float a -> for_rust a (fun m t =>
  exists d, default_value (rm_items m) (rm_type m) = Some d /\ forall data x i, rs_read lib m d data = Good x i ->
    exists bytes, rs_write lib m x = Some bytes /\ data = bytes ++ ri_bytes i).
Proof. exact rust_exact. Qed.
Print Assumptions C98_one_encoding_partial.
Example C98_one_nonvacuous : accepted order_schema /\ small_enums order_schema /\ rust_names order_schema /\ no_opt_float order_schema.
Proof. exact order_one. Qed.

(** C99. The size of a packet is the sum of the sizes of its parts. *)
Theorem C99_size : forall a lib str_ok, rs_lib_ok lib str_ok -> rust_names a -> for_rust a (fun m t =>
  forall x v, stands str_ok t (rm_type m) x v -> exists bytes, rs_write lib m x = Some bytes /\ length bytes = byte_size (lb_encs lib) t v).
Proof. exact rust_size. Qed.
Print Assumptions C99_size.
Example C99_nonvacuous : stands utf8_str (TStruct (x_fields demo_export)) "Outer" demo_rval demo_value /\
  byte_size (lb_encs utf8_rs) (TStruct (x_fields demo_export)) demo_value = 32.
Proof. exact demo_size. Qed.
