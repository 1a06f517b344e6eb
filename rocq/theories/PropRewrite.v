(** Property C55: what has been read can be written again, and reads the same. *)
From Verif Require Import Base SpecBits SpecStream SpecHistory ModelBitBuffer ModelWriter ModelReader ModelArray ModelSchema ModelSerialization
  HistoryProofs SpecSchema SpecChecks SpecRewrite RewriteProofs ExampleSchema ExampleRewrite.

(** C55: for every schema without offsets and packed arrays, any bytes and any position: an
    object that has been read is accepted by write on every writer, unless it has an array of negative length or an item
    that has been removed from its enum. *)
Theorem C55_read_can_be_written : forall s depth id ps r v r' w, unpacked_schema s -> any_reader r ->
  obj_from_reader s depth id ps r = (Ok v, r') -> each_object writable_again s depth v -> reachable w ->
  exists w', obj_write s depth v w = (Ok tt, w').
Proof. exact read_then_write. Qed.
Print Assumptions C55_read_can_be_written.

(** C55: serialize accepts it too and leaves it as it is; reading the result gives the object that was read first. *)
Theorem C55_read_write_read : forall s depth id ps r v r', unpacked_schema s -> wf_schema s -> root_type s id -> map back ps = ps ->
  any_reader r -> obj_from_reader s depth id ps r = (Ok v, r') ->
  each_object writable_again s depth v -> each_object no_nan s depth v -> ext_visible s depth v 0 ->
  (exists b, serialize s depth v = Ok (v, b) /\ deserialize s depth id b ps = Ok v) /\
  (exists l, serialize_to_bytes s depth v = Ok (v, l) /\ deserialize_from_bytes s depth id l ps = Ok v).
Proof. exact read_write_read. Qed.
Print Assumptions C55_read_write_read.

Theorem C55_bytes_read_write_read : forall s depth id ps bytes v, unpacked_schema s -> wf_schema s -> root_type s id -> map back ps = ps ->
  Forall is_byte bytes -> deserialize_from_bytes s depth id bytes ps = Ok v ->
  each_object writable_again s depth v -> each_object no_nan s depth v -> ext_visible s depth v 0 ->
  exists l, serialize_to_bytes s depth v = Ok (v, l) /\ deserialize_from_bytes s depth id l ps = Ok v.
Proof. exact bytes_read_write_read. Qed.
Print Assumptions C55_bytes_read_write_read.

(** The hypotheses hold for a schema with all kinds of types and an object with nested objects and an extended field. *)
Example C55_schema_example : unpacked_schema flat_schema /\ wf_schema flat_schema /\ root_type flat_schema 0.
Proof. exact (conj flat_unpacked (conj flat_wf flat_root)). Qed.
Example C55_object_example : Forall is_byte reread_bytes /\ List.length reread_bytes = 31%nat /\
  deserialize_from_bytes flat_schema 5 0 reread_bytes [] = Ok reread_object /\
  each_object writable_again flat_schema 5 reread_object /\ each_object no_nan flat_schema 5 reread_object /\ ext_visible flat_schema 5 reread_object 0.
Proof. exact (conj (proj1 reread_bytes_ok) (conj (proj2 reread_bytes_ok) (conj reread_read (conj reread_again (conj reread_numbers reread_visible))))). Qed.

(** The exceptions are real: a negative array length, a removed enum item, a packed array with an element out of range. *)
Example C55_exceptions_refuted : read_not_written flat_schema 4 [255] /\ read_not_written flat_schema 5 [2] /\ read_not_written packed_schema 0 [2; 0x92; 0; 0x82; 0].
Proof. exact (conj negative_length (conj removed_item packed_out_of_range)). Qed.
