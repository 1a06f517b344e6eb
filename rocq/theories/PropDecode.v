(** Property C60: the format is decoded whoever wrote it, and it is uniquely decodable. *)
From Verif Require Import Base SpecBits SpecStream SpecHistory SpecArray ModelBitBuffer ModelWriter ModelReader ModelArray ModelSchema ModelSerialization
  SpecSchema SpecChecks SpecWire DecodeProofs ExampleSchema ExampleEnd ExampleDecode.

(** C60: wherever a stream holds the encoding of an object as the Encoding Guide defines it, from_reader returns the object and
    stands behind it.  No writer is involved, and anything may come before and after. *)
Theorem C60_decode : forall s depth v id ps pre bs post r, wf_schema s -> packable_ok s -> plain_type s id ->
  obj_id v = Some id -> obj_params v = Ok ps -> sound s depth v -> values_ok v -> checked_object Written s depth v ->
  encoding s depth v (length pre) = Some bs -> stream (r_buffer r) (r_bitsize r) (pre ++ bs ++ post) -> r_pos r = Z.of_nat (length pre) ->
  obj_from_reader s depth id (map back ps) r = (Ok (back v), set_pos (Z.of_nat (length (pre ++ bs))) r).
Proof. intros s depth v id ps pre bs post r H1 H2. exact (decodes s H1 H2 depth v id ps pre bs post r). Qed.
Print Assumptions C60_decode.

(** C60: at the end of the stream, up to the padding of its last byte, the same for every type. *)
Theorem C60_decode_end : forall s depth v id ps pre bs post r, wf_schema s -> packable_ok s -> root_type s id ->
  obj_id v = Some id -> obj_params v = Ok ps -> sound s depth (capped s v) -> ext_visible s depth (capped s v) (Z.of_nat (length pre)) ->
  values_ok v -> checked_object Written s depth v ->
  encoding s depth v (length pre) = Some bs -> stream (r_buffer r) (r_bitsize r) (pre ++ bs ++ post) -> (length post <= pad_len (length (pre ++ bs)))%nat ->
  r_pos r = Z.of_nat (length pre) ->
  obj_from_reader s depth id (map back ps) r = (Ok (back (capped s v)), set_pos (Z.of_nat (length (pre ++ bs))) r).
Proof. intros s depth v id ps pre bs post r H1 H2. exact (decodes_end s H1 H2 depth v id ps pre bs post r). Qed.
Print Assumptions C60_decode_end.

(** C60: deserialize of a bit buffer that holds the encoding; what its last byte holds besides does not matter. *)
Theorem C60_deserialize : forall s depth v id ps bs b, wf_schema s -> packable_ok s -> root_type s id ->
  obj_id v = Some id -> obj_params v = Ok ps -> sound s depth (capped s v) -> ext_visible s depth (capped s v) 0 ->
  values_ok v -> checked_object Written s depth v -> encoding s depth v 0 = Some bs ->
  Forall is_byte (bb_buffer b) -> bb_bitsize b = Z.of_nat (length bs) -> buffer_bits b = bs ->
  deserialize s depth id b (map back ps) = Ok (back (capped s v)).
Proof. intros s depth v id ps bs b H1 H2. exact (deserializes s H1 H2 depth v id ps bs b). Qed.
Print Assumptions C60_deserialize.

(** C60: deserialize_from_bytes and deserialize_from_file; the padding may be anything shorter than a byte. *)
Theorem C60_deserialize_bytes : forall s depth v id ps bs pad bytes, wf_schema s -> packable_ok s -> root_type s id ->
  obj_id v = Some id -> obj_params v = Ok ps -> sound s depth (capped s v) -> ext_visible s depth (capped s v) 0 ->
  values_ok v -> checked_object Written s depth v -> encoding s depth v 0 = Some bs ->
  Forall is_byte bytes -> bytes_bits bytes = bs ++ pad -> (length pad < 8)%nat ->
  deserialize_from_bytes s depth id bytes (map back ps) = Ok (back (capped s v)) /\ deserialize_from_file s depth id bytes (map back ps) = Ok (back (capped s v)).
Proof. intros s depth v id ps bs pad bytes H1 H2. exact (deserializes_bytes s H1 H2 depth v id ps bs pad bytes). Qed.
Print Assumptions C60_deserialize_bytes.

(** C60: no encoding is the beginning of another, at any position: encodings that agree as far as both go are those of one object. *)
Theorem C60_prefix_free : forall s depth v1 v2 id ps1 ps2 p bs1 bs2 post1 post2, wf_schema s -> packable_ok s -> plain_type s id ->
  obj_id v1 = Some id -> obj_params v1 = Ok ps1 -> sound s depth v1 -> values_ok v1 -> checked_object Written s depth v1 -> encoding s depth v1 p = Some bs1 ->
  obj_id v2 = Some id -> obj_params v2 = Ok ps2 -> sound s depth v2 -> values_ok v2 -> checked_object Written s depth v2 -> encoding s depth v2 p = Some bs2 ->
  map back ps1 = map back ps2 -> bs1 ++ post1 = bs2 ++ post2 -> back v1 = back v2 /\ bs1 = bs2.
Proof. intros s depth v1 v2 id ps1 ps2 p bs1 bs2 post1 post2 H1 H2. exact (prefix_free s H1 H2 depth v1 v2 id ps1 ps2 p bs1 bs2 post1 post2). Qed.
Print Assumptions C60_prefix_free.

(** C60: objects of one type whose encodings give the same bytes are the same, also with extended fields and implicit arrays. *)
Theorem C60_same_bytes : forall s depth v1 v2 id ps1 ps2 bs1 bs2, wf_schema s -> packable_ok s -> root_type s id ->
  obj_id v1 = Some id -> obj_params v1 = Ok ps1 -> sound s depth (capped s v1) -> ext_visible s depth (capped s v1) 0 ->
  values_ok v1 -> checked_object Written s depth v1 -> encoding s depth v1 0 = Some bs1 ->
  obj_id v2 = Some id -> obj_params v2 = Ok ps2 -> sound s depth (capped s v2) -> ext_visible s depth (capped s v2) 0 ->
  values_ok v2 -> checked_object Written s depth v2 -> encoding s depth v2 0 = Some bs2 ->
  map back ps1 = map back ps2 -> bs1 ++ repeat false (pad_len (length bs1)) = bs2 ++ repeat false (pad_len (length bs2)) ->
  back (capped s v1) = back (capped s v2).
Proof. intros s depth v1 v2 id ps1 ps2 bs1 bs2 H1 H2. exact (same_bytes s H1 H2 depth v1 v2 id ps1 ps2 bs1 bs2). Qed.
Print Assumptions C60_same_bytes.

(** The hypotheses hold for an item of the example schema at bit position 5 and for the log with an implicit array. *)
Example C60_example : wf_schema example_schema /\ packable_ok example_schema /\ plain_type example_schema 2 /\ sound example_schema 3 shape_item /\
  values_ok shape_item /\ checked_object Written example_schema 3 shape_item /\ encoding example_schema 3 shape_item 5 = Some shape_bits /\ length shape_bits = 49%nat.
Proof.
  split; [exact example_wf|]. split; [exact example_packable|]. split; [apply example_plain; lia|]. split; [vm_compute; intuition congruence|].
  split; [cbn; tauto|]. split; [exact shape_checked|]. exact shape_encoding.
Qed.
Example C60_end_example : wf_schema log_schema /\ packable_ok log_schema /\ root_type log_schema 0 /\ sound log_schema 5 (capped log_schema (log_object [1; -2; 300])) /\
  ext_visible log_schema 5 (capped log_schema (log_object [1; -2; 300])) 0 /\ values_ok (log_object [1; -2; 300]) /\
  checked_object Written log_schema 5 (log_object [1; -2; 300]) /\ encoding log_schema 5 (log_object [1; -2; 300]) 0 = Some log_bits /\ length log_bits = 103%nat.
Proof.
  split; [exact log_wf|]. split; [exact log_packable|]. split; [exact log_root|]. split; [vm_compute; intuition congruence|].
  split; [intros H; discriminate H|]. split; [cbn; tauto|]. split; [exact log_checked|]. exact log_encoding.
Qed.
(** A stream with other bits around the item, and the log with a padding that is not zero *)
Example C60_reads :
  obj_from_reader example_schema 3 2 [] {| r_buffer := [252; 59; 76; 4; 9; 161; 167; 255]; r_bitsize := 60; r_pos := 5 |} =
    (Ok shape_item, {| r_buffer := [252; 59; 76; 4; 9; 161; 167; 255]; r_bitsize := 60; r_pos := 54 |}) /\
  deserialize_from_bytes log_schema 5 0 [5; 3; 248; 18; 4; 194; 196; 0; 3; 255; 252; 2; 89] [] = Ok (log_object [1; -2; 300]) /\
  deserialize_from_bytes log_schema 5 0 [5; 3; 248; 18; 4; 194; 196; 0; 3; 255; 252; 2; 88] [] = Ok (log_object [1; -2; 300]).
Proof. split; [|split]; vm_compute; reflexivity. Qed.
