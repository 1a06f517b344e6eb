(** Properties C53 and C54: the wire format of objects and what write accepts. *)
From Verif Require Import Base SpecBits SpecStream SpecHistory ModelBitBuffer ModelWriter ModelArray ModelSchema ModelSerialization
  HistoryProofs SpecChecks ExampleSchema SpecWire WireProofs WireAccept ExampleWire ExampleAccept.

(** C53: for every schema and object, if write succeeds on a writer, it has appended the encoding of the object at this
    position as the Encoding Guide defines it. *)
Theorem C53_write_stores_encoding : forall s depth v w w' pre, alignments_ok s -> values_ok v -> holds (w_bytes w) (w_pos w) pre ->
  obj_write s depth v w = (Ok tt, w') ->
  exists bs, encoding s depth v (length pre) = Some bs /\ holds (w_bytes w') (w_pos w') (pre ++ bs).
Proof. exact write_encoding. Qed.
Print Assumptions C53_write_stores_encoding.

(** C53: the buffers of serialize and serialize_to_bytes hold the encoding of the object (with the offsets it has
    afterwards) at position 0, padded with zeros to a byte. *)
Theorem C53_serialize_to_bytes : forall s depth v v' bytes, alignments_ok s -> values_ok v' -> serialize_to_bytes s depth v = Ok (v', bytes) ->
  exists bs, encoding s depth v' 0 = Some bs /\ Forall is_byte bytes /\ bytes_bits bytes = bs ++ repeat false (pad_len (length bs)).
Proof. exact serialize_encoding. Qed.
Print Assumptions C53_serialize_to_bytes.

Theorem C53_serialize : forall s depth v v' b, alignments_ok s -> values_ok v' -> serialize s depth v = Ok (v', b) ->
  exists bs, encoding s depth v' 0 = Some bs /\ bb_bitsize b = Z.of_nat (length bs) /\ buffer_bits b = bs.
Proof. exact serialize_encoding_bits. Qed.
Print Assumptions C53_serialize.

(** All worked examples of the guide: the hypotheses hold, and the encoding and what write stores are the bytes of the guide. *)
Example C53_guide_examples : alignments_ok guide_schema /\ Forall (fun x => values_ok (fst x)) guide_examples /\
  Forall (fun x => option_map padded (encoding guide_schema 4 (fst x) 0) = Some (bytes_bits (snd x))) guide_examples /\
  Forall (fun x => match obj_write guide_schema 4 (fst x) new_writer with (Ok tt, w) => w_bytes w = snd x | _ => False end) guide_examples.
Proof. exact (conj guide_alignments (conj guide_values (conj guide_encodings guide_writes))). Qed.
(** Not every object has an encoding: a wrong offset, a value out of range. *)
Example C53_no_encoding : encoding guide_schema 4 (VStruct OffsetExample [] [VInt 5; VInt 1; VInt 2] 0) 0 = None /\
  encoding guide_schema 4 (VStruct MyStructure [] [VInt 16; VInt 1; VInt 2] 0) 0 = None.
Proof. split; vm_compute; reflexivity. Qed.

(** C54: write accepts exactly the objects that satisfy the checks of their schema and have an encoding at the position of
    the writer; nothing else can make it raise. *)
Theorem C54_write_accepts_exactly : forall s depth v w pre, alignments_ok s -> packable_ok s -> int_types_ok s -> values_ok v -> holds (w_bytes w) (w_pos w) pre ->
  ((exists w', obj_write s depth v w = (Ok tt, w')) <-> checked_object Written s depth v /\ encoding s depth v (length pre) <> None).
Proof. exact write_accepts_iff. Qed.
Print Assumptions C54_write_accepts_exactly.

(** C54: an object that satisfies the checks and has an encoding is written as this encoding. *)
Theorem C54_write_accepts : forall s depth v w pre bs, alignments_ok s -> packable_ok s -> values_ok v -> holds (w_bytes w) (w_pos w) pre ->
  checked_object Written s depth v -> encoding s depth v (length pre) = Some bs ->
  exists w', obj_write s depth v w = (Ok tt, w') /\ holds (w_bytes w') (w_pos w') (pre ++ bs).
Proof. exact write_accepts. Qed.
Print Assumptions C54_write_accepts.

(** The guide's schema and objects meet the hypotheses, an empty writer as well. *)
Example C54_guide_examples : alignments_ok guide_schema /\ packable_ok guide_schema /\ int_types_ok guide_schema /\ holds (w_bytes new_writer) (w_pos new_writer) [] /\
  Forall (fun x => values_ok (fst x) /\ checked_object Written guide_schema 4 (fst x) /\ encoding guide_schema 4 (fst x) 0 <> None) guide_examples.
Proof. exact (conj guide_alignments (conj guide_packable (conj guide_int_types (conj guide_new_writer guide_checked)))). Qed.
(** Both conditions are needed: an object with an encoding but an array of a wrong length, and one that satisfies the checks
    but has no encoding because of a wrong offset. *)
Example C54_refused :
  (let v := record ArrayExample [ints [1]; VInt 2; ints [3; 4]] in
   encoding guide_schema 4 v 0 <> None /\ ~ checked_object Written guide_schema 4 v /\ fst (obj_write guide_schema 4 v new_writer) = Raise RuntimeExc) /\
  (let v := record OffsetExample [VInt 5; VInt 1; VInt 2] in
   encoding guide_schema 4 v 0 = None /\ checked_object Written guide_schema 4 v /\ fst (obj_write guide_schema 4 v new_writer) = Raise RuntimeExc).
Proof. exact guide_refused. Qed.
