(** C64: the theorems on objects for the schemas the compiler accepts. *)
From Verif Require Import Base SpecStream SpecArray SpecSchema SpecWire SpecChecks ModelBitBuffer ModelReader ModelWriter ModelArray ModelSchema ModelSerialization
  SpecBits SpecHistory CapProofs WireProofs WireAccept DecodeProofs PyExpr ModelExpr SpecExpr ModelCompile SpecCompile CompileProofs CompileSound.

Section Source.
Context (S : source) (open : nat -> bool) (A : accepted S) (P : alignments_positive S) (C : choices_have_fields S) (L : implicit_arrays_last S open) (calls depth : nat).
Notation s := (emit S calls).

Theorem source_serialize v v' b id c ps : src_types S id = Some c -> serialize s depth v = Ok (v', b) -> obj_id v' = Some id -> obj_params v' = Ok ps ->
  sound s depth (capped s v') -> ext_visible s depth (capped s v') 0 ->
  obj_bitsizeof s depth v' 0 = Ok (bb_bitsize b) /\ deserialize s depth id b (map back ps) = Ok (back (capped s v')).
Proof. intros E. exact (capped_serialize s depth (emit_wf S A calls P C) v v' b id ps (emit_root S A calls open L id c E)). Qed.
Theorem source_serialize_bytes v v' l id c ps : src_types S id = Some c -> serialize_to_bytes s depth v = Ok (v', l) -> obj_id v' = Some id -> obj_params v' = Ok ps ->
  sound s depth (capped s v') -> ext_visible s depth (capped s v') 0 ->
  deserialize_from_bytes s depth id l (map back ps) = Ok (back (capped s v')) /\ deserialize_from_file s depth id l (map back ps) = Ok (back (capped s v')).
Proof. intros E. exact (capped_serialize_bytes s depth (emit_wf S A calls P C) v v' l id ps (emit_root S A calls open L id c E)). Qed.
Theorem source_deserialize v id c ps bs b : src_types S id = Some c -> obj_id v = Some id -> obj_params v = Ok ps -> sound s depth (capped s v) -> ext_visible s depth (capped s v) 0 ->
  values_ok v -> checked_object Written s depth v -> encoding s depth v 0 = Some bs ->
  Forall is_byte (bb_buffer b) -> bb_bitsize b = Z.of_nat (length bs) -> buffer_bits b = bs ->
  deserialize s depth id b (map back ps) = Ok (back (capped s v)).
Proof. intros E. exact (deserializes s (emit_wf S A calls P C) (emit_packable S A calls) depth v id ps bs b (emit_root S A calls open L id c E)). Qed.
End Source.

Theorem source_write_accepts S (A : accepted S) calls depth v w pre : values_ok v -> holds (w_bytes w) (w_pos w) pre ->
  ((exists w', obj_write (emit S calls) depth v w = (Ok tt, w')) <-> checked_object Written (emit S calls) depth v /\ encoding (emit S calls) depth v (length pre) <> None).
Proof. exact (write_accepts_iff (emit S calls) depth v w pre (emit_alignments S A calls) (emit_packable S A calls) (emit_int_types S A calls)). Qed.
