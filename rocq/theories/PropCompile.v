(** Properties C63 and C64: from the declarations of a schema to the generated code. *)
From Coq Require Import String.
From Verif Require Import Base SpecBits SpecStream SpecHistory SpecArray SpecSchema SpecWire SpecChecks ModelBitBuffer ModelWriter ModelReader ModelArray ModelEq ModelSchema ModelSerialization
  PyExpr ModelExpr SpecExpr ModelCompile SpecCompile CompileSound CompileMeaning CompileCorollaries ExampleCompile.
Local Open Scope list_scope.
Local Open Scope Z_scope.

(** C63: for every compound type of a schema the compiler accepts there is a class whose fields are, in the same order, those of the
    declaration, each read and written as its type, conditions, lengths, offsets and arguments computed as the expressions of the schema mean
    (missing: expressions for which C59 fails). *)
Theorem C63_declarations_partial : forall S calls id c, accepted S -> src_types S id = Some c ->
  exists d, emit S calls id = Some d /\ declared S calls id (c_body c) d.
Proof. exact (fun S calls id c A => emit_declared S A calls id c). Qed.
Print Assumptions C63_declarations_partial.

(** C63: the code for an expression of any kind in any place, also with calls of functions of this and other objects, has its value
    (missing: as above). *)
Theorem C63_expressions_partial : forall S calls id e t v x, accepted S -> regular_functions S -> typed S id e t -> regular S id e ->
  expression_value S calls id e v = Ok x -> eval S calls id e v = Ok x /\ has_type of_class x t.
Proof. exact (fun S calls id e t v x A F => expression_compiled S A F calls id e t v x). Qed.
Print Assumptions C63_expressions_partial.

(** C63: the name of the function of the runtime for a field, and the name of the class for elements of arrays, are those of one and the same
    documented type. *)
Theorem C63_builtin_types : forall ty k, builtin_ok ty -> documented_kind ty = Some k ->
  (exists suffix arg, create_data ty = Some (suffix, arg) /\ runtime_kind suffix arg = Some k) /\
  (exists name sized, traits_of ty = Some (name, sized) /\ traits_kind name (if sized then bit_size ty else None) = Some k).
Proof. exact builtin_mapped. Qed.
Print Assumptions C63_builtin_types.

(** C63: the bounds that the range checks of the generated code compare with are those of the type, and those the runtime allows. *)
Theorem C63_range_bounds : forall ty lo hi k, builtin_ok ty -> documented_kind ty = Some (EInt k) -> java_bounds ty = Some (lo, hi) ->
  int_bounds k = Ok (lo, hi) /\ forall z, lo <= z <= hi <-> in_range k z.
Proof. exact java_bounds_ok. Qed.
Print Assumptions C63_range_bounds.

(** C63: the number of bits given to bitsizeof is the one the runtime has for the type. *)
Theorem C63_bit_sizes : forall ty n, builtin_ok ty -> bit_size ty = Some n ->
  match documented_kind ty with
  | Some (EInt k) => tr_const (int_traits k) = Some n
  | Some EFloat16 => n = 16 | Some EFloat32 => n = 32 | Some EFloat64 => n = 64 | Some EBool => n = 1
  | _ => False
  end.
Proof. exact bit_size_ok. Qed.
Print Assumptions C63_bit_sizes.
Theorem C63_hash_functions : forall ty k, documented_kind ty = Some (EInt k) -> hash_suffix ty = (if wide_kind k then "int64" else "int32")%string.
Proof. exact hash_suffix_ok. Qed.
Print Assumptions C63_hash_functions.

Example C63_example : accepted example_source /\ regular_functions example_source /\ typed example_source 3 (EBin BGe (EFunc 19) (int 5)) TyBool /\
  regular example_source 3 (EBin BGe (EFunc 19) (int 5)) /\
  expression_value example_source 5 3 (EFunc 19) {| e_params := []; e_fields := match example_main 6 with VStruct _ _ fs _ => fs | _ => [] end; e_index := 0 |} = Ok (VInt 32).
Proof.
  split; [exact example_accepted|]. split; [exact example_functions|]. split; [reflexivity|]. split; [split; cbn; repeat split; lia|]. vm_compute. reflexivity.
Qed.
Example C63_types_example : builtin_ok (JFixed true 37) /\ create_data (JFixed true 37) = Some ("signed_bits"%string, Some 37) /\
  traits_of (JVar VarSize) = Some ("VarSizeArrayTraits"%string, false) /\ java_bounds (JVar VarInt16) = Some (-16383, 16383).
Proof. repeat split; vm_compute; (reflexivity || discriminate). Qed.

(** C64: the schemas the compiler accepts meet the conditions of the theorems on objects (C27-C32, C53, C54, C60, C61).  What no theorem
    needs to assume, as the compiler checks it: *)
Theorem C64_checked_conditions : forall S calls, accepted S -> int_types_ok (emit S calls) /\ packable_ok (emit S calls) /\ alignments_ok (emit S calls).
Proof. exact (fun S calls A => conj (emit_int_types S A calls) (conj (emit_packable S A calls) (emit_alignments S A calls))). Qed.
Print Assumptions C64_checked_conditions.

(** C64: what holds of schemas without [align(0)] and without choices that have no field (missing: these). *)
Theorem C64_well_formed_partial : forall S calls, accepted S -> alignments_positive S -> choices_have_fields S -> wf_schema (emit S calls).
Proof. exact (fun S calls A => emit_wf S A calls). Qed.
Print Assumptions C64_well_formed_partial.

(** C64: every type may be the type of a stream, if implicit arrays come last (missing: the check of the compiler does not ensure this). *)
Theorem C64_root_types_partial : forall S open calls id c, accepted S -> implicit_arrays_last S open -> src_types S id = Some c -> root_type (emit S calls) id.
Proof. exact (fun S open calls id c A L => emit_root S A calls open L id c). Qed.
Print Assumptions C64_root_types_partial.
Theorem C64_closed_types_partial : forall S open calls id, accepted S -> implicit_arrays_last S open -> open id = false -> no_ext S id -> plain_type (emit S calls) id.
Proof. exact (fun S open calls id A L => closed_plain S A calls open L id). Qed.
Print Assumptions C64_closed_types_partial.

(** C64: hence serialize and deserialize round trip for what is generated from an accepted schema, *)
Theorem C64_roundtrip_partial : forall S open calls depth v v' b id c ps, accepted S -> alignments_positive S -> choices_have_fields S -> implicit_arrays_last S open ->
  src_types S id = Some c -> serialize (emit S calls) depth v = Ok (v', b) -> obj_id v' = Some id -> obj_params v' = Ok ps ->
  sound (emit S calls) depth (capped (emit S calls) v') -> ext_visible (emit S calls) depth (capped (emit S calls) v') 0 ->
  obj_bitsizeof (emit S calls) depth v' 0 = Ok (bb_bitsize b) /\ deserialize (emit S calls) depth id b (map back ps) = Ok (back (capped (emit S calls) v')).
Proof. exact (fun S open calls depth v v' b id c ps A P C L => source_serialize S open A P C L calls depth v v' b id c ps). Qed.
Print Assumptions C64_roundtrip_partial.

(** C64: whatever holds an encoding is decoded, *)
Theorem C64_decode_partial : forall S open calls depth v id c ps bs b, accepted S -> alignments_positive S -> choices_have_fields S -> implicit_arrays_last S open ->
  src_types S id = Some c -> obj_id v = Some id -> obj_params v = Ok ps ->
  sound (emit S calls) depth (capped (emit S calls) v) -> ext_visible (emit S calls) depth (capped (emit S calls) v) 0 ->
  values_ok v -> checked_object Written (emit S calls) depth v -> encoding (emit S calls) depth v 0 = Some bs ->
  Forall is_byte (bb_buffer b) -> bb_bitsize b = Z.of_nat (length bs) -> buffer_bits b = bs ->
  deserialize (emit S calls) depth id b (map back ps) = Ok (back (capped (emit S calls) v)).
Proof. exact (fun S open calls depth v id c ps bs b A P C L => source_deserialize S open A P C L calls depth v id c ps bs b). Qed.
Print Assumptions C64_decode_partial.

(** C64: and write accepts exactly the objects with an encoding, for every accepted schema. *)
Theorem C64_write_accepts_exactly : forall S calls depth v w pre, accepted S -> values_ok v -> holds (w_bytes w) (w_pos w) pre ->
  ((exists w', obj_write (emit S calls) depth v w = (Ok tt, w')) <-> checked_object Written (emit S calls) depth v /\ encoding (emit S calls) depth v (length pre) <> None).
Proof. exact (fun S calls depth v w pre A => source_write_accepts S A calls depth v w pre). Qed.
Print Assumptions C64_write_accepts_exactly.

(** The compiler accepts [align(0)]; no object of the type can be written. *)
Theorem C64_alignment_refuted : exists S, accepted S /\ forall calls depth ps x n w w', obj_write (emit S calls) depth (VStruct 0 ps [x] n) w <> (Ok tt, w').
Proof. exact aligned_zero_refuted. Qed.
Print Assumptions C64_alignment_refuted.

(** The compiler accepts [struct { bool has; uint8 data\[implicit\] if has; uint8 last; }]; what is written cannot be read. *)
Theorem C64_implicit_refuted : exists S v b, accepted S /\ alignments_positive S /\ choices_have_fields S /\ sound (emit S 0) 2 v /\
  serialize (emit S 0) 2 v = Ok (v, b) /\ deserialize (emit S 0) 2 0 b [] = Raise RuntimeExc.
Proof. exact implicit_inside_refuted. Qed.
Print Assumptions C64_implicit_refuted.

Example C64_example : accepted example_source /\ alignments_positive example_source /\ choices_have_fields example_source /\ implicit_arrays_last example_source example_open /\
  exists b, serialize (emit example_source 5) 5 (example_main 0) = Ok (example_main 6, b) /\ bb_bitsize b = 208 /\
    sound (emit example_source 5) 5 (example_main 6) /\ ext_visible (emit example_source 5) 5 (example_main 6) 0.
Proof.
  split; [exact example_accepted|]. split; [exact example_alignments|]. split; [exact example_choices|]. split; [exact example_implicit|].
  exists {| bb_buffer := [2; 4; 0; 0; 0; 6; 56; 4; 17; 103; 128; 0; 128; 128; 22; 4; 208; 210; 7; 8; 41; 112; 0; 1; 255; 255]; bb_bitsize := 208 |}.
  split; [vm_compute; reflexivity|]. split; [reflexivity|]. split; [vm_compute; intuition congruence|]. intros _ n m En Em. vm_compute in En, Em. injection En as <-. injection Em as <-. reflexivity.
Qed.
