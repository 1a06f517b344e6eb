(** C84: constants and initializers of fields that the compiler accepts are values of their types, and fields with them can be written.

    The full claim is [forall cs r, check_constants [] [] cs = Some r -> exists vs, imported [] [] cs vs /\
    Forall2 (fun c v => value_of_type (fst c) v) cs vs], and the like for initializers; it is false of the code, see the refutations below. *)
From Verif Require Import Base SpecStream SpecHistory SpecArray ModelWriter ModelReader ModelArray ModelSchema PyExpr ModelExpr SpecExpr ModelBounds SpecBounds
  ModelCompile SpecCompile ModelConstants SpecConstants ConstantsProofs ExampleConstants.
Local Open Scope list_scope.
Local Open Scope Z_scope.

(** C84: all constants can be imported and have values of their types (missing: conditionals, shifts by negative numbers or by 2^31 and more, numbits of zero,
    divisions with a remainder and operands of different signs, and the expressions for which C59 fails). *)
Theorem C84_constants_partial : forall cs r, check_constants [] [] cs = Some r -> all_simple [] [] cs ->
  exists vs, imported [] [] cs vs /\ Forall2 (fun c v => value_of_type (fst c) v) cs vs.
Proof. exact constants_ok. Qed.
Print Assumptions C84_constants_partial.
Example C84_constants_used : imported [] [] four_constants [VInt 14; VBool true; VInt (-224); VInt 56] /\
  exists vs, imported [] [] four_constants vs /\ Forall2 (fun c v => value_of_type (fst c) v) four_constants vs.
Proof. exact (conj four_imported (C84_constants_partial _ _ four_accepted four_simple)). Qed.

(** C84: an initializer of a field of an integer type has one value, and the field can be written with it (missing: as above). *)
Theorem C84_initializers_partial : forall cs ts is vs g leaf ty e i lo hi, check_constants [] [] cs = Some (ts, is) -> all_simple [] [] cs -> imported [] [] cs vs ->
  java_bounds ty = Some (lo, hi) -> check_initializer ts is g leaf ty e = Some i -> simple ts vs e ->
  exists k z, field_kind ty = Some (EInt k) /\ evaluates ts vs e (VInt z) /\ (forall v, evaluates ts vs e v -> v = VInt z) /\ can_be_written k z.
Proof. exact (fun cs ts is vs g leaf ty e i lo hi C S I => initializer_ok cs ts is vs C S I g leaf ty e i lo hi). Qed.
Print Assumptions C84_initializers_partial.
Example C84_initializers_used : exists k z, field_kind (JVar VarUInt16) = Some (EInt k) /\ evaluates [JStd UInt8; JBool; JFixed true 16; JVar VarInt16]
  [VInt 14; VBool true; VInt (-224); VInt 56] (EBin BMul (EName 3) (num 585)) (VInt z) /\ can_be_written k z.
Proof.
  destruct (C84_initializers_partial four_constants _ _ _ length_scope length_leaf (JVar VarUInt16) (EBin BMul (EName 3) (num 585)) (exactly 32760) _ _
    four_accepted four_simple four_imported eq_refl eq_refl ltac:(unfold simple; cbn; intuition lia)) as (k & z & H1 & H2 & _ & H3). eauto.
Qed.
(** The largest value is accepted, the next one is not. *)
Example C84_initializers_bounds : check_initializer [] [] length_scope length_leaf (JVar VarUInt16) (num 32767) = Some (exactly 32767) /\
  check_initializer [] [] length_scope length_leaf (JVar VarUInt16) (num 32768) = None.
Proof. split; reflexivity. Qed.

(** C84: ... also for dynamic bit fields of a length the compiler knows (missing: other lengths, where it is false). *)
Theorem C84_dynamic_bit_fields_partial : forall cs ts is vs g leaf w signed length l n e i,
  check_constants [] [] cs = Some (ts, is) -> all_simple [] [] cs -> imported [] [] cs vs ->
  declarations_hold w leaf -> safe w (bounds g leaf) length -> bounds g leaf length = Some l -> known l -> meaning w length = Ok (VInt n) -> int32 n ->
  check_initializer ts is g leaf (JDyn signed length) e = Some i -> simple ts vs e ->
  exists z, evaluates ts vs e (VInt z) /\ (forall v, evaluates ts vs e v -> v = VInt z) /\ can_be_written (if signed then ISigned n else IBits n) z.
Proof. exact (fun cs ts is vs g leaf w signed length l n e i C S I => dynamic_initializer_ok cs ts is vs C S I g leaf w signed length l n e i). Qed.
Print Assumptions C84_dynamic_bit_fields_partial.
Example C84_dynamic_bit_fields_used : exists z, evaluates [] [] (EUn UMinus (num 16)) (VInt z) /\ can_be_written (ISigned 5) z.
Proof.
  destruct (C84_dynamic_bit_fields_partial [] [] [] [] length_scope length_leaf (length_world 0) true (num 5) (exactly 5) 5 (EUn UMinus (num 16)) (exactly (-16))
    eq_refl I (imported_nil _ _) (length_holds 0 ltac:(lia)) I eq_refl ltac:(discriminate) eq_refl ltac:(unfold int32; lia) eq_refl
    ltac:(unfold simple; cbn; intuition lia)) as (z & H1 & _ & H2). eauto.
Qed.

(** C84 fails for [const uint8 X = true ? 300 : 1;]: the compiler does not check conditionals. *)
Theorem C84_conditional_refuted : exists c z, broken_constant c z.
Proof. exact (ex_intro _ _ (ex_intro _ _ conditional_broken)). Qed.
Print Assumptions C84_conditional_refuted.

(** C84 fails for [const uint8 X = -7 / 2 + 3;]: 0 for the compiler, -1 for Python. *)
Theorem C84_division_refuted : exists a b z, broken_constant (JStd UInt8, EBin BAdd (EBin BDiv a b) (num 3)) z.
Proof. exact (ex_intro _ _ (ex_intro _ _ (ex_intro _ _ division_broken))). Qed.
Print Assumptions C84_division_refuted.

(** C84 fails for [const bit:1 X = numbits(0) - 1;]: 0 for the compiler, -1 for Python. *)
Theorem C84_numbits_refuted : exists a b z, broken_constant (JFixed false 1, EBin BSub (ENumbits a) b) z.
Proof. exact (ex_intro _ _ (ex_intro _ _ (ex_intro _ _ numbits_broken))). Qed.
Print Assumptions C84_numbits_refuted.

(** C84 fails for [const uint8 X = 1 << -1;]: 0 for the compiler, but the generated module cannot be imported. *)
Theorem C84_negative_shift_refuted : exists c, (exists r, check_constants [] [] [c] = Some r) /\ shaped (snd c) /\ plain (constants_scope []) (snd c) /\
  forall vs, ~ imported [] [] [c] vs.
Proof. exact (ex_intro _ _ shift_fails). Qed.
Print Assumptions C84_negative_shift_refuted.

(** C84 fails for [uint8 x; bit<x> f = 200;]: the initializer is checked for the maximum length only. *)
Theorem C84_dynamic_length_refuted : exists g leaf w length n e i, declarations_hold w leaf /\ safe w (bounds g leaf) length /\ meaning w length = Ok (VInt n) /\ 1 <= n <= 64 /\
  check_initializer [] [] g leaf (JDyn false length) e = Some i /\ simple [] [] e /\ exists z, evaluates [] [] e (VInt z) /\ cannot_be_written (IBits n) z.
Proof. exact dynamic_length. Qed.
Print Assumptions C84_dynamic_length_refuted.
