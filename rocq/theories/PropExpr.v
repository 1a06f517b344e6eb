(** C59: the Python code emitted for an expression of the schema is a Python expression and has the value the language gives to the expression.

    The full claim is [forall obj g w e t v, shaped e -> type_of g e = Some t -> world_ok obj g w -> meaning w e = Ok v ->
    exists p, is_expression (format g e) p /\ py_eval w p = Ok v]; it is false of the code, see the refutations below. *)
From Verif Require Import Base ModelArray ModelSchema PyExpr ModelExpr SpecExpr ExprProofs ExprSemProofs ExprExamples.

(** C59: the emitted code is one Python expression, unless it has an equality of comparisons, a negation to the right of an
    equality, or the value of a conditional enum (what is missing: these cases, where it is false). *)
Theorem C59_emitted_code_valid_partial : forall g e t, shaped e -> type_of g e = Some t -> plain g e ->
  exists p, is_expression (format g e) p /\ forall q, is_expression (format g e) q -> q = p.
Proof. exact emitted_valid. Qed.
Print Assumptions C59_emitted_code_valid_partial.

(** C59: ... and it has the value the language defines, where divisions are exact or have operands of the same sign (missing: as above, and
    other divisions). *)
Theorem C59_expressions_partial : forall obj g w e t v, world_ok obj g w -> shaped e -> type_of g e = Some t -> plain g e -> divisions_agree w e ->
  meaning w e = Ok v -> exists p, is_expression (format g e) p /\ py_eval w p = Ok v /\ has_type obj v t.
Proof. exact (fun obj g w e t v W => emitted_value obj g w W e t v). Qed.
Print Assumptions C59_expressions_partial.

(** C59 fails for [5 < 1 == false]: Python takes it as a chain of comparisons. *)
Theorem C59_comparison_chain_refuted : exists e t p, shaped e /\ type_of no_scope e = Some t /\ divisions_agree no_world e /\
  meaning no_world e = Ok (VBool true) /\ is_expression (format no_scope e) p /\ py_eval no_world p = Ok (VBool false).
Proof. exact comparison_chain. Qed.
Print Assumptions C59_comparison_chain_refuted.

(** C59 fails for [true == !false]: [True == not False] is not an expression of Python. *)
Theorem C59_negation_refuted : exists e t v, shaped e /\ type_of no_scope e = Some t /\ divisions_agree no_world e /\ meaning no_world e = Ok v /\
  forall p, ~ is_expression (format no_scope e) p.
Proof. exact negation_right. Qed.
Print Assumptions C59_negation_refuted.

(** C59 fails for [valueof(c ? A : B)] with items of an enum: the value is taken of [B] only. *)
Theorem C59_valueof_refuted : exists e t p, world_ok any_object enum_scope enum_world /\ shaped e /\ type_of enum_scope e = Some t /\ divisions_agree enum_world e /\
  meaning enum_world e = Ok (VInt 5) /\ is_expression (format enum_scope e) p /\ py_eval enum_world p = Ok (VEnum 5).
Proof. exact valueof_conditional. Qed.
Print Assumptions C59_valueof_refuted.

(** C59 fails for [-7 / 2] and [-7 % 2]. *)
Theorem C59_division_refuted : exists e t p, shaped e /\ type_of no_scope e = Some t /\ plain no_scope e /\
  meaning no_world e = Ok (VInt (-3)) /\ is_expression (format no_scope e) p /\ py_eval no_world p = Ok (VInt (-4)).
Proof. exact division_negative. Qed.
Print Assumptions C59_division_refuted.
Theorem C59_modulo_refuted : exists e t p, shaped e /\ type_of no_scope e = Some t /\ plain no_scope e /\
  meaning no_world e = Ok (VInt (-1)) /\ is_expression (format no_scope e) p /\ py_eval no_world p = Ok (VInt 1).
Proof. exact modulo_negative. Qed.
Print Assumptions C59_modulo_refuted.

(** An index below zero is no error: it is taken from the end. *)
Theorem C59_index_refuted : exists e t p v, world_ok any_object array_scope array_world /\ shaped e /\ type_of array_scope e = Some t /\ plain array_scope e /\
  meaning array_world e = Raise IndexErr /\ is_expression (format array_scope e) p /\ py_eval array_world p = Ok v.
Proof. exact index_negative. Qed.
Print Assumptions C59_index_refuted.

(** ** Non-vacuity: [!flag == (a[0] + 2 * lengthof(a) - 7 / 2 > numbits(9) << 1 && isset(m, m)) ? valueof(m) | 8 : -a[1]] *)
Example C59_example : world_ok any_object rich_scope rich_world /\ shaped rich /\ type_of rich_scope rich = Some TyInt /\ plain rich_scope rich /\
  divisions_agree rich_world rich /\ meaning rich_world rich = Ok (VInt 13).
Proof. exact rich_ok. Qed.
