(** C87 with C86 and C59: from the characters of an expression in a schema to the value of the Python code generated for it.

    [parse_text names texts t] is the expression at the beginning of the text [t]; [expr_of] is the expression of its tree; [meaning] is the value the language defines for it;
    [format g e] are the tokens of the generated code and [is_expression] says how Python reads them. *)
From Verif Require Import Base ModelArray ModelSchema PyExpr ModelExpr SpecExpr ModelParser ModelLexer ExprExamples TextValueProofs.

(** C87: the code generated for the text of an expression has the value of the expression (missing: expressions that C59 leaves out). *)
Theorem C87_values_partial : forall names texts index obj g w text t r e ty v, parse_text names texts text = Some (t, r) -> expr_of index t = Some e ->
  world_ok obj g w -> type_of g e = Some ty -> plain g e -> divisions_agree w e -> meaning w e = Ok v ->
  exists p, is_expression (format g e) p /\ py_eval w p = Ok v /\ has_type obj v ty.
Proof. exact text_value. Qed.
Print Assumptions C87_values_partial.
Example C87_values_example : (exists t r, parse_text letters VStr rich_text = Some (t, r) /\ expr_of 9 t = Some rich) /\
  world_ok any_object rich_scope rich_world /\ type_of rich_scope rich = Some TyInt /\ plain rich_scope rich /\ divisions_agree rich_world rich /\ meaning rich_world rich = Ok (VInt 13).
Proof. exact (conj rich_text_parsed (match rich_ok with conj W (conj _ R) => conj W R end)). Qed.
