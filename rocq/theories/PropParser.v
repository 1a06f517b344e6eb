(** C86: expressions are read with the documented precedence of operators.

    [agrees t]: the tree [t] follows the lines of operators of the documentation; [written t] are the tokens of [t]; [stops r]: no operator follows. *)
From Verif Require Import Base ModelArray ModelSchema PyExpr ModelExpr SpecExpr ModelParser SpecParser ParserProofs ParserExprProofs ExampleParser.

(** C86: what the parser makes of tokens is a tree that consists of these tokens and agrees with the documented precedence ... *)
Theorem C86_parsed : forall toks t r, parse toks = Some (t, r) -> toks = written t ++ r /\ agrees t.
Proof. exact parsed_agrees. Qed.
Print Assumptions C86_parsed.

(** C86: ... and nothing that could be part of the expression is left. *)
Theorem C86_whole : forall toks t r, parse toks = Some (t, r) ->
  (forall o r', r <> operator o ++ r') /\ forall r', r <> TQuestion :: r' /\ r <> TLb :: r' /\ r <> TLp :: TRp :: r' /\ forall n, r <> TDot :: TId n :: r'.
Proof. exact behind_expression. Qed.
Print Assumptions C86_whole.

(** C86: every tree that agrees with the documentation is what its tokens are read as. *)
Theorem C86_written : forall t r, agrees t -> stops r -> parse (written t ++ r) = Some (t, r).
Proof. exact written_parsed. Qed.
Print Assumptions C86_written.

(** C86: the documentation leaves no choice. *)
Theorem C86_one_reading : forall t1 t2, agrees t1 -> agrees t2 -> written t1 = written t2 -> t1 = t2.
Proof. exact one_reading. Qed.
Print Assumptions C86_one_reading.

Example C86_example : parse example_tokens = Some (example_tree, [TOther 0]) /\ agrees example_tree /\ stops [TOther 0] /\ expr_of 99 example_tree = Some example_expr.
Proof. exact (conj example_parsed (conj example_agrees (conj I eq_refl))). Qed.

(** C86: of two operators the one of the line above is evaluated first, of two operators of one line the left one. *)
Theorem C86_two_operators : forall o1 o2 a b c r, agrees a -> agrees b -> agrees c -> (line a <= 3)%nat -> (line b <= 3)%nat -> (line c <= 3)%nat -> stops r ->
  parse (written a ++ operator o1 ++ written b ++ operator o2 ++ written c ++ r) =
    Some (if Nat.leb (line_of o1) (line_of o2) then PBin o2 (PBin o1 a b) c else PBin o1 a (PBin o2 b c), r).
Proof. exact two_operators. Qed.
Print Assumptions C86_two_operators.
(** C86: a sign belongs to the operand it is before. *)
Theorem C86_signs : forall u o a b r, agrees a -> agrees b -> (line a <= 3)%nat -> (line b <= 3)%nat -> stops r ->
  parse (sign u :: written a ++ operator o ++ written b ++ r) = Some (PBin o (PUn u a) b, r).
Proof. exact sign_first. Qed.
Print Assumptions C86_signs.
(** C86: conditional expressions are evaluated from the right to the left. *)
Theorem C86_conditionals : forall c1 a1 c2 a2 b r, agrees c1 -> agrees a1 -> agrees c2 -> agrees a2 -> agrees b -> (line c1 < 14)%nat -> (line c2 < 14)%nat -> stops r ->
  parse (written c1 ++ TQuestion :: written a1 ++ TColon :: written c2 ++ TQuestion :: written a2 ++ TColon :: written b ++ r) =
    Some (PTern c1 a1 (PTern c2 a2 b), r).
Proof. exact two_conditions. Qed.
Print Assumptions C86_conditionals.
Example C86_operands : agrees (PUn UMinus (PName 1)) /\ (line (PUn UMinus (PName 1)) <= 3)%nat /\ agrees (PDot (PName 1) 2) /\ (line (PBin BEq (PName 1) (PName 2)) < 14)%nat.
Proof. cbn. repeat split; lia. Qed.

(** C86: expressions have the shape which the code generated for them relies on (C59), and all expressions of the shape can be written. *)
Theorem C86_shapes : forall index toks t r e, parse toks = Some (t, r) -> expr_of index t = Some e -> shaped e.
Proof. exact parsed_shaped. Qed.
Print Assumptions C86_shapes.
Theorem C86_expressions : forall index e r, shaped e -> stops r -> exists t, parse (written t ++ r) = Some (t, r) /\ expr_of index t = Some e.
Proof. exact shaped_written. Qed.
Print Assumptions C86_expressions.
Example C86_shapes_used : shaped example_expr.
Proof. exact (C86_shapes 99 example_tokens example_tree [TOther 0] example_expr example_parsed eq_refl). Qed.

(** C86: the two characters of >> are next to each other if they are in one line (missing: in different lines, see below). *)
Theorem C86_shift_partial : forall l a b, shift_accepted (l, a) (l, b) = true <-> adjacent (l, a) (l, b).
Proof. exact shift_same_line. Qed.
Print Assumptions C86_shift_partial.
(** C86: two characters > in different lines are taken for the operator >> if their positions fit. *)
Theorem C86_shift_refuted : exists first second, shift_accepted first second = true /\ ~ adjacent first second.
Proof. exists (1%nat, 4%nat), (2%nat, 5%nat). split; [reflexivity|discriminate]. Qed.
Print Assumptions C86_shift_refuted.
