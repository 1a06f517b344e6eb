(** The value of the code generated for a text (C87, C86 and C59 together) *)
From Coq Require Import String.
From Verif Require Import Base ModelArray ModelSchema PyExpr ModelExpr SpecExpr PyLiteral ModelParser SpecParser ParserProofs ParserExprProofs ModelLexer SpecLexer LexerReadProofs ExprSemProofs ExprExamples.
Local Open Scope string_scope.
Local Open Scope list_scope.
Local Open Scope Z_scope.

Theorem text_value names texts index obj g w text t r e ty v : parse_text names texts text = Some (t, r) -> expr_of index t = Some e ->
  world_ok obj g w -> type_of g e = Some ty -> plain g e -> divisions_agree w e -> meaning w e = Ok v ->
  exists p, is_expression (format g e) p /\ py_eval w p = Ok v /\ has_type obj v ty.
Proof.
  intros P X W T. apply emitted_value; [exact W| |exact T]. unfold parse_text in P. destruct (tokens text) as [l|]; [|discriminate P]. exact (parsed_shaped _ _ _ _ _ P X).
Qed.
Definition letters (t : list Z) : nat := match t with c :: _ => Z.to_nat (c - 97) | [] => 0 end.
Definition rich_text : list Z :=
  text "!a == (b[0] + 2*lengthof(b) - 7/2 > numbits(/* nine */ 0x9) << 1 && isset(c, c)) ? valueof(c) | 8 : -b[1]; // end".
Lemma rich_text_parsed : exists t r, parse_text letters VStr rich_text = Some (t, r) /\ expr_of 9 t = Some rich.
Proof. do 2 eexists. split; [vm_compute; reflexivity|vm_compute; reflexivity]. Qed.
