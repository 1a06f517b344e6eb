(** C89: the words of schemas. *)
From Coq Require Import String.
From Verif Require Import Base ModelArray ModelSchema PyExpr PyLiteral ModelExpr ModelLiterals ModelParser ModelLexer ModelGrammar SpecWords WordsProofs.
Local Open Scope list_scope.

(** C89: every word and operator of the language is read as the one token that the grammar uses for it, and different ones as different tokens ... *)
Theorem C89_words : forall names texts s t, In (s, t) words -> one_token names texts (text s) t.
Proof. exact words_read. Qed.
Print Assumptions C89_words.
Theorem C89_words_differ : forall s1 s2 t, In (s1, t) words -> In (s2, t) words -> s1 = s2.
Proof. exact words_different. Qed.
Print Assumptions C89_words_differ.
(** ... and so are the names of the built-in types. *)
Theorem C89_builtin_words : (forall names texts s w, In (s, w) builtin_words -> exists t, w_builtin (BWord w) = [t] /\ one_token names texts (text s) t) /\ forall w, exists s, In (s, w) builtin_words.
Proof. exact (conj builtins_read builtins_all). Qed.
Print Assumptions C89_builtin_words.
Example C89_words_example : In ("rule_group"%string, k_rule_group) words /\ In ("varuint16"%string, WVaruint16) builtin_words.
Proof. split; cbn; repeat first [left; reflexivity|right]. Qed.
