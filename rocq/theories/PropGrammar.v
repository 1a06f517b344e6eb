(** C89: a schema is read in one way.

    [schema_tokens s] are the tokens of a schema [s], which the parser gets for a text of it ([is_text_of]); [clear_schema]: operators follow the documented precedence,
    "T<name>" is a type with a template argument, and a field without offset is not also one with an offset ([clear_field]);
    [spells l s]: the words [l], with white space and comments, are those of [s]. *)
From Coq Require Import String.
From Verif Require Import Base ModelArray ModelSchema PyExpr ModelExpr PyLiteral ModelLiterals ModelParser SpecParser ModelLexer SpecLexer ModelGrammar SpecGrammar
  GrammarProofs GrammarTypes GrammarFields GrammarDecls ExampleGrammar.
Local Open Scope list_scope.

(** C89: the tokens of a schema have no other reading (missing: schemas that are not clear, for which ANTLR chooses, see below) ... *)
Theorem C89_one_reading_partial : forall s1 s2, clear_schema s1 -> clear_schema s2 -> schema_tokens s1 = schema_tokens s2 -> s1 = s2.
Proof. exact one_schema. Qed.
Print Assumptions C89_one_reading_partial.
(** ... nor have single declarations, whatever follows them ... *)
Theorem C89_declarations_partial : forall d1 d2 r1 r2, all_declaration agrees clear_type clear_field d1 -> all_declaration agrees clear_type clear_field d2 ->
  declaration_tokens d1 ++ r1 = declaration_tokens d2 ++ r2 -> d1 = d2 /\ r1 = r2.
Proof. intros d1 d2 r1 r2 A1 A2. exact (declaration_decodes d1 d2 r1 r2 A1 A2 I I). Qed.
Print Assumptions C89_declarations_partial.
(** ... and texts are read as the schema that their words are, whatever white space and comments are between them. *)
Theorem C89_texts_partial : forall names texts g l s, gap_ok g (layout l) -> layout_ok l -> spells names texts l s -> clear_schema s ->
  is_text_of names texts (gap_text g ++ layout l) s /\ forall s', clear_schema s' -> is_text_of names texts (gap_text g ++ layout l) s' -> s' = s.
Proof. exact text_one_reading. Qed.
Print Assumptions C89_texts_partial.
Example C89_example : clear_schema example_schema /\ is_text_of first_letter no_texts example_schema_text example_schema /\ List.length (schema_tokens example_schema) = 191%nat.
Proof. exact (conj example_clear (conj example_text_of eq_refl)). Qed.
Example C89_texts_example : layout_ok small_layout /\ spells first_letter no_texts small_layout small_schema /\ clear_schema small_schema.
Proof. exact (conj small_layout_ok (conj small_words small_clear)). Qed.

(** C89: a length of a bit field that is a name can be a template argument as well, which ANTLR takes it for, if the type is given by a name. *)
Theorem C89_length_or_template : forall q e q', written e = w_qname q' ->
  w_inst written {| reference := RName q []; ending := SLength e |} = w_inst written {| reference := RName q [RName q' []]; ending := SNone |}.
Proof. exact unclear_type. Qed.
Print Assumptions C89_length_or_template.
Example C89_lengths_example : written (PDot (PName 1) 2) = w_qname (1%nat, [2%nat]).
Proof. reflexivity. Qed.
(** C89: a field without offset can be read as one with an offset exactly if its type and name could be an expression and its constraint a type and a name ... *)
Theorem C89_offsets : forall f, all_struct_field agrees (fun _ => True) (fun _ => True) f -> offset f = None ->
  (clear_field f <-> ~ exists f', all_struct_field agrees (fun _ => True) (fun _ => True) f' /\ offset f' <> None /\ w_struct_field written f' = w_struct_field written f).
Proof. exact offset_readings. Qed.
Print Assumptions C89_offsets.
(** ... as "T<U> z : a < e && c > d;", which is the field "d" of the type "a" with the length "e && c" and the offset "T<U>z" as well; ANTLR takes it for that. *)
Theorem C89_constraint_or_offset : forall t u z a e c d, agrees e -> (line e < 7)%nat ->
  w_struct_field written (constrained t u z a e c d) = w_struct_field written (with_offset t u z a e c d) /\
  all_struct_field agrees clear_type (fun _ => True) (constrained t u z a e c d) /\ all_struct_field agrees (fun _ => True) (fun _ => True) (with_offset t u z a e c d).
Proof. exact offset_reading. Qed.
Print Assumptions C89_constraint_or_offset.
Example C89_constraints_example : agrees (PName 5) /\ (line (PName 5) < 7)%nat /\ constrained 1 2 3 4 (PName 5) 6 7 <> with_offset 1 2 3 4 (PName 5) 6 7.
Proof. split; [exact I|]. split; [cbn; lia|]. discriminate. Qed.
Theorem C89_one_reading_refuted : exists s1 s2, precedence_kept s1 /\ precedence_kept s2 /\ schema_tokens s1 = schema_tokens s2 /\ s1 <> s2.
Proof. exact two_readings. Qed.
Print Assumptions C89_one_reading_refuted.
