(** C87: a schema is read as the words it consists of.

    [tokens t] are the tokens the parser gets for the text [t] and [lex] those with white space and comments; [layout l] is the text of words, each with white space and
    comments behind it; [rules] are the rules of the lexer and [matches] the texts they stand for. *)
From Coq Require Import String.
From Verif Require Import Base ModelArray ModelSchema ModelExpr PyLiteral ModelLiterals SpecLiterals ModelParser SpecParser ModelLexer SpecLexer LexRegexProofs
  LexerTextProofs LexerReadProofs LexerComments ExampleLexer.
Local Open Scope string_scope.
Local Open Scope list_scope.
Local Open Scope Z_scope.

(** C87: words that are separated as far as needed are read as these words, whatever white space and comments are between them
    (missing: comments in the form /**/ that have */ behind them, see below). *)
Theorem C87_words_partial : forall g l, gap_ok g (layout l) -> layout_ok l ->
  tokens (gap_text g ++ layout l) = Some (map (fun x => (lexeme_kind (fst x), lexeme_text (fst x))) l).
Proof. exact text_read. Qed.
Print Assumptions C87_words_partial.
Example C87_words_example : gap_ok example_gap (layout example_layout) /\ layout_ok example_layout /\ List.length example_layout = 15%nat.
Proof. exact (conj example_gap_ok (conj example_layout_ok eq_refl)). Qed.

(** C87: the documentation has comments end with the next */, but /**/ and all that follows it up to the next */ is one comment ... *)
Theorem C87_empty_comment : forall t rest, (forall a b, t ++ text "*/" = a ++ text "*/" ++ b -> b = []) ->
  tokens (text "/**/" ++ t ++ text "*/" ++ rest) = tokens rest.
Proof. exact empty_swallows. Qed.
Print Assumptions C87_empty_comment.
(** ... so declarations get lost without a message. *)
Theorem C87_words_refuted : exists g l, Forall piece_ok g /\ documented_ok l /\
  tokens (gap_text g ++ layout l) <> Some (map (fun x => (lexeme_kind (fst x), lexeme_text (fst x))) l).
Proof.
  exists (fst swallowed), (snd swallowed). split; [exact (proj1 swallowed_documented)|]. split; [exact (proj2 swallowed_documented)|]. rewrite swallowed_read. discriminate.
Qed.
Print Assumptions C87_words_refuted.

(** C87: nothing of a text is lost or made up, and each token is the longest possible at its place, of the first rule that matches it. *)
Theorem C87_lossless : forall t l, lex (List.length t) t = Some l -> concat (map snd l) = t.
Proof. intros t l H. exact (proj1 (lex_inv _ _ _ H)). Qed.
Print Assumptions C87_lossless.
Theorem C87_longest : forall t a k w b, lex (List.length t) t = Some (a ++ (k, w) :: b) -> read_as k w (concat (map snd b)).
Proof. intros t a k w b H. exact (proj2 (lex_inv _ _ _ H) a k w b eq_refl). Qed.
Print Assumptions C87_longest.
(** C87: comments are told apart by the character they begin with. *)
Theorem C87_comments : forall c t rest l, piece_ok (BlockComment (c :: t)) -> lex (List.length rest) rest = Some l ->
  lex (List.length (piece_text (BlockComment (c :: t)) ++ rest)) (piece_text (BlockComment (c :: t)) ++ rest) = Some ((comment_kind (c :: t), piece_text (BlockComment (c :: t))) :: l).
Proof. exact comment_lexed. Qed.
Print Assumptions C87_comments.
Example C87_comments_example : piece_ok (BlockComment (text "* of x ")) /\ comment_kind (text "* of x ") = KDocComment /\ lex 1 (text " ") = Some [(KSpace, [32])].
Proof.
  split; [|split; vm_compute; reflexivity]. intros a b E. vm_compute in E. change (text "*/") with [42; 47] in E.
  do 8 (destruct a as [|? a]; [discriminate E || (injection E as E; exact (eq_sym E))|injection E as _ E]). destruct a as [|? [|? a]]; discriminate E.
Qed.
(** C87: a text cannot be read only if it has a character that no word begins with. *)
Theorem C87_errors : forall t, tokens t = None -> exists c, In c t /\ ~ known c.
Proof. exact text_fails. Qed.
Print Assumptions C87_errors.
Example C87_error : tokens (text "a # b") = None /\ lex 12 (text "int8 /*a*/ b") =
  Some [(KKeyword "int8", text "int8"); (KSpace, [32]); (KBlockComment, text "/*a*/"); (KSpace, [32]); (KId, text "b")].
Proof. vm_compute. split; reflexivity. Qed.

(** C87: identifiers are never reserved words, and literals have the form that C65 gives a meaning. *)
Theorem C87_names : forall t l w, tokens t = Some l -> In (KId, w) l -> lexeme_ok (Name w).
Proof. intros t l w H J. exact (name_tokens t w (ex_intro _ l (conj H J))). Qed.
Print Assumptions C87_names.
Theorem C87_integers : forall t l k w, tokens t = Some l -> In (KLiteral k, w) l -> match k with FloatLiteral | DoubleLiteral | StringLiteral => False | _ => True end ->
  exists i, int_literal_ok i /\ int_token i = k /\ int_text i = w.
Proof. intros t l k w H J. exact (integer_tokens t k w (ex_intro _ l (conj H J))). Qed.
Print Assumptions C87_integers.
Theorem C87_fractions : forall t l k w, tokens t = Some l -> In (KLiteral k, w) l -> k = FloatLiteral \/ k = DoubleLiteral ->
  exists f, float_literal_ok f /\ float_token f = k /\ float_text f = w.
Proof. intros t l k w H J. exact (fraction_tokens t k w (ex_intro _ l (conj H J))). Qed.
Print Assumptions C87_fractions.
Theorem C87_strings : forall t l w, Forall (fun c => 0 < c < 0x110000) t -> tokens t = Some l -> In (KLiteral StringLiteral, w) l ->
  exists s, string_literal_ok s /\ string_text s = w.
Proof. intros t l w F H J. exact (string_tokens t w F (ex_intro _ l (conj H J))). Qed.
Print Assumptions C87_strings.
Example C87_literals : tokens (quote :: text "\01017" ++ [quote] ++ text "09 017 1.f") =
  Some [(KLiteral StringLiteral, quote :: text "\01017" ++ [quote]); (KInvalid, text "09"); (KLiteral OctalLiteral, text "017"); (KLiteral FloatLiteral, text "1.f")].
Proof. vm_compute. reflexivity. Qed.

(** C87: so the text of an expression, with white space and comments, is read as the expression of C86; integers have their value. *)
Theorem C87_expressions_partial : forall names texts t r g l, agrees t -> stops r -> gap_ok g (layout l) -> layout_ok l ->
  map (fun x => word_token names texts (fst x)) l = written t ++ r -> parse_text names texts (gap_text g ++ layout l) = Some (t, r).
Proof. exact expression_read. Qed.
Print Assumptions C87_expressions_partial.
Example C87_expression : parse_text example_names example_texts example_text = Some (example_parsed_tree, []).
Proof. exact (C87_expressions_partial _ _ _ [] _ _ example_tree_agrees I example_gap_ok example_layout_ok example_words). Qed.
