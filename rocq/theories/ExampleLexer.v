(** A text for C87. *)
From Coq Require Import String Ascii.
From Verif Require Import Base ModelArray ModelSchema PyExpr ModelExpr PyLiteral ModelLiterals SpecLiterals ModelParser SpecParser ModelLexer SpecLexer LexerProofs LexerTokens.
Local Open Scope string_scope.
Local Open Scope list_scope.
Local Open Scope Z_scope.

(** [// x], then [length0+0x1F>>lengthof ( "a/*") /* a * b */ == .5e-2f?true:@index/**/] *)
Definition example_gap : list piece := [LineComment (text " x") 10; White 32].
Definition example_layout : list (lexeme * list piece) :=
  [(Name (text "length0"), []); (Symbol "+", []); (Integer (Hexadecimal false [(1, false); (15, true)]), []); (Symbol ">", []); (Symbol ">", []);
   (Reserved "lengthof", [White 32]); (Symbol "(", [White 32]); (Str [Plain 97; Plain 47; Plain 42], []); (Symbol ")", [White 32; BlockComment (text " a * b "); White 9]);
   (Symbol "==", [White 13]); (Fraction {| fl_int := []; fl_frac := Some [5]; fl_exp := Some (false, MinusSign, [2]); fl_suffix := Some false |}, []); (Symbol "?", []);
   (Truth true, []); (Symbol ":", []); (Reserved "@index", [BlockComment []])].
Definition example_text : list Z := gap_text example_gap ++ layout example_layout.
Lemma example_gap_ok : gap_ok example_gap (layout example_layout).
Proof. cbn [gap_ok example_gap]. repeat split; try discriminate; try (now left). repeat constructor; intros [H|[H|H]]; discriminate H. Qed.
Lemma empty_closes : ~ closes [].
Proof. intros ([|x a] & b & E); discriminate E. Qed.
Ltac touches := match goal with |- match ?x with _ => _ end => let v := eval vm_compute in x in change x with v end; cbn [may_touch];
  first [exact I|solve [vm_compute; intuition congruence]|solve [numbers; lia]].
Ltac pieces := cbn [gap_ok]; repeat match goal with |- _ /\ _ => split end; first [exact I|discriminate|solve [cbn [piece_ok]; unfold is_newline; lia]|idtac].
Lemma example_layout_ok : layout_ok example_layout.
Proof.
  cbn [layout_ok example_layout]. repeat match goal with |- _ /\ _ => split end; try (cbn [lexeme_ok symbols reserved_words In]; tauto); try touches; pieces.
  - split; [|split].
    + exists (code "l"), (text "ength0"). split; [reflexivity|]. numbers. change (code "l") with 108. split; [lia|]. unfold text. cbn [list_ascii_of_string map]. repeat (constructor; [vm_compute; intuition congruence|]). constructor.
    + intros H. vm_compute in H. intuition congruence.
    + intros [|] H; discriminate H.
  - split; [discriminate|]. repeat constructor; cbn; lia.
  - constructor; [|constructor; [|constructor; [|constructor]]]; cbn; numbers; lia.
  - exact (ends_last false _ (eq_refl : ends false (text " a * b " ++ text "*/"))).
  - split; [constructor|]. split; cbn [fl_frac fl_exp fl_int].
    + split; [constructor; [unfold is_digit; lia|constructor]|]. right. discriminate.
    + split; [discriminate|]. constructor; [unfold is_digit; lia|constructor].
  - exact (ends_last false _ (eq_refl : ends false ([] ++ text "*/"))).
  - intros _. exact empty_closes.
Qed.
Definition example_names (t : list Z) : nat := List.length t.
Definition example_texts (t : list Z) : value := VStr t.
(** The tree: ?: of == of >> *)
Definition example_parsed_tree : ptree :=
  PTern (PBin BEq (PBin BShr (PBin BAdd (PName 7) (PLit (VInt 31))) (PFun Lengthof (PLit (VStr (quote :: text "a/*" ++ [quote]))))) (PLit (VStr (text ".5e-2f")))) (PLit (VBool true)) PIndex.
Lemma example_tree_agrees : agrees example_parsed_tree.
Proof. cbn. repeat split; lia. Qed.
Lemma example_words : map (fun x => word_token example_names example_texts (fst x)) example_layout = written example_parsed_tree ++ [].
Proof. vm_compute. reflexivity. Qed.
(** /**/a/* */ *)
Definition swallowed : list piece * list (lexeme * list piece) := ([BlockComment []], [(Name (text "a"), [BlockComment [32]])]).
Lemma swallowed_documented : Forall piece_ok (fst swallowed) /\ documented_ok (snd swallowed).
Proof.
  split.
  - constructor; [|constructor]. exact (ends_last false _ (eq_refl : ends false ([] ++ text "*/"))).
  - cbn [documented_ok snd swallowed]. repeat match goal with |- _ /\ _ => split end; try exact I; try touches.
    + split; [|split].
      * exists (code "a"), []. split; [reflexivity|]. split; [left; split; vm_compute; discriminate|constructor].
      * intros H. vm_compute in H. intuition congruence.
      * intros [|] H; discriminate H.
    + constructor; [|constructor]. exact (ends_last false _ (eq_refl : ends false ([32] ++ text "*/"))).
Qed.
Lemma swallowed_read : tokens (gap_text (fst swallowed) ++ layout (snd swallowed)) = Some [].
Proof. vm_compute. reflexivity. Qed.
