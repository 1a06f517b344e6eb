(** Proofs about the kinds of comments *)
From Coq Require Import String Ascii.
From Verif Require Import Base ModelArray ModelSchema ModelExpr PyLiteral ModelLiterals ModelLexer SpecLexer LexRegexProofs LexerProofs LexerTokens LexerTextProofs.
Local Open Scope string_scope.
Local Open Scope list_scope.
Local Open Scope Z_scope.

Section Prefix.
Context {A : Type} (p : A -> bool).
Fixpoint until (l : list A) : list A := match l with [] => [] | x :: l => if p x then [] else x :: until l end.
Lemma until_app l1 l2 : Forall (fun x => p x = false) l1 -> until (l1 ++ l2) = l1 ++ until l2.
Proof. induction 1 as [|x l1 H _ IH]; cbn; [reflexivity|]. rewrite H, IH. reflexivity. Qed.
Lemma until_before x after y : forall before l, l = before ++ x :: after -> p x = true -> In y (until l) -> In y before.
Proof.
  induction before as [|z before IH]; intros l -> P J; cbn [app until] in J.
  - rewrite P in J. destruct J.
  - destruct (p z); [destruct J|]. destruct J as [->|J]; [left; reflexivity|right]. exact (IH _ eq_refl P J).
Qed.
End Prefix.
Definition of_block (x : ModelLexer.kind * re) : bool := match fst x with KBlockComment => true | _ => false end.
Lemma until_block : In (KDocComment, doc_comment_re) (until of_block rules) /\ In (KMarkdownComment, markdown_comment_re) (until of_block rules).
Proof.
  unfold rules. rewrite until_app by (apply Forall_map, Forall_forall; reflexivity). rewrite until_app by (apply Forall_map, Forall_forall; reflexivity).
  cbn [until of_block fst]. split; apply in_or_app; right; apply in_or_app; right; cbn [In]; tauto.
Qed.
Definition comment_rule (k : ModelLexer.kind) (r : re) : Prop :=
  (k = KDocComment /\ r = doc_comment_re) \/ (k = KMarkdownComment /\ r = markdown_comment_re) \/ (k = KBlockComment /\ r = block_comment_re) \/ (k = KLineComment /\ r = line_comment_re).
Lemma slash_kinds k r : In (k, r) others -> comment_rule k r \/ first_in (fun c => c <> 47) r.
Proof.
  intros J. cbn in J. unfold comment_rule.
  repeat (destruct J as [J|J]; [injection J as <- <-; first [right; solve [regex]|left; tauto]|]). contradiction.
Qed.
Lemma slash_rule k r d u : In (k, r) rules -> matches r (47 :: d :: u) -> comment_rule k r.
Proof.
  intros J M. destruct (rule_cases k r J) as [(o & Io & _ & ->)|[(o & Io & _ & ->)|J']].
  - exfalso. apply lit_iff in M. destruct (op_chars o Io) as (x & y & E & _ & A & _). rewrite E in M. injection M as <- M. specialize (A eq_refl) as ->. injection E as <-. discriminate M.
  - exfalso. apply lit_iff in M. destruct (kw_chars o Io) as (x & y & E & L & _). rewrite E in M. injection M as <- _. numbers. lia.
  - destruct (slash_kinds k r J') as [X|X]; [exact X|]. now elim (first_is _ _ _ M X 47 (d :: u) eq_refl).
Qed.

Lemma piece_tail c t : piece_ok (BlockComment (c :: t)) -> piece_ok (BlockComment t).
Proof. intros O a b E. apply (O (c :: a) b). cbn [app]. rewrite E. reflexivity. Qed.
Theorem comment_token c t rest : piece_ok (BlockComment (c :: t)) ->
  next_token (([47; 42] ++ (c :: t) ++ [42; 47]) ++ rest) = Some (comment_kind (c :: t), List.length ([47; 42] ++ (c :: t) ++ [42; 47])).
Proof.
  intros O. destruct (block_token (c :: t) rest O ltac:(discriminate)) as (k & _ & E). rewrite E. do 2 f_equal.
  destruct (next_inv _ _ _ E) as (before & r & after & Er & M & _ & _ & B). rewrite firstn_app, firstn_all, Nat.sub_diag, firstn_O, app_nil_r in M, B.
  assert (J : In (k, r) rules) by (rewrite Er; apply in_elt).
  assert (X := slash_rule k r 42 _ J M). pose proof (ends_first t (piece_tail c t O)) as F. unfold comment_kind.
  assert (D : c = 42 -> matches doc_comment_re ([47; 42] ++ (c :: t) ++ [42; 47])).
  { intros ->. apply (m_seq _ _ [47; 42; 42] (t ++ [42; 47])); [now apply lit_iff|]. apply close_match. exact F. }
  assert (K : c = 33 -> matches markdown_comment_re ([47; 42] ++ (c :: t) ++ [42; 47])).
  { intros ->. apply (m_seq _ _ [47; 42; 33] (t ++ [42; 47])); [now apply lit_iff|]. apply close_match. exact F. }
  destruct X as [[-> ->]|[[-> ->]|[[-> ->]|[-> ->]]]].
  - apply lit_seq_inv in M as (v & Ev & _). injection Ev as -> _. reflexivity.
  - apply lit_seq_inv in M as (v & Ev & _). injection Ev as -> _. reflexivity.
  - destruct until_block as [U1 U2]. apply (until_before of_block (KBlockComment, block_comment_re) after _ before rules Er eq_refl) in U1, U2.
    destruct (Z.eqb_spec c 42) as [C|C]; [elim (B _ _ U1 (D C))|]. destruct (Z.eqb_spec c 33) as [C'|C']; [elim (B _ _ U2 (K C'))|]. reflexivity.
  - apply lit_seq_inv in M as (v & Ev & _). discriminate Ev.
Qed.
Theorem comment_lexed c t rest l : piece_ok (BlockComment (c :: t)) -> lex (List.length rest) rest = Some l ->
  lex (List.length (piece_text (BlockComment (c :: t)) ++ rest)) (piece_text (BlockComment (c :: t)) ++ rest) = Some ((comment_kind (c :: t), piece_text (BlockComment (c :: t))) :: l).
Proof.
  intros O L. rewrite (lex_step (comment_kind (c :: t)) (piece_text (BlockComment (c :: t))) rest); [|discriminate|exact (comment_token c t rest O)]. rewrite L. reflexivity.
Qed.
