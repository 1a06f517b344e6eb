(** Proofs about whole texts: white space, comments and words. *)
From Coq Require Import String Ascii.
From Verif Require Import Base ModelArray ModelSchema ModelExpr PyLiteral ModelLiterals SpecLiterals LiteralsProofs ModelParser SpecParser ParserProofs ParserExprProofs
  ModelLexer SpecLexer LexRegexProofs LexerProofs LexerTokens LexerLiterals LexerNumbers.
Local Open Scope string_scope.
Local Open Scope list_scope.
Local Open Scope Z_scope.

(** ** The lexer as a whole *)
Lemma lex_unfold n c t : lex (S n) (c :: t) =
  match next_token (c :: t) with
  | Some (k, S m) => match lex n (skipn (S m) (c :: t)) with Some l => Some ((k, firstn (S m) (c :: t)) :: l) | None => None end
  | _ => None
  end.
Proof. reflexivity. Qed.
Lemma lex_more n t : (List.length t <= n)%nat -> lex n t = lex (List.length t) t.
Proof.
  revert t. induction n as [n IH] using lt_wf_ind. intros t L. destruct t as [|c t]; [destruct n; reflexivity|]. destruct n as [|n]; [cbn in L; lia|].
  cbn [List.length lex]. destruct (next_token (c :: t)) as [[k [|m]]|]; try reflexivity. change (skipn (S m) (c :: t)) with (skipn m t).
  cbn [List.length] in L. assert (K : (List.length (skipn m t) <= List.length t)%nat) by (rewrite skipn_length; lia).
  rewrite (IH n) by lia. rewrite (IH (List.length t)) by lia. reflexivity.
Qed.
Lemma lex_step k w rest : w <> [] -> next_token (w ++ rest) = Some (k, List.length w) ->
  lex (List.length (w ++ rest)) (w ++ rest) = match lex (List.length rest) rest with Some l => Some ((k, w) :: l) | None => None end.
Proof.
  intros N E. destruct w as [|c w]; [now elim N|]. cbn [List.length] in E. change (List.length ((c :: w) ++ rest)) with (S (List.length (w ++ rest))).
  change ((c :: w) ++ rest) with (c :: w ++ rest) in *. cbn [lex]. rewrite E. change (skipn (S (List.length w)) (c :: w ++ rest)) with (skipn (List.length w) (w ++ rest)).
  rewrite skipn_app, skipn_all, Nat.sub_diag. cbn [skipn app]. rewrite (lex_more (List.length (w ++ rest))) by (rewrite app_length; lia).
  change (firstn (S (List.length w)) (c :: w ++ rest)) with (c :: firstn (List.length w) (w ++ rest)). rewrite firstn_app, firstn_all, Nat.sub_diag. cbn [firstn]. rewrite app_nil_r. reflexivity.
Qed.
Lemma tokens_step k w rest : w <> [] -> next_token (w ++ rest) = Some (k, List.length w) ->
  tokens (w ++ rest) = option_map (fun l => if visible k then (k, w) :: l else l) (tokens rest).
Proof. intros N E. unfold tokens. rewrite (lex_step k w rest N E). destruct (lex (List.length rest) rest) as [l|]; reflexivity. Qed.
Lemma tokens_hidden k w rest : w <> [] -> visible k = false -> next_token (w ++ rest) = Some (k, List.length w) -> tokens (w ++ rest) = tokens rest.
Proof. intros N V E. rewrite (tokens_step k w rest N E), V. destruct (tokens rest); reflexivity. Qed.

Lemma next_step t : next_token t = fold_left (step t) rules None.
Proof. unfold next_token, step. reflexivity. Qed.
Lemma next_inv t k n : next_token t = Some (k, n) ->
  exists before r after, rules = before ++ (k, r) :: after /\ matches r (firstn n t) /\ (n <= List.length t)%nat /\
    no_longer rules (firstn n t) (skipn n t) /\ forall k' r', In (k', r') before -> ~ matches r' (firstn n t).
Proof.
  intros E. rewrite next_step in E. pose proof (fold_inv t rules None Logic.I) as F. rewrite E in F. destruct F as [L [[X _]|(before & r & after & Er & Er' & F)]]; [discriminate X|].
  destruct F as (_ & B & A). exists before, r, after. destruct (longest_some r t n Er') as (_ & M & G). split; [exact Er|]. split; [exact M|]. split; [exact L|].
  assert (Le : List.length (firstn n t) = n) by (apply firstn_length_le; exact L). split.
  - intros k' r' u v J M' Eq. rewrite Le. rewrite firstn_skipn in Eq. destruct (longest_match r' t) as [m|] eqn:Em; [|elim (longest_none r' t Em u v Eq M')].
    destruct (longest_some r' t m Em) as (_ & _ & H). specialize (H u v Eq M'). rewrite Er in J. apply in_app_or in J as [J|[J|J]].
    + specialize (B k' r' m J Em). lia.
    + injection J as <- <-. rewrite Em in Er'. injection Er' as <-. exact H.
    + specialize (A k' r' m J Em). lia.
  - intros k' r' J M'. destruct (longest_match r' t) as [m|] eqn:Em; [|elim (longest_none r' t Em (firstn n t) (skipn n t) (eq_sym (firstn_skipn n t)) M')].
    destruct (longest_some r' t m Em) as (_ & _ & H). specialize (H (firstn n t) (skipn n t) (eq_sym (firstn_skipn n t)) M'). specialize (B k' r' m J Em). lia.
Qed.
Lemma rules_not_null k r : In (k, r) rules -> ~ matches r [].
Proof.
  assert (H : forallb (fun x => negb (nullable (snd x))) rules = true) by (vm_compute; reflexivity). rewrite forallb_forall in H. intros J M. specialize (H (k, r) J).
  apply nullable_iff in M. cbn [snd] in H. rewrite M in H. discriminate H.
Qed.
Lemma lex_inv n : forall t l, lex n t = Some l -> concat (map snd l) = t /\ forall a k w b, l = a ++ (k, w) :: b -> read_as k w (concat (map snd b)).
Proof.
  induction n as [|n IH]; intros t l H.
  - destruct t; [|discriminate H]. injection H as <-. split; [reflexivity|]. intros [|] k w b X; discriminate X.
  - destruct t as [|c t]; [injection H as <-; split; [reflexivity|intros [|] k w b X; discriminate X]|]. rewrite lex_unfold in H.
    destruct (next_token (c :: t)) as [[k [|m]]|] eqn:E; try discriminate H. destruct (lex n (skipn (S m) (c :: t))) as [l'|] eqn:El; [|discriminate H]. injection H as <-.
    destruct (IH _ _ El) as [C R]. split; [cbn [map concat snd]; rewrite C; exact (firstn_skipn (S m) (c :: t))|]. intros a k' w b X. destruct a as [|x a].
    + injection X as <- <- <-. rewrite C. split; [discriminate|]. destruct (next_inv _ _ _ E) as (before & r & after & Er & M & _ & N & F). now exists before, r, after.
    + injection X as _ X. exact (R a k' w b X).
Qed.
Lemma next_none t : next_token t = None -> forall k r u v, In (k, r) rules -> t = u ++ v -> ~ matches r u.
Proof.
  intros E k r u v J Et. pose proof (fold_inv t rules None Logic.I) as F. rewrite next_step in E. rewrite E in F. destruct F as [_ F]. specialize (F k r J). exact (longest_none r t F u v Et).
Qed.
Lemma lex_none n : forall t, (List.length t <= n)%nat -> lex n t = None -> exists u c v, t = u ++ c :: v /\ next_token (c :: v) = None.
Proof.
  induction n as [|n IH]; intros t L H; (destruct t as [|c t]; [discriminate H|]); [cbn in L; lia|]. rewrite lex_unfold in H. destruct (next_token (c :: t)) as [[k [|m]]|] eqn:E.
  - exfalso. destruct (next_inv _ _ _ E) as (before & r & after & Er & M & _). refine (rules_not_null k r _ M). rewrite Er. apply in_elt.
  - destruct (lex n (skipn (S m) (c :: t))) as [l'|] eqn:El; [discriminate H|]. destruct (IH (skipn (S m) (c :: t)) ltac:(rewrite skipn_length; cbn [List.length] in *; lia) El) as (u & d & v & Eq & N).
    exists (firstn (S m) (c :: t) ++ u), d, v. split; [|exact N]. rewrite <- app_assoc, <- Eq. symmetry. apply firstn_skipn.
  - exists [], c, t. split; [reflexivity|exact E].
Qed.
Definition single_check : bool := forallb (fun s => forallb (fun c => existsb (fun s' => match text s' with [d] => c =? d | _ => false end) operators) (text s)) operators.
Lemma single s c : In s symbols -> In c (text s) -> exists s', In s' operators /\ text s' = [c].
Proof.
  assert (H : single_check = true) by (vm_compute; reflexivity). unfold single_check in H. rewrite symbols_same. rewrite forallb_forall in H. intros J K. specialize (H s J). rewrite forallb_forall in H.
  specialize (H c K). apply existsb_exists in H as (s' & J' & E). exists s'. split; [exact J'|]. destruct (text s') as [|d [|]]; try discriminate E. apply Z.eqb_eq in E. now subst.
Qed.
Lemma in_others k r : In (k, r) others -> In (k, r) rules.
Proof. intros J. rewrite rules_split, !in_app_iff. auto. Qed.
Lemma known_token c v : known c -> next_token (c :: v) <> None.
Proof.
  intros K E. pose proof (next_none _ E) as N. assert (X : exists k r, In (k, r) rules /\ matches r [c]); [|destruct X as (k & r & J & M); exact (N k r [c] v J eq_refl M)].
  assert (K' : is_word_char c \/ c = 32 \/ c = 9 \/ is_newline c \/ c = quote \/ exists s, In s symbols /\ In c (text s)) by (unfold is_newline; unfold known in K; tauto).
  clear K. rename K' into K. destruct K as [K|[K|[K|[K|[K|(s & J & K)]]]]].
  - exists KInvalid, invalid_token_re. split; [apply in_others; cbn; tauto|]. apply (m_seq _ _ [c] []); [|constructor].
    destruct K as [[L|[L|L]]|L]; [apply m_left, m_left; now apply range_in|apply m_left, m_right, m_left; now apply range_in|apply m_left, m_right, m_right; subst; apply chr1|apply m_right; now apply range_in].
  - exists KSpace, white_char_re. split; [apply in_others; cbn; tauto|]. apply oneof_in. cbn. lia.
  - exists KSpace, white_char_re. split; [apply in_others; cbn; tauto|]. apply oneof_in. cbn. lia.
  - exists KSpace, white_char_re. split; [apply in_others; cbn; tauto|]. apply oneof_in. unfold is_newline in K. cbn. lia.
  - subst. exists KInvalidString, invalid_string_re. split; [apply in_others; cbn; tauto|]. apply (m_seq _ _ [quote] []); [apply chr1|]. apply (m_seq _ _ [] []); [constructor|apply m_right; constructor].
  - destruct (single s c J K) as (s' & J' & Es). exists (KOperator s'), (lit s'). split; [|now apply lit_iff]. rewrite rules_split, !in_app_iff, in_ops. left. now exists s'.
Qed.
Lemma text_fails t : tokens t = None -> exists c, In c t /\ ~ known c.
Proof.
  unfold tokens. intros H. destruct (lex (List.length t) t) as [l|] eqn:E; [discriminate H|]. destruct (lex_none _ t (le_n _) E) as (u & c & v & -> & N). exists c. split; [apply in_elt|].
  intros K. exact (known_token c v K N).
Qed.

(** ** White space and comments *)
Lemma empty_token rest : ~ closes rest -> exists k, visible k = false /\ next_token ([47; 42; 42; 47] ++ rest) = Some (k, 4%nat).
Proof.
  intros N. destruct (token_exists [47; 42; 42; 47] rest) as (k & r & J & M & E).
  - exists KBlockComment, block_comment_re. split; [apply in_others; cbn; tauto|]. apply (block_match []). reflexivity.
  - intros k r u v J M E. destruct (Nat.le_gt_cases (List.length u) 4) as [L|L]; [exact L|]. exfalso.
    destruct (cut [47; 42; 42; 47] rest u v E L) as (c & u' & -> & R). cbn [app] in M. destruct (slash_only k r _ _ J M) as [C _].
    assert (X : exists x y, c :: u' = x ++ [42; 47] ++ y).
    { destruct C as [->|[->|[->| ->]]].
      - apply lit_seq_inv in M as (z & Ez & M). injection Ez as Ez. apply seq_inv in M as (a & b & -> & _ & M). apply seq_inv in M as (b1 & b2 & -> & B1 & B2). apply some_stars_inv in B1 as (w & -> & F). apply chr1_inv in B2 as ->.
        destruct (@exists_last Z (42 :: w) ltac:(discriminate)) as (w' & q & Ew). assert (q = 42) as ->.
        { assert (G : Forall (fun c => c = 42) (42 :: w)) by (constructor; [reflexivity|exact F]). rewrite Ew in G. apply Forall_app in G as [_ G]. exact (Forall_inv G). }
        rewrite Ew in Ez. rewrite <- app_assoc in Ez. destruct a as [|a1 a].
        + destruct w' as [|w1 w']; cbn [app] in Ez; [discriminate Ez|]. injection Ew as <- _. discriminate Ez.
        + injection Ez as _ Ez. exists (a ++ w'), []. rewrite Ez, <- app_assoc. reflexivity.
      - apply lit_seq_inv in M as (z & Ez & _). discriminate Ez.
      - apply lit_seq_inv in M as (z & Ez & M). apply close_inv in M. injection Ez as <-. cbn in M. discriminate M.
      - apply lit_seq_inv in M as (z & Ez & _). discriminate Ez. }
    destruct X as (x & y & X). apply N. exists x, (y ++ v). change (text "*/") with [42; 47]. rewrite R. change (c :: u' ++ v) with ((c :: u') ++ v). rewrite X, <- !app_assoc. reflexivity.
  - exists k. split; [|exact E]. exact (proj2 (slash_only k r _ _ J M)).
Qed.
Lemma gap_skipped g : forall rest, gap_ok g rest -> tokens (gap_text g ++ rest) = tokens rest.
Proof.
  induction g as [|x g IH]; intros rest H; [reflexivity|]. destruct H as (O & N & G). cbn [gap_text flat_map]. fold (gap_text g). rewrite <- app_assoc. rewrite <- (IH rest G). destruct x as [c|t n|t]; cbn [piece_text].
  - apply (tokens_hidden KSpace [c]); [discriminate|reflexivity|]. apply white_token. cbn in O. unfold white, is_newline in *. cbn. lia.
  - destruct O as [F Nl]. destruct (line_token t n (gap_text g ++ rest) F Nl) as (k & V & E).
    replace ((text "//" ++ t ++ [n]) ++ gap_text g ++ rest) with (([47; 47] ++ t) ++ n :: gap_text g ++ rest) by (rewrite <- !app_assoc; reflexivity).
    rewrite (tokens_hidden k _ (n :: gap_text g ++ rest)); [|discriminate|exact V|exact E].
    apply (tokens_hidden KSpace [n]); [discriminate|reflexivity|]. apply white_token. unfold white, is_newline in *. cbn. lia.
  - destruct t as [|c t].
    + destruct (empty_token (gap_text g ++ rest) (N eq_refl)) as (k & V & E). apply (tokens_hidden k [47; 42; 42; 47]); [discriminate|exact V|exact E].
    + destruct (block_token (c :: t) (gap_text g ++ rest) O ltac:(discriminate)) as (k & V & E). change (text "/*" ++ (c :: t) ++ text "*/") with ([47; 42] ++ (c :: t) ++ [42; 47]).
      apply (tokens_hidden k); [discriminate|exact V|exact E].
Qed.
(** The comment that begins with /**/ *)
Lemma empty_swallows t rest : (forall a b, t ++ text "*/" = a ++ text "*/" ++ b -> b = []) ->
  tokens (text "/**/" ++ t ++ text "*/" ++ rest) = tokens rest.
Proof.
  intros O. pose proof (ends_first t O) as X. change (text "/**/" ++ t ++ text "*/" ++ rest) with ([47; 42; 42; 47] ++ t ++ [42; 47] ++ rest).
  replace ([47; 42; 42; 47] ++ t ++ [42; 47] ++ rest) with (([47; 42; 42; 47] ++ t ++ [42; 47]) ++ rest) by (rewrite <- !app_assoc; reflexivity).
  destruct (token_exists ([47; 42; 42; 47] ++ t ++ [42; 47]) rest) as (k & r & J & M & E).
  - exists KDocComment, doc_comment_re. split; [apply in_others; cbn; tauto|]. apply (m_seq _ _ [47; 42; 42] (47 :: t ++ [42; 47])); [now apply lit_iff|]. apply close_match. apply ends_plain; [discriminate|exact X].
  - apply no_longer_by. intros k r d u rest' J M _. cbn [app] in M. rewrite <- app_assoc in M. cbn [app] in M. destruct (slash_only k r _ _ J M) as [[->|[->|[->| ->]]] _].
    + apply lit_seq_inv in M as (v & E & M). apply close_inv in M. injection E as E. pose proof (ends_last _ _ M (47 :: t) (d :: u) (eq_sym E)). discriminate.
    + apply lit_seq_inv in M as (v & E & M). discriminate E.
    + apply lit_seq_inv in M as (v & E & M). apply close_inv in M. injection E as E. pose proof (ends_last _ _ M [] (t ++ 42 :: 47 :: d :: u) (eq_sym E)) as Y. destruct t; discriminate Y.
    + apply lit_seq_inv in M as (v & E & M). discriminate E.
  - apply (tokens_hidden k); [discriminate| |exact E]. cbn [app] in M. exact (proj2 (slash_only k r _ _ J M)).
Qed.

(** ** Words *)
Theorem layout_read l : layout_ok l -> tokens (layout l) = Some (map (fun x => (lexeme_kind (fst x), lexeme_text (fst x))) l).
Proof.
  induction l as [|[w g] l IH]; [reflexivity|]. cbn [layout_ok layout map fst]. intros (O & G & T & L). rewrite (tokens_step (lexeme_kind w) (lexeme_text w)); [|now apply lexeme_nonempty|now apply lexeme_token].
  rewrite (gap_skipped g _ G), (IH L). cbn [option_map]. replace (visible (lexeme_kind w)) with true by (destruct w; reflexivity). reflexivity.
Qed.
Theorem text_read g l : gap_ok g (layout l) -> layout_ok l -> tokens (gap_text g ++ layout l) = Some (map (fun x => (lexeme_kind (fst x), lexeme_text (fst x))) l).
Proof. intros G L. rewrite (gap_skipped g _ G). now apply layout_read. Qed.

(** ** Expressions *)
Lemma truth_parsed b : (if list_eq_dec Z.eq_dec (truth_text b) (text "true") then true else false) = b.
Proof. destruct b; reflexivity. Qed.
Lemma word_parsed names texts w : lexeme_ok w -> parser_token names texts (lexeme_kind w, lexeme_text w) = word_token names texts w.
Proof.
  destruct w as [s|s|b|t|l|l|s]; intros O; [| | | | | |reflexivity].
  - cbn [lexeme_ok] in O. cbn in O. repeat (destruct O as [<-|O]; [reflexivity|]). contradiction.
  - cbn [lexeme_ok] in O. cbn in O. repeat (destruct O as [<-|O]; [reflexivity|]). contradiction.
  - unfold parser_token. cbn [fst snd lexeme_kind lexeme_text]. now rewrite truth_parsed.
  - reflexivity.
  - unfold parser_token. cbn [fst snd lexeme_kind lexeme_text word_token]. destruct (integer_literals l O) as [-> _]. destruct l; reflexivity.
  - unfold parser_token, float_token. cbn [fst snd lexeme_kind lexeme_text word_token]. unfold float_token. destruct (fl_suffix l); reflexivity.
Qed.
Lemma layout_words l : layout_ok l -> Forall (fun x => lexeme_ok (fst x)) l.
Proof. induction l as [|[w g] l IH]; [constructor|]. cbn [layout_ok]. intros (O & _ & _ & L). constructor; [exact O|now apply IH]. Qed.
Lemma map_ext_forall {A B} (f g : A -> B) l : Forall (fun x => f x = g x) l -> map f l = map g l.
Proof. induction 1 as [|x l E F IH]; [reflexivity|]. cbn [map]. now rewrite E, IH. Qed.
Theorem expression_read names texts t r g l : agrees t -> stops r -> gap_ok g (layout l) -> layout_ok l -> map (fun x => word_token names texts (fst x)) l = written t ++ r ->
  parse_text names texts (gap_text g ++ layout l) = Some (t, r).
Proof.
  intros A R G L E. unfold parse_text. rewrite (text_read g l G L), map_map. cbn [fst]. rewrite (map_ext_forall _ (fun x => word_token names texts (fst x))).
  - rewrite E. now apply written_parsed.
  - generalize (layout_words l L). apply Forall_impl. intros x O. now apply word_parsed.
Qed.
