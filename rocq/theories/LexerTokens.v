(** Proofs about operators, white space, comments and strings. *)
From Coq Require Import String Ascii.
From Verif Require Import Base PyLiteral ModelLiterals SpecLiterals ModelLexer SpecLexer LexRegexProofs LexerProofs.
Local Open Scope string_scope.
Local Open Scope list_scope.
Local Open Scope Z_scope.

Definition plain_first (c : Z) : Prop := ~ word_at c /\ ~ In c [13; 10; 12; 9; 32; 34].
Definition is_comment (r : re) : Prop := r = doc_comment_re \/ r = markdown_comment_re \/ r = block_comment_re \/ r = line_comment_re.
(** ** Operators *)
Ltac each_first := let c := fresh "c" in let E := fresh "E" in intros c E; split_chars E; unfold plain_first; cbn [In]; numbers; lia.
Ltac firsts_regex := unfold float_literal_re, white_char_re, bool_literal_re, string_literal_re,
    string_character_re, binary_literal_re, octal_literal_re, hexadecimal_literal_re, double_literal_re, decimal_literal_re, identifier_re,
    invalid_string_re, invalid_token_re, word_re, letter_re, hex_digit_re, octal_digit_re, decimal_digit_re, float_exponent_re, plus, ropt, chr, oneof, noneof, range, lit;
  cbn [first_in over nullable andb orb codes text map list_ascii_of_string chr]; unfold chr; cbn [first_in over nullable andb orb];
  repeat match goal with |- _ /\ _ => split end; try exact I; try each_first.
Lemma plain_rules k r : In (k, r) others -> is_comment r \/ r = double_literal_re \/ r = float_literal_re \/ first_in (fun c => ~ plain_first c) r.
Proof.
  intros J. cbn in J. unfold is_comment.
  repeat (destruct J as [J|J]; [injection J as <- <-; first [right; right; right; solve [firsts_regex]|tauto]|]). contradiction.
Qed.
Lemma lit_seq_inv s r u : matches (RSeq (lit s) r) u -> exists v, u = text s ++ v /\ matches r v.
Proof. intros H. apply seq_inv in H as (x & y & -> & A & B). apply lit_iff in A as ->. now exists y. Qed.
Lemma comment_first r u : is_comment r -> matches r u -> exists d v, u = 47 :: d :: v /\ (d = 42 \/ d = 47).
Proof.
  intros [->|[->|[->| ->]]] M; apply lit_seq_inv in M as (v & -> & _); eexists _, _; (split; [reflexivity|]); [left|left|left|right]; reflexivity.
Qed.
Lemma digit_inv u : matches decimal_digit_re u -> exists c, u = [c] /\ 48 <= c <= 57.
Proof. apply range_inv. Qed.
Lemma digits_inv u : matches (RStar decimal_digit_re) u -> Forall (fun c => 48 <= c <= 57) u.
Proof. intros M. apply (over_all _ _ _ M). unfold decimal_digit_re, range. cbn [over]. intros c E. now apply within_iff in E. Qed.
Lemma some_digits_inv u : matches (plus decimal_digit_re) u -> exists c v, u = c :: v /\ Forall (fun c => 48 <= c <= 57) (c :: v).
Proof.
  intros M. apply plus_inv in M as (x & y & -> & A & B). apply digit_inv in A as (c & -> & C). exists c, y. split; [reflexivity|]. constructor; [exact C|now apply digits_inv].
Qed.
(** A number that begins with a point *)
Lemma point_first u : matches double_literal_re (46 :: u) -> exists d v, u = d :: v /\ 48 <= d <= 57.
Proof.
  intros M. apply alt_inv in M as [M|M]; [|apply alt_inv in M as [M|M]].
  - apply seq_inv in M as (x & y & E & A & _). apply some_digits_inv in A as (c & v & -> & F). injection E as <- _. inversion F; subst. lia.
  - apply seq_inv in M as (x & y & E & A & _). apply some_digits_inv in A as (c & v & -> & F). injection E as <- _. inversion F; subst. lia.
  - apply seq_inv in M as (x & y & E & A & B). apply chr1_inv in A as ->. injection E as ->. apply seq_inv in B as (a & b & -> & C & _).
    apply some_digits_inv in C as (c & v & -> & F). exists c, (v ++ b). split; [reflexivity|]. now inversion F; subst.
Qed.
Lemma double_nonempty u : matches double_literal_re u -> u <> [].
Proof. intros M ->. apply nullable_iff in M. discriminate M. Qed.
Lemma float_inv u : matches float_literal_re u -> exists v f, u = v ++ [f] /\ matches double_literal_re v /\ (f = 102 \/ f = 70).
Proof.
  intros M. apply seq_inv in M as (x & y & -> & A & B). apply oneof_inv in B as (f & -> & C). exists x, f. split; [reflexivity|]. split; [exact A|]. vm_compute in C. lia.
Qed.
Lemma point_first_float u : matches float_literal_re (46 :: u) -> exists d v, u = d :: v /\ 48 <= d <= 57.
Proof.
  intros M. apply float_inv in M as (v & f & E & D & _). destruct v as [|x v]; [now elim (double_nonempty _ D)|]. injection E as <- ->.
  apply point_first in D as (d & w & -> & R). exists d, (w ++ [f]). now split.
Qed.
Fixpoint after (a b : list Z) : option (list Z) :=
  match a, b with
  | [], _ => Some b
  | x :: a, y :: b => if x =? y then after a b else None
  | _, [] => None
  end.
Lemma after_app a b : after a (a ++ b) = Some b.
Proof. induction a as [|x a IH]; [reflexivity|]. cbn [after app]. rewrite Z.eqb_refl. exact IH. Qed.
Definition prefix_check : bool :=
  forallb (fun s => forallb (fun s' => match after (text s) (text s') with Some (c :: _) => existsb (Z.eqb c) (longer_symbols s) | _ => true end) operators) operators.
Lemma longer_operator s s' c t : In s operators -> In s' operators -> text s' = text s ++ c :: t -> In c (longer_symbols s).
Proof.
  assert (H : prefix_check = true) by (vm_compute; reflexivity). unfold prefix_check in H. rewrite forallb_forall in H. intros I I' E. specialize (H s I). rewrite forallb_forall in H.
  specialize (H s' I'). cbn beta in H. rewrite E, after_app in H. now apply one_iff.
Qed.
Lemma cut (w : list Z) : forall rest u v, w ++ rest = u ++ v -> (List.length w < List.length u)%nat -> exists c u', u = w ++ c :: u' /\ rest = c :: u' ++ v.
Proof.
  induction w as [|x w IH]; intros rest u v E L.
  - destruct u as [|c u]; [cbn in L; lia|]. exists c, u. split; [reflexivity|exact E].
  - destruct u as [|c u]; [cbn in L; lia|]. injection E as -> E. destruct (IH rest u v E) as (d & u' & -> & R); [cbn [List.length] in L; lia|]. exists d, u'. now split.
Qed.
(** Nothing longer: from what follows the text *)
Lemma no_longer_by w rest : (forall k r c u rest', In (k, r) rules -> matches r (w ++ c :: u) -> rest = c :: rest' -> False) -> no_longer rules w rest.
Proof.
  intros H k r u v J M E. destruct (Nat.le_gt_cases (List.length u) (List.length w)) as [L|L]; [exact L|]. destruct (cut w rest u v E L) as (c & u' & -> & R). elim (H k r c u' (u' ++ v) J M R).
Qed.
Definition number_first (c : Z) : Prop := 48 <= c <= 57 \/ c = 46.
Lemma double_first : first_in number_first double_literal_re.
Proof. unfold number_first. regex. Qed.
Lemma float_first : first_in number_first float_literal_re.
Proof. unfold number_first. regex. Qed.
Lemma symbol_token s rest : In s symbols -> match rest with [] => True | c :: _ => may_touch (Symbol s) c end ->
  next_token (text s ++ rest) = Some (KOperator s, List.length (text s)).
Proof.
  rewrite symbols_same. intros J R. destruct (op_chars s J) as (c & t & E & F & A & B).
  apply (token_in (map (fun s => (KOperator s, lit s)) operators) _ (KOperator s) _ _ eq_refl).
  - exists (lit s). split; [|now apply lit_iff]. apply in_ops. now exists s.
  - intros k r K M. apply in_ops in K as (o & Io & -> & ->). apply lit_iff in M. apply text_inj in M. now subst.
  - apply no_longer_by. intros k r d u rest' K M ->. cbn [may_touch] in R. apply R. clear R.
    destruct (rule_cases k r K) as [(o & Io & _ & ->)|[(o & Io & _ & ->)|K']].
    + apply lit_iff in M. symmetry in M. exact (longer_operator s o d u J Io M).
    + exfalso. apply lit_iff in M. destruct (kw_chars o Io) as (x & y & E' & L & _). rewrite E, E' in M. injection M as -> _. apply (proj1 (Forall_inv F)).
      destruct L as [L|L]; [left; now left|now right].
    + rewrite E in M. cbn [app] in M. destruct (plain_rules k r K') as [C|[->|[->|X]]].
      * destruct (comment_first r _ C M) as (x & y & Eq & D). injection Eq as -> Eq. specialize (A eq_refl) as ->. injection E as <-. injection Eq as -> _.
        destruct D as [->| ->]; vm_compute; auto.
      * assert (c = 46) as ->.
        { destruct (first_is _ _ _ M double_first c _ eq_refl) as [Y|Y]; [|exact Y]. elim (proj1 (Forall_inv F)). left; now right. }
        specialize (B eq_refl) as ->. injection E as <-. apply point_first in M as (x & y & Eq & D). injection Eq as <- _.
        assert (d = 48 \/ d = 49 \/ d = 50 \/ d = 51 \/ d = 52 \/ d = 53 \/ d = 54 \/ d = 55 \/ d = 56 \/ d = 57) by lia. vm_compute. intuition.
      * assert (c = 46) as ->.
        { destruct (first_is _ _ _ M float_first c _ eq_refl) as [Y|Y]; [|exact Y]. elim (proj1 (Forall_inv F)). left; now right. }
        specialize (B eq_refl) as ->. injection E as <-. apply point_first_float in M as (x & y & Eq & D). injection Eq as <- _.
        assert (d = 48 \/ d = 49 \/ d = 50 \/ d = 51 \/ d = 52 \/ d = 53 \/ d = 54 \/ d = 55 \/ d = 56 \/ d = 57) by lia. vm_compute. intuition.
      * elim (first_is _ _ _ M X c _ eq_refl). exact (Forall_inv F).
Qed.

(** ** White space *)
Definition white (c : Z) : Prop := In c [13; 10; 12; 9; 32].
Lemma white_rules k r : In (k, r) others -> k = KSpace /\ r = white_char_re \/ first_in (fun c => ~ white c) r.
Proof.
  intros J. cbn in J. unfold white.
  repeat (destruct J as [J|J]; [injection J as <- <-; first [right; solve [regex; intros c E; split_chars E; cbn [In]; numbers; lia]|left; split; reflexivity]|]). contradiction.
Qed.
Lemma white_only k r c u : In (k, r) rules -> matches r (c :: u) -> white c -> k = KSpace /\ u = [].
Proof.
  intros J M W. destruct (rule_cases k r J) as [(o & Io & _ & ->)|[(o & Io & _ & ->)|J']].
  - exfalso. apply lit_iff in M. destruct (op_first o Io) as (x & y & E & _ & N). rewrite E in M. injection M as -> _. apply N. unfold white in W. cbn in W |- *. tauto.
  - exfalso. apply lit_iff in M. destruct (kw_chars o Io) as (x & y & E & L & _). rewrite E in M. injection M as -> _. unfold white in W. cbn in W. numbers. lia.
  - destruct (white_rules k r J') as [[-> ->]|X].
    + split; [reflexivity|]. apply oneof_inv in M as (x & E & _). now injection E.
    + elim (first_is _ _ _ M X c u eq_refl W).
Qed.
Lemma white_token c rest : white c -> next_token ([c] ++ rest) = Some (KSpace, 1%nat).
Proof.
  intros W. destruct (token_exists [c] rest) as (k & r & J & M & E).
  - exists KSpace, white_char_re. split; [|now apply oneof_in]. rewrite rules_split, !in_app_iff. right; right. cbn. tauto.
  - apply no_longer_by. intros k r d u rest' J M _. destruct (white_only k r c (d :: u) J M W) as [_ X]. discriminate X.
  - destruct (white_only k r c [] J M W) as [-> _]. exact E.
Qed.

(** ** Line comments *)
Lemma slash_rules k r : In (k, r) others -> is_comment r /\ visible k = false \/ first_in (fun c => c <> 47) r.
Proof.
  intros J. cbn in J. unfold is_comment.
  repeat (destruct J as [J|J]; [injection J as <- <-; first [right; solve [regex]|left; split; [tauto|reflexivity]]|]). contradiction.
Qed.
Lemma slash_only k r d u : In (k, r) rules -> matches r (47 :: d :: u) -> is_comment r /\ visible k = false.
Proof.
  intros J M. destruct (rule_cases k r J) as [(o & Io & _ & ->)|[(o & Io & _ & ->)|J']].
  - exfalso. apply lit_iff in M. destruct (op_chars o Io) as (x & y & E & _ & A & _). rewrite E in M. injection M as <- M. specialize (A eq_refl) as ->. injection E as <-. discriminate M.
  - exfalso. apply lit_iff in M. destruct (kw_chars o Io) as (x & y & E & L & _). rewrite E in M. injection M as <- _. numbers. lia.
  - destruct (slash_rules k r J') as [X|X]; [exact X|]. now elim (first_is _ _ _ M X 47 (d :: u) eq_refl).
Qed.
Lemma line_inv u : matches line_comment_re u -> exists v, u = [47; 47] ++ v /\ Forall (fun c => ~ is_newline c) v.
Proof.
  intros M. apply lit_seq_inv in M as (v & -> & M). exists v. split; [reflexivity|]. apply (over_all _ _ _ M). unfold noneof. cbn [over]. intros c E N. apply negb_true_iff in E.
  assert (X : existsb (Z.eqb c) [13; 10; 12] = true); [|congruence]. apply one_iff. unfold is_newline in N. cbn. lia.
Qed.
Lemma line_match t : Forall (fun c => ~ is_newline c) t -> matches line_comment_re ([47; 47] ++ t).
Proof.
  intros F. apply m_seq; [now apply lit_iff|]. induction F as [|c t N F IH]; [constructor|]. apply (m_more _ [c] t); [|exact IH]. apply noneof_in. unfold is_newline in N. cbn. lia.
Qed.
Lemma line_token t n rest : Forall (fun c => ~ is_newline c) t -> is_newline n ->
  exists k, visible k = false /\ next_token (([47; 47] ++ t) ++ n :: rest) = Some (k, List.length ([47; 47] ++ t)).
Proof.
  intros F N. destruct (token_exists ([47; 47] ++ t) (n :: rest)) as (k & r & J & M & E).
  - exists KLineComment, line_comment_re. split; [|now apply line_match]. rewrite rules_split, !in_app_iff. right; right. cbn. tauto.
  - apply no_longer_by. intros k r d u rest' J M X. injection X as <- _. cbn [app] in M. destruct (slash_only k r _ _ J M) as [[->|[->|[->| ->]]] _].
    + apply lit_seq_inv in M as (v & X & _). discriminate X.
    + apply lit_seq_inv in M as (v & X & _). discriminate X.
    + apply lit_seq_inv in M as (v & X & _). discriminate X.
    + apply line_inv in M as (v & X & G). injection X as <-. apply Forall_app in G as [_ G]. inversion G; subst. contradiction.
  - exists k. split; [|exact E]. cbn [app] in M. exact (proj2 (slash_only k r _ _ J M)).
Qed.

(** ** Block comments *)
Fixpoint ends (star : bool) (z : list Z) : Prop :=
  match z with
  | [] => False
  | c :: z => if (star && (c =? 47))%bool then z = [] else ends (c =? 42) z
  end.
Lemma ends_plain c z : c <> 42 -> ends false (c :: z) <-> ends false z.
Proof. intros N. cbn [ends andb]. apply Z.eqb_neq in N. rewrite N. reflexivity. Qed.
Lemma stars_inv u : matches (RStar (chr (code "*"))) u -> Forall (fun c => c = 42) u.
Proof. intros M. apply (over_all _ _ _ M). unfold chr. cbn [over]. intros c E. apply Z.eqb_eq in E. now rewrite <- E. Qed.
Lemma some_stars_inv u : matches (plus (chr (code "*"))) u -> exists v, u = 42 :: v /\ Forall (fun c => c = 42) v.
Proof. intros M. apply plus_inv in M as (x & y & -> & A & B). apply chr1_inv in A as ->. exists y. split; [reflexivity|now apply stars_inv]. Qed.
Lemma ends_stars v z : Forall (fun c => c = 42) v -> ends true (v ++ z) <-> ends true z.
Proof. induction 1 as [|c v -> F IH]; [reflexivity|]. cbn [app ends andb Z.eqb]. exact IH. Qed.
Lemma close_inv u : matches until_close_re u -> ends false u.
Proof.
  intros M. apply seq_inv in M as (x & y & -> & A & B). assert (Y : ends false y).
  { apply seq_inv in B as (a & b & -> & B & C). apply some_stars_inv in B as (v & -> & F). apply chr1_inv in C as ->. cbn [app ends andb Z.eqb]. apply (ends_stars v _ F). reflexivity. }
  clear B. revert y Y. revert x A. apply (star_all _ (fun x => forall y, ends false y -> ends false (x ++ y))).
  - intros y Y. exact Y.
  - intros u v M IH y Y. rewrite <- app_assoc. specialize (IH y Y). apply alt_inv in M as [M|M].
    + apply noneof_inv in M as (c & -> & N). apply ends_plain; [|exact IH]. intros ->. apply N. now left.
    + apply seq_inv in M as (a & b & -> & M & N). apply some_stars_inv in M as (w & -> & F). apply noneof_inv in N as (c & -> & N).
      change (ends false ((42 :: w) ++ [c] ++ v ++ y)) || rewrite <- app_assoc. cbn [app ends andb Z.eqb Pos.eqb]. rewrite ends_stars by exact F. cbn [ends andb].
      destruct (Z.eqb_spec c 47) as [->|N1]; [elim N; right; now left|]. destruct (Z.eqb_spec c 42) as [->|N2]; [elim N; now left|]. exact IH.
Qed.
Lemma uc_cons x y : matches (noneof [code "*"] <|> plus (chr (code "*")) +> noneof [code "*"; code "/"]) x -> matches until_close_re y -> matches until_close_re (x ++ y).
Proof. intros X Y. apply seq_inv in Y as (a & b & -> & A & B). rewrite app_assoc. apply m_seq; [now apply m_more|exact B]. Qed.
Lemma some_stars v : Forall (fun c => c = 42) v -> matches (plus (chr (code "*"))) (42 :: v).
Proof. intros F. apply (m_seq _ _ [42] v); [apply chr1|]. induction F as [|c v -> F IH]; [constructor|]. apply (m_more _ [42] v); [apply chr1|exact IH]. Qed.
Lemma close_match_stars z : (ends false z -> matches until_close_re z) /\ (ends true z -> forall v, Forall (fun c => c = 42) v -> matches until_close_re ((42 :: v) ++ z)).
Proof.
  induction z as [|c z [IHf IHt]]; [split; intros []|]. split; cbn [ends andb].
  - destruct (Z.eqb_spec c 42) as [->|N]; intros H.
    + exact (IHt H [] (Forall_nil _)).
    + apply (uc_cons [c] z); [|now apply IHf]. apply m_left. apply noneof_in. intros [E|[]]. now apply N.
  - destruct (Z.eqb_spec c 47) as [->|N1]; intros H v F.
    + subst z. apply (m_seq _ _ [] _); [constructor|]. apply (m_seq _ _ (42 :: v) [47]); [now apply some_stars|apply chr1].
    + destruct (Z.eqb_spec c 42) as [->|N2].
      * specialize (IHt H (v ++ [42])). rewrite Forall_app in IHt. specialize (IHt (conj F (Forall_cons _ eq_refl (Forall_nil _)))).
        change (42 :: v ++ [42]) with ((42 :: v) ++ [42]) in IHt. rewrite <- app_assoc in IHt. exact IHt.
      * replace ((42 :: v) ++ c :: z) with (((42 :: v) ++ [c]) ++ z) by (rewrite <- app_assoc; reflexivity). apply uc_cons; [|now apply IHf].
        apply m_right. apply m_seq; [now apply some_stars|]. apply noneof_in. intros [E|[E|[]]]; [now apply N2|now apply N1].
Qed.
Lemma close_match z : ends false z -> matches until_close_re z.
Proof. apply close_match_stars. Qed.
(** Closed only at the end *)
Lemma ends_last b z : ends b z -> forall x y, z = x ++ [42; 47] ++ y -> y = [].
Proof.
  revert b. induction z as [|c z IH]; intros b H x y E; [elim H|]. cbn [ends] in H. destruct x as [|d x].
  - injection E as -> ->. replace (b && (42 =? 47))%bool with false in H by (destruct b; reflexivity). exact H.
  - injection E as -> E. destruct (b && (d =? 47))%bool; [|exact (IH _ H x y E)]. subst z. destruct x; discriminate E.
Qed.
Lemma ends_first t : (forall a b, t ++ text "*/" = a ++ text "*/" ++ b -> b = []) -> ends false (t ++ [42; 47]).
Proof.
  change (text "*/") with [42; 47]. intros H. assert (X : forall z st, z <> [] -> (forall a b, (if st : bool then [42] else []) ++ z ++ [42; 47] = a ++ [42; 47] ++ b -> b = []) -> ends st (z ++ [42; 47])).
  { induction z as [|c z IH]; intros st N G; [now elim N|]. cbn [app ends]. destruct (st && (c =? 47))%bool eqn:E.
    - apply andb_true_iff in E as [-> E]. apply Z.eqb_eq in E as ->. exact (G [] (z ++ [42; 47]) eq_refl).
    - destruct z as [|d z].
      + cbn [app ends]. destruct (Z.eqb_spec c 42) as [->|Nc]; reflexivity.
      + apply IH; [discriminate|]. intros a b Eq. destruct (Z.eqb_spec c 42) as [->|Nc].
        * apply (G ((if st then [42] else []) ++ a) b). rewrite <- app_assoc, <- Eq. reflexivity.
        * apply (G ((if st then [42] else []) ++ [c] ++ a) b). rewrite <- !app_assoc. f_equal. cbn [app] in Eq |- *. now rewrite Eq. }
  destruct t as [|c t]; [reflexivity|]. apply X; [discriminate|]. cbn [app]. exact H.
Qed.
Lemma block_match t : ends false (t ++ [42; 47]) -> matches block_comment_re ([47; 42] ++ t ++ [42; 47]).
Proof. intros H. apply m_seq; [now apply lit_iff|now apply close_match]. Qed.
Lemma block_token t rest : piece_ok (BlockComment t) -> t <> [] ->
  exists k, visible k = false /\ next_token (([47; 42] ++ t ++ [42; 47]) ++ rest) = Some (k, List.length ([47; 42] ++ t ++ [42; 47])).
Proof.
  intros O N. pose proof (ends_first t O) as X. destruct (token_exists ([47; 42] ++ t ++ [42; 47]) rest) as (k & r & J & M & E).
  - exists KBlockComment, block_comment_re. split; [|now apply block_match]. rewrite rules_split, !in_app_iff. right; right. cbn. tauto.
  - apply no_longer_by. intros k r d u rest' J M _. cbn [app] in M. rewrite <- app_assoc in M. cbn [app] in M. destruct (slash_only k r _ _ J M) as [[->|[->|[->| ->]]] _].
    + apply lit_seq_inv in M as (v & E & M). apply close_inv in M. destruct t as [|c t]; [now elim N|]. injection E as _ E. pose proof (ends_last _ _ M t (d :: u) (eq_sym E)). discriminate.
    + apply lit_seq_inv in M as (v & E & M). apply close_inv in M. destruct t as [|c t]; [now elim N|]. injection E as _ E. pose proof (ends_last _ _ M t (d :: u) (eq_sym E)). discriminate.
    + apply lit_seq_inv in M as (v & E & M). apply close_inv in M. injection E as E. pose proof (ends_last _ _ M t (d :: u) (eq_sym E)). discriminate.
    + apply lit_seq_inv in M as (v & E & M). discriminate E.
  - exists k. split; [|exact E]. cbn [app] in M. exact (proj2 (slash_only k r _ _ J M)).
Qed.
