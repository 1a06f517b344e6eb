(** Proofs about the rules of the lexer. *)
From Coq Require Import String Ascii.
From Verif Require Import Base PyLiteral ModelLiterals SpecLiterals ModelLexer SpecLexer LexRegexProofs.
Local Open Scope string_scope.
Local Open Scope list_scope.
Local Open Scope Z_scope.

(** ** Characters *)
Lemma one_iff l c : existsb (Z.eqb c) l = true <-> In c l.
Proof. rewrite existsb_exists. split; [intros (x & I & E); apply Z.eqb_eq in E; now subst|intros I; exists c; split; [exact I|apply Z.eqb_refl]]. Qed.
Lemma within_iff lo hi c : within lo hi c = true <-> lo <= c <= hi.
Proof. unfold within. rewrite andb_true_iff, !Z.leb_le. reflexivity. Qed.
Lemma oneof_inv l u : matches (oneof l) u -> exists c, u = [c] /\ In c l.
Proof. intros H. apply chr_inv in H as (c & -> & E). apply one_iff in E. now exists c. Qed.
Lemma noneof_inv l u : matches (noneof l) u -> exists c, u = [c] /\ ~ In c l.
Proof. intros H. apply chr_inv in H as (c & -> & E). exists c. split; [reflexivity|]. intros I. apply one_iff in I. now rewrite I in E. Qed.
Lemma chr1_inv x u : matches (chr x) u -> u = [x].
Proof. intros H. apply chr_inv in H as (c & -> & E). apply Z.eqb_eq in E. now subst. Qed.
Lemma range_inv lo hi u : matches (range lo hi) u -> exists c, u = [c] /\ code lo <= c <= code hi.
Proof. intros H. apply chr_inv in H as (c & -> & E). apply within_iff in E. now exists c. Qed.
Lemma chr1 x : matches (chr x) [x].
Proof. constructor. apply Z.eqb_refl. Qed.
Lemma oneof_in l c : In c l -> matches (oneof l) [c].
Proof. intros H. constructor. now apply one_iff. Qed.
Lemma noneof_in l c : ~ In c l -> matches (noneof l) [c].
Proof. intros H. constructor. apply negb_true_iff. destruct (existsb (Z.eqb c) l) eqn:E; [|reflexivity]. apply one_iff in E. contradiction. Qed.
Lemma range_in lo hi c : code lo <= c <= code hi -> matches (range lo hi) [c].
Proof. intros H. constructor. now apply within_iff. Qed.
Lemma codes_iff t u : matches (codes t) u <-> u = t.
Proof.
  revert u. induction t as [|c t IH]; intros u.
  - split; [apply eps_inv|intros ->; constructor].
  - destruct t as [|d t].
    + split; [apply chr1_inv|intros ->; apply chr1].
    + change (codes (c :: d :: t)) with (RSeq (chr c) (codes (d :: t))). split.
      * intros H. apply seq_inv in H as (x & y & -> & A & B). apply chr1_inv in A as ->. apply IH in B as ->. reflexivity.
      * intros ->. apply (seq_intro _ _ [c] (d :: t)); [reflexivity|apply chr1|now apply IH].
Qed.
Lemma lit_iff s u : matches (lit s) u <-> u = text s.
Proof. apply codes_iff. Qed.
Lemma plus_inv a u : matches (plus a) u -> exists x y, u = x ++ y /\ matches a x /\ matches (RStar a) y.
Proof. apply seq_inv. Qed.
Lemma opt_inv a u : matches (ropt a) u -> u = [] \/ matches a u.
Proof. intros H. apply alt_inv in H as [H|H]; [now right|apply eps_inv in H; now left]. Qed.

(** ** All characters and the first character of what is matched *)
Fixpoint over (P : Z -> Prop) (r : re) : Prop :=
  match r with
  | RNone | REps => True
  | RChr q => forall c, q c = true -> P c
  | RSeq a b | RAlt a b => over P a /\ over P b
  | RStar a => over P a
  end.
Lemma over_all P r u : matches r u -> over P r -> Forall P u.
Proof.
  induction 1 as [|p c E|a b s t _ IHa _ IHb|a b s _ IH|a b s _ IH|a|a s t _ IHa _ IHb]; cbn [over].
  - constructor.
  - intros H. constructor; [now apply H|constructor].
  - intros [A B]. apply Forall_app. split; auto.
  - intros [A B]. auto.
  - intros [A B]. auto.
  - constructor.
  - intros A. apply Forall_app. split; auto.
Qed.
Fixpoint first_in (P : Z -> Prop) (r : re) : Prop :=
  match r with
  | RNone | REps => True
  | RChr q => forall c, q c = true -> P c
  | RSeq a b => first_in P a /\ (if nullable a then first_in P b else True)
  | RAlt a b => first_in P a /\ first_in P b
  | RStar a => first_in P a
  end.
Lemma first_is P r u : matches r u -> first_in P r -> forall c v, u = c :: v -> P c.
Proof.
  induction 1 as [|p d E|a b s t Ha IHa Hb IHb|a b s _ IH|a b s _ IH|a|a s t _ IHa _ IHb]; cbn [first_in]; intros F c v Eu.
  - discriminate Eu.
  - injection Eu as -> _. now apply F.
  - destruct F as [A B]. destruct s as [|x s].
    + apply nullable_iff in Ha. rewrite Ha in B. exact (IHb B c v Eu).
    + cbn [app] in Eu. injection Eu as -> _. exact (IHa A c s eq_refl).
  - exact (IH (proj1 F) c v Eu).
  - exact (IH (proj2 F) c v Eu).
  - discriminate Eu.
  - destruct s as [|x s]; [exact (IHb F c v Eu)|]. cbn [app] in Eu. injection Eu as -> _. exact (IHa F c s eq_refl).
Qed.
Lemma lit_over P s : Forall P (text s) -> over P (lit s).
Proof.
  unfold lit. induction (text s) as [|c t IH]; [intros; exact I|]. intros H. inversion H as [|c' t' Hc Ht]; subst. destruct t as [|d t].
  - cbn [codes over chr]. intros x E. apply Z.eqb_eq in E. now subst.
  - change (codes (c :: d :: t)) with (RSeq (chr c) (codes (d :: t))). split; [intros x E; apply Z.eqb_eq in E; now subst|now apply IH].
Qed.

(** ** The rules *)
Definition others : list (kind * re) := skipn (List.length operators + List.length keywords) rules.
Lemma rules_split : rules = map (fun s => (KOperator s, lit s)) operators ++ map (fun s => (KKeyword s, lit s)) keywords ++ others.
Proof. reflexivity. Qed.
Lemma rule_cases k r : In (k, r) rules ->
  (exists s, In s operators /\ k = KOperator s /\ r = lit s) \/ (exists s, In s keywords /\ k = KKeyword s /\ r = lit s) \/ In (k, r) others.
Proof.
  rewrite rules_split, !in_app_iff, !in_map_iff. intros [(s & E & I)|[(s & E & I)|I]].
  - left. injection E as <- <-. now exists s.
  - right; left. injection E as <- <-. now exists s.
  - right; right. exact I.
Qed.
Definition first_of (s : string) : Z := match text s with c :: _ => c | [] => 0 end.

(** Which characters tokens begin with: letters and @, digits, white space, a quote, a slash, others *)
Definition letter_at (c : Z) : Prop := is_letter c \/ c = code "@".
Definition word_at (c : Z) : Prop := is_word_char c \/ c = code "@".
Ltac numbers := unfold word_at, letter_at, is_word_char, is_letter, is_newline in *;
  change (code "a") with 97 in *; change (code "z") with 122 in *; change (code "A") with 65 in *; change (code "Z") with 90 in *; change (code "_") with 95 in *;
  change (code "0") with 48 in *; change (code "9") with 57 in *; change (code "@") with 64 in *; change (code "f") with 102 in *; change (code "F") with 70 in *;
  change (code "7") with 55 in *; change (code "3") with 51 in *; change (code "1") with 49 in *; change (code ".") with 46 in *; change (code "/") with 47 in *;
  change (code "*") with 42 in *; change quote with 34 in *; change backslash with 92 in *; change (code "u") with 117 in *; change (code "x") with 120 in *;
  change (code "e") with 101 in *; change (code "E") with 69 in *; change (code "!") with 33 in *.
Ltac split_chars H :=
  match type of H with
  | existsb (Z.eqb _) _ = true => apply one_iff in H; vm_compute in H
  | within _ _ _ = true => apply within_iff in H
  | Z.eqb _ _ = true => apply Z.eqb_eq in H; vm_compute in H
  | negb _ = true => apply negb_true_iff in H
  end.
Ltac each_char := let c := fresh "c" in let E := fresh "E" in intros c E; split_chars E; numbers; lia.
Ltac regex := unfold float_literal_re, white_char_re, doc_comment_re, markdown_comment_re, block_comment_re, until_close_re, line_comment_re, bool_literal_re, string_literal_re,
    string_character_re, binary_literal_re, octal_literal_re, hexadecimal_literal_re, double_literal_re, decimal_literal_re, identifier_re,
    invalid_string_re, invalid_token_re, word_re, letter_re, hex_digit_re, octal_digit_re, decimal_digit_re, float_exponent_re, plus, ropt, chr, oneof, noneof, range, lit;
  cbn [first_in over nullable andb orb codes text map list_ascii_of_string chr]; unfold chr; cbn [first_in over nullable andb orb];
  repeat match goal with |- _ /\ _ => split end; try exact I; try each_char.
Local Infix "==>" := implb (at level 45).
Definition op_check : bool := forallb (fun s => match text s with c :: t =>
  forallb (fun c => negb (within 97 122 c) && negb (within 65 90 c) && negb (c =? 95) && negb (within 48 57 c) && negb (c =? 64) && negb (existsb (Z.eqb c) [13; 10; 12; 9; 32; 34])) (c :: t) &&
  ((c =? 47) ==> String.eqb s "/") && ((c =? 46) ==> String.eqb s ".") | [] => false end) operators.
Definition kw_check : bool := forallb (fun s => match text s with c :: _ => (within 97 122 c || (c =? 64)) && forallb (fun c => within 97 122 c || (c =? 95) || within 48 57 c || (c =? 64)) (text s) | [] => false end) keywords.
Lemma op_chars s : In s operators -> exists c t, text s = c :: t /\ Forall (fun c => ~ word_at c /\ ~ In c [13; 10; 12; 9; 32; 34]) (c :: t) /\ (c = 47 -> s = "/") /\ (c = 46 -> s = ".").
Proof.
  assert (H : op_check = true) by (vm_compute; reflexivity). unfold op_check in H. rewrite forallb_forall in H. intros I. specialize (H s I).
  destruct (text s) as [|c t]; [discriminate H|]. exists c, t. split; [reflexivity|]. rewrite !andb_true_iff in H. destruct H as [[H HA] HB]. split; [|split].
  - rewrite Forall_forall. rewrite forallb_forall in H. intros x Ix. specialize (H x Ix). rewrite !andb_true_iff, !negb_true_iff in H. destruct H as (((((H1 & H2) & H3) & H4) & H5) & H6).
    split; [|intros J; apply one_iff in J; congruence].
    apply Z.eqb_neq in H3, H5. intros W. numbers. destruct W as [[[W|[W|W]]|W]|W]; try contradiction; apply within_iff in W; congruence.
  - intros E. rewrite (proj2 (Z.eqb_eq c 47) E) in HA. now apply String.eqb_eq.
  - intros E. rewrite (proj2 (Z.eqb_eq c 46) E) in HB. now apply String.eqb_eq.
Qed.
Lemma op_first s : In s operators -> exists c t, text s = c :: t /\ ~ word_at c /\ ~ In c [13; 10; 12; 9; 32; 34].
Proof. intros I. destruct (op_chars s I) as (c & t & E & F & _). exists c, t. split; [exact E|]. exact (Forall_inv F). Qed.
Lemma kw_chars s : In s keywords -> exists c t, text s = c :: t /\ letter_at c /\ Forall word_at (text s).
Proof.
  assert (H : kw_check = true) by (vm_compute; reflexivity). unfold kw_check in H. rewrite forallb_forall in H. intros I. specialize (H s I).
  destruct (text s) as [|c t]; [discriminate H|]. apply andb_true_iff in H as [H1 H2]. exists c, t. split; [reflexivity|]. split.
  - apply orb_true_iff in H1 as [H|H]; [apply within_iff in H|apply Z.eqb_eq in H]; numbers; lia.
  - rewrite Forall_forall. rewrite forallb_forall in H2. intros x J. specialize (H2 x J). rewrite !orb_true_iff in H2. destruct H2 as [[[H|H]|H]|H]; split_chars H; numbers; lia.
Qed.
Lemma word_rules k r : In (k, r) others -> over word_at r \/ first_in (fun c => ~ letter_at c) r.
Proof. intros J. cbn in J. repeat (destruct J as [J|J]; [injection J as <- <-; first [right; solve [regex]|left; solve [regex]]|]). contradiction. Qed.
Lemma words_only k r c u : In (k, r) rules -> matches r (c :: u) -> letter_at c -> Forall word_at (c :: u).
Proof.
  intros I M L. destruct (rule_cases k r I) as [(s & Is & _ & ->)|[(s & Is & _ & ->)|J]].
  - apply lit_iff in M. destruct (op_first s Is) as (d & t & E & N & _). rewrite E in M. injection M as -> _. elim N. destruct L as [L|L]; [left; now left|now right].
  - apply lit_iff in M. rewrite M. destruct (kw_chars s Is) as (d & t & _ & _ & F). exact F.
  - destruct (word_rules k r J) as [X|X]; [exact (over_all _ _ _ M X)|]. elim (first_is _ _ _ M X c u eq_refl). exact L.
Qed.

(** ** The token a text is *)
Lemma text_inj s s' : text s = text s' -> s = s'.
Proof.
  unfold text. intros H. rewrite <- (string_of_list_ascii_of_string s), <- (string_of_list_ascii_of_string s'). f_equal.
  revert H. generalize (list_ascii_of_string s) (list_ascii_of_string s'). intros a. induction a as [|x a IH]; intros [|y b] H; try discriminate H; [reflexivity|].
  cbn [map] in H. injection H as E H. f_equal; [|now apply IH]. unfold code in E. apply Nat2Z.inj in E.
  rewrite <- (ascii_nat_embedding x), <- (ascii_nat_embedding y). now rewrite E.
Qed.
Lemma token_in p q k w rest : rules = p ++ q -> (exists r, In (k, r) p /\ matches r w) -> (forall k' r', In (k', r') p -> matches r' w -> k' = k) -> no_longer rules w rest ->
  next_token (w ++ rest) = Some (k, List.length w).
Proof.
  intros E (r & I & M) U N. destruct (first_match p w) as (before & k0 & r0 & after & Ep & M0 & B); [now exists k, r|].
  assert (k0 = k) as -> by (apply (U k0 r0); [rewrite Ep; apply in_elt|exact M0]).
  apply (token_is before k r0 (after ++ q)); [|exact M0|exact N|exact B]. rewrite E, Ep, <- app_assoc. reflexivity.
Qed.
Lemma stop_after (P : Z -> Prop) w rest u v : w ++ rest = u ++ v -> Forall P u -> match rest with [] => True | c :: _ => ~ P c end -> (List.length u <= List.length w)%nat.
Proof.
  revert u. induction w as [|x w IH]; intros u E F H.
  - cbn [app] in E. destruct u as [|c u]; [cbn; lia|]. subst rest. cbn in H. inversion F; subst. contradiction.
  - destruct u as [|c u]; [cbn; lia|]. injection E as -> E. inversion F; subst. specialize (IH u E ltac:(assumption) H). cbn [List.length]. lia.
Qed.
Lemma same_head (c : Z) w rest d u v : (c :: w) ++ rest = (d :: u) ++ v -> c = d.
Proof. intros H. now injection H. Qed.

Lemma word_no_longer c w rest : letter_at c -> match rest with [] => True | d :: _ => ~ is_word_char d /\ d <> code "@" end -> no_longer rules (c :: w) rest.
Proof.
  intros L R k r u v I M E. destruct u as [|d u]; [cbn; lia|]. assert (c = d) as -> by exact (same_head _ _ _ _ _ _ E).
  apply (stop_after word_at _ _ _ _ E); [exact (words_only k r d u I M L)|]. destruct rest as [|x rest]; [exact R|]. destruct R as [A B]. intros [W|W]; contradiction.
Qed.
Lemma symbols_same : symbols = operators. Proof. reflexivity. Qed.
Lemma reserved_same : reserved_words = keywords. Proof. reflexivity. Qed.
Lemma in_ops k r : In (k, r) (map (fun s => (KOperator s, lit s)) operators) <-> exists s, In s operators /\ k = KOperator s /\ r = lit s.
Proof. rewrite in_map_iff. split; [intros (s & E & I); injection E as <- <-; now exists s|intros (s & I & -> & ->); now exists s]. Qed.
Lemma in_kws k r : In (k, r) (map (fun s => (KKeyword s, lit s)) keywords) <-> exists s, In s keywords /\ k = KKeyword s /\ r = lit s.
Proof. rewrite in_map_iff. split; [intros (s & E & I); injection E as <- <-; now exists s|intros (s & I & -> & ->); now exists s]. Qed.
Definition firsts (n : nat) : list (kind * re) := map (fun s => (KOperator s, lit s)) operators ++ map (fun s => (KKeyword s, lit s)) keywords ++ firstn n others.
Lemma firsts_split n : rules = firsts n ++ skipn n others.
Proof. unfold firsts. rewrite <- !app_assoc, firstn_skipn. apply rules_split. Qed.
Lemma firsts_cases n k r : In (k, r) (firsts n) ->
  (exists s, In s operators /\ k = KOperator s /\ r = lit s) \/ (exists s, In s keywords /\ k = KKeyword s /\ r = lit s) \/ In (k, r) (firstn n others).
Proof. unfold firsts. rewrite !in_app_iff, in_ops, in_kws. tauto. Qed.
Lemma firsts_other n k r : In (k, r) (firstn n others) -> In (k, r) (firsts n).
Proof. intros I. unfold firsts. rewrite !in_app_iff. auto. Qed.

Lemma reserved_token s rest : In s reserved_words -> match rest with [] => True | c :: _ => may_touch (Reserved s) c end ->
  next_token (text s ++ rest) = Some (KKeyword s, List.length (text s)).
Proof.
  rewrite reserved_same. intros I R. destruct (kw_chars s I) as (c & t & E & L & _). apply (token_in (firsts 0) _ (KKeyword s) _ _ (firsts_split 0)).
  - exists (lit s). split; [|now apply lit_iff]. unfold firsts. rewrite !in_app_iff, in_kws. right; left. now exists s.
  - intros k r J M. apply firsts_cases in J as [(o & Io & -> & ->)|[(o & Io & -> & ->)|[]]]; apply lit_iff in M.
    + destruct (op_first o Io) as (d & u & E' & N & _). rewrite E, E' in M. injection M as -> _. elim N. destruct L as [L|L]; [left; now left|now right].
    + apply text_inj in M. now subst.
  - rewrite E in *. apply word_no_longer; assumption.
Qed.
Lemma truth_token b rest : match rest with [] => True | c :: _ => may_touch (Truth b) c end ->
  next_token (truth_text b ++ rest) = Some (KBool, List.length (truth_text b)).
Proof.
  intros R. apply (token_in (firsts 6) _ KBool _ _ (firsts_split 6)).
  - exists bool_literal_re. split; [apply firsts_other; cbn; tauto|]. destruct b; [apply m_left|apply m_right]; now apply lit_iff.
  - intros k r J M. apply firsts_cases in J as [(o & Io & -> & ->)|[(o & Io & -> & ->)|J]].
    + apply lit_iff in M. destruct (op_first o Io) as (d & u & E' & N & _). rewrite E' in M. elim N. left; left. destruct b; injection M as <- _; left; split; vm_compute; discriminate.
    + apply lit_iff in M. exfalso. assert (X : forallb (fun s => negb (existsb (fun b => if list_eq_dec Z.eq_dec (truth_text b) (text s) then true else false) [true; false])) keywords = true)
        by (vm_compute; reflexivity).
      rewrite forallb_forall in X. specialize (X o Io). apply negb_true_iff in X. assert (Y : existsb (fun b => if list_eq_dec Z.eq_dec (truth_text b) (text o) then true else false) [true; false] = true); [|congruence].
      apply existsb_exists. exists b. split; [destruct b; cbn; auto|]. destruct (list_eq_dec Z.eq_dec (truth_text b) (text o)); [reflexivity|contradiction].
    + assert (L : exists c t, truth_text b = c :: t /\ letter_at c) by (destruct b; eexists _, _; (split; [reflexivity|]); left; left; split; vm_compute; discriminate).
      destruct L as (c & t & E & L). rewrite E in M.
      assert (X : k = KBool \/ first_in (fun c => ~ letter_at c) r).
      { clear - J. cbn in J. repeat (destruct J as [J|J]; [injection J as <- <-; first [left; reflexivity|right; solve [regex]]|]). contradiction. }
      destruct X as [X|X]; [exact X|]. elim (first_is _ _ _ M X c t eq_refl). exact L.
  - destruct b; apply word_no_longer; try assumption; left; left; split; vm_compute; discriminate.
Qed.
Lemma name_token t rest : lexeme_ok (Name t) -> match rest with [] => True | c :: _ => may_touch (Name t) c end -> next_token (t ++ rest) = Some (KId, List.length t).
Proof.
  intros ((c & u & -> & L & F) & NR & NT) R. apply (token_in (firsts 14) _ KId _ _ (firsts_split 14)).
  - exists identifier_re. split; [apply firsts_other; cbn; tauto|]. apply (seq_intro _ _ [c] u); [reflexivity| |].
    + destruct L as [L|[L|L]]; [apply m_left; now apply range_in|apply m_right, m_left; now apply range_in|apply m_right, m_right; subst; apply chr1].
    + clear - F. induction F as [|x u X F IH]; [constructor|]. apply (m_more _ [x] u); [|exact IH].
      destruct X as [[L|[L|L]]|L]; [apply m_left, m_left; now apply range_in|apply m_left, m_right, m_left; now apply range_in|apply m_left, m_right, m_right; subst; apply chr1|].
      apply m_right. now apply range_in.
  - intros k r J M. apply firsts_cases in J as [(o & Io & -> & ->)|[(o & Io & -> & ->)|J]].
    + apply lit_iff in M. destruct (op_first o Io) as (d & v & E' & N & _). rewrite E' in M. injection M as <- _. elim N. left; now left.
    + apply lit_iff in M. elim NR. rewrite M. now apply in_map.
    + assert (X : k = KId \/ r = bool_literal_re \/ first_in (fun c => ~ letter_at c) r).
      { clear - J. cbn in J. repeat (destruct J as [J|J]; [injection J as <- <-; first [left; reflexivity|right; left; reflexivity|right; right; solve [regex]]|]). contradiction. }
      destruct X as [X|[->|X]]; [exact X| |elim (first_is _ _ _ M X c u eq_refl); now left].
      apply alt_inv in M as [M|M]; apply lit_iff in M; [elim (NT true)|elim (NT false)]; exact M.
  - apply word_no_longer; [now left|exact R].
Qed.
