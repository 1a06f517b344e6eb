(** Proofs about literals in the lexer. *)
From Coq Require Import String Ascii.
From Verif Require Import Base PyLiteral ModelLiterals SpecLiterals ModelLexer SpecLexer LexRegexProofs LexerProofs LexerTokens.
Local Open Scope string_scope.
Local Open Scope list_scope.
Local Open Scope Z_scope.

(** ** Digits *)
Lemma digit_range base d : is_digit base d -> base <= 10 -> 48 <= digit_char d <= 47 + base.
Proof. unfold is_digit, digit_char. intros H B. destruct (Z.ltb_spec d 10); lia. Qed.
Lemma hex_one d : is_digit 16 (fst d) -> matches hex_digit_re [hex_char d].
Proof.
  unfold is_digit, hex_char. intros H. destruct (Z.ltb_spec (fst d) 10); [apply m_left|apply m_right; destruct (snd d); [apply m_right|apply m_left]]; apply range_in; numbers; lia.
Qed.
Lemma star_each a (f : Z -> Z) ds : Forall (fun d => matches a [f d]) ds -> matches (RStar a) (map f ds).
Proof. induction 1 as [|d ds M F IH]; [constructor|]. cbn [map]. now apply (m_more _ [f d]). Qed.
Lemma plus_each {X} a (f : X -> Z) ds : ds <> [] -> Forall (fun d => matches a [f d]) ds -> matches (plus a) (map f ds).
Proof.
  intros N F. destruct F as [|d ds M F]; [now elim N|]. cbn [map]. apply (m_seq _ _ [f d]); [exact M|]. clear N M. induction F as [|e ds M F IH]; [constructor|]. cbn [map]. now apply (m_more _ [f e]).
Qed.
Lemma decimals ds : Forall (is_digit 10) ds -> Forall (fun d => matches decimal_digit_re [digit_char d]) ds.
Proof. apply Forall_impl. intros d H. apply range_in. pose proof (digit_range 10 d H). numbers. lia. Qed.
Lemma decimal_range ds : Forall (is_digit 10) ds -> Forall (fun c => 48 <= c <= 57) (map digit_char ds).
Proof. intros F. rewrite Forall_map. revert F. apply Forall_impl. intros d H. pose proof (digit_range 10 d H). lia. Qed.

(** ** Strings *)
Lemma char_match x : string_char_ok x -> matches string_character_re (char_text x).
Proof.
  destruct x as [c|c|ds|ds|ds]; cbn [string_char_ok char_text]; intros H.
  - apply m_left. apply noneof_in. cbn. numbers. lia.
  - apply m_right, m_left. apply (m_seq _ _ [backslash] [c]); [apply chr1|]. apply oneof_in. revert H. unfold escape_meaning.
    repeat match goal with |- (if ?c =? ?x then _ else _) <> None -> _ => destruct (Z.eqb_spec c x) as [->|?]; [intros _; vm_compute; tauto|] end. intros H. now elim H.
  - destruct H as [L F]. destruct ds as [|a [|b [|c [|d [|e ds]]]]]; unfold zlen in L; cbn [List.length] in L; try lia.
    apply m_right, m_right, m_left. inversion F as [|x1 y1 A F1]; subst. inversion F1 as [|x2 y2 B F2]; subst. inversion F2 as [|x3 y3 C F3]; subst. inversion F3 as [|x4 y4 D F4]; subst.
    apply (m_seq _ _ [backslash]); [apply chr1|]. apply (m_seq _ _ [code "u"]); [apply chr1|]. cbn [map].
    apply (m_seq _ _ [hex_char a]); [now apply hex_one|]. apply (m_seq _ _ [hex_char b]); [now apply hex_one|]. apply (m_seq _ _ [hex_char c] [hex_char d]); now apply hex_one.
  - destruct H as [L F]. destruct ds as [|a [|b [|c ds]]]; unfold zlen in L; cbn [List.length] in L; try lia.
    apply m_right, m_right, m_right, m_left. inversion F as [|x1 y1 A F1]; subst. inversion F1 as [|x2 y2 B F2]; subst.
    apply (m_seq _ _ [backslash]); [apply chr1|]. apply (m_seq _ _ [code "x"]); [apply chr1|]. cbn [map]. apply (m_seq _ _ [hex_char a] [hex_char b]); now apply hex_one.
  - destruct H as (L & F & T). apply m_right, m_right, m_right, m_right. apply (m_seq _ _ [backslash]); [apply chr1|]. apply (m_seq _ _ [code "0"]); [apply chr1|].
    assert (O : forall d, is_digit 8 d -> matches octal_digit_re [digit_char d]) by (intros d D; apply range_in; pose proof (digit_range 8 d D); numbers; lia).
    destruct ds as [|a [|b [|c [|d ds]]]]; unfold zlen in L, T; cbn [List.length] in L, T; try lia; inversion F as [|x1 y1 A F1]; subst.
    + apply (m_seq _ _ [] [digit_char a]); [apply m_right; constructor|]. apply (m_seq _ _ [digit_char a] []); [now apply O|apply m_right; constructor].
    + inversion F1 as [|x2 y2 B F2]; subst. apply (m_seq _ _ [] [digit_char a; digit_char b]); [apply m_right; constructor|]. apply (m_seq _ _ [digit_char a] [digit_char b]); [now apply O|apply m_left; now apply O].
    + inversion F1 as [|x2 y2 B F2]; subst. inversion F2 as [|x3 y3 C F3]; subst. apply (m_seq _ _ [digit_char a] [digit_char b; digit_char c]).
      * apply m_left. apply range_in. specialize (T ltac:(lia)). cbn [hd] in T. unfold is_digit in A. unfold digit_char. destruct (Z.ltb_spec a 10); numbers; lia.
      * apply (m_seq _ _ [digit_char b] [digit_char c]); [now apply O|apply m_left; now apply O].
Qed.
Lemma chars_match s : Forall string_char_ok s -> matches (RStar string_character_re) (flat_map char_text s).
Proof. induction 1 as [|x s H F IH]; [constructor|]. cbn [flat_map]. apply m_more; [now apply char_match|exact IH]. Qed.
(** Reading a string character by character: [None] at the closing quote, otherwise whether the last character was a backslash that escapes *)
Fixpoint scan (escaped : bool) (t : list Z) : option bool :=
  match t with
  | [] => Some escaped
  | c :: t => if escaped then scan false t else if c =? backslash then scan true t else if c =? quote then None else scan false t
  end.
Lemma scan_app t : forall b u, scan b (t ++ u) = match scan b t with Some b' => scan b' u | None => None end.
Proof. induction t as [|c t IH]; intros b u; [reflexivity|]. cbn [app scan]. destruct b; [apply IH|]. destruct (c =? backslash); [apply IH|]. destruct (c =? quote); [reflexivity|apply IH]. Qed.
Lemma scan_plain c t : c <> quote -> c <> backslash -> scan false (c :: t) = scan false t.
Proof. intros A B. cbn [scan]. apply Z.eqb_neq in A, B. rewrite A, B. reflexivity. Qed.
Lemma scan_plains t : Forall (fun c => c <> quote /\ c <> backslash) t -> scan false t = Some false.
Proof. induction 1 as [|c t [A B] F IH]; [reflexivity|]. now rewrite scan_plain. Qed.
Lemma scan_escape c t : Forall (fun c => c <> quote /\ c <> backslash) t -> scan false (backslash :: c :: t) = Some false.
Proof. intros F. cbn [scan Z.eqb]. rewrite Z.eqb_refl. now apply scan_plains. Qed.
Definition safe (c : Z) : Prop := c <> quote /\ c <> backslash.
Lemma hex_safe : over safe hex_digit_re. Proof. unfold safe. regex. Qed.
Lemma octal_safe : over safe octal_digit_re. Proof. unfold safe. regex. Qed.
Lemma char_scan u : matches string_character_re u -> scan false u = Some false.
Proof.
  intros M. apply alt_inv in M as [M|M]; [|apply alt_inv in M as [M|M]; [|apply alt_inv in M as [M|M]; [|apply alt_inv in M as [M|M]]]].
  - apply noneof_inv in M as (c & -> & N). rewrite scan_plain; [reflexivity|intros ->; apply N; cbn; tauto|intros ->; apply N; cbn; tauto].
  - apply seq_inv in M as (x & y & -> & A & B). apply chr1_inv in A as ->. apply oneof_inv in B as (c & -> & _). apply (scan_escape c []). constructor.
  - apply seq_inv in M as (x & y & -> & A & B). apply chr1_inv in A as ->. apply seq_inv in B as (x & z & -> & A & B). apply chr1_inv in A as ->. apply (scan_escape _ z).
    apply (over_all _ _ _ B). cbn [over]. pose proof hex_safe. unfold safe in *. tauto.
  - apply seq_inv in M as (x & y & -> & A & B). apply chr1_inv in A as ->. apply seq_inv in B as (x & z & -> & A & B). apply chr1_inv in A as ->. apply (scan_escape _ z).
    apply (over_all _ _ _ B). cbn [over]. pose proof hex_safe. unfold safe in *. tauto.
  - apply seq_inv in M as (x & y & -> & A & B). apply chr1_inv in A as ->. apply seq_inv in B as (x & z & -> & A & B). apply chr1_inv in A as ->. apply (scan_escape _ z).
    apply (over_all safe _ _ B). cbn [over ropt]. pose proof octal_safe. repeat match goal with |- _ /\ _ => split end; try assumption; try exact I. unfold safe. regex.
Qed.
Lemma chars_scan u : matches (RStar string_character_re) u -> scan false u = Some false.
Proof. apply (star_all _ (fun u => scan false u = Some false)); [reflexivity|]. intros a b M IH. rewrite scan_app, (char_scan a M). exact IH. Qed.
Lemma quote_rules k r : In (k, r) others -> k = KLiteral StringLiteral /\ r = string_literal_re \/ k = KInvalidString /\ r = invalid_string_re \/ first_in (fun c => c <> quote) r.
Proof.
  intros J. cbn in J.
  repeat (destruct J as [J|J]; [injection J as <- <-; first [right; right; solve [regex]|tauto]|]). contradiction.
Qed.
Lemma quote_only k r u : In (k, r) rules -> matches r (quote :: u) -> k = KLiteral StringLiteral /\ r = string_literal_re \/ k = KInvalidString /\ r = invalid_string_re.
Proof.
  intros J M. destruct (rule_cases k r J) as [(o & Io & _ & ->)|[(o & Io & _ & ->)|J']].
  - exfalso. apply lit_iff in M. destruct (op_first o Io) as (x & y & E & _ & N). rewrite E in M. injection M as <- _. apply N. cbn. tauto.
  - exfalso. apply lit_iff in M. destruct (kw_chars o Io) as (x & y & E & L & _). rewrite E in M. injection M as <- _. numbers. lia.
  - destruct (quote_rules k r J') as [X|[X|X]]; [now left|now right|]. now elim (first_is _ _ _ M X quote u eq_refl).
Qed.
Lemma string_token s rest : Forall string_char_ok s -> next_token (string_text s ++ rest) = Some (KLiteral StringLiteral, List.length (string_text s)).
Proof.
  intros F. assert (Mw : matches string_literal_re (string_text s)).
  { apply (m_seq _ _ [quote]); [apply chr1|]. apply m_seq; [now apply chars_match|apply chr1]. }
  apply (token_in (firsts 7) _ _ _ _ (firsts_split 7)).
  - exists string_literal_re. split; [apply firsts_other; cbn; tauto|exact Mw].
  - intros k r J M. assert (J' : In (k, r) rules) by (rewrite (firsts_split 7); apply in_or_app; now left). destruct (quote_only k r _ J' M) as [[-> _]|[-> ->]]; [reflexivity|].
    exfalso. apply firsts_cases in J as [(o & Io & X & _)|[(o & Io & X & _)|J]]; try discriminate X. cbn in J.
    repeat (destruct J as [J|J]; [discriminate J|]). contradiction.
  - apply no_longer_by. intros k r d u rest' J M _. unfold string_text in M. cbn [app] in M. rewrite <- app_assoc in M. cbn [app] in M. pose proof (chars_scan _ (chars_match s F)) as S0.
    destruct (quote_only k r _ J M) as [[_ ->]|[_ ->]].
    + apply seq_inv in M as (x & y & E & A & B). apply chr1_inv in A as ->. injection E as E. apply seq_inv in B as (a & b & -> & A & B). apply chr1_inv in B as ->. apply chars_scan in A.
      assert (X : exists z, a = flat_map char_text s ++ quote :: z).
      { destruct (cut (flat_map char_text s ++ [quote]) (d :: u) (a ++ [quote]) []) as (c & v & Ev & _).
        - rewrite <- app_assoc, app_nil_r. exact E.
        - apply (f_equal (@List.length Z)) in E. rewrite !app_length in *. cbn [List.length] in *. lia.
        - assert (L : List.length v = List.length u).
          { apply (f_equal (@List.length Z)) in E, Ev. rewrite !app_length in *. cbn [List.length] in *. lia. }
          destruct (@exists_last Z (c :: v) ltac:(discriminate)) as (v' & q & Ec). rewrite <- app_assoc in Ev. cbn [app] in Ev. change (quote :: c :: v) with ([quote] ++ c :: v) in Ev. rewrite Ec in Ev.
          rewrite !app_assoc in Ev. apply app_inj_tail in Ev as [-> _]. exists v'. now rewrite <- app_assoc. }
      destruct X as (z & ->). rewrite scan_app, S0 in A. cbn [scan Z.eqb] in A. discriminate A.
    + apply seq_inv in M as (x & y & E & A & B). apply chr1_inv in A as ->. injection E as E. apply seq_inv in B as (a & b & -> & A & B).
      assert (G : Forall (fun c => c <> quote) a).
      { apply (over_all _ _ _ A). unfold noneof. cbn [over]. intros c X ->. discriminate X. }
      assert (Lb : (List.length b <= 1)%nat) by (apply opt_inv in B as [->|B]; [cbn; lia|apply chr1_inv in B as ->; cbn; lia]).
      destruct (cut (flat_map char_text s) (quote :: d :: u) a b E) as (c & v & -> & R).
      { apply (f_equal (@List.length Z)) in E. rewrite !app_length in E. cbn [List.length] in E. lia. }
      injection R as <- _. apply Forall_app in G as [_ G]. inversion G; subst. contradiction.
Qed.
