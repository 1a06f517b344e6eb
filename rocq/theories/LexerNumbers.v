(** Proofs about numbers in the lexer. *)
From Coq Require Import String Ascii.
From Verif Require Import Base PyLiteral ModelLiterals SpecLiterals ModelLexer SpecLexer LexRegexProofs LexerProofs LexerTokens LexerLiterals.
Local Open Scope string_scope.
Local Open Scope list_scope.
Local Open Scope Z_scope.

Definition num_at (c : Z) : Prop := is_word_char c \/ c = 46.
Lemma number_rules k r : In (k, r) others -> over num_at r \/ r = double_literal_re \/ r = float_literal_re \/ first_in (fun c => ~ number_first c) r.
Proof.
  intros J. cbn in J. unfold num_at, number_first.
  repeat (destruct J as [J|J]; [injection J as <- <-; first [right; right; right; solve [regex]|left; solve [regex]|tauto]|]). contradiction.
Qed.
Lemma numbers_only k r c u : In (k, r) rules -> matches r (c :: u) -> number_first c ->
  Forall num_at (c :: u) \/ r = double_literal_re \/ r = float_literal_re.
Proof.
  intros J M N. destruct (rule_cases k r J) as [(o & Io & _ & ->)|[(o & Io & _ & ->)|J']].
  - left. apply lit_iff in M. destruct (op_chars o Io) as (x & y & E & F & _ & B). rewrite M. rewrite E in M. injection M as -> ->. destruct N as [N| ->].
    + exfalso. apply (proj1 (Forall_inv F)). left; now right.
    + rewrite (B eq_refl). constructor; [now right|constructor].
  - exfalso. apply lit_iff in M. destruct (kw_chars o Io) as (x & y & E & L & _). rewrite E in M. injection M as -> _. unfold number_first in N. numbers. lia.
  - destruct (number_rules k r J') as [X|[X|[X|X]]]; [left; exact (over_all _ _ _ M X)|tauto|tauto|]. elim (first_is _ _ _ M X c u eq_refl N).
Qed.

(** ** Where a sign can be in a number *)
Definition point_digit (c : Z) : Prop := 48 <= c <= 57 \/ c = 46.
Definition digit_c (c : Z) : Prop := 48 <= c <= 57.
Definition no_sign (c : Z) : Prop := c <> 43 /\ c <> 45.
Definition exponent_form (e : list Z) : Prop := e = [] \/ exists x s ds, e = x :: s ++ ds /\ (x = 101 \/ x = 69) /\ (s = [] \/ s = [43] \/ s = [45]) /\ Forall digit_c ds.
Lemma exponent_inv e : matches float_exponent_re e -> exponent_form e /\ e <> [].
Proof.
  intros M. apply seq_inv in M as (x & y & -> & A & B). apply oneof_inv in A as (c & -> & C). apply seq_inv in B as (s & ds & -> & S0 & D). split; [|discriminate]. right. exists c, s, ds.
  split; [reflexivity|]. split; [vm_compute in C; lia|]. apply some_digits_inv in D as (d & v & -> & F). split; [|exact F].
  apply opt_inv in S0 as [->|S0]; [now left|]. apply oneof_inv in S0 as (z & -> & Z0). vm_compute in Z0. destruct Z0 as [<-|[<-|[]]]; tauto.
Qed.
Lemma exponent_opt e : matches (ropt float_exponent_re) e -> exponent_form e.
Proof. intros M. apply opt_inv in M as [->|M]; [now left|now apply exponent_inv]. Qed.
Lemma point_digits a : Forall digit_c a -> Forall point_digit a.
Proof. apply Forall_impl. intros c H. now left. Qed.
Lemma double_inv u : matches double_literal_re u -> exists a e, u = a ++ e /\ Forall point_digit a /\ exponent_form e /\ (In 46 a \/ e <> []).
Proof.
  intros M. apply alt_inv in M as [M|M]; [|apply alt_inv in M as [M|M]].
  - apply seq_inv in M as (x & y & -> & A & B). apply some_digits_inv in A as (c & v & -> & F). apply exponent_inv in B as [B N]. exists (c :: v), y. repeat split; [now apply point_digits|exact B|now right].
  - apply seq_inv in M as (x & y & -> & A & B). apply some_digits_inv in A as (c & v & -> & F). apply seq_inv in B as (p & z & -> & P & B). apply chr1_inv in P as ->.
    apply seq_inv in B as (f & e & -> & D & E). apply digits_inv in D. apply exponent_opt in E. exists ((c :: v) ++ [46] ++ f), e. rewrite <- !app_assoc. repeat split.
    + apply Forall_app; split; [now apply point_digits|]. apply Forall_app; split; [constructor; [now right|constructor]|now apply point_digits].
    + exact E.
    + left. apply in_or_app. right. now left.
  - apply seq_inv in M as (p & z & -> & P & B). apply chr1_inv in P as ->. apply seq_inv in B as (f & e & -> & D & E). apply some_digits_inv in D as (c & v & -> & F). apply exponent_opt in E.
    exists ([46] ++ c :: v), e. rewrite <- app_assoc. repeat split; [|exact E|left; now left]. constructor; [now right|now apply point_digits].
Qed.
Lemma skip_part (a : list Z) : forall b x d y, a ++ b = x ++ d :: y -> ~ In d a -> exists x', x = a ++ x' /\ b = x' ++ d :: y.
Proof.
  induction a as [|c a IH]; intros b x d y E N; [now exists x|]. destruct x as [|c' x].
  - injection E as -> _. elim N. now left.
  - injection E as <- E. destruct (IH b x d y E) as (x' & -> & B); [intros J; apply N; now right|]. now exists x'.
Qed.
Lemma sign_place a e t x d y : Forall point_digit a -> exponent_form e -> Forall no_sign t -> d = 43 \/ d = 45 -> a ++ e ++ t = x ++ d :: y -> exists x' c, x = x' ++ [c] /\ (c = 101 \/ c = 69) /\ Forall point_digit x'.
Proof.
  intros A F T D E. destruct (skip_part a _ x d y E) as (x1 & -> & E1).
  { intros J. rewrite Forall_forall in A. specialize (A d J). unfold point_digit in A. lia. }
  assert (NT : ~ In d t) by (intros J; rewrite Forall_forall in T; specialize (T d J); unfold no_sign in T; lia).
  destruct F as [->|(c & s & ds & -> & C & S0 & G)].
  - exfalso. apply NT. cbn [app] in E1. rewrite E1. apply in_elt.
  - assert (ND : ~ In d (ds ++ t)).
    { intros J. apply in_app_or in J as [J|J]; [|contradiction]. rewrite Forall_forall in G. specialize (G d J). unfold digit_c in G. lia. }
    destruct x1 as [|c' x1]; [injection E1 as -> _; lia|]. injection E1 as <- E1. rewrite <- app_assoc in E1.
    destruct S0 as [->|[->| ->]]; cbn [app] in E1.
    + exfalso. apply ND. rewrite E1. apply in_elt.
    + destruct x1 as [|z x1]; [exists a, c; now repeat split|]. injection E1 as _ E1. exfalso. apply ND. rewrite E1. apply in_elt.
    + destruct x1 as [|z x1]; [exists a, c; now repeat split|]. injection E1 as _ E1. exfalso. apply ND. rewrite E1. apply in_elt.
Qed.
Lemma exponent_chars e : exponent_form e -> Forall (fun c => digit_c c \/ c = 101 \/ c = 69 \/ c = 43 \/ c = 45) e.
Proof.
  intros [->|(c & s & ds & -> & C & S0 & G)]; [constructor|]. constructor; [lia|]. apply Forall_app. split; [destruct S0 as [->|[->| ->]]; repeat constructor; lia|].
  revert G. apply Forall_impl. intros x H. now left.
Qed.
Lemma double_chars u : matches double_literal_re u -> Forall (fun c => point_digit c \/ c = 101 \/ c = 69 \/ c = 43 \/ c = 45) u.
Proof.
  intros M. apply double_inv in M as (a & e & -> & A & E & _). apply Forall_app. split.
  - revert A. apply Forall_impl. intros c H. now left.
  - generalize (exponent_chars e E). apply Forall_impl. intros c [H|H]; [left; now left|now right].
Qed.
(** The texts of numbers that end where an exponent could have a sign *)
Definition open_exponent (w : list Z) : Prop := exists x c, w = x ++ [c] /\ (c = 101 \/ c = 69) /\ Forall point_digit x.
Lemma number_no_longer c w rest : number_first c -> ~ open_exponent (c :: w) -> match rest with [] => True | d :: _ => ~ is_word_char d /\ d <> code "." end -> no_longer rules (c :: w) rest.
Proof.
  intros N O R. apply no_longer_by. intros k r d u rest' J M ->. destruct R as [R1 R2]. destruct (numbers_only k r c _ J M N) as [F|[->| ->]].
  - apply Forall_inv_tail, Forall_app in F as [_ F]. apply Forall_inv in F as [F|F]; contradiction.
  - assert (D : d = 43 \/ d = 45).
    { pose proof (double_chars _ M) as F. apply Forall_inv_tail, Forall_app in F as [_ F]. apply Forall_inv in F. unfold point_digit in F. numbers. lia. }
    apply double_inv in M as (a & e & E & A & X & _). apply O. rewrite <- (app_nil_r e) in E. exact (sign_place a e [] _ d u A X (Forall_nil _) D (eq_sym E)).
  - apply float_inv in M as (v & f & E & M & F). assert (D : d = 43 \/ d = 45).
    { pose proof (double_chars _ M) as G. assert (J' : In d (v ++ [f])) by (rewrite <- E; apply in_elt). apply in_app_or in J' as [J'|[<-|[]]].
      - rewrite Forall_forall in G. specialize (G d J'). unfold point_digit in G. numbers. lia.
      - exfalso. numbers. lia. }
    apply double_inv in M as (a & e & -> & A & X & _). rewrite <- app_assoc in E. apply O. refine (sign_place a e [f] _ d u A X _ D (eq_sym E)). constructor; [unfold no_sign; lia|constructor].
Qed.

(** ** Which rules match a number *)
Lemma early_rules k r : In (k, r) (firstn 7 others) -> first_in (fun c => ~ number_first c) r.
Proof. intros J. cbn in J. unfold number_first. repeat (destruct J as [J|J]; [injection J as <- <-; solve [regex]|]). contradiction. Qed.
Lemma number_kind n k r c w : In (k, r) (firsts n) -> matches r (c :: w) -> number_first c -> Exists digit_c (c :: w) -> In (k, r) (skipn 7 (firstn n others)).
Proof.
  intros J M N X. apply firsts_cases in J as [(o & Io & _ & ->)|[(o & Io & _ & ->)|J]].
  - exfalso. apply lit_iff in M. destruct (op_chars o Io) as (x & y & E & F & _). rewrite E in M. rewrite M in X. apply Exists_exists in X as (z & J & Dz). rewrite Forall_forall in F.
    apply (proj1 (F z J)). left; right. exact Dz.
  - exfalso. apply lit_iff in M. destruct (kw_chars o Io) as (x & y & E & L & _). rewrite E in M. injection M as -> _. unfold number_first in N. numbers. lia.
  - rewrite <- (firstn_skipn 7) in J. apply in_app_or in J as [J|J]; [|exact J]. exfalso. refine (first_is _ _ _ M (early_rules k r _) c w eq_refl N).
    rewrite firstn_firstn in J. revert J. destruct (Nat.le_gt_cases n 7) as [L|L]; [rewrite Nat.min_r by exact L|rewrite Nat.min_l by lia; auto].
    intros J. rewrite <- (firstn_skipn n (firstn 7 others)), firstn_firstn, Nat.min_l by exact L. apply in_or_app. now left.
Qed.
Lemma binary_inv u : matches binary_literal_re u -> exists v b, u = v ++ [b] /\ Forall digit_c v /\ (b = 98 \/ b = 66).
Proof.
  intros M. apply seq_inv in M as (x & y & -> & A & B). apply oneof_inv in B as (b & -> & C). exists x, b. split; [reflexivity|]. split; [|vm_compute in C; lia].
  apply (over_all _ _ _ A). unfold digit_c. regex.
Qed.
Lemma octal_inv u : matches octal_literal_re u -> exists d v, u = 48 :: d :: v /\ Forall digit_c u.
Proof.
  intros M. assert (F : Forall digit_c u) by (apply (over_all _ _ _ M); unfold digit_c; regex). apply seq_inv in M as (x & y & -> & A & B). apply chr1_inv in A as ->.
  apply plus_inv in B as (a & b & -> & B & _). apply range_inv in B as (d & -> & _). exists d, b. now split.
Qed.
Lemma hexadecimal_inv u : matches hexadecimal_literal_re u -> exists x v, u = 48 :: x :: v /\ (x = 120 \/ x = 88).
Proof.
  intros M. apply seq_inv in M as (x & y & -> & A & B). apply chr1_inv in A as ->. apply seq_inv in B as (a & b & -> & A & _). apply oneof_inv in A as (c & -> & C).
  exists c, b. split; [reflexivity|]. vm_compute in C. lia.
Qed.
Lemma not_double w : Forall (fun c => c <> 46 /\ c <> 101 /\ c <> 69) w -> ~ matches double_literal_re w.
Proof.
  intros F M. apply double_inv in M as (a & e & -> & _ & E & N). apply Forall_app in F as [Fa Fe]. destruct N as [N|N].
  - rewrite Forall_forall in Fa. specialize (Fa 46 N). lia.
  - destruct E as [->|(c & s & ds & -> & C & _)]; [now elim N|]. apply Forall_inv in Fe. lia.
Qed.
Lemma not_float w : Forall (fun c => c <> 102 /\ c <> 70) w -> ~ matches float_literal_re w.
Proof. intros F M. apply float_inv in M as (v & f & -> & _ & E). apply Forall_app in F as [_ F]. apply Forall_inv in F. lia. Qed.
Lemma digits_only w : Forall digit_c w -> Forall (fun c => c <> 46 /\ c <> 101 /\ c <> 69) w /\ Forall (fun c => c <> 102 /\ c <> 70) w.
Proof. intros F. split; revert F; apply Forall_impl; unfold digit_c; intros c H; lia. Qed.

(** ** Integers *)
Lemma int_match l : int_literal_ok l -> exists r, In (KLiteral (int_token l), r) others /\ matches r (int_text l).
Proof.
  destruct l as [ds up|ds|up ds|ds]; cbn [int_literal_ok int_token int_text].
  - intros [N F]. exists binary_literal_re. split; [cbn; tauto|]. apply m_seq; [|destruct up; apply oneof_in; vm_compute; tauto]. apply plus_each; [exact N|]. revert F. apply Forall_impl.
    intros d H. apply oneof_in. pose proof (digit_range 2 d H ltac:(lia)). change (text "01") with [48; 49]. cbn. lia.
  - intros [N F]. exists octal_literal_re. split; [cbn; tauto|]. apply m_seq; [apply chr1|]. apply plus_each; [exact N|]. revert F. apply Forall_impl.
    intros d H. apply range_in. pose proof (digit_range 8 d H ltac:(lia)). numbers. lia.
  - intros [N F]. exists hexadecimal_literal_re. split; [cbn; tauto|]. destruct up; (apply (m_seq _ _ [48]); [apply chr1|]).
    + apply (m_seq _ _ [88]); [apply oneof_in; vm_compute; tauto|]. apply plus_each; [exact N|]. revert F. apply Forall_impl. apply hex_one.
    + apply (m_seq _ _ [120]); [apply oneof_in; vm_compute; tauto|]. apply plus_each; [exact N|]. revert F. apply Forall_impl. apply hex_one.
  - intros H. exists decimal_literal_re. split; [cbn; tauto|]. destruct H as [->|(d & r & -> & D & F)]; [apply m_right; apply chr1|]. apply m_left. cbn [map].
    apply (m_seq _ _ [digit_char d]); [apply range_in; unfold digit_char; destruct (Z.ltb_spec d 10); numbers; lia|]. apply star_each. now apply decimals.
Qed.
Lemma hex_range d : is_digit 16 (fst d) -> 48 <= hex_char d <= 57 \/ 97 <= hex_char d <= 102 \/ 65 <= hex_char d <= 70.
Proof. unfold is_digit, hex_char. intros H. destruct (Z.ltb_spec (fst d) 10); [lia|]. destruct (snd d); lia. Qed.
Lemma low_range base ds : base <= 10 -> Forall (is_digit base) ds -> Forall digit_c (map digit_char ds).
Proof. intros B F. rewrite Forall_map. revert F. apply Forall_impl. intros d H. unfold digit_c. pose proof (digit_range base d H B). lia. Qed.
Definition starts_digit (w : list Z) : Prop := exists c v, w = c :: v /\ digit_c c.
Lemma int_first l : int_literal_ok l -> starts_digit (int_text l).
Proof.
  destruct l as [ds up|ds|up ds|ds]; cbn [int_literal_ok int_text].
  - intros [N F]. apply (low_range 2) in F; [|lia]. destruct ds as [|d ds]; [now elim N|]. cbn [map] in F. exists (digit_char d). eexists. split; [reflexivity|exact (Forall_inv F)].
  - intros _. exists 48. eexists. split; [reflexivity|unfold digit_c; lia].
  - intros _. exists 48. destruct up; eexists; (split; [reflexivity|unfold digit_c; lia]).
  - intros [->|(d & r & -> & D & F)].
    + exists 48, []. split; [reflexivity|unfold digit_c; lia].
    + cbn [map]. eexists _, _. split; [reflexivity|]. unfold digit_c, digit_char. destruct (Z.ltb_spec d 10); lia.
Qed.
Lemma not_open_last w c : c <> 101 -> c <> 69 -> ~ open_exponent (w ++ [c]).
Proof. intros A B (x & d & E & D & _). apply app_inj_tail in E as [_ ->]. lia. Qed.
Lemma not_open_all w : Forall (fun c => c <> 101 /\ c <> 69) w -> ~ open_exponent w.
Proof. intros F (x & c & -> & C & _). apply Forall_app in F as [_ F]. apply Forall_inv in F. lia. Qed.
Lemma int_not_open l : int_literal_ok l -> ~ open_exponent (int_text l).
Proof.
  destruct l as [ds up|ds|up ds|ds]; cbn [int_literal_ok int_text].
  - intros _. destruct up; apply not_open_last; discriminate.
  - intros [_ F]. apply not_open_all. apply (low_range 8) in F; [|lia]. constructor; [split; discriminate|]. revert F. apply Forall_impl. unfold digit_c. intros c H. lia.
  - intros [N F] (x & c & E & C & P). destruct ds as [|d ds]; [now elim N|]. assert (X : exists q y, (q = 88 \/ q = 120) /\ x = 48 :: q :: y).
    { destruct up; (destruct x as [|a x]; [discriminate E|]; injection E as <- E; destruct x as [|b x]; [discriminate E|]; injection E as <- E; eexists _, x; split; [|reflexivity]); cbn; auto. }
    destruct X as (q & y & Q & ->). inversion P as [|? ? _ P1]; subst. apply Forall_inv in P1. unfold point_digit in P1. lia.
  - intros H. apply not_open_all. assert (F : Forall (is_digit 10) ds).
    { destruct H as [->|(d & r & -> & D & F)]; [repeat constructor; unfold is_digit; lia|constructor; [unfold is_digit; lia|exact F]]. }
    apply (low_range 10) in F; [|lia]. revert F. apply Forall_impl. unfold digit_c. intros c H'. lia.
Qed.
Lemma number_token n k w rest : starts_digit w \/ (exists d v, w = 46 :: d :: v /\ digit_c d) -> ~ open_exponent w ->
  (exists r, In (k, r) (firstn n others) /\ matches r w) -> (forall k' r', In (k', r') (skipn 7 (firstn n others)) -> matches r' w -> k' = k) ->
  match rest with [] => True | d :: _ => ~ is_word_char d /\ d <> code "." end -> next_token (w ++ rest) = Some (k, List.length w).
Proof.
  intros B O (r & J & M) U R. assert (X : exists c v, w = c :: v /\ number_first c /\ Exists digit_c (c :: v)).
  { destruct B as [(c & v & -> & D)|(d & v & -> & D)].
    - exists c, v. split; [reflexivity|]. split; [now left|now constructor].
    - exists 46, (d :: v). split; [reflexivity|]. split; [now right|now constructor 2; constructor]. }
  destruct X as (c & v & -> & N & D). apply (token_in (firsts n) _ _ _ _ (firsts_split n)).
  - exists r. split; [now apply firsts_other|exact M].
  - intros k' r' J' M'. apply (U k' r'); [|exact M']. exact (number_kind n k' r' c v J' M' N D).
  - now apply number_no_longer.
Qed.
Lemma integer_token l rest : int_literal_ok l -> match rest with [] => True | c :: _ => may_touch (Integer l) c end ->
  next_token (int_text l ++ rest) = Some (KLiteral (int_token l), List.length (int_text l)).
Proof.
  intros L R. pose proof (int_first l L) as S0. pose proof (int_not_open l L) as O. destruct (int_match l L) as (r & J & M). cbn [may_touch] in R. destruct l as [ds up|ds|up ds|ds]; cbn [int_token int_text int_literal_ok] in *.
  - apply (number_token 8); [now left|exact O| | |exact R].
    + exists binary_literal_re. split; [cbn; tauto|]. cbn in J. repeat (destruct J as [J|J]; [try discriminate J; injection J as <-; exact M|]). contradiction.
    + intros k' r' J' _. cbn in J'. destruct J' as [J'|[]]. now injection J'.
  - apply (number_token 9); [now left|exact O| | |exact R].
    + exists octal_literal_re. split; [cbn; tauto|]. cbn in J. repeat (destruct J as [J|J]; [try discriminate J; injection J as <-; exact M|]). contradiction.
    + intros k' r' J' M'. cbn in J'. destruct J' as [J'|[J'|[]]]; injection J' as <- <-; [|reflexivity]. exfalso. apply binary_inv in M' as (v & b & E & _ & C).
      destruct L as [N F]. apply (low_range 8) in F; [|lia]. destruct (@exists_last Z (map digit_char ds)) as (y & z & Ez); [destruct ds; [now elim N|discriminate]|].
      rewrite Ez in *. rewrite app_assoc in E. apply app_inj_tail in E as [_ ->]. apply Forall_app in F as [_ F]. apply Forall_inv in F. unfold digit_c in F. lia.
  - apply (number_token 10); [now left|exact O| | |exact R].
    + exists hexadecimal_literal_re. split; [cbn; tauto|]. cbn in J. repeat (destruct J as [J|J]; [try discriminate J; injection J as <-; exact M|]). contradiction.
    + intros k' r' J' M'. assert (X : exists q y, (q = 88 \/ q = 120) /\ text (if up then "0X" else "0x") ++ map hex_char ds = 48 :: q :: y /\ y <> []).
      { destruct L as [N _]. destruct up; eexists _, _; (split; [|split; [reflexivity|destruct ds; [now elim N|discriminate]]]); [now left|now right]. }
      destruct X as (q & y & Q & E & Ny). rewrite E in M'. cbn in J'. destruct J' as [J'|[J'|[J'|[]]]]; injection J' as <- <-; [| |reflexivity]; exfalso.
      * apply binary_inv in M' as (v & b & E' & F & C). destruct v as [|v1 [|v2 v]]; [discriminate E'| |].
        -- injection E' as _ _ E'. now elim Ny.
        -- injection E' as <- <- _. inversion F as [|? ? _ F1]; subst. apply Forall_inv in F1. unfold digit_c in F1. lia.
      * apply octal_inv in M' as (d & v & _ & F). inversion F as [|? ? _ F1]; subst. apply Forall_inv in F1. unfold digit_c in F1. lia.
  - assert (F : Forall digit_c (map digit_char ds)).
    { apply (low_range 10); [lia|]. destruct L as [->|(d & q & -> & D & F)]; [repeat constructor; unfold is_digit; lia|constructor; [unfold is_digit; lia|exact F]]. }
    destruct (digits_only _ F) as [F1 F2]. apply (number_token 13); [now left|exact O| | |exact R].
    + exists decimal_literal_re. split; [cbn; tauto|]. cbn in J. repeat (destruct J as [J|J]; [try discriminate J; injection J as <-; exact M|]). contradiction.
    + intros k' r' J' M'. cbn in J'. destruct J' as [J'|[J'|[J'|[J'|[J'|[J'|[]]]]]]]; injection J' as <- <-; [| | | | |reflexivity]; exfalso.
      * apply binary_inv in M' as (v & b & E & _ & C). rewrite E in F. apply Forall_app in F as [_ F]. apply Forall_inv in F. unfold digit_c in F. lia.
      * apply octal_inv in M' as (d & v & E & _). destruct L as [->|(x & q & -> & D & _)]; [discriminate E|]. cbn [map] in E. injection E as E _. unfold digit_char in E. destruct (Z.ltb_spec x 10); lia.
      * apply hexadecimal_inv in M' as (x & v & E & C). rewrite E in F. inversion F as [|? ? _ F3]; subst. apply Forall_inv in F3. unfold digit_c in F3. lia.
      * exact (not_double _ F1 M').
      * exact (not_float _ F2 M').
Qed.

(** ** Fractions *)
Definition body_text (l : float_literal) : list Z :=
  map digit_char (fl_int l) ++ match fl_frac l with Some f => text "." ++ map digit_char f | None => [] end ++ exponent_text (fl_exp l).
Definition suffix_text (l : float_literal) : list Z := match fl_suffix l with Some upper => text (if upper then "F" else "f") | None => [] end.
Lemma float_text_split l : float_text l = body_text l ++ suffix_text l.
Proof. unfold float_text, body_text, suffix_text. now rewrite <- !app_assoc. Qed.
Lemma exponent_match b s ds : ds <> [] -> Forall (is_digit 10) ds -> matches float_exponent_re (exponent_text (Some (b, s, ds))).
Proof.
  intros N F. apply m_seq; [destruct b; apply oneof_in; vm_compute; tauto|]. apply m_seq.
  - destruct s; [apply m_right; constructor|apply m_left; apply oneof_in; vm_compute; tauto|apply m_left; apply oneof_in; vm_compute; tauto].
  - apply plus_each; [exact N|now apply decimals].
Qed.
Lemma exponent_opt_match x : match x with Some (_, _, ds) => ds <> [] /\ Forall (is_digit 10) ds | None => True end -> matches (ropt float_exponent_re) (exponent_text x).
Proof. destruct x as [[[b s] ds]|]; [intros [N F]; apply m_left; now apply exponent_match|intros _; apply m_right; constructor]. Qed.
Lemma body_match l : float_literal_ok l -> matches double_literal_re (body_text l).
Proof.
  intros (Fi & Ff & Fe). unfold body_text. destruct (fl_frac l) as [f|].
  - destruct Ff as [Ff N]. destruct (fl_int l) as [|d ds] eqn:Ei.
    + apply m_right, m_right. cbn [map app]. apply (m_seq _ _ [46]); [apply chr1|]. apply m_seq; [|now apply exponent_opt_match]. apply plus_each; [destruct N as [N|N]; [now elim N|exact N]|now apply decimals].
    + apply m_right, m_left. apply m_seq; [apply plus_each; [discriminate|now apply decimals]|]. rewrite <- app_assoc. apply (m_seq _ _ [46]); [apply chr1|]. apply m_seq; [apply star_each; now apply decimals|].
      now apply exponent_opt_match.
  - destruct Ff as [N X]. apply m_left. apply m_seq; [apply plus_each; [exact N|now apply decimals]|]. cbn [app]. destruct (fl_exp l) as [[[b s] ds]|]; [|now elim X]. destruct Fe. now apply exponent_match.
Qed.
Lemma body_last l : float_literal_ok l -> exists v c, body_text l = v ++ [c] /\ point_digit c.
Proof.
  intros (Fi & Ff & Fe). unfold body_text. assert (Lst : forall ds, ds <> [] -> Forall (is_digit 10) ds -> exists v c, map digit_char ds = v ++ [c] /\ point_digit c).
  { intros ds N F. apply (low_range 10) in F; [|lia]. destruct (@exists_last Z (map digit_char ds)) as (v & c & E); [destruct ds; [now elim N|discriminate]|].
    exists v, c. split; [exact E|]. rewrite E in F. apply Forall_app in F as [_ F]. left. exact (Forall_inv F). }
  destruct (fl_exp l) as [[[b s] ds]|].
  - destruct Fe as [N F]. destruct (Lst ds N F) as (v & c & E & C). eexists _, c. split; [|exact C]. cbn [exponent_text]. rewrite E. rewrite !app_assoc. reflexivity.
  - cbn [exponent_text]. rewrite app_nil_r. destruct (fl_frac l) as [f|]; [|destruct Ff as [_ X]; now elim X]. destruct Ff as [Ff _]. destruct f as [|d f].
    + exists (map digit_char (fl_int l)), 46. split; [reflexivity|now right].
    + destruct (Lst (d :: f) ltac:(discriminate) Ff) as (v & c & E & C). eexists _, c. split; [|exact C]. rewrite E. rewrite !app_assoc. reflexivity.
Qed.
(** A fraction has a point or an exponent *)
Lemma body_mark l : float_literal_ok l -> exists c, In c (body_text l) /\ (c = 46 \/ c = 101 \/ c = 69).
Proof.
  intros H. destruct (double_inv _ (body_match l H)) as (a & e & -> & _ & X & [N|N]); [exists 46; split; [apply in_or_app; now left|now left]|].
  destruct X as [->|(c & s & ds & -> & C & _)]; [now elim N|]. exists c. split; [apply in_elt|lia].
Qed.
Lemma body_first l : float_literal_ok l -> starts_digit (body_text l) \/ exists d v, body_text l = 46 :: d :: v /\ digit_c d.
Proof.
  intros H. pose proof (body_match l H) as M. destruct (body_text l) as [|c u]; [now elim (double_nonempty _ M)|].
  destruct (first_is _ _ _ M double_first c u eq_refl) as [D| ->]; [left; now exists c, u|]. right. apply point_first in M as (d & v & -> & D). now exists d, v.
Qed.
Lemma fraction_token l rest : float_literal_ok l -> match rest with [] => True | c :: _ => may_touch (Fraction l) c end ->
  next_token (float_text l ++ rest) = Some (KLiteral (float_token l), List.length (float_text l)).
Proof.
  intros L R. pose proof (body_match l L) as M. pose proof (double_chars _ M) as Ch. destruct (body_last l L) as (v & c & Ev & C). destruct (body_mark l L) as (m & Im & Hm).
  assert (B : starts_digit (float_text l) \/ exists d v, float_text l = 46 :: d :: v /\ digit_c d).
  { rewrite float_text_split. destruct (body_first l L) as [(x & y & -> & D)|(x & y & -> & D)]; [left; now exists x, (y ++ suffix_text l)|right; now exists x, (y ++ suffix_text l)]. }
  assert (NB : forall w t, body_text l ++ t = w -> ~ (Forall digit_c w) /\ forall x y, w = x ++ [y] -> t = [] \/ t = [y] -> ~ Forall digit_c x \/ y = m).
  { intros w t <-. split.
    - intros F. rewrite Forall_forall in F. specialize (F m (in_or_app _ _ _ (or_introl Im))). unfold digit_c in F. lia.
    - intros x y E [->| ->].
      + rewrite app_nil_r in E. rewrite E in Im. apply in_app_or in Im as [Im|[<-|[]]]; [|now right]. left. intros F. rewrite Forall_forall in F. specialize (F m Im). unfold digit_c in F. lia.
      + apply app_inj_tail in E as [<- _]. left. intros F. rewrite Forall_forall in F. specialize (F m Im). unfold digit_c in F. lia. }
  assert (Suf : suffix_text l = [] \/ exists f, suffix_text l = [f] /\ (f = 102 \/ f = 70)).
  { unfold suffix_text. destruct (fl_suffix l) as [[|]|]; [right; exists 70; split; [reflexivity|now right]|right; exists 102; split; [reflexivity|now left]|now left]. }
  assert (O : ~ open_exponent (float_text l)).
  { rewrite float_text_split, Ev. unfold point_digit in C. destruct Suf as [->|(f & -> & F)]; [rewrite app_nil_r; apply not_open_last; lia|apply not_open_last; lia]. }
  assert (NBin : ~ matches binary_literal_re (float_text l)).
  { intros X. apply binary_inv in X as (x & b & E & F & Hb). rewrite float_text_split in E. destruct (NB _ _ E) as [_ Y]. specialize (Y x b eq_refl).
    destruct Suf as [Sf|(f & Sf & Hf)].
    - destruct (Y (or_introl Sf)) as [Y1|Y1]; [contradiction|lia].
    - rewrite Sf in E. apply app_inj_tail in E as [_ ->]. lia. }
  assert (NOct : ~ matches octal_literal_re (float_text l)).
  { intros X. apply octal_inv in X as (x & b & _ & F). destruct (NB (float_text l) (suffix_text l)) as [Y _]; [now rewrite float_text_split|contradiction]. }
  assert (NHex : ~ matches hexadecimal_literal_re (float_text l)).
  { intros X. apply hexadecimal_inv in X as (x & b & E & Hx). assert (J : In x (float_text l)) by (rewrite E; right; now left). rewrite float_text_split in J. apply in_app_or in J as [J|J].
    - rewrite Forall_forall in Ch. specialize (Ch x J). unfold point_digit in Ch. lia.
    - destruct Suf as [Sf|(f & Sf & Hf)]; rewrite Sf in J; [elim J|destruct J as [<-|[]]; lia]. }
  cbn [may_touch] in R. unfold float_token. destruct (fl_suffix l) as [up|] eqn:Es.
  - apply (number_token 12); [exact B|exact O| | |exact R].
    + exists float_literal_re. split; [cbn; tauto|]. rewrite float_text_split. apply m_seq; [exact M|]. unfold suffix_text. rewrite Es. destruct up; apply oneof_in; vm_compute; tauto.
    + intros k' r' J' M'. cbn in J'. destruct J' as [J'|[J'|[J'|[J'|[J'|[]]]]]]; injection J' as <- <-; [contradiction|contradiction|contradiction| |reflexivity]. exfalso.
      apply double_chars in M'. rewrite float_text_split in M'. apply Forall_app in M' as [_ M']. unfold suffix_text in M'. rewrite Es in M'.
      destruct up; apply Forall_inv in M'; unfold point_digit in M'; vm_compute in M'; intuition discriminate.
  - assert (Sf : suffix_text l = []) by (unfold suffix_text; now rewrite Es). apply (number_token 11); [exact B|exact O| | |exact R].
    + exists double_literal_re. split; [cbn; tauto|]. rewrite float_text_split, Sf, app_nil_r. exact M.
    + intros k' r' J' M'. cbn in J'. destruct J' as [J'|[J'|[J'|[J'|[]]]]]; injection J' as <- <-; [contradiction|contradiction|contradiction|reflexivity].
Qed.

(** ** Every word *)
Lemma lexeme_token w rest : lexeme_ok w -> match rest with [] => True | c :: _ => may_touch w c end ->
  next_token (lexeme_text w ++ rest) = Some (lexeme_kind w, List.length (lexeme_text w)).
Proof.
  destruct w as [s|s|b|t|l|l|s]; cbn [lexeme_text lexeme_kind]; intros O R.
  - now apply symbol_token.
  - now apply reserved_token.
  - now apply truth_token.
  - now apply name_token.
  - now apply integer_token.
  - now apply fraction_token.
  - now apply string_token.
Qed.
Lemma lexeme_nonempty w : lexeme_ok w -> lexeme_text w <> [].
Proof.
  destruct w as [s|s|b|t|l|l|s]; cbn [lexeme_text lexeme_ok]; intros O.
  - rewrite symbols_same in O. destruct (op_chars s O) as (c & t & -> & _). discriminate.
  - rewrite reserved_same in O. destruct (kw_chars s O) as (c & t & -> & _). discriminate.
  - destruct b; discriminate.
  - destruct O as ((c & r & -> & _) & _). discriminate.
  - destruct (int_first l O) as (c & v & -> & _). discriminate.
  - rewrite float_text_split. destruct (body_first l O) as [(c & v & -> & _)|(d & v & -> & _)]; discriminate.
  - discriminate.
Qed.
