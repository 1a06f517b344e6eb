(** Proofs about the tokens of any text: names and literals. *)
From Coq Require Import String Ascii.
From Verif Require Import Base ModelArray ModelSchema ModelExpr PyLiteral ModelLiterals SpecLiterals LiteralsProofs ModelParser
  ModelLexer SpecLexer LexRegexProofs LexerProofs LexerTokens LexerLiterals LexerNumbers LexerTextProofs.
Local Open Scope string_scope.
Local Open Scope list_scope.
Local Open Scope Z_scope.

Definition lexed (t : list Z) (k : kind) (w : list Z) : Prop := exists l, tokens t = Some l /\ In (k, w) l.
Lemma lexed_read t k w : lexed t k w -> (exists a b, t = a ++ w ++ b) /\ exists rest, read_as k w rest.
Proof.
  intros (l & E & J). unfold tokens in E. destruct (lex (List.length t) t) as [l'|] eqn:El; [|discriminate E]. injection E as <-. apply filter_In in J as [J _]. destruct (lex_inv _ _ _ El) as [C R].
  apply in_split in J as (a & b & ->). split; [|eexists; exact (R a k w b eq_refl)]. rewrite map_app, concat_app in C. cbn [map concat snd] in C. exists (concat (map snd a)), (concat (map snd b)). now rewrite <- C.
Qed.
Lemma read_rule k w rest : read_as k w rest -> exists r, In (k, r) rules /\ matches r w.
Proof. intros (_ & before & r & after & E & M & _). exists r. split; [rewrite E; apply in_elt|exact M]. Qed.
Lemma kind_rule k r r0 : In (k, r) rules -> In (k, r0) others -> r = r0.
Proof.
  intros J J0. destruct (rule_cases k r J) as [(o & Io & -> & ->)|[(o & Io & -> & ->)|J1]].
  - exfalso. cbn in J0. repeat (destruct J0 as [J0|J0]; [discriminate J0|]). contradiction.
  - exfalso. cbn in J0. repeat (destruct J0 as [J0|J0]; [discriminate J0|]). contradiction.
  - cbn in J1, J0. repeat (destruct J0 as [J0|J0]; [injection J0 as <- <-; repeat (destruct J1 as [J1|J1]; [try discriminate J1; injection J1 as <-; reflexivity|]); contradiction|]). contradiction.
Qed.

(** ** Names *)
Lemma before_id before r after : rules = before ++ (KId, r) :: after -> before = firsts 13.
Proof.
  intros E. assert (E' : rules = firsts 13 ++ (KId, identifier_re) :: skipn 14 others) by reflexivity. rewrite E' in E. symmetry.
  assert (Only : forall r', In (KId, r') (firsts 13) -> False).
  { intros r' J. apply firsts_cases in J as [(o & _ & X & _)|[(o & _ & X & _)|J]]; try discriminate X. cbn in J. repeat (destruct J as [J|J]; [discriminate J|]). contradiction. }
  assert (Tail : forall r', In (KId, r') (skipn 14 others) -> False).
  { intros r' J. cbn in J. repeat (destruct J as [J|J]; [discriminate J|]). contradiction. }
  clear E'. revert before E Only Tail. generalize (skipn 14 others) as tail. intros tail before E Only Tail. revert before E. induction (firsts 13) as [|x p IH]; intros before E.
  - destruct before as [|y before]; [reflexivity|]. injection E as _ E. exfalso. apply (Tail r). rewrite E. apply in_elt.
  - destruct before as [|y before].
    + injection E as -> _. elim (Only r). now left.
    + injection E as -> E. f_equal. apply IH; [|exact E]. intros r' J. apply (Only r'). now right.
Qed.
Theorem name_tokens t w : lexed t KId w -> lexeme_ok (Name w).
Proof.
  intros H. destruct (lexed_read _ _ _ H) as (_ & rest & _ & before & r & after & E & M & _ & N). pose proof (before_id _ _ _ E) as B. subst before.
  assert (J : In (KId, r) rules) by (rewrite E; apply in_elt). assert (r = identifier_re) as -> by (apply (kind_rule KId r); [exact J|cbn; tauto]). cbn [lexeme_ok]. split; [|split].
  - apply seq_inv in M as (x & y & -> & A & F). assert (X : exists c, x = [c] /\ is_letter c).
    { apply alt_inv in A as [A|A]; [|apply alt_inv in A as [A|A]].
      - apply range_inv in A as (c & -> & R). exists c. split; [reflexivity|now left].
      - apply range_inv in A as (c & -> & R). exists c. split; [reflexivity|right; now left].
      - apply chr1_inv in A as ->. exists (code "_"). split; [reflexivity|right; now right]. }
    destruct X as (c & -> & L). exists c, y. split; [reflexivity|]. split; [exact L|]. apply (over_all _ _ _ F). regex.
  - rewrite reserved_same. intros X. apply in_map_iff in X as (s & <- & Is). apply (N (KKeyword s) (lit s)); [|now apply lit_iff]. unfold firsts. rewrite !in_app_iff, in_kws. right; left. now exists s.
  - intros b ->. apply (N KBool bool_literal_re); [apply firsts_other; cbn; tauto|]. destruct b; [apply m_left|apply m_right]; now apply lit_iff.
Qed.

(** ** Literals *)
Lemma digits_of base w : base <= 10 -> Forall (fun c => 48 <= c <= 47 + base) w -> exists ds, Forall (is_digit base) ds /\ map digit_char ds = w.
Proof.
  intros B. induction 1 as [|c w R F (ds & D & <-)]; [now exists []|]. exists (c - 48 :: ds). split; [constructor; [unfold is_digit; lia|exact D]|]. cbn [map]. f_equal.
  unfold digit_char. destruct (Z.ltb_spec (c - 48) 10); lia.
Qed.
Lemma hex_of u : matches hex_digit_re u -> exists d, u = [hex_char d] /\ is_digit 16 (fst d).
Proof.
  intros M. apply alt_inv in M as [M|M]; [|apply alt_inv in M as [M|M]]; apply range_inv in M as (c & -> & R); numbers.
  - exists (c - 48, false). split; [|unfold is_digit; cbn; lia]. unfold hex_char. cbn [fst snd]. destruct (Z.ltb_spec (c - 48) 10); [f_equal|]; lia.
  - exists (c - 87, false). split; [|unfold is_digit; cbn; lia]. unfold hex_char. cbn [fst snd]. destruct (Z.ltb_spec (c - 87) 10); [|f_equal]; lia.
  - exists (c - 55, true). split; [|unfold is_digit; cbn; lia]. unfold hex_char. cbn [fst snd]. destruct (Z.ltb_spec (c - 55) 10); [|f_equal]; lia.
Qed.
Lemma hexes_of u : matches (RStar hex_digit_re) u -> exists ds, Forall (fun d => is_digit 16 (fst d)) ds /\ map hex_char ds = u.
Proof.
  apply (star_all _ (fun u => exists ds, Forall (fun d => is_digit 16 (fst d)) ds /\ map hex_char ds = u)); [now exists []|].
  intros a b M (ds & F & <-). apply hex_of in M as (d & -> & D). exists (d :: ds). split; [now constructor|reflexivity].
Qed.
Theorem integer_tokens t k w : lexed t (KLiteral k) w -> match k with FloatLiteral | DoubleLiteral | StringLiteral => False | _ => True end ->
  exists i, int_literal_ok i /\ int_token i = k /\ int_text i = w.
Proof.
  intros H K. destruct (lexed_read _ _ _ H) as (_ & rest & R). destruct (read_rule _ _ _ R) as (r & J & M). destruct k; try contradiction.
  - assert (r = binary_literal_re) as -> by (apply (kind_rule _ r _ J); cbn; tauto). apply seq_inv in M as (x & y & -> & A & B). apply oneof_inv in B as (b & -> & C).
    assert (F : Forall (fun c => 48 <= c <= 47 + 2) x) by (apply (over_all _ _ _ A); regex). destruct (digits_of 2 x ltac:(lia) F) as (ds & D & <-).
    assert (N : ds <> []). { intros ->. apply plus_inv in A as (p & q & E & A & _). apply oneof_inv in A as (z & -> & _). discriminate E. }
    vm_compute in C. destruct C as [<-|[<-|[]]]; [exists (Binary ds false)|exists (Binary ds true)]; now repeat split.
  - assert (r = octal_literal_re) as -> by (apply (kind_rule _ r _ J); cbn; tauto). apply seq_inv in M as (x & y & -> & A & B). apply chr1_inv in A as ->.
    assert (F : Forall (fun c => 48 <= c <= 47 + 8) y) by (apply (over_all _ _ _ B); regex). destruct (digits_of 8 y ltac:(lia) F) as (ds & D & <-).
    assert (N : ds <> []). { intros ->. apply plus_inv in B as (p & q & E & A & _). apply range_inv in A as (z & -> & _). discriminate E. }
    exists (Octal ds). now repeat split.
  - assert (r = hexadecimal_literal_re) as -> by (apply (kind_rule _ r _ J); cbn; tauto). apply seq_inv in M as (x & y & -> & A & B). apply chr1_inv in A as ->.
    apply seq_inv in B as (p & q & -> & A & B). apply oneof_inv in A as (c & -> & C). apply plus_inv in B as (a & b & -> & A & B). apply hex_of in A as (d & -> & D). apply hexes_of in B as (ds & F & <-).
    vm_compute in C. destruct C as [<-|[<-|[]]]; [exists (Hexadecimal false (d :: ds))|exists (Hexadecimal true (d :: ds))]; (repeat split; [discriminate|now constructor]).
  - assert (r = decimal_literal_re) as -> by (apply (kind_rule _ r _ J); cbn; tauto). apply alt_inv in M as [M|M].
    + apply seq_inv in M as (x & y & -> & A & B). apply range_inv in A as (c & -> & C). apply digits_inv in B. destruct (digits_of 10 y ltac:(lia) B) as (ds & D & <-). numbers.
      exists (Decimal (c - 48 :: ds)). split; [right; exists (c - 48), ds; repeat split; [lia|lia|exact D]|]. split; [reflexivity|]. cbn [int_text map app]. f_equal. unfold digit_char. destruct (Z.ltb_spec (c - 48) 10); lia.
    + apply chr1_inv in M as ->. exists (Decimal [0]). split; [now left|]. now split.
Qed.
Lemma decimals_of w : Forall (fun c => 48 <= c <= 57) w -> exists ds, Forall (is_digit 10) ds /\ map digit_char ds = w.
Proof. intros F. apply (digits_of 10); [lia|exact F]. Qed.
Lemma some_decimals_of u : matches (plus decimal_digit_re) u -> exists ds, ds <> [] /\ Forall (is_digit 10) ds /\ map digit_char ds = u.
Proof. intros M. apply some_digits_inv in M as (c & v & -> & F). destruct (decimals_of _ F) as (ds & D & E). exists ds. split; [|now split]. intros ->. discriminate E. Qed.
Lemma exponent_of e : matches float_exponent_re e -> exists x, exponent_text (Some x) = e /\ snd x <> [] /\ Forall (is_digit 10) (snd x).
Proof.
  intros M. apply seq_inv in M as (x & y & -> & A & B). apply oneof_inv in A as (c & -> & C). apply seq_inv in B as (s & ds & -> & S0 & D). apply some_decimals_of in D as (d & N & F & <-).
  assert (X : exists b : bool, text (if b then "E" else "e") = [c]) by (vm_compute in C; destruct C as [<-|[<-|[]]]; [now exists false|now exists true]).
  assert (Y : exists g, sign_text g = s).
  { apply opt_inv in S0 as [->|S0]; [now exists NoSign|]. apply oneof_inv in S0 as (z & -> & Z0). vm_compute in Z0. destruct Z0 as [<-|[<-|[]]]; [now exists PlusSign|now exists MinusSign]. }
  destruct X as (b & X). destruct Y as (g & Y). exists (b, g, d). cbn [exponent_text snd]. now rewrite X, Y.
Qed.
Lemma exponent_opt_of e : matches (ropt float_exponent_re) e -> exists x, exponent_text x = e /\ match x with Some (_, _, ds) => ds <> [] /\ Forall (is_digit 10) ds | None => True end.
Proof. intros M. apply opt_inv in M as [->|M]; [now exists None|]. apply exponent_of in M as ([[b g] d] & <- & N). now exists (Some (b, g, d)). Qed.
Lemma double_of u suffix : matches double_literal_re u -> exists f, float_literal_ok f /\ fl_suffix f = suffix /\ body_text f = u.
Proof.
  intros M. apply alt_inv in M as [M|M]; [|apply alt_inv in M as [M|M]].
  - apply seq_inv in M as (x & y & -> & A & B). apply some_decimals_of in A as (ds & N & D & <-). apply exponent_of in B as ([[b g] d] & <- & N' & F).
    exists {| fl_int := ds; fl_frac := None; fl_exp := Some (b, g, d); fl_suffix := suffix |}. split; [|now split]. repeat split; try assumption. discriminate.
  - apply seq_inv in M as (x & y & -> & A & B). apply some_decimals_of in A as (ds & N & D & <-). apply seq_inv in B as (p & z & -> & P & B). apply chr1_inv in P as ->.
    apply seq_inv in B as (f & e & -> & Df & E). apply digits_inv in Df. apply decimals_of in Df as (fs & Df & <-). apply exponent_opt_of in E as (x & <- & X).
    exists {| fl_int := ds; fl_frac := Some fs; fl_exp := x; fl_suffix := suffix |}. split; [repeat split; try assumption; now left|]. split; [reflexivity|]. unfold body_text. cbn [fl_int fl_frac fl_exp]. now rewrite <- app_assoc.
  - apply seq_inv in M as (p & z & -> & P & B). apply chr1_inv in P as ->. apply seq_inv in B as (f & e & -> & Df & E). apply some_decimals_of in Df as (fs & N & Df & <-). apply exponent_opt_of in E as (x & <- & X).
    exists {| fl_int := []; fl_frac := Some fs; fl_exp := x; fl_suffix := suffix |}. split; [repeat split; try assumption; [constructor|now right]|]. split; [reflexivity|]. unfold body_text. cbn [fl_int fl_frac fl_exp map app]. reflexivity.
Qed.
Theorem fraction_tokens t k w : lexed t (KLiteral k) w -> k = FloatLiteral \/ k = DoubleLiteral -> exists f, float_literal_ok f /\ float_token f = k /\ float_text f = w.
Proof.
  intros H K. destruct (lexed_read _ _ _ H) as (_ & rest & R). destruct (read_rule _ _ _ R) as (r & J & M). destruct K as [->| ->].
  - assert (r = float_literal_re) as -> by (apply (kind_rule _ r _ J); cbn; tauto). apply float_inv in M as (v & f & -> & M & F).
    assert (X : exists b : bool, text (if b then "F" else "f") = [f]) by (destruct F as [->| ->]; [now exists false|now exists true]). destruct X as (b & X).
    destruct (double_of v (Some b) M) as (l & L & E & <-). exists l. split; [exact L|]. split; [unfold float_token; now rewrite E|]. rewrite float_text_split. unfold suffix_text. now rewrite E, X.
  - assert (r = double_literal_re) as -> by (apply (kind_rule _ r _ J); cbn; tauto). destruct (double_of w None M) as (l & L & E & <-). exists l. split; [exact L|]. split; [unfold float_token; now rewrite E|].
    rewrite float_text_split. unfold suffix_text. rewrite E. apply app_nil_r.
Qed.
Definition character (c : Z) : Prop := 0 < c < 0x110000.
Lemma hex4_of u : matches (hex_digit_re +> hex_digit_re +> hex_digit_re +> hex_digit_re) u -> exists ds, zlen ds = 4 /\ Forall (fun d => is_digit 16 (fst d)) ds /\ map hex_char ds = u.
Proof.
  intros M. apply seq_inv in M as (x1 & y1 & -> & A1 & M). apply seq_inv in M as (x2 & y2 & -> & A2 & M). apply seq_inv in M as (x3 & x4 & -> & A3 & A4).
  apply hex_of in A1 as (a & -> & Ha). apply hex_of in A2 as (b & -> & Hb). apply hex_of in A3 as (c & -> & Hc). apply hex_of in A4 as (d & -> & Hd). exists [a; b; c; d]. repeat split. repeat (constructor; [assumption|]). constructor.
Qed.
Lemma octal_of u : matches octal_digit_re u -> exists d, u = [digit_char d] /\ is_digit 8 d.
Proof. intros M. apply range_inv in M as (c & -> & R). numbers. exists (c - 48). unfold is_digit, digit_char. destruct (Z.ltb_spec (c - 48) 10); [split; [f_equal|]|]; lia. Qed.
Lemma escape_in c : In c (quote :: backslash :: text "rnft") -> escape_meaning c <> None.
Proof. intros J. vm_compute in J. repeat (destruct J as [<-|J]; [discriminate|]). contradiction. Qed.
Lemma char_of u : matches string_character_re u -> Forall character u -> exists x, string_char_ok x /\ char_text x = u.
Proof.
  intros M R. apply alt_inv in M as [M|M]; [|apply alt_inv in M as [M|M]; [|apply alt_inv in M as [M|M]; [|apply alt_inv in M as [M|M]]]].
  - apply noneof_inv in M as (c & -> & N). exists (Plain c). split; [|reflexivity]. apply Forall_inv in R. cbn [string_char_ok]. unfold character in R. cbn in N. split; [exact R|]. intuition.
  - apply seq_inv in M as (x & y & -> & A & B). apply chr1_inv in A as ->. apply oneof_inv in B as (c & -> & C). exists (Escape c). split; [now apply escape_in|reflexivity].
  - apply seq_inv in M as (x & y & -> & A & B). apply chr1_inv in A as ->. apply seq_inv in B as (x & z & -> & A & B). apply chr1_inv in A as ->. apply hex4_of in B as (ds & L & F & <-). now exists (Unicode ds).
  - apply seq_inv in M as (x & y & -> & A & B). apply chr1_inv in A as ->. apply seq_inv in B as (x & z & -> & A & B). apply chr1_inv in A as ->. apply seq_inv in B as (u & v & -> & A & B).
    apply hex_of in A as (a & -> & Ha). apply hex_of in B as (b & -> & Hb). exists (Hex [a; b]). split; [|reflexivity]. split; [reflexivity|]. repeat (constructor; [assumption|]). constructor.
  - apply seq_inv in M as (x & y & -> & A & B). apply chr1_inv in A as ->. apply seq_inv in B as (x & z & -> & A & B). apply chr1_inv in A as ->. apply seq_inv in B as (u & v & -> & A & B).
    apply seq_inv in B as (b & c & -> & B & C). apply octal_of in B as (db & -> & Hb).
    assert (Xc : exists ds, c = map digit_char ds /\ Forall (is_digit 8) ds /\ 0 <= zlen ds <= 1).
    { apply opt_inv in C as [->|C]; [exists []; repeat split; [constructor|discriminate|discriminate]|]. apply octal_of in C as (d & -> & D). exists [d]. repeat split; [repeat constructor; apply D|discriminate|discriminate]. }
    destruct Xc as (cs & -> & Fc & Lc). apply opt_inv in A as [->|A].
    + exists (Oct (db :: cs)). split; [|reflexivity]. cbn [string_char_ok]. unfold zlen in *. cbn [List.length]. split; [lia|]. split; [now constructor|lia].
    + apply range_inv in A as (a & -> & Ra). numbers. assert (Ea : digit_char (a - 48) = a) by (unfold digit_char; destruct (Z.ltb_spec (a - 48) 10); lia).
      exists (Oct (a - 48 :: db :: cs)). split; [|cbn [char_text map app]; now rewrite Ea]. cbn [string_char_ok hd]. unfold zlen in *. cbn [List.length]. split; [lia|]. split; [|lia].
      constructor; [unfold is_digit; lia|now constructor].
Qed.
Lemma plain_octal (y : string_char) : (exists c, y = Plain c /\ 48 <= c <= 55) \/ ~ octal_digit y.
Proof. destruct y as [c| | | |]; cbn; try (now right). destruct (Z_le_dec 48 c), (Z_le_dec c 55); [left; now exists c|right; lia|right; lia|right; lia]. Qed.
Lemma digit_back c : 48 <= c <= 55 -> digit_char (c - 48) = c.
Proof. intros H. unfold digit_char. destruct (Z.ltb_spec (c - 48) 10); lia. Qed.
Definition normal (s : list string_char) : Prop := Forall string_char_ok s /\ longest s.
Lemma normal_tail x s : normal (x :: s) -> normal s.
Proof. intros [F L]. split; [now inversion F|now apply (longest_tail x)]. Qed.
Lemma prepend2 a b s : string_char_ok (Oct [a; b]) -> normal s -> exists s', normal s' /\ flat_map char_text s' = char_text (Oct [a; b]) ++ flat_map char_text s.
Proof.
  intros O [F L]. destruct s as [|y s]; [exists [Oct [a; b]]; split; [split; [now constructor|exact I]|reflexivity]|].
  destruct (plain_octal y) as [(c & -> & R)|N].
  - destruct (Z_le_dec a 3) as [A|A].
    + exists (Oct [a; b; c - 48] :: s). split; [|cbn [flat_map char_text map]; rewrite (digit_back c R); reflexivity]. destruct (normal_tail _ _ (conj F L)) as [F' L']. split.
      * constructor; [|exact F']. destruct O as (_ & D & _). inversion D as [|? ? Da D1]; subst. inversion D1 as [|? ? Db _]; subst. cbn [string_char_ok hd]. split; [unfold zlen; cbn; lia|]. split; [|intros _; exact A].
        constructor; [exact Da|]. constructor; [exact Db|]. constructor; [unfold is_digit; lia|constructor].
      * destruct s as [|z s]; [exact I|]. split; [|exact L']. unfold zlen. cbn. lia.
    + exists (Oct [a; b] :: Plain c :: s). split; [|reflexivity]. split; [now constructor|]. split; [|exact L]. cbn [hd]. unfold zlen. cbn. lia.
  - exists (Oct [a; b] :: y :: s). split; [|reflexivity]. split; [now constructor|]. split; [intros _; exact N|exact L].
Qed.
Lemma prepend x s : string_char_ok x -> normal s -> exists s', normal s' /\ flat_map char_text s' = char_text x ++ flat_map char_text s.
Proof.
  intros O [F L]. destruct x as [c|c|ds|ds|ds]; try (eexists (_ :: s); split; [split; [constructor; [exact O|exact F]|destruct s; exact L || exact I]|reflexivity]).
  destruct ds as [|a [|b [|c [|d ds]]]]; try (exfalso; destruct O as [O _]; unfold zlen in O; cbn [List.length] in O; lia).
  - destruct s as [|y s]; [exists [Oct [a]]; split; [split; [now constructor|exact I]|reflexivity]|]. destruct (plain_octal y) as [(c & -> & R)|N].
    + destruct (prepend2 a (c - 48) s) as (s' & N' & E).
      * destruct O as (_ & D & _). cbn [string_char_ok hd]. split; [unfold zlen; cbn; lia|]. split; [|unfold zlen; cbn; lia]. constructor; [exact (Forall_inv D)|]. constructor; [unfold is_digit; lia|constructor].
      * exact (normal_tail _ _ (conj F L)).
      * exists s'. split; [exact N'|]. rewrite E. cbn [flat_map char_text map]. rewrite (digit_back c R). reflexivity.
    + exists (Oct [a] :: y :: s). split; [|reflexivity]. split; [now constructor|]. split; [intros _; exact N|exact L].
  - apply prepend2; [exact O|now split].
  - exists (Oct [a; b; c] :: s). split; [|reflexivity]. split; [now constructor|]. destruct s as [|y s]; [exact I|]. split; [|exact L]. unfold zlen. cbn. lia.
Qed.
Lemma chars_of u : matches (RStar string_character_re) u -> Forall character u -> exists s, normal s /\ flat_map char_text s = u.
Proof.
  revert u. apply (star_all _ (fun u => Forall character u -> exists s, normal s /\ flat_map char_text s = u)).
  - intros _. exists []. split; [split; [constructor|exact I]|reflexivity].
  - intros a b M IH F. apply Forall_app in F as [Fa Fb]. destruct (char_of a M Fa) as (x & O & <-). destruct (IH Fb) as (s & N & <-). exact (prepend x s O N).
Qed.
Theorem string_tokens t w : Forall character t -> lexed t (KLiteral StringLiteral) w -> exists s, string_literal_ok s /\ string_text s = w.
Proof.
  intros F H. destruct (lexed_read _ _ _ H) as ((a & b & E) & rest & R). destruct (read_rule _ _ _ R) as (r & J & M). assert (r = string_literal_re) as -> by (apply (kind_rule _ r _ J); cbn; tauto).
  apply seq_inv in M as (x & y & -> & A & B). apply chr1_inv in A as ->. apply seq_inv in B as (u & v & -> & A & B). apply chr1_inv in B as ->.
  destruct (chars_of u A) as (s & N & <-).
  - rewrite E in F. apply Forall_app in F as [_ F]. apply Forall_app in F as [F _]. apply Forall_app in F as [_ F]. apply Forall_app in F as [F _]. exact F.
  - exists s. split; [exact N|reflexivity].
Qed.
