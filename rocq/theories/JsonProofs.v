(** Proofs about JsonEncoder and JsonDecoder. *)
From Verif Require Import Base ModelJson SpecJson.

Ltac ztest :=
  repeat match goal with
         | |- context [?a =? ?b] =>
             first [replace (a =? b) with true by (symmetry; apply Z.eqb_eq; lia)
                   |replace (a =? b) with false by (symmetry; apply Z.eqb_neq; lia)]
         | |- context [?a <=? ?b] =>
             first [replace (a <=? b) with true by (symmetry; apply Z.leb_le; lia)
                   |replace (a <=? b) with false by (symmetry; apply Z.leb_gt; lia)]
         | |- context [?a <? ?b] =>
             first [replace (a <? b) with true by (symmetry; apply Z.ltb_lt; lia)
                   |replace (a <? b) with false by (symmetry; apply Z.ltb_ge; lia)]
         end.

Lemma zlen_cons {A} (x : A) l : zlen (x :: l) = zlen l + 1.
Proof. unfold zlen. cbn [length]. lia. Qed.
Lemma zlen_nil {A} : zlen (@nil A) = 0.
Proof. reflexivity. Qed.
Lemma zlen_app {A} (l m : list A) : zlen (l ++ m) = zlen l + zlen m.
Proof. unfold zlen. rewrite app_length. lia. Qed.
Lemma zlen_nonneg {A} (l : list A) : 0 <= zlen l.
Proof. unfold zlen. lia. Qed.

(** ** Strings *)
Lemma hex_value_dig c n : hexdig c n -> hex_value c = Some n.
Proof. unfold hex_value. intros [m Hm|m Hm|m Hm]; ztest; cbn [andb]; f_equal; lia. Qed.

Lemma unicode_hex4 a b c d u : hex4 a b c d u -> decode_unicode_escape a b c d = Some u.
Proof.
  intros (a' & b' & c' & d' & Ha & Hb & Hc & Hd & ->). unfold decode_unicode_escape.
  rewrite (hex_value_dig _ _ Ha), (hex_value_dig _ _ Hb), (hex_value_dig _ _ Hc), (hex_value_dig _ _ Hd).
  f_equal. lia.
Qed.

Lemma decode_chars_unicode x1 x2 x3 x4 u t acc n :
  t <> [] -> decode_unicode_escape x1 x2 x3 x4 = Some u ->
  decode_chars (92 :: 117 :: x1 :: x2 :: x3 :: x4 :: t) acc n = decode_chars t (acc ++ [u]) (n + 6).
Proof. intros Hne H. cbn [decode_chars]. ztest. cbn [orb]. destruct t; [easy|]. rewrite H. reflexivity. Qed.

Lemma decode_chars_rfc t s : rfc_chars false false t s -> forall rest acc n,
  decode_chars (t ++ 34 :: rest) acc n = DOk (JStr (acc ++ s)) (n + zlen t + 1).
Proof.
  induction 1 as [|c t s Hc Hq Hb H IH|e c t s Hin H IH|t s Hs H IH|a b c d u t s Hu Hh Hl H IH
                 |a b c d h a' b' c' d' l t s Hp]; intros rest acc n; try discriminate.
  - cbn [app decode_chars]. ztest. rewrite app_nil_r, zlen_nil. f_equal; lia.
  - cbn [app decode_chars]. ztest. rewrite IH, zlen_cons, <- app_assoc. cbn [app]. f_equal; lia.
  - cbn [app decode_chars]. ztest.
    unfold short_escapes in Hin. cbn [In] in Hin.
    repeat match type of Hin with _ \/ _ => destruct Hin as [Hin|Hin] end; try easy;
      injection Hin as <- <-; ztest; cbn [orb]; rewrite IH, !zlen_cons, <- app_assoc; cbn [app]; f_equal; lia.
  - change ((92 :: 117 :: a :: b :: c :: d :: t) ++ 34 :: rest)
      with (92 :: 117 :: a :: b :: c :: d :: (t ++ 34 :: rest)).
    rewrite (decode_chars_unicode _ _ _ _ u).
    + rewrite IH, !zlen_cons, <- app_assoc. cbn [app]. f_equal; lia.
    + destruct t; easy.
    + apply unicode_hex4. exact Hu.
Qed.

Lemma escape_char_rfc c t s : 0 <= c -> rfc_chars false false t s -> rfc_chars false false (escape_char c ++ t) (c :: s).
Proof.
  intros Hc H. unfold escape_char.
  repeat match goal with |- context [?a =? ?b] => destruct (Z.eqb_spec a b); [subst; apply rc_short; [cbn; tauto|exact H]|] end.
  destruct (Z.ltb_spec c 32) as [Hlt|Hge].
  - apply rc_unicode with (u := c); [|unfold high_surrogate; lia|unfold low_surrogate; lia|exact H].
    assert (Hd : forall n, 0 <= n < 16 -> hexdig (hex_digit n) n).
    { intros k Hk. unfold hex_digit. destruct (Z.ltb_spec k 10); [apply hd_dec|apply hd_low]; lia. }
    exists 0, 0, (c / 16), (c mod 16). split; [apply (hd_dec 0); lia|]. split; [apply (hd_dec 0); lia|].
    split; [apply Hd; split; [apply Z.div_pos; lia|apply Z.div_lt_upper_bound; lia]|].
    split; [apply Hd; apply Z.mod_pos_bound; lia|]. pose proof (Z.div_mod c 16 ltac:(lia)). lia.
  - apply rc_plain; [lia|easy|easy|exact H].
Qed.

Lemma encode_chars_rfc s : Forall (fun c => 0 <= c) s -> rfc_chars false false (concat (map escape_char s)) s.
Proof.
  induction 1 as [|c s Hc Hs IH]; [constructor|]. cbn [map concat]. apply escape_char_rfc; assumption.
Qed.

(** ** Numbers *)
Lemma is_digit_true P c : digit c -> is_digit P c = true.
Proof. unfold digit, is_digit. intros H. ztest. reflexivity. Qed.

Lemma delimiter_not_digit P c : delimiter c -> is_digit P c = false.
Proof.
  unfold delimiter, white, punctuation, is_digit. cbn [In].
  intros [H|[k H]]; [|repeat match type of H with _ \/ _ => destruct H as [H|H] end; try easy; injection H as <- <-; reflexivity].
  destruct H as [->|[->|[->| ->]]]; reflexivity.
Qed.
Lemma delimiter_char c : delimiter c -> c <> 43 /\ c <> 45 /\ c <> 101 /\ c <> 69 /\ c <> 46.
Proof.
  unfold delimiter, white, punctuation. cbn [In].
  intros [H|[k H]]; [|repeat match type of H with _ \/ _ => destruct H as [H|H] end; try easy; injection H as <- <-; lia].
  lia.
Qed.

Lemma extract_stop P a s f rest : starts_delimited rest -> extract_loop P a s f rest = ([], f).
Proof.
  destruct rest as [|c rest]; [reflexivity|]. cbn [starts_delimited extract_loop]. intros H.
  pose proof (delimiter_char c H) as (H1 & H2 & H3 & H4 & H5). rewrite (delimiter_not_digit P c H). ztest.
  rewrite andb_false_r. reflexivity.
Qed.

Lemma extract_digits P ds : Forall digit ds -> forall s f rest,
  extract_loop P false s f (ds ++ rest) =
  (ds ++ fst (extract_loop P false s f rest), snd (extract_loop P false s f rest)).
Proof.
  induction 1 as [|c ds Hc H IH]; intros s f rest; [cbn [app]; destruct (extract_loop P false s f rest); reflexivity|].
  cbn [app extract_loop andb]. rewrite (is_digit_true P c Hc), IH. reflexivity.
Qed.

Lemma extract_exponent P ex f rest : exponent ex -> starts_delimited rest ->
  extract_loop P false false f (ex ++ rest) = (ex, if ex then f else true).
Proof.
  intros [->|(e & sg & ds & He & Hsg & [Hne Hds] & ->)] Hr; [apply extract_stop; exact Hr|].
  assert (Hstep : forall a, extract_loop P true true true (sg ++ a) = (sg ++ fst (extract_loop P (match sg with [] => true | _ => false end) true true a),
     snd (extract_loop P (match sg with [] => true | _ => false end) true true a))).
  { intros a. destruct Hsg as [->|[->| ->]]; [cbn [app]; destruct (extract_loop P true true true a); reflexivity|reflexivity|reflexivity]. }
  assert (Hacc : forall b, extract_loop P b true true (ds ++ rest) = (ds, true)).
  { intros b. destruct ds as [|c ds]; [easy|]. inversion Hds as [|? ? Hc Hds']; subst.
    cbn [app extract_loop]. rewrite (is_digit_true P c Hc), (extract_digits P ds Hds'), (extract_stop P _ _ _ rest Hr).
    cbn [fst snd]. rewrite app_nil_r.
    assert (Hnc : (c =? 43) || (c =? 45) = false) by (unfold digit in Hc; ztest; reflexivity).
    rewrite Hnc, andb_false_r. reflexivity. }
  cbn [app extract_loop andb]. rewrite <- app_assoc.
  assert (Hnd : is_digit P e = false) by (destruct He as [->| ->]; reflexivity).
  assert (Hee : ((e =? 101) || (e =? 69)) = true) by (destruct He as [->| ->]; reflexivity).
  rewrite Hnd, Hee. cbn [andb negb]. rewrite Hstep, Hacc. reflexivity.
Qed.

Lemma extract_float P t rest : float_text t -> starts_delimited rest -> extract_number P (t ++ rest) = (t, true).
Proof.
  intros (neg & ds & fr & ex & [Hne Hds] & Hfr & Hex & Hsome & ->) Hr.
  assert (Hl : extract_loop P false false false ((ds ++ fr ++ ex) ++ rest) = (ds ++ fr ++ ex, true)).
  { rewrite <- !app_assoc, (extract_digits P ds Hds).
    enough (E : extract_loop P false false false (fr ++ ex ++ rest) = (fr ++ ex, true)) by (rewrite E; reflexivity).
    destruct Hfr as [->|(fs & [Hfne Hfs] & ->)].
    - cbn [app]. rewrite (extract_exponent P ex false rest Hex Hr). destruct ex; [destruct Hsome; easy|reflexivity].
    - cbn [app extract_loop andb]. change (is_digit P 46) with false. cbn [Z.eqb Pos.eqb orb andb negb].
      rewrite (extract_digits P fs Hfs), (extract_exponent P ex true rest Hex Hr). destruct ex; reflexivity. }
  destruct neg.
  - cbn [sign_text app extract_number]. ztest. rewrite Hl. reflexivity.
  - cbn [sign_text app]. rewrite <- Hl. destruct ds as [|c ds]; [easy|]. cbn [app extract_number].
    inversion Hds as [|? ? Hc _]; subst. unfold digit in Hc. ztest. reflexivity.
Qed.

Lemma extract_int P neg ds rest : digits ds -> starts_delimited rest ->
  extract_number P ((sign_text neg ++ ds) ++ rest) = (sign_text neg ++ ds, false).
Proof.
  intros [Hne Hds] Hr.
  assert (Hl : extract_loop P false false false (ds ++ rest) = (ds, false)).
  { rewrite (extract_digits P ds Hds), (extract_stop P _ _ _ rest Hr). cbn [fst snd]. rewrite app_nil_r. reflexivity. }
  destruct neg.
  - cbn [sign_text app extract_number]. ztest. rewrite Hl. reflexivity.
  - cbn [sign_text app]. rewrite <- Hl. destruct ds as [|c ds]; [easy|]. cbn [app extract_number].
    inversion Hds as [|? ? Hc _]; subst. unfold digit in Hc. ztest. reflexivity.
Qed.

Lemma ascii_digits_value ds : Forall digit ds -> forall a, ascii_digits ds a = Some (digits_value ds a).
Proof.
  induction 1 as [|c ds Hc H IH]; intros a; [reflexivity|]. cbn [ascii_digits digits_value].
  unfold digit in Hc. ztest. cbn [andb]. apply IH.
Qed.

Lemma parse_int_text P t z : int_text t z -> parse_int P t = Some z.
Proof.
  intros (neg & ds & [Hne Hds] & -> & ->). unfold parse_int.
  replace (forallb (fun c => c <? 128) (sign_text neg ++ ds)) with true.
  2: { symmetry. rewrite forallb_app. apply andb_true_intro. split; [destruct neg; reflexivity|].
       apply forallb_forall. intros c Hc. rewrite Forall_forall in Hds. specialize (Hds c Hc). unfold digit in Hds.
       apply Z.ltb_lt. lia. }
  destruct neg; cbn [sign_text app].
  - destruct ds as [|c ds]; [easy|]. cbn [ascii_int]. ztest.
    rewrite (ascii_digits_value (c :: ds) Hds). reflexivity.
  - rewrite <- (ascii_digits_value ds Hds 0). destruct ds as [|c ds]; [easy|].
    cbn [ascii_int]. inversion Hds as [|? ? Hc _]; subst. unfold digit in Hc. ztest. reflexivity.
Qed.

Lemma decode_value_number P t rest c t' :
  t = c :: t' -> (digit c \/ c = 45 /\ match t' with [] => False | c2 :: _ => digit c2 end) ->
  decode_value P (t ++ rest) = decode_number P (t ++ rest).
Proof.
  intros -> Hc. cbn [app decode_value]. unfold digit in Hc.
  destruct Hc as [Hc|[-> Hc]]; [ztest; reflexivity|]. ztest. destruct t' as [|c2 t']; [easy|]. cbn [app].
  ztest. reflexivity.
Qed.

Lemma number_head neg ds r : digits ds -> exists c t', sign_text neg ++ ds ++ r = c :: t' /\
  (digit c \/ c = 45 /\ match t' with [] => False | c2 :: _ => digit c2 end).
Proof.
  intros [Hne Hds]. destruct ds as [|d ds]; [easy|]. inversion Hds; subst.
  destruct neg; eexists _, _; (split; [reflexivity|]); [right; split; [reflexivity|assumption]|left; assumption].
Qed.

(** ** Values *)
Lemma decode_literal_ok lit v rest : decode_literal (lit ++ rest) lit v = DOk v (zlen lit).
Proof.
  unfold decode_literal. rewrite zlen_app. pose proof (zlen_nonneg rest). ztest.
  rewrite firstn_app, Nat.sub_diag, firstn_all, app_nil_r.
  replace (text_eqb lit lit) with true; [reflexivity|]. symmetry. clear. induction lit as [|c l IH]; [reflexivity|].
  cbn [text_eqb]. rewrite Z.eqb_refl. exact IH.
Qed.

Theorem decode_value_text P x v rest : value_text P x v -> starts_delimited rest ->
  decode_value P (x ++ rest) = DOk v (zlen x).
Proof.
  intros [| | |t z H|t d H Hd| | | |t s H] Hr; try (apply decode_literal_ok).
  - pose proof H as (neg & ds & Hds & -> & Hz).
    destruct (number_head neg ds [] Hds) as (c & t' & E & Hc). rewrite app_nil_r in E.
    rewrite (decode_value_number P _ rest c t' E Hc). unfold decode_number.
    rewrite (extract_int P neg ds rest Hds Hr), (parse_int_text P _ z H).
    replace (zlen (sign_text neg ++ ds) =? 0) with false; [reflexivity|].
    rewrite E, zlen_cons. symmetry. apply Z.eqb_neq. pose proof (zlen_nonneg t'). lia.
  - pose proof H as (neg & ds & fr & ex & Hds & Hfr & Hex & Hsome & ->).
    destruct (number_head neg ds (fr ++ ex) Hds) as (c & t' & E & Hc).
    rewrite (decode_value_number P _ rest c t' E Hc). unfold decode_number.
    rewrite (extract_float P _ rest H Hr), Hd.
    replace (zlen (sign_text neg ++ ds ++ fr ++ ex) =? 0) with false; [reflexivity|].
    rewrite E, zlen_cons. symmetry. apply Z.eqb_neq. pose proof (zlen_nonneg t'). lia.
  - cbn [app decode_value]. ztest. cbn [decode_string]. rewrite <- app_assoc. cbn [app].
    rewrite (decode_chars_rfc t s H), zlen_cons, zlen_app. cbn [app]. rewrite zlen_cons, zlen_nil. f_equal. lia.
Qed.

(** ** The encoder's text *)
Lemma decimal_digits_value fuel : forall n acc, (0 < fuel)%nat -> 0 <= n < 2 ^ Z.of_nat fuel ->
  digits_value (decimal_digits fuel n acc) 0 = digits_value acc n.
Proof.
  induction fuel as [|k IH]; intros n acc Hf Hn; [lia|]. cbn [decimal_digits].
  destruct (Z.ltb_spec n 10) as [H|H]; [cbn [digits_value]; f_equal; lia|].
  pose proof (Z.div_mod n 10 ltac:(lia)) as E. pose proof (Z.mod_pos_bound n 10 ltac:(lia)) as B.
  rewrite Nat2Z.inj_succ, Z.pow_succ_r in Hn by lia.
  assert (Hk : (0 < k)%nat) by (destruct k; [cbn in Hn; lia|lia]).
  rewrite IH by lia. cbn [digits_value]. f_equal. lia.
Qed.

Lemma decimal_digits_digits fuel : forall n acc, 0 <= n -> Forall digit acc -> ((0 < fuel)%nat \/ acc <> []) ->
  digits (decimal_digits fuel n acc).
Proof.
  induction fuel as [|k IH]; intros n acc Hn Ha Hne; cbn [decimal_digits].
  - split; [destruct Hne; [lia|assumption]|exact Ha].
  - destruct (Z.ltb_spec n 10) as [H|H].
    + split; [easy|]. constructor; [unfold digit; lia|exact Ha].
    + apply IH; [apply Z.div_pos; lia| |right; easy]. constructor; [|exact Ha].
      pose proof (Z.mod_pos_bound n 10 ltac:(lia)). unfold digit. lia.
Qed.

Lemma digits_of_nat n : 0 <= n -> let ds := decimal_digits (S (Z.to_nat (Z.log2 n))) n [] in
  digits ds /\ digits_value ds 0 = n.
Proof.
  intros Hn ds. split; [apply decimal_digits_digits; [exact Hn|constructor|left; lia]|].
  unfold ds. rewrite decimal_digits_value; [reflexivity|lia|]. split; [exact Hn|].
  rewrite Nat2Z.inj_succ, Z2Nat.id by apply Z.log2_nonneg.
  destruct (Z.eq_dec n 0) as [->|Hn0]; [reflexivity|]. apply Z.log2_spec. lia.
Qed.

Lemma int_repr_text z : int_text (int_repr z) z.
Proof.
  unfold int_repr, int_text. destruct (Z.ltb_spec z 0) as [H|H].
  - destruct (digits_of_nat (- z) ltac:(lia)) as [Hd Hv]. exists true, (decimal_digits (S (Z.to_nat (Z.log2 (- z)))) (- z) []).
    split; [exact Hd|]. split; [reflexivity|]. rewrite Hv. lia.
  - destruct (digits_of_nat z H) as [Hd Hv]. exists false, (decimal_digits (S (Z.to_nat (Z.log2 z))) z []).
    split; [exact Hd|]. split; [reflexivity|]. symmetry. exact Hv.
Qed.

(** Values that can be encoded, and what they come back as *)
Definition encodable (v : jvalue) : Prop :=
  match v with
  | JStr s => Forall (fun c => 0 <= c) s
  | JFloat d => 0 <= d < 2 ^ 64
  | _ => True
  end.
Definition canonical_nan (v : jvalue) : jvalue :=
  match v with JFloat d => if float_is_nan d then JFloat nan_bits else v | _ => v end.

Lemma not_finite d : 0 <= d < 2 ^ 64 -> Z.shiftr d 52 mod 2 ^ 11 = 2047 -> d mod 2 ^ 52 = 0 -> d = inf_bits \/ d = neg_inf_bits.
Proof.
  intros Hd He Hm. rewrite Z.shiftr_div_pow2 in He by lia. unfold inf_bits, neg_inf_bits.
  change (2 ^ 11) with 2048 in He. change (2 ^ 64) with 18446744073709551616 in Hd. change (2 ^ 52) with 4503599627370496 in *.
  pose proof (Z.div_mod d 4503599627370496 ltac:(lia)). pose proof (Z.div_mod (d / 4503599627370496) 2048 ltac:(lia)).
  pose proof (Z.div_pos d 4503599627370496 ltac:(lia) ltac:(lia)).
  pose proof (Z.div_lt_upper_bound d 4503599627370496 4096 ltac:(lia) ltac:(lia)).
  pose proof (Z.div_lt_upper_bound (d / 4503599627370496) 2048 2 ltac:(lia) ltac:(lia)).
  pose proof (Z.div_pos (d / 4503599627370496) 2048 ltac:(lia) ltac:(lia)).
  assert (E : d / 4503599627370496 / 2048 = 0 \/ d / 4503599627370496 / 2048 = 1) by lia. lia.
Qed.

Theorem encode_value_text P v : float_repr_law P -> encodable v -> value_text P (encode_value P v) (canonical_nan v).
Proof.
  intros Hlaw Hv. destruct v as [|[|]|z|d|s]; cbn [encode_value canonical_nan]; try constructor.
  - apply int_repr_text.
  - cbn [encodable] in Hv. unfold encode_float. destruct (float_is_nan d) eqn:En; [apply vt_nan|].
    destruct (Z.eqb_spec d inf_bits) as [->|Hi]; [apply vt_inf|].
    destruct (Z.eqb_spec d neg_inf_bits) as [->|Hn]; [apply vt_neg_inf|].
    assert (Hf : finite_float d).
    { split; [exact Hv|]. intros He. unfold float_is_nan in En. rewrite He in En. change (2047 =? 2047) with true in En.
      cbn [andb] in En. apply negb_false_iff, Z.eqb_eq in En. destruct (not_finite d Hv He En); easy. }
    destruct (Hlaw d Hf). apply vt_float; assumption.
  - apply encode_chars_rfc. exact Hv.
Qed.

Lemma string_valid P s : Forall (fun c => 0 <= c) s ->
  exists t, encode_value P (JStr s) = 34 :: t ++ [34] /\ rfc_chars false false t s.
Proof. intros H. exists (concat (map escape_char s)). split; [reflexivity|apply encode_chars_rfc, H]. Qed.

Lemma string_accepted P t s rest : rfc_chars false false t s ->
  decode_value P (34 :: t ++ 34 :: rest) = DOk (JStr s) (zlen t + 2).
Proof.
  intros H. change (decode_value P (34 :: t ++ 34 :: rest)) with (decode_chars (t ++ 34 :: rest) [] 1).
  rewrite (decode_chars_rfc t s H). f_equal. lia.
Qed.

Lemma string_roundtrip P s rest : Forall (fun c => 0 <= c) s ->
  decode_value P (encode_value P (JStr s) ++ rest) = DOk (JStr s) (zlen (encode_value P (JStr s))).
Proof.
  intros H. destruct (string_valid P s H) as (t & Et & Ht). rewrite Et.
  replace ((34 :: t ++ [34]) ++ rest) with (34 :: t ++ 34 :: rest) by (cbn [app]; rewrite <- app_assoc; reflexivity).
  rewrite (string_accepted P t s rest Ht). f_equal. rewrite zlen_cons, zlen_app, zlen_cons, zlen_nil. lia.
Qed.

Lemma value_roundtrip P v rest : float_repr_law P -> encodable v -> starts_delimited rest ->
  decode_value P (encode_value P v ++ rest) = DOk (canonical_nan v) (zlen (encode_value P v)).
Proof. intros HP Hv Hr. apply decode_value_text; [apply encode_value_text; assumption|exact Hr]. Qed.
