(** Proofs about versions. *)
From Coq Require Import String Ascii.
From Verif Require Import Base PyLiteral SpecLiterals ModelVersion SpecVersion.

Lemma minus_small a b : 0 <= a < 2 ^ 31 -> 0 <= b < 2 ^ 31 -> int_minus a b = a - b.
Proof. intros A B. unfold int_minus. change (2 ^ 31) with 2147483648 in *. rewrite Z.mod_small; lia. Qed.
Theorem compare_order v w : version_ok v -> version_ok w ->
  (compare_to v w < 0 <-> earlier v w) /\ (compare_to v w = 0 <-> v = w) /\ (0 < compare_to v w <-> earlier w v).
Proof.
  intros (A1 & A2 & A3) (B1 & B2 & B3). unfold compare_to, earlier. destruct v as [a b c p], w as [a' b' c' p']. cbn [major minor revision pre] in *.
  destruct (Z.eqb_spec a a') as [-> |N1]; cbn [negb]; [|rewrite minus_small by assumption; repeat split; try lia; intros [=]; lia].
  destruct (Z.eqb_spec b b') as [-> |N2]; cbn [negb]; [|rewrite minus_small by assumption; repeat split; try lia; intros [=]; lia].
  destruct (Z.eqb_spec c c') as [-> |N3]; cbn [negb]; [|rewrite minus_small by assumption; repeat split; try lia; intros [=]; lia].
  destruct p as [p|], p' as [p'|]; cbn [compare_pre].
  - destruct (Z.ltb_spec p p'), (Z.eqb_spec p p'); repeat split; try lia; try (intros [=]; lia). intros _. subst. reflexivity.
  - repeat split; try lia; intros [=].
  - repeat split; try lia; intros [=].
  - repeat split; lia.
Qed.

(** ** Texts *)
Lemma char_code d : is_digit 10 d -> digit_char d = 48 + d.
Proof. unfold is_digit, digit_char. intros D. destruct (Z.ltb_spec d 10); lia. Qed.
Lemma digit_roundtrip d : is_digit 10 d -> digit_value (digit_char d) = Some d.
Proof. intros D. rewrite char_code by exact D. unfold is_digit, digit_value in *. destruct (48 <=? 48 + d) eqn:A, (48 + d <=? 57) eqn:B; try lia. cbn [andb]. f_equal. lia. Qed.
Lemma span_spec : forall t ds r, span_digits t = (ds, r) <-> Forall (is_digit 10) ds /\ t = map digit_char ds ++ r /\ match r with [] => True | c :: _ => digit_value c = None end.
Proof.
  induction t as [|c t IH]; intros ds r; cbn [span_digits].
  - split; [intros [= <- <-]; auto|]. intros (F & E & _). destruct ds; [|discriminate]. destruct r; [reflexivity|discriminate].
  - destruct (digit_value c) as [d|] eqn:D.
    + assert (K : is_digit 10 d /\ c = digit_char d).
      { unfold digit_value in D. destruct ((48 <=? c) && (c <=? 57)) eqn:E; [|discriminate]. injection D as <-. apply andb_prop in E. assert (X : is_digit 10 (c - 48)) by (unfold is_digit; lia). split; [exact X|]. rewrite char_code by exact X. lia. }
      destruct K as (K & ->). destruct (span_digits t) as [ds' r'] eqn:S. destruct (proj1 (IH ds' r') eq_refl) as (F & E & N). split.
      * intros [= <- <-]. split; [constructor; assumption|]. split; [cbn; rewrite E at 1; reflexivity|exact N].
      * intros (F' & E' & N'). destruct ds as [|x ds].
        -- cbn in E'. subst r. rewrite digit_roundtrip in N' by exact K. discriminate.
        -- cbn in E'. injection E' as E1 E2. inversion F' as [|? ? X F'']; subst. assert (x = d) as -> by (rewrite !char_code in E1 by assumption; lia).
           assert (Q : (ds', r') = (ds, r)) by (apply IH; auto). injection Q as -> ->. reflexivity.
    + split; [intros [= <- <-]; split; [constructor|]; split; [reflexivity|exact D]|]. intros (F & E & N). destruct ds as [|x ds]; [cbn in E; subst; reflexivity|].
      cbn in E. injection E as -> _. inversion F; subst. rewrite digit_roundtrip in D by assumption. discriminate.
Qed.
Lemma fold_number : forall ds a, fold_left (fun a d => a * 10 + d) ds a = a * 10 ^ zlen ds + number 10 ds.
Proof.
  induction ds as [|d ds IH]; intros a; [cbn; lia|]. cbn [fold_left number]. rewrite IH. unfold zlen. cbn [List.length]. rewrite Nat2Z.inj_succ, Z.pow_succ_r by lia. nia.
Qed.
Lemma number_nonneg ds : Forall (is_digit 10) ds -> 0 <= number 10 ds.
Proof. induction 1 as [|d ds D F IH]; [cbn; lia|]. cbn [number]. unfold is_digit in D. assert (0 <= 10 ^ zlen ds) by (apply Z.pow_nonneg; lia). nia. Qed.
Lemma to_int_plus ds n : Forall (is_digit 10) ds -> (to_int false ds = Some n <-> numeral ds n).
Proof.
  intros F. pose proof (number_nonneg ds F) as P. unfold to_int, numeral. change (2 ^ 31) with 2147483648. destruct ds as [|d ds]; [split; [discriminate|intros (X & _); congruence]|].
  rewrite fold_number, Z.mul_0_l, Z.add_0_l. generalize dependent (number 10 (d :: ds)). intros m P. destruct (-2147483648 <=? m) eqn:A, (m <=? 2147483647) eqn:B; cbn [andb]; try lia; split.
  - intros [= <-]. repeat split; try assumption; try discriminate; lia.
  - intros (_ & _ & -> & _). reflexivity.
  - discriminate.
  - intros (_ & _ & -> & L). lia.
Qed.
Lemma to_int_minus ds n : Forall (is_digit 10) ds -> (to_int true ds = Some n <-> ds <> [] /\ n = - number 10 ds /\ - 2 ^ 31 <= n).
Proof.
  intros F. pose proof (number_nonneg ds F) as P. unfold to_int. change (2 ^ 31) with 2147483648. destruct ds as [|d ds]; [split; [discriminate|intros (X & _); congruence]|].
  rewrite fold_number, Z.mul_0_l, Z.add_0_l. generalize dependent (number 10 (d :: ds)). intros m P. destruct (-2147483648 <=? - m) eqn:A, (- m <=? 2147483647) eqn:B; cbn [andb]; try lia; split.
  - intros [= <-]. repeat split; try discriminate; lia.
  - intros (_ & -> & _). reflexivity.
  - discriminate.
  - intros (_ & -> & L). lia.
Qed.
Lemma digits_only ds r : Forall (is_digit 10) ds -> span_digits (map digit_char ds) = (ds, r) -> r = [].
Proof. intros F S. apply span_spec in S. destruct S as (_ & E & _). apply (f_equal (@List.length Z)) in E. rewrite app_length, map_length in E. destruct r; [reflexivity|cbn in E; lia]. Qed.
Lemma span_all ds : Forall (is_digit 10) ds -> span_digits (map digit_char ds) = (ds, []).
Proof. intros F. apply span_spec. rewrite app_nil_r. auto. Qed.
Lemma first_char ds : ds <> [] -> Forall (is_digit 10) ds -> exists c r, map digit_char ds = c :: r /\ 48 <= c <= 57.
Proof. destruct ds as [|d ds]; [congruence|]. intros _ F. inversion F as [|? ? D _]; subst. exists (digit_char d), (map digit_char ds). split; [reflexivity|]. rewrite char_code by exact D. unfold is_digit in D. lia. Qed.
Lemma parse_int_iff t n : parse_int t = Some n <-> pre_text t n.
Proof.
  split.
  - destruct t as [|c r]; [discriminate|]. unfold parse_int. change (code "-") with 45. change (code "+") with 43. destruct (Z.eqb_spec c 45) as [-> |N1]; [|destruct (Z.eqb_spec c 43) as [-> |N2]].
    + destruct (span_digits r) as [ds [|x y]] eqn:S; [|discriminate]. apply span_spec in S. destruct S as (F & E & _). rewrite app_nil_r in E. subst r. intros H. apply to_int_minus in H; [|exact F].
      apply (pre_minus ds); tauto.
    + destruct (span_digits r) as [ds [|x y]] eqn:S; [|discriminate]. apply span_spec in S. destruct S as (F & E & _). rewrite app_nil_r in E. subst r. intros H. apply to_int_plus in H; [|exact F].
      apply (pre_plus ds). exact H.
    + destruct (span_digits (c :: r)) as [ds [|x y]] eqn:S; [|discriminate]. apply span_spec in S. destruct S as (F & E & _). rewrite app_nil_r in E. rewrite E. intros H. apply to_int_plus in H; [|exact F].
      apply pre_plain. exact H.
  - intros [ds m N|ds m N|ds m N F E L].
    + destruct N as (N & F & R). destruct (first_char ds N F) as (c & r & E & C). unfold parse_int. change (code "-") with 45. change (code "+") with 43. rewrite E.
      destruct (Z.eqb_spec c 45); [lia|]. destruct (Z.eqb_spec c 43); [lia|]. rewrite <- E, span_all by exact F. apply to_int_plus; [exact F|]. split; [exact N|]. auto.
    + pose proof N as (_ & F & _). change (text "+" ++ map digit_char ds) with (43 :: map digit_char ds). unfold parse_int. change (code "-") with 45. change (code "+") with 43. cbn [Z.eqb Pos.eqb].
      rewrite span_all by exact F. apply to_int_plus; assumption.
    + change (text "-" ++ map digit_char ds) with (45 :: map digit_char ds). unfold parse_int. change (code "-") with 45. cbn [Z.eqb Pos.eqb].
      rewrite span_all by exact F. apply to_int_minus; auto.
Qed.
Lemma span_app ds r : Forall (is_digit 10) ds -> match r with [] => True | c :: _ => digit_value c = None end -> span_digits (map digit_char ds ++ r) = (ds, r).
Proof. intros F N. apply span_spec. auto. Qed.
Theorem parse_iff t v : parse_version t = Some v <-> version_text t v.
Proof.
  unfold parse_version, version_text. change (code ".") with 46. change (code "-") with 45. change (code "p") with 112. change (code "r") with 114. change (code "e") with 101. change (text ".") with [46].
  change (text "-pre") with [45; 112; 114; 101]. split.
  - destruct (span_digits t) as [d1 [|p r]] eqn:S1; [discriminate|]. destruct (Z.eqb_spec p 46) as [-> |]; [|discriminate].
    destruct (span_digits r) as [d2 [|q s]] eqn:S2; [discriminate|]. destruct (Z.eqb_spec q 46) as [-> |]; [|discriminate].
    destruct (span_digits s) as [d3 rest] eqn:S3. apply span_spec in S1, S2, S3. destruct S1 as (F1 & -> & _), S2 as (F2 & -> & _), S3 as (F3 & -> & _).
    destruct (to_int false d1) as [a|] eqn:A; [|discriminate]. destruct (to_int false d2) as [b|] eqn:B; [|discriminate]. destruct (to_int false d3) as [c|] eqn:C; [|discriminate].
    apply to_int_plus in A, B, C; try assumption. intros H.
    assert (X : exists o, v = {| major := a; minor := b; revision := c; pre := o |} /\ match o with None => rest = [] | Some n => exists q, pre_text q n /\ rest = [45; 112; 114; 101] ++ q end).
    { destruct rest as [|h [|x [|y [|z u]]]]; try discriminate; [injection H as <-; eexists; split; reflexivity|].
      destruct ((h =? 45) && (x =? 112) && (y =? 114) && (z =? 101)) eqn:E; [|discriminate]. destruct (parse_int u) as [n|] eqn:P; [|discriminate]. injection H as <-. eexists. split; [reflexivity|].
      exists u. split; [apply parse_int_iff; exact P|]. rewrite !andb_true_iff, !Z.eqb_eq in E. destruct E as (((-> & ->) & ->) & ->). reflexivity. }
    destruct X as (o & -> & X). exists d1, d2, d3, rest. cbn [major minor revision pre]. split; [exact A|]. split; [exact B|]. split; [exact C|]. split; [reflexivity|exact X].
  - intros (a & b & c & p & A & B & C & -> & P). pose proof A as (_ & F1 & _). pose proof B as (_ & F2 & _). pose proof C as (_ & F3 & _).
    assert (N : match p with [] => True | c :: _ => digit_value c = None end).
    { destruct (pre v) as [n|]; [|subst p; exact Logic.I]. destruct P as (q & _ & ->). reflexivity. }
    rewrite (span_app a) by (assumption || reflexivity). cbn [app Z.eqb Pos.eqb]. rewrite (span_app b) by (assumption || reflexivity). cbn [app Z.eqb Pos.eqb]. rewrite (span_app c) by assumption.
    apply to_int_plus in A, B, C; try assumption. rewrite A, B, C. destruct v as [x y z [n|]]; cbn [major minor revision pre] in *.
    + destruct P as (q & Q & ->). apply parse_int_iff in Q. cbn [app Z.eqb Pos.eqb andb]. rewrite Q. reflexivity.
    + subst p. reflexivity.
Qed.
Lemma text_ok t v : version_text t v -> version_ok v.
Proof.
  intros (a & b & c & p & A & B & C & _). unfold version_ok. destruct A as (_ & FA & EA & LA), B as (_ & FB & EB & LB), C as (_ & FC & EC & LC).
  apply number_nonneg in FA, FB, FC. lia.
Qed.

(** ** The directive *)
Lemma release_ok a b c : 0 <= a < 2 ^ 31 -> 0 <= b < 2 ^ 31 -> 0 <= c < 2 ^ 31 -> version_ok (release a b c).
Proof. unfold version_ok. auto. Qed.
Theorem directive t v : compatibility_version t = Some v <-> version_text t v /\ ~ earlier (release 2 18 2) v /\ ~ earlier v (release 2 4 0).
Proof.
  unfold compatibility_version. change (parse_version version_string) with (Some (release 2 18 2)). change minimum_supported with (release 2 4 0). rewrite <- parse_iff. destruct (parse_version t) as [x|] eqn:E.
  - assert (K : version_ok x) by (apply (text_ok t), parse_iff, E).
    destruct (compare_order x (release 2 18 2) K) as (_ & _ & A); [apply release_ok; lia|]. destruct (compare_order x (release 2 4 0) K) as (B & _ & _); [apply release_ok; lia|].
    destruct (Z.ltb_spec 0 (compare_to x (release 2 18 2))) as [H|H].
    + split; [discriminate|]. intros ([= <-] & N & _). tauto.
    + destruct (Z.ltb_spec (compare_to x (release 2 4 0)) 0) as [G|G].
      * split; [discriminate|]. intros ([= <-] & _ & N). tauto.
      * split; [intros [= <-]|intros ([= <-] & _); reflexivity]. split; [reflexivity|]. rewrite <- A, <- B. lia.
  - split; [discriminate|]. intros (X & _). discriminate.
Qed.

(** ** The check *)
Theorem packed_check packages : (forall v, root_version packages = Some v -> version_ok v) ->
  (check_packages packages = true <->
   forall v p fields f, root_version packages = Some v -> earlier v (release 2 5 0) -> In p packages -> In fields (p_compounds p) -> In f fields -> ~ (f_array f = true /\ f_packed f = true)).
Proof.
  intros K. unfold check_packages, check_compound. destruct (root_version packages) as [v|] eqn:R.
  - change packed_array_change with (release 2 5 0). destruct (compare_order v (release 2 5 0) (K v eq_refl)) as (A & _ & _); [apply release_ok; lia|].
    destruct (Z.ltb_spec (compare_to v (release 2 5 0)) 0) as [H|H].
    + rewrite forallb_forall. split.
      * intros Q w p fields f [= <-] _ P F I (X & Y). apply Q in P. rewrite forallb_forall in P. apply P in F. rewrite forallb_forall in F. apply F in I. rewrite X, Y in I. discriminate.
      * intros Q p P. rewrite forallb_forall. intros fields F. rewrite forallb_forall. intros f I. destruct (f_array f && f_packed f) eqn:E; [|reflexivity]. apply andb_prop in E.
        elim (Q v p fields f eq_refl); tauto.
    + split; [|intros _; apply forallb_forall; intros p _; apply forallb_forall; reflexivity]. intros _ w p fields f [= <-] E. apply A in E. lia.
  - split; [discriminate|]. intros _. apply forallb_forall. intros p _. apply forallb_forall. reflexivity.
Qed.
Theorem warned packages p : (forall q v, In q packages -> p_version q = Some v -> version_ok v) -> In p packages ->
  (warns (root_version packages) p = true <-> p_version p <> None /\ p_version p <> root_version packages).
Proof.
  intros K I. unfold warns. destruct (p_version p) as [v|] eqn:P; [|split; [discriminate|tauto]]. destruct (root_version packages) as [r|] eqn:R; [|split; [split; discriminate|reflexivity]].
  assert (Kr : version_ok r). { destruct packages as [|q l]; [discriminate|]. apply (K q r (or_introl eq_refl) R). }
  destruct (compare_order v r (K p v I P) Kr) as (_ & A & _). destruct (Z.eqb_spec (compare_to v r) 0) as [E|E]; cbn [negb].
  - apply A in E. subst. split; [discriminate|tauto].
  - split; [|reflexivity]. intros _. split; [discriminate|]. intros [= ->]. apply E, A. reflexivity.
Qed.
Theorem extension core ext : extension_matches core ext = true <->
  exists v w, version_text core v /\ version_text ext w /\ major v = major w /\ minor v = minor w /\ ~ earlier v w.
Proof.
  unfold extension_matches. split.
  - destruct (parse_version core) as [v|] eqn:V; [|discriminate]. destruct (parse_version ext) as [w|] eqn:W; [|discriminate]. rewrite !andb_true_iff, !Z.eqb_eq, Z.leb_le. intros ((A & B) & C).
    apply parse_iff in V, W. exists v, w. destruct (compare_order v w (text_ok _ _ V) (text_ok _ _ W)) as (X & _). repeat split; try assumption. rewrite <- X. lia.
  - intros (v & w & V & W & A & B & C). destruct (compare_order v w (text_ok _ _ V) (text_ok _ _ W)) as (X & _). apply parse_iff in V, W. rewrite V, W, A, B, !Z.eqb_refl. cbn [andb].
    apply Z.leb_le. rewrite <- X in C. lia.
Qed.
Definition packed_field : field := {| f_array := true; f_packed := true |}.
Theorem package_refuted : exists root p v, check_packages [root; p] = true /\ p_version p = Some v /\ earlier v (release 2 5 0) /\ In packed_field (concat (p_compounds p)).
Proof.
  exists {| p_version := None; p_compounds := [] |}, {| p_version := Some (release 2 4 2); p_compounds := [[packed_field]] |}, (release 2 4 2).
  split; [reflexivity|]. split; [reflexivity|]. split; [unfold earlier; cbn; lia|left; reflexivity].
Qed.
Theorem version_examples :
  compatibility_version (text "2.4.2") = Some (release 2 4 2) /\ compatibility_version (text "2.5.0-pre1") = Some {| major := 2; minor := 5; revision := 0; pre := Some 1 |} /\
  compatibility_version (text "2.3.9") = None /\ compatibility_version (text "2.19.0") = None /\ compatibility_version (text "2.4") = None /\
  check_packages [{| p_version := Some (release 2 4 2); p_compounds := [[{| f_array := true; f_packed := false |}]] |}; {| p_version := None; p_compounds := [[packed_field]] |}] = false /\
  extension_matches (text "2.18.2") (text "2.18.0") = true /\ extension_matches (text "2.18.2") (text "2.17.0") = false.
Proof. repeat split. Qed.
