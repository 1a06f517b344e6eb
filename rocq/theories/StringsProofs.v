(** Proofs about string expressions. *)
From Coq Require Import String Ascii.
From Verif Require Import Base PyLiteral ModelUtf8 ModelBuiltin ModelLiterals SpecLiterals LiteralsProofs ModelStrings SpecStrings.

Section Meaning.
Context (consts funcs : nat -> option sexpr) (holds : nat -> bool) (fields : nat -> list Z).
Notation denotes := (denotes consts funcs holds fields).
Notation constant_string := (constant_string consts funcs).
Notation py_value := (py_value consts funcs holds fields).
Notation compile := (compile consts funcs).

Lemma py_of_denotes e v : denotes e v -> py_value (emit e) v.
Proof.
  induction 1 as [s K N|e v D IH|a b v w D1 IH1 D2 IH2|c a b v D IH|n e v C D IH|f e v C D IH|x]; cbn [emit].
  - constructor. apply string_literals; assumption.
  - constructor. exact IH.
  - constructor; assumption.
  - constructor. destruct (holds c); exact IH.
  - econstructor; eassumption.
  - econstructor; eassumption.
  - constructor.
Qed.
Lemma py_unique p v : py_value p v -> forall v', py_value p v' -> v' = v.
Proof.
  induction 1 as [t v E|p v D IH|p q v w D1 IH1 D2 IH2|c p q v D IH|n e v C D IH|f e v C D IH|x]; intros v' Q; inversion Q; subst; clear Q.
  - congruence.
  - auto.
  - rewrite (IH1 _ H1), (IH2 _ H3). reflexivity.
  - auto.
  - apply IH. congruence.
  - apply IH. congruence.
  - reflexivity.
Qed.
Theorem python_value e v : denotes e v -> py_value (emit e) v /\ forall v', py_value (emit e) v' -> v' = v.
Proof. intros D. apply py_of_denotes in D. split; [exact D|]. apply py_unique. exact D. Qed.

Lemma compile_any : forall n m e, (n <= m)%nat -> compile n e <> OutOfFuel -> compile m e = compile n e.
Proof.
  induction n as [|n IH]; intros m e L H; [elim H; reflexivity|]. destruct m as [|m]; [lia|]. assert (L' : (n <= m)%nat) by lia. specialize (IH m). 
  destruct e as [t|e|a b|c a b|k|f|x]; cbn [ModelStrings.compile] in H |- *; try reflexivity.
  - apply IH; assumption.
  - assert (A : compile n a <> OutOfFuel) by (intros E; rewrite E in H; apply H; reflexivity).
    assert (B : compile n b <> OutOfFuel) by (intros E; rewrite E in H; apply H; destruct (compile n a); reflexivity).
    rewrite (IH a L' A), (IH b L' B). reflexivity.
  - assert (A : compile n a <> OutOfFuel) by (intros E; rewrite E in H; apply H; reflexivity).
    assert (B : compile n b <> OutOfFuel) by (intros E; rewrite E in H; apply H; destruct (compile n a); reflexivity).
    rewrite (IH a L' A), (IH b L' B). reflexivity.
  - destruct (consts k) as [d|]; [apply IH; assumption|reflexivity].
  - destruct (funcs f) as [d|]; [apply IH; assumption|reflexivity].
Qed.
Lemma compile_more n e : compile n e <> OutOfFuel -> compile (S n) e = compile n e.
Proof. apply compile_any. lia. Qed.
Lemma compile_le n m e t : (n <= m)%nat -> compile n e = Constant t -> compile m e = Constant t.
Proof. intros L H. rewrite (compile_any n m e L); [exact H|rewrite H; discriminate]. Qed.

(** The text of the value *)
Theorem compiled_text e t : spelled consts funcs e t -> (exists fuel, compile fuel e = Constant t) /\ forall fuel t', compile fuel e = Constant t' -> t' = t.
Proof.
  intros D. assert (X : exists fuel, compile fuel e = Constant t).
  { induction D as [s K|e t D (n & IH)|a b t u D1 (n & IH1) D2 (m & IH2)|k e t C D (n & IH)|f e t C D (n & IH)].
    - exists 1%nat. cbn [ModelStrings.compile]. rewrite string_values. reflexivity.
    - exists (S n). exact IH.
    - exists (S (Nat.max n m)). cbn [ModelStrings.compile].
      rewrite (compile_le n (Nat.max n m) a t) by (lia || assumption). rewrite (compile_le m (Nat.max n m) b u) by (lia || assumption). reflexivity.
    - exists (S n). cbn [ModelStrings.compile]. rewrite C. exact IH.
    - exists (S n). cbn [ModelStrings.compile]. rewrite C. exact IH. }
  split; [exact X|]. destruct X as (n & X). intros m t' Y. apply (compile_le n (Nat.max n m)) in X; [|lia]. apply (compile_le m (Nat.max n m)) in Y; [|lia]. congruence.
Qed.

Theorem constant_accepted e : (exists fuel t, compile fuel e = Constant t) <-> constant_string e.
Proof.
  split.
  - intros (fuel & t & H). revert e t H. induction fuel as [|fuel IH]; intros e t H; [discriminate|].
    destruct e as [u|e|a b|c a b|k|f|x]; cbn [ModelStrings.compile] in H.
    + constructor.
    + constructor. eapply IH. exact H.
    + destruct (compile fuel a) as [| |xa|] eqn:A; try (destruct (compile fuel b); discriminate). destruct (compile fuel b) as [| |xb|] eqn:B; try discriminate.
      constructor; eapply IH; eassumption.
    + destruct (compile fuel a), (compile fuel b); discriminate.
    + destruct (consts k) as [d|] eqn:C; [|discriminate]. econstructor; [exact C|]. eapply IH. exact H.
    + destruct (funcs f) as [d|] eqn:C; [|discriminate]. econstructor; [exact C|]. eapply IH. exact H.
    + discriminate.
  - induction 1 as [t|e D (n & t & IH)|a b D1 (n & t & IH1) D2 (m & u & IH2)|k e C D (n & t & IH)|f e C D (n & t & IH)].
    + exists 1%nat. eexists. reflexivity.
    + exists (S n). eexists. exact IH.
    + exists (S (Nat.max n m)), (t ++ u). cbn [ModelStrings.compile].
      rewrite (compile_le n (Nat.max n m) a t) by (lia || assumption). rewrite (compile_le m (Nat.max n m) b u) by (lia || assumption). reflexivity.
    + exists (S n). exists t. cbn [ModelStrings.compile]. rewrite C. exact IH.
    + exists (S n). exists t. cbn [ModelStrings.compile]. rewrite C. exact IH.
Qed.

(** ** Lengths *)
Notation jl := java_utf8_length.
Lemma jl_app a b : jl (a ++ b) = jl a + jl b.
Proof. unfold java_utf8_length. induction a as [|c a IH]; [reflexivity|]. cbn [app fold_right]. rewrite IH. lia. Qed.
Lemma encode_app : forall a b l, utf8_encode (a ++ b) = Ok l -> exists x y, utf8_encode a = Ok x /\ utf8_encode b = Ok y /\ l = x ++ y.
Proof.
  induction a as [|c a IH]; intros b l H; [exists [], l; auto|]. cbn [app utf8_encode] in H |- *.
  destruct (utf8_encode_char c) as [k|]; [|discriminate]. cbn [rbind] in H |- *. destruct (utf8_encode (a ++ b)) as [k'|] eqn:E; [|discriminate]. injection H as <-.
  destruct (IH b k' E) as (x & y & -> & Y & ->). exists (k ++ x), y. rewrite <- app_assoc. auto.
Qed.
Lemma char_size c x : utf8_encode_char c = Ok x -> zlen x = jl [c].
Proof.
  unfold utf8_encode_char, java_utf8_length. cbn [fold_right].
  repeat match goal with |- context [if ?b then _ else _] => destruct b end; intros [= <-]; reflexivity || idtac.
Qed.
Lemma number_bound base ds : 1 < base -> Forall (is_digit base) ds -> 0 <= number base ds < base ^ zlen ds.
Proof.
  intros B. induction 1 as [|d ds D F IH]; [cbn; lia|]. cbn [number]. unfold is_digit in D. unfold zlen in *. cbn [List.length]. rewrite Nat2Z.inj_succ, Z.pow_succ_r by lia. nia.
Qed.
Lemma small_size c : 0 <= c -> jl [c] <= 4 /\ (c < 0x10000 -> jl [c] <= 3) /\ (c < 0x800 -> jl [c] <= 2) /\ (c < 0x80 -> jl [c] = 1) /\ 1 <= jl [c].
Proof. unfold java_utf8_length. cbn [fold_right]. destruct (c <? 0x80) eqn:A, (c <? 0x800) eqn:B, (c <? 0x10000) eqn:D; lia. Qed.
Lemma jl_length t : zlen t <= jl t.
Proof.
  unfold java_utf8_length. induction t as [|c t IH]; [cbn; lia|]. cbn [fold_right]. unfold zlen in *. cbn [List.length]. destruct (c <? 0x80), (c <? 0x800), (c <? 0x10000); lia.
Qed.
Lemma map_zlen {A B} (f : A -> B) l : zlen (map f l) = zlen l.
Proof. unfold zlen. rewrite map_length. reflexivity. Qed.
(** An escape is longer than what it stands for. *)
Lemma escape_longer x : string_char_ok x -> match x with Oct ds => zlen ds <= 2 | _ => True end ->
  jl [char_meaning x] <= jl (char_text x) /\ (jl [char_meaning x] = jl (char_text x) <-> ~ In backslash (char_text x)).
Proof.
  assert (FH : forall ds : list (Z * bool), Forall (fun d => is_digit 16 (fst d)) ds -> Forall (is_digit 16) (map fst ds)).
  { induction 1; constructor; assumption. }
  intros K L. destruct x as [c|c|ds|ds|ds]; cbn [string_char_ok char_meaning char_text] in *.
  - split; [lia|]. split; [|reflexivity]. intros _ [E|[]]. lia.
  - enough (jl [match escape_meaning c with Some v => v | None => 0 end] < jl [backslash; c]) as H by (split; [lia|]; split; [lia|]; intros N; elim N; left; reflexivity).
    pose proof (jl_length [backslash; c]) as J. change (zlen [backslash; c]) with 2 in J. enough (jl [match escape_meaning c with Some v => v | None => 0 end] = 1) by lia.
    unfold escape_meaning. repeat match goal with |- context [if ?b then _ else _] => destruct b end; reflexivity.
  - destruct K as [Z4 F]. pose proof (number_bound 16 (map fst ds) ltac:(lia) (FH _ F)) as B. rewrite map_zlen, Z4 in B.
    pose proof (small_size (number 16 (map fst ds)) (proj1 B)) as (_ & S3 & _). change (16 ^ 4) with 0x10000 in B. specialize (S3 (proj2 B)).
    pose proof (jl_length (backslash :: text "u" ++ map hex_char ds)) as J. replace (zlen (backslash :: text "u" ++ map hex_char ds)) with 6 in J
      by (pose proof (map_zlen hex_char ds) as Q; unfold zlen in *; cbn [List.length app text list_ascii_of_string map]; lia).
    split; [lia|]. split; [lia|]. intros N. elim N. left. reflexivity.
  - destruct K as [Z4 F]. pose proof (number_bound 16 (map fst ds) ltac:(lia) (FH _ F)) as B. rewrite map_zlen, Z4 in B.
    pose proof (small_size (number 16 (map fst ds)) (proj1 B)) as (_ & _ & S3 & _). change (16 ^ 2) with 0x100 in B. specialize (S3 ltac:(lia)).
    pose proof (jl_length (backslash :: text "x" ++ map hex_char ds)) as J. replace (zlen (backslash :: text "x" ++ map hex_char ds)) with 4 in J
      by (pose proof (map_zlen hex_char ds) as Q; unfold zlen in *; cbn [List.length app text list_ascii_of_string map]; lia).
    split; [lia|]. split; [lia|]. intros N. elim N. left. reflexivity.
  - destruct K as (Z4 & F & _). pose proof (number_bound 8 ds ltac:(lia) F) as B.
    assert (B' : number 8 ds < 0x80) by (assert (8 ^ zlen ds <= 8 ^ 2) by (apply Z.pow_le_mono_r; lia); change (8 ^ 2) with 64 in *; lia).
    pose proof (small_size (number 8 ds) (proj1 B)) as (_ & _ & _ & S1 & _). specialize (S1 B').
    pose proof (jl_length (backslash :: text "0" ++ map digit_char ds)) as J. replace (zlen (backslash :: text "0" ++ map digit_char ds)) with (2 + zlen ds) in J
      by (pose proof (map_zlen digit_char ds) as Q; unfold zlen in *; cbn [List.length app text list_ascii_of_string map]; lia).
    split; [lia|]. split; [lia|]. intros N. elim N. left. reflexivity.
Qed.
Lemma literal_lengths : forall s l, Forall string_char_ok s -> no_long_octal s -> utf8_encode (string_meaning s) = Ok l ->
  zlen l <= jl (flat_map char_text s) /\ (zlen l = jl (flat_map char_text s) <-> ~ In backslash (flat_map char_text s)).
Proof.
  induction s as [|x s IH]; intros l F N H.
  - injection H as <-. cbn. split; [lia|]. tauto.
  - inversion_clear F as [|? ? K F']. inversion_clear N as [|? ? K' N'].
    change (utf8_encode (string_meaning (x :: s))) with (utf8_encode ([char_meaning x] ++ string_meaning s)) in H.
    destruct (encode_app _ _ _ H) as (a & b & Ha & Hb & ->). cbn [utf8_encode] in Ha. destruct (utf8_encode_char (char_meaning x)) as [k|] eqn:E; [|discriminate].
    injection Ha as <-. rewrite app_nil_r. apply char_size in E. destruct (IH b F' N' Hb) as (L1 & L2). destruct (escape_longer x K K') as (M1 & M2).
    cbn [flat_map]. rewrite jl_app. replace (zlen (k ++ b)) with (zlen k + zlen b) by (unfold zlen; rewrite app_length; lia). rewrite E. split; [lia|]. rewrite in_app_iff.
    split.
    + intros Q. assert (Q1 : jl [char_meaning x] = jl (char_text x)) by lia. assert (Q2 : zlen b = jl (flat_map char_text s)) by lia. intros [I|I]; [apply M2 in Q1; auto|apply L2 in Q2; auto].
    + intros Q. assert (Q1 : ~ In backslash (char_text x)) by tauto. assert (Q2 : ~ In backslash (flat_map char_text s)) by tauto. apply M2 in Q1. apply L2 in Q2. lia.
Qed.
Theorem lengths : forall fuel e t v l, compile fuel e = Constant t -> denotes e v -> utf8_encode v = Ok l -> zlen l <= jl t /\ (zlen l = jl t <-> ~ In backslash t).
Proof.
  intros fuel e t v l C D. revert fuel t l C. induction D as [s K N|e v D IH|a b v w D1 IH1 D2 IH2|c a b v D IH|n e v E D IH|f e v E D IH|x]; intros [|fuel] t l C H; try discriminate C; cbn [ModelStrings.compile] in C.
  - injection C as <-. rewrite string_values. destruct K as [K _]. apply literal_lengths; assumption.
  - eapply IH; eassumption.
  - destruct (compile fuel a) as [| |xa|] eqn:A; try (destruct (compile fuel b); discriminate). destruct (compile fuel b) as [| |xb|] eqn:B; try discriminate. injection C as <-.
    destruct (encode_app _ _ _ H) as (x & y & Hx & Hy & ->). destruct (IH1 _ _ _ A Hx) as (P1 & P2). destruct (IH2 _ _ _ B Hy) as (Q1 & Q2).
    rewrite jl_app, in_app_iff. replace (zlen (x ++ y)) with (zlen x + zlen y) by (unfold zlen; rewrite app_length; lia). split; [lia|]. split.
    + intros Q. assert (X1 : zlen x = jl xa) by lia. assert (X2 : zlen y = jl xb) by lia. apply P2 in X1. apply Q2 in X2. tauto.
    + intros Q. assert (X1 : zlen x = jl xa) by (apply P2; tauto). assert (X2 : zlen y = jl xb) by (apply Q2; tauto). lia.
  - destruct (compile fuel a), (compile fuel b); discriminate.
  - rewrite E in C. eapply IH; eassumption.
  - rewrite E in C. eapply IH; eassumption.
Qed.
Theorem lengthof_both fuel e k v m : lengthof_value consts funcs fuel e = Some k -> denotes e v -> lengthof_string v = Ok m ->
  m <= k /\ forall t, compile fuel e = Constant t -> (m = k <-> ~ In backslash t).
Proof.
  unfold lengthof_value, lengthof_string. destruct (compile fuel e) as [| |t|] eqn:C; try discriminate. intros [= <-] D. destruct (utf8_encode v) as [l|] eqn:E; [|discriminate]. intros [= <-].
  destruct (lengths fuel e t v l C D E) as (L1 & L2). split; [exact L1|]. intros t' [= <-]. exact L2.
Qed.
End Meaning.
Theorem joined consts funcs fuel a b : compile consts funcs fuel (SPlus a b) <> OutOfFuel ->
  (compile consts funcs fuel (SPlus a b) = Refused <-> ~ (constant_string consts funcs a /\ constant_string consts funcs b)).
Proof.
  intros H. split.
  - intros R (A & B). apply (c_plus _ _ _ _ A) in B. apply constant_accepted in B. destruct B as (m & t & B).
    assert (M : forall k, compile consts funcs (fuel + k) (SPlus a b) = Refused).
    { induction k as [|k IH]; [rewrite Nat.add_0_r; exact R|]. replace (fuel + S k)%nat with (S (fuel + k)) by lia. rewrite compile_more; rewrite IH; [reflexivity|discriminate]. }
    specialize (M m). rewrite (compile_le _ _ m (fuel + m) _ t) in M; [discriminate|lia|exact B].
  - intros N. destruct fuel as [|fuel]; [elim H; reflexivity|].
    destruct (compile consts funcs (S fuel) (SPlus a b)) as [| |t|] eqn:E; [reflexivity| |elim N|elim H; reflexivity].
    + cbn [compile] in E. destruct (compile consts funcs fuel a), (compile consts funcs fuel b); discriminate.
    + assert (Q : constant_string consts funcs (SPlus a b)) by (apply constant_accepted; exists (S fuel), t; exact E). inversion Q. auto.
Qed.

(** ** An example: const string ENDING = "\n"; function string name() { return "Tile" + ENDING; } *)
Definition ending_chars : list string_char := [Escape 110].
Definition tile_chars : list string_char := map Plain (text "Tile").
Definition tile_consts (n : nat) : option sexpr := match n with O => Some (SLit (string_text ending_chars)) | _ => None end.
Definition tile_funcs (f : nat) : option sexpr := match f with O => Some (SPlus (SLit (string_text tile_chars)) (SConst 0%nat)) | _ => None end.
Theorem tile_strings : forall holds fields,
  denotes tile_consts tile_funcs holds fields (SCall 0%nat) (text "Tile" ++ [10]) /\
  constant_string tile_consts tile_funcs (SCall 0%nat) /\
  lengthof_value tile_consts tile_funcs 4 (SCall 0%nat) = Some 6 /\ lengthof_string (text "Tile" ++ [10]) = Ok 5.
Proof.
  intros holds fields. split; [|split; [|split; reflexivity]].
  - econstructor; [reflexivity|]. apply (d_plus _ _ _ _ _ _ (text "Tile") [10]).
    + change (text "Tile") with (string_meaning tile_chars). apply d_literal.
      * split; [|reflexivity || (repeat constructor)]. repeat constructor; vm_compute; intuition discriminate.
      * repeat constructor.
    + econstructor; [reflexivity|]. change [10] with (string_meaning ending_chars). apply d_literal.
      * split; repeat constructor; vm_compute; intuition discriminate.
      * repeat constructor.
  - econstructor; [reflexivity|]. constructor; [constructor|]. econstructor; [reflexivity|]. constructor.
Qed.
Theorem length_refuted : exists consts funcs holds fields fuel e v k m,
  denotes consts funcs holds fields e v /\ lengthof_value consts funcs fuel e = Some k /\ lengthof_string v = Ok m /\ k <> m.
Proof.
  exists tile_consts, tile_funcs, (fun _ => true), (fun _ => []), 4%nat, (SCall 0%nat), (text "Tile" ++ [10]), 6, 5.
  destruct (tile_strings (fun _ => true) (fun _ => [])) as (D & _ & L & R). repeat split; try assumption. discriminate.
Qed.
