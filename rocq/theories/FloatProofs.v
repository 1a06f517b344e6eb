From Verif Require Import Base SpecBits SpecStream SpecFloat SpecHistory ModelFloat ModelWriter ModelReader ModelCalls
  BitsProofs WriterProofs CallProofs ReaderProofs ReadCallProofs HistoryProofs.
Require Import ZifyBool ZifyNat.
Ltac Zify.zify_post_hook ::= Z.div_mod_to_equations.

(** ** Exhaustive check of a power-of-two range *)
Fixpoint check_range (f : Z -> bool) (n : nat) (lo : Z) : bool :=
  match n with
  | O => f lo
  | S k => check_range f k lo && check_range f k (lo + 2 ^ Z.of_nat k)
  end.
Lemma check_range_spec f n lo : check_range f n lo = true -> forall u, lo <= u < lo + 2 ^ Z.of_nat n -> f u = true.
Proof.
  revert lo. induction n as [|n IH]; intros lo H u Hu; cbn [check_range] in H.
  - change (2 ^ Z.of_nat 0) with 1 in Hu. replace u with lo by lia. exact H.
  - apply andb_true_iff in H. destruct H as [H1 H2]. rewrite Nat2Z.inj_succ, Z.pow_succ_r in Hu by lia.
    destruct (Z.lt_ge_cases u (lo + 2 ^ Z.of_nat n)); [apply (IH lo)|apply (IH (lo + 2 ^ Z.of_nat n))]; try assumption; lia.
Qed.

(** ** Single precision *)
Lemma fields64 s e m : 0 <= s <= 1 -> 0 <= e < 2 ^ 11 -> 0 <= m < 2 ^ 52 ->
  let d := s * 2 ^ 63 + e * 2 ^ 52 + m in
  0 <= d < 2 ^ 64 /\ d / 2 ^ 63 = s /\ (d / 2 ^ 52) mod 2 ^ 11 = e /\ d mod 2 ^ 52 = m.
Proof. intros Hs He Hm. cbv zeta. lia. Qed.

Lemma fields32 u : 0 <= u < 2 ^ 32 ->
  exists s e m, u = s * 2 ^ 31 + e * 2 ^ 23 + m /\ 0 <= s <= 1 /\ 0 <= e < 2 ^ 8 /\ 0 <= m < 2 ^ 23 /\
    u / 2 ^ 31 = s /\ (u / 2 ^ 23) mod 2 ^ 8 = e /\ u mod 2 ^ 23 = m.
Proof.
  intros Hu. exists (u / 2 ^ 31), ((u / 2 ^ 23) mod 2 ^ 8), (u mod 2 ^ 23). lia.
Qed.

Lemma rne_shift_exact a k : 0 <= k -> rne_shift (a * 2 ^ k) k = a.
Proof.
  intros Hk. unfold rne_shift. pose proof (Z.pow_pos_nonneg 2 k ltac:(lia) Hk).
  rewrite Z.mod_mul, Z.div_mul by lia. destruct (Z.ltb_spec (2 * 0) (2 ^ k)); lia.
Qed.

Lemma fmt64 s e m : 0 <= s <= 1 -> 0 <= e < 2 ^ 11 -> 0 <= m < 2 ^ 52 ->
  let d := s * 2 ^ 63 + e * 2 ^ 52 + m in
  sign64 d = s /\ nan64 d = ((e =? 2047) && negb (m =? 0)) /\ inf64 d = ((e =? 2047) && (m =? 0)) /\
  fin64 d = negb (e =? 2047) /\ mag64 d = (if e =? 0 then m else (2 ^ 52 + m) * 2 ^ (e - 1)).
Proof.
  intros Hs He Hm. destruct (fields64 s e m Hs He Hm) as (_ & H1 & H2 & H3). cbv zeta in *.
  unfold sign64, nan64, inf64, fin64, mag64, fmt_sign, fmt_nan, fmt_inf, fmt_finite, fmt_mag, fmt_exp, fmt_man.
  change (11 + 52) with 63. rewrite H1, H2, H3. split; [reflexivity|]. repeat split.
Qed.

Lemma log2_sub m : 0 < m < 2 ^ 23 -> 0 <= Z.log2 m <= 22 /\ 2 ^ Z.log2 m <= m < 2 * 2 ^ Z.log2 m.
Proof.
  intros H. pose proof (Z.log2_spec m ltac:(lia)) as Hl. rewrite Z.pow_succ_r in Hl by apply Z.log2_nonneg.
  pose proof (Z.log2_nonneg m). assert (Z.log2 m < 23) by (apply Z.log2_lt_pow2; lia). lia.
Qed.

Lemma float32_exact u : 0 <= u < 2 ^ 32 ->
  exists d, uint32_to_float u = Ok d /\ 0 <= d < 2 ^ 64 /\ same_number_32_64 u d /\
    (if nan32 u then exists u', float_to_uint32 d = Ok u' /\ 0 <= u' < 2 ^ 32 /\ nan32 u' = true
     else float_to_uint32 d = Ok u).
Proof.
  intros Hu. destruct (fields32 u Hu) as (s & e & m & Eu & Hs & He & Hm & F1 & F2 & F3).
  unfold uint32_to_float, same_number_32_64.
  destruct (Z.ltb_spec u 0); [lia|]. destruct (Z.leb_spec (2 ^ 32) u); [lia|]. cbn [orb].
  unfold nan32, inf32, fin32, sign32, mag32, fmt_nan, fmt_inf, fmt_finite, fmt_sign, fmt_mag, fmt_exp, fmt_man.
  change (8 + 23) with 31. change (2 ^ 8 - 1) with 255. rewrite F1, F2, F3. cbv zeta.
  assert (Hfl: forall e' m', 0 <= e' < 2 ^ 11 -> 0 <= m' < 2 ^ 52 -> forall r,
     (if e' =? 2047 then (if m' =? 0 then Ok (s * 2 ^ 31 + 255 * 2 ^ 23) else Ok (s * 2 ^ 31 + 255 * 2 ^ 23 + Z.lor (m' / 2 ^ 29) (2 ^ 22)))
      else if e' <? 1023 - 126 then (if e' =? 0 then Ok (s * 2 ^ 31) else Ok (s * 2 ^ 31 + rne_shift (2 ^ 52 + m') (1023 - 97 - e')))
      else let r := (e' - 1023 + 127 - 1) * 2 ^ 23 + rne_shift (2 ^ 52 + m') 29 in
           if 255 * 2 ^ 23 <=? r then Raise OverflowErr else Ok (s * 2 ^ 31 + r)) = r ->
     float_to_uint32 (s * 2 ^ 63 + e' * 2 ^ 52 + m') = r).
  { intros e' m' He' Hm' r <-. destruct (fields64 s e' m' Hs He' Hm') as (_ & G1 & G2 & G3).
    unfold float_to_uint32. cbv zeta in *. rewrite G1, G2, G3. reflexivity. }
  destruct (Z.eqb_spec e 255) as [Ee|Ee]; cbn [andb negb].
  - destruct (Z.eqb_spec m 0) as [Em|Em]; cbn [andb negb].
    + exists (s * 2 ^ 63 + 2047 * 2 ^ 52). split; [reflexivity|].
      replace (s * 2 ^ 63 + 2047 * 2 ^ 52) with (s * 2 ^ 63 + 2047 * 2 ^ 52 + 0) by lia.
      destruct (fmt64 s 2047 0) as (P1 & P2 & P3 & P4 & P5); [lia..|].
      split; [lia|]. split.
      * right. rewrite P1, P3. split; [reflexivity|]. left. split; reflexivity.
      * apply Hfl; [lia..|]. cbn. f_equal. lia.
    + set (q := Z.lor (m * 2 ^ 29) (2 ^ 51)).
      assert (Hq: 0 < q < 2 ^ 52).
      { assert (H1: Z.log2 q < 52).
        { unfold q. rewrite Z.log2_lor by lia. apply Z.max_lub_lt; [|reflexivity].
          apply Z.log2_lt_pow2; lia. }
        assert (H2: 0 <= q) by (unfold q; apply Z.lor_nonneg; lia).
        assert (H3: Z.testbit q 51 = true).
        { unfold q. rewrite Z.lor_spec. rewrite Z.pow2_bits_true by lia. apply orb_true_r. }
        assert (q <> 0) by (intros E; rewrite E, Z.bits_0 in H3; discriminate).
        split; [lia|]. apply Z.log2_lt_pow2; lia. }
      eexists. split; [reflexivity|].
      destruct (fmt64 s 2047 q) as (P1 & P2 & P3 & P4 & P5); [lia..|].
      split; [lia|]. split.
      * left. split; [reflexivity|]. rewrite P2. cbn. destruct (Z.eqb_spec q 0); [lia|reflexivity].
      * set (q' := Z.lor (q / 2 ^ 29) (2 ^ 22)).
        assert (Hq': 0 < q' < 2 ^ 23).
        { assert (H1: Z.log2 q' < 23).
          { unfold q'. rewrite Z.log2_lor by lia. apply Z.max_lub_lt; [|reflexivity].
            destruct (Z.eq_dec (q / 2 ^ 29) 0) as [->|]; [reflexivity|]. apply Z.log2_lt_pow2; lia. }
          assert (H2: 0 <= q') by (unfold q'; apply Z.lor_nonneg; lia).
          assert (H3: Z.testbit q' 22 = true).
          { unfold q'. rewrite Z.lor_spec. rewrite Z.pow2_bits_true by lia. apply orb_true_r. }
          assert (q' <> 0) by (intros E; rewrite E, Z.bits_0 in H3; discriminate).
          split; [lia|]. apply Z.log2_lt_pow2; lia. }
        exists (s * 2 ^ 31 + 255 * 2 ^ 23 + q'). split.
        { apply Hfl; [lia..|]. cbn [Z.eqb]. change (2047 =? 2047) with true. cbv iota.
          destruct (Z.eqb_spec q 0); [lia|]. reflexivity. }
        split; [lia|]. 
        replace ((s * 2 ^ 31 + 255 * 2 ^ 23 + q') / 2 ^ 23) with (s * 2 ^ 8 + 255) by lia.
        replace ((s * 2 ^ 31 + 255 * 2 ^ 23 + q') mod 2 ^ 23) with q' by lia.
        replace ((s * 2 ^ 8 + 255) mod 2 ^ 8) with 255 by lia.
        cbn. destruct (Z.eqb_spec q' 0); [lia|reflexivity].
  - destruct (Z.eqb_spec e 0) as [E0|E0].
    + destruct (Z.eqb_spec m 0) as [Em|Em].
      * exists (s * 2 ^ 63). split; [reflexivity|].
        replace (s * 2 ^ 63) with (s * 2 ^ 63 + 0 * 2 ^ 52 + 0) by lia.
        destruct (fmt64 s 0 0) as (P1 & P2 & P3 & P4 & P5); [lia..|].
        split; [lia|]. split.
        -- right. rewrite P1, P4, P5. split; [reflexivity|]. right. cbn [Z.eqb negb]. split; [reflexivity|]. split; [reflexivity|]. lia.
        -- apply Hfl; [lia..|]. cbn. f_equal. lia.
      * destruct (log2_sub m ltac:(lia)) as [Hk Hl]. set (k := Z.log2 m) in *.
        set (m' := m * 2 ^ (52 - k) - 2 ^ 52). set (e' := k - 149 + 1023).
        assert (Hpk: 2 ^ 52 = 2 ^ k * 2 ^ (52 - k)) by (rewrite <- Z.pow_add_r by lia; f_equal; lia).
        assert (Hpos: 0 < 2 ^ (52 - k)) by (apply Z.pow_pos_nonneg; lia).
        assert (Hm': 0 <= m' < 2 ^ 52) by (unfold m'; nia).
        assert (He': 0 <= e' < 2 ^ 11) by (unfold e'; lia).
        exists (s * 2 ^ 63 + e' * 2 ^ 52 + m'). split; [reflexivity|].
        destruct (fmt64 s e' m') as (P1 & P2 & P3 & P4 & P5); [assumption..|].
        assert (Hd: 0 <= s * 2 ^ 63 + e' * 2 ^ 52 + m' < 2 ^ 64) by (apply fields64; assumption).
        split; [exact Hd|]. split.
        -- right. rewrite P1, P4, P5. split; [reflexivity|]. right. split; [reflexivity|].
           destruct (Z.eqb_spec e' 2047); [lia|]. split; [reflexivity|].
           destruct (Z.eqb_spec e' 0); [lia|]. unfold m'. replace (2 ^ 52 + (m * 2 ^ (52 - k) - 2 ^ 52)) with (m * 2 ^ (52 - k)) by lia.
           rewrite <- Z.mul_assoc, <- Z.pow_add_r by lia. f_equal. f_equal. unfold e'. lia.
        -- apply Hfl; [assumption..|].
           destruct (Z.eqb_spec e' 2047); [lia|]. destruct (Z.ltb_spec e' (1023 - 126)); [|lia].
           destruct (Z.eqb_spec e' 0); [lia|]. f_equal. unfold m'.
           replace (2 ^ 52 + (m * 2 ^ (52 - k) - 2 ^ 52)) with (m * 2 ^ (52 - k)) by lia.
           replace (1023 - 97 - e') with (52 - k) by (unfold e'; lia). rewrite rne_shift_exact by lia. lia.
    + set (e' := e - 127 + 1023). assert (He': 0 <= e' < 2 ^ 11) by (unfold e'; lia).
      assert (Hm': 0 <= m * 2 ^ 29 < 2 ^ 52) by lia.
      exists (s * 2 ^ 63 + e' * 2 ^ 52 + m * 2 ^ 29). split; [reflexivity|].
      destruct (fmt64 s e' (m * 2 ^ 29)) as (P1 & P2 & P3 & P4 & P5); [assumption..|].
      assert (Hd: 0 <= s * 2 ^ 63 + e' * 2 ^ 52 + m * 2 ^ 29 < 2 ^ 64) by (apply fields64; assumption).
      split; [exact Hd|]. split.
      * right. rewrite P1, P4, P5. split; [reflexivity|]. right. split; [reflexivity|].
        destruct (Z.eqb_spec e' 2047); [lia|]. split; [reflexivity|].
        destruct (Z.eqb_spec e' 0); [lia|].
        replace (2 ^ 52 + m * 2 ^ 29) with ((2 ^ 23 + m) * 2 ^ 29) by lia.
        rewrite <- !Z.mul_assoc, <- !Z.pow_add_r by lia. f_equal. f_equal. unfold e'. lia.
      * apply Hfl; [assumption..|].
        destruct (Z.eqb_spec e' 2047); [lia|]. destruct (Z.ltb_spec e' (1023 - 126)); [lia|]. cbv zeta.
        replace (2 ^ 52 + m * 2 ^ 29) with ((2 ^ 23 + m) * 2 ^ 29) by lia. rewrite rne_shift_exact by lia.
        destruct (Z.leb_spec (255 * 2 ^ 23) ((e' - 1023 + 127 - 1) * 2 ^ 23 + (2 ^ 23 + m))); [lia|]. f_equal. lia.
Qed.

(** ** Half precision, by way of single precision *)
Definition check16 (u : Z) : bool :=
  let p := half_to_single u in
  let e := Z.land (Z.shiftr u 10) 31 in
  let m := Z.land u 1023 in
  let e' := Z.land (Z.shiftr p 23) 255 in
  let m' := Z.land p 8388607 in
  if negb ((0 <=? p) && (p <? 4294967296) && (Z.shiftr u 15 =? Z.shiftr p 31)) then false
  else if e =? 31 then
    (e' =? 255) &&
    (if m =? 0 then (m' =? 0) && (single_to_half p =? u)
     else negb (m' =? 0) && 
       match uint32_to_float p with
       | Ok d => match float_to_uint16 d with Ok u' => (0 <=? u') && (u' <? 65536) && nan16 u' | _ => false end
       | _ => false
       end)
  else
    (single_to_half p =? u) &&
    (if e' =? 0 then (e =? 0) && (m =? 0) && (m' =? 0)
     else (103 <=? e') && (e' <? 255) &&
       (Z.shiftl (8388608 + m') (e' - 103) =? Z.shiftl (if e =? 0 then m else Z.shiftl (1024 + m) (e - 1)) 23)).
Lemma check16_all : check_range check16 16 0 = true.
Proof. vm_compute. reflexivity. Qed.

Lemma land_low v n : 0 <= n -> Z.land v (2 ^ n - 1) = v mod 2 ^ n.
Proof. intros H. rewrite <- land_ones_sub by exact H. rewrite Z.shiftl_1_l. reflexivity. Qed.

Lemma half_single u : 0 <= u < 2 ^ 16 ->
  let p := half_to_single u in
  0 <= p < 2 ^ 32 /\ sign16 u = sign32 p /\ nan16 u = nan32 p /\ inf16 u = inf32 p /\ fin16 u = fin32 p /\
  (fin16 u = true -> mag32 p = mag16 u * 2 ^ 125) /\
  (nan16 u = false -> single_to_half p = u) /\
  (nan16 u = true -> exists d u', uint32_to_float p = Ok d /\ float_to_uint16 d = Ok u' /\ 0 <= u' < 2 ^ 16 /\ nan16 u' = true).
Proof.
  intros Hu. pose proof (check_range_spec check16 16 0 check16_all u ltac:(cbn; lia)) as H. unfold check16 in H.
  cbv zeta in *. set (p := half_to_single u) in *. clearbody p.
  rewrite (land_low (Z.shiftr u 10) 5 ltac:(lia) : Z.land _ 31 = _), (land_low u 10 ltac:(lia) : Z.land _ 1023 = _),
    (land_low (Z.shiftr p 23) 8 ltac:(lia) : Z.land _ 255 = _), (land_low p 23 ltac:(lia) : Z.land _ 8388607 = _) in H.
  rewrite !Z.shiftr_div_pow2 in H by lia.
  unfold sign16, sign32, nan16, nan32, inf16, inf32, fin16, fin32, mag16, mag32, fmt_sign, fmt_nan, fmt_inf, fmt_finite,
    fmt_mag, fmt_exp, fmt_man.
  change (5 + 10) with 15. change (8 + 23) with 31. change (2 ^ 5 - 1) with 31. change (2 ^ 8 - 1) with 255.
  set (e := (u / 2 ^ 10) mod 2 ^ 5) in *. set (m := u mod 2 ^ 10) in *.
  set (e' := (p / 2 ^ 23) mod 2 ^ 8) in *. set (m' := p mod 2 ^ 23) in *.
  assert (Hm: 0 <= m) by (apply Z.mod_pos_bound; lia). assert (Hm': 0 <= m') by (apply Z.mod_pos_bound; lia).
  assert (He: 0 <= e) by (apply Z.mod_pos_bound; lia). assert (He': 0 <= e') by (apply Z.mod_pos_bound; lia).
  destruct (negb _) eqn:E0 in H; [discriminate|]. apply negb_false_iff in E0. rewrite !andb_true_iff in E0.
  destruct E0 as [[H1 H2] H3]. apply Z.eqb_eq in H3.
  split; [lia|]. split; [exact H3|].
  destruct (Z.eqb_spec e 31) as [Ee|Ee].
  - apply andb_true_iff in H. destruct H as [H4 H]. rewrite H4. cbn [andb negb].
    destruct (Z.eqb_spec m 0) as [Em|Em].
    + apply andb_true_iff in H. destruct H as [H5 H6]. rewrite H5. cbn [negb].
      split; [reflexivity|]. split; [reflexivity|]. split; [reflexivity|]. split; [discriminate|]. split; [lia|discriminate].
    + apply andb_true_iff in H. destruct H as [H5 H6]. destruct (m' =? 0); [discriminate|]. cbn [negb].
      split; [reflexivity|]. split; [reflexivity|]. split; [reflexivity|]. split; [discriminate|]. split; [discriminate|].
      intros _. destruct (uint32_to_float p) as [d|]; [|discriminate]. destruct (float_to_uint16 d) as [u'|] eqn:Eu; [|discriminate].
      exists d, u'. rewrite !andb_true_iff in H6. destruct H6 as [H6 H7]. split; [reflexivity|]. split; [exact Eu|].
      split; [lia|exact H7].
  - apply andb_true_iff in H. destruct H as [H4 H]. cbn [andb negb].
    assert (Hne: e' <> 255) by (destruct (Z.eqb_spec e' 0); lia).
    destruct (Z.eqb_spec e' 255); [contradiction|]. cbn [andb negb].
    split; [reflexivity|]. split; [reflexivity|]. split; [reflexivity|]. split; [|split; [lia|discriminate]].
    intros _. destruct (Z.eqb_spec e' 0) as [Z0|Z0].
    + destruct (Z.eqb_spec e 0); lia.
    + rewrite !andb_true_iff in H. destruct H as [[H5 H6] H7]. apply Z.eqb_eq in H7. apply Z.leb_le in H5.
      rewrite !(Z.shiftl_mul_pow2 _ 23), (Z.shiftl_mul_pow2 _ (e' - 103)) in H7 by lia.
      replace (e' - 1) with (e' - 103 + 102) by lia. rewrite Z.pow_add_r by lia. rewrite Z.mul_assoc.
      change (2 ^ 23) with 8388608 in H7 |- *. rewrite H7. replace 125 with (23 + 102) by lia. rewrite (Z.pow_add_r 2 23 102) by lia.
      change (2 ^ 23) with 8388608. change (2 ^ 10) with 1024. destruct (Z.eqb_spec e 0); [lia|].
      rewrite Z.shiftl_mul_pow2 by lia. lia.
Qed.

Lemma float_to_uint16_eq d f : float_to_uint32 d = Ok f -> float_to_uint16 d = Ok (single_to_half f).
Proof.
  intros E. unfold float_to_uint16. rewrite E. reflexivity.
Qed.

Lemma float16_exact u : 0 <= u < 2 ^ 16 ->
  exists d, uint16_to_float u = Ok d /\ 0 <= d < 2 ^ 64 /\ same_number_16_64 u d /\
    (if nan16 u then exists u', float_to_uint16 d = Ok u' /\ 0 <= u' < 2 ^ 16 /\ nan16 u' = true
     else float_to_uint16 d = Ok u).
Proof.
  intros Hu. destruct (half_single u Hu) as (Hp & Hs & Hn & Hi & Hf & Hm & Hr & Hrn). cbv zeta in *.
  set (p := half_to_single u) in *. destruct (float32_exact p Hp) as (d & Ed & Hd & Hsame & Hb).
  exists d. unfold uint16_to_float. fold p. split; [exact Ed|]. split; [exact Hd|]. split.
  - unfold same_number_16_64, same_number_32_64 in *. rewrite Hs, Hn, Hi, Hf.
    destruct Hsame as [H|[H1 [H2|(H2 & H3 & H4)]]]; [left; exact H|right; split; [exact H1|left; exact H2]|].
    right. split; [exact H1|]. right. split; [exact H2|]. split; [exact H3|].
    rewrite H4, (Hm ltac:(congruence)). rewrite <- Z.mul_assoc, <- Z.pow_add_r by lia. reflexivity.
  - rewrite Hn in *. destruct (nan32 p).
    + destruct (Hrn eq_refl) as (d2 & u' & E2 & E3 & H3 & H4). rewrite Ed in E2. apply Ok_inj in E2. subst d2.
      exists u'. auto.
    + rewrite (float_to_uint16_eq d p Hb). f_equal. apply Hr. reflexivity.
Qed.

Lemma write_float16_ok d u : float_to_uint16 d = Ok u -> 0 <= u < 2 ^ 16 -> appends (write_float16 d) (zbits 16 u).
Proof. intros E Hu. unfold write_float16. rewrite E. apply appends_lift. apply (write_bits_unchecked_ok u 16); lia. Qed.
Lemma read_float16_ok d u : uint16_to_float u = Ok d -> 0 <= u < 2 ^ 16 -> reads read_float16 (zbits 16 u) d.
Proof. intros E Hu. unfold read_float16. eapply reads_lift; [|exact E]. apply (read_unchecked_reads u 16); lia. Qed.

Lemma float16_roundtrip u : 0 <= u < 2 ^ 16 ->
  exists d, same_number_16_64 u d /\ uint16_to_float u = Ok d /\
    (nan16 u = false -> survives (write_float16 d) read_float16 d) /\
    (nan16 u = true -> exists d', nan64 d' = true /\ survives (write_float16 d) read_float16 d').
Proof.
  intros Hu. destruct (float16_exact u Hu) as (d & Ed & Hd & Hs & Hb). exists d.
  split; [exact Hs|]. split; [exact Ed|]. split; intros Hn; rewrite Hn in Hb.
  - eapply survives_intro; [apply write_float16_ok|apply read_float16_ok]; eassumption.
  - destruct Hb as (u' & Eu & Hu' & Hn'). destruct (float16_exact u' Hu') as (d' & Ed' & _ & Hs' & _).
    exists d'. split.
    + destruct Hs' as [[_ H]|[_ [[H _]|[H _]]]]; [exact H| |].
      * unfold inf16, nan16, fmt_inf, fmt_nan in *. destruct (fmt_exp 5 10 u' =? 2 ^ 5 - 1), (fmt_man 10 u' =? 0); discriminate.
      * unfold fin16, nan16, fmt_finite, fmt_nan in *. destruct (fmt_exp 5 10 u' =? 2 ^ 5 - 1); discriminate.
    + eapply survives_intro; [apply write_float16_ok|apply read_float16_ok]; eassumption.
Qed.

Lemma write_float32_ok d u : float_to_uint32 d = Ok u -> 0 <= u < 2 ^ 32 -> appends (write_float32 d) (zbits 32 u).
Proof. intros E Hu. unfold write_float32. rewrite E. apply appends_lift. apply (write_bits_unchecked_ok u 32); lia. Qed.
Lemma read_float32_ok d u : uint32_to_float u = Ok d -> 0 <= u < 2 ^ 32 -> reads read_float32 (zbits 32 u) d.
Proof. intros E Hu. unfold read_float32. eapply reads_lift; [|exact E]. apply (read_unchecked_reads u 32); lia. Qed.

Lemma nan32_same u d : same_number_32_64 u d -> nan32 u = true -> nan64 d = true.
Proof.
  intros [[_ H]|[_ [[H _]|[H _]]]] Hn; [exact H| |].
  - unfold inf32, nan32, fmt_inf, fmt_nan in *. destruct (fmt_exp 8 23 u =? 2 ^ 8 - 1), (fmt_man 23 u =? 0); discriminate.
  - unfold fin32, nan32, fmt_finite, fmt_nan in *. destruct (fmt_exp 8 23 u =? 2 ^ 8 - 1); discriminate.
Qed.

Lemma float32_roundtrip u : 0 <= u < 2 ^ 32 ->
  exists d, same_number_32_64 u d /\ uint32_to_float u = Ok d /\
    (nan32 u = false -> survives (write_float32 d) read_float32 d) /\
    (nan32 u = true -> exists d', nan64 d' = true /\ survives (write_float32 d) read_float32 d').
Proof.
  intros Hu. destruct (float32_exact u Hu) as (d & Ed & Hd & Hs & Hb). exists d.
  split; [exact Hs|]. split; [exact Ed|]. split; intros Hn; rewrite Hn in Hb.
  - eapply survives_intro; [apply write_float32_ok|apply read_float32_ok]; eassumption.
  - destruct Hb as (u' & Eu & Hu' & Hn'). destruct (float32_exact u' Hu') as (d' & Ed' & _ & Hs' & _).
    exists d'. split; [exact (nan32_same u' d' Hs' Hn')|].
    eapply survives_intro; [apply write_float32_ok|apply read_float32_ok]; eassumption.
Qed.

(** A finite double is determined by its sign and magnitude. *)
Lemma mag64_inj a b : 0 <= a < 2 ^ 64 -> 0 <= b < 2 ^ 64 -> fin64 a = true -> fin64 b = true ->
  sign64 a = sign64 b -> mag64 a = mag64 b -> a = b.
Proof.
  intros Ha Hb Fa Fb Hs Hm. unfold fin64, fmt_finite, sign64, fmt_sign, mag64, fmt_mag, fmt_exp, fmt_man in *.
  change (11 + 52) with 63 in *.
  assert (Hlt: forall e m e' m', 0 <= m < 2 ^ 52 -> 0 <= m' < 2 ^ 52 -> 0 < e -> e < e' ->
     (2 ^ 52 + m) * 2 ^ (e - 1) < (2 ^ 52 + m') * 2 ^ (e' - 1)).
  { intros e m e' m' H1 H2 H3 H4. replace (e' - 1) with ((e - 1) + 1 + (e' - e - 1)) by lia.
    rewrite !Z.pow_add_r by lia. pose proof (Z.pow_pos_nonneg 2 (e - 1) ltac:(lia) ltac:(lia)).
    pose proof (Z.pow_pos_nonneg 2 (e' - e - 1) ltac:(lia) ltac:(lia)). nia. }
  set (ea := (a / 2 ^ 52) mod 2 ^ 11) in *. set (eb := (b / 2 ^ 52) mod 2 ^ 11) in *.
  set (ma := a mod 2 ^ 52) in *. set (mb := b mod 2 ^ 52) in *.
  assert (0 <= ma < 2 ^ 52) by (apply Z.mod_pos_bound; lia). assert (0 <= mb < 2 ^ 52) by (apply Z.mod_pos_bound; lia).
  assert (Hab: a = a / 2 ^ 63 * 2 ^ 63 + ea * 2 ^ 52 + ma) by (unfold ea, ma; lia).
  assert (Hbb: b = b / 2 ^ 63 * 2 ^ 63 + eb * 2 ^ 52 + mb) by (unfold eb, mb; lia).
  assert (0 <= ea) by (apply Z.mod_pos_bound; lia). assert (0 <= eb) by (apply Z.mod_pos_bound; lia).
  assert (ea = eb /\ ma = mb); [|destruct H3; congruence].
  assert (Hge: forall e m, 0 <= m < 2 ^ 52 -> 0 < e -> 2 ^ 52 <= (2 ^ 52 + m) * 2 ^ (e - 1)).
  { intros e m H3 H4. pose proof (Z.pow_pos_nonneg 2 (e - 1) ltac:(lia) ltac:(lia)). nia. }
  clearbody ea eb ma mb.
  destruct (Z.eqb_spec ea 0), (Z.eqb_spec eb 0).
  - lia.
  - specialize (Hge eb mb). lia.
  - specialize (Hge ea ma). lia.
  - destruct (Z.lt_trichotomy ea eb) as [L|[E|L]].
    + specialize (Hlt ea ma eb mb). lia.
    + split; [exact E|]. subst eb. pose proof (Z.pow_pos_nonneg 2 (ea - 1) ltac:(lia) ltac:(lia)). nia.
    + specialize (Hlt eb mb ea ma). lia.
Qed.

(** Every double that denotes the same number as some single precision pattern. *)
Lemma float32_representable u d : 0 <= u < 2 ^ 32 -> 0 <= d < 2 ^ 64 -> nan32 u = false -> same_number_32_64 u d ->
  (forall w, reachable w -> exists w', write_float32 d w = (Ok tt, w')) /\
  survives (write_float32 d) read_float32 d.
Proof.
  intros Hu Hd Hn Hs. destruct (float32_exact u Hu) as (d2 & Ed & Hd2 & Hs2 & Hb). rewrite Hn in Hb.
  assert (d = d2).
  { destruct Hs as [[H _]|[G1 [[G2 G3]|(G2 & G3 & G4)]]]; [congruence| |];
    destruct Hs2 as [[H' _]|[F1 [[F2 F3]|(F2 & F3 & F4)]]]; try congruence.
    - clear - Hd Hd2 G1 F1 G3 F3. unfold sign64, fmt_sign, inf64, fmt_inf, fmt_exp, fmt_man in *.
      change (11 + 52) with 63 in *. change (2 ^ 11 - 1) with 2047 in *. lia.
    - unfold inf32, fin32, fmt_inf, fmt_finite in *. destruct (fmt_exp 8 23 u =? 2 ^ 8 - 1); discriminate.
    - unfold inf32, fin32, fmt_inf, fmt_finite in *. destruct (fmt_exp 8 23 u =? 2 ^ 8 - 1); discriminate.
    - apply mag64_inj; try assumption; congruence. }
  subst d2. pose proof (write_float32_ok d u Hb Hu) as Hw. split.
  - intros w Hre. destruct (reachable_wholds w Hre) as [pre W]. destruct (Hw w pre W) as (w' & E & _). exists w'. exact E.
  - eapply survives_intro; [exact Hw|apply read_float32_ok; assumption].
Qed.

Lemma float64_roundtrip d : 0 <= d < 2 ^ 64 ->
  (forall w, reachable w -> exists w', write_float64 d w = (Ok tt, w')) /\
  survives (write_float64 d) read_float64 d.
Proof.
  intros Hd. assert (Hw: appends (write_float64 d) (zbits 64 d)).
  { unfold write_float64. apply appends_lift. apply (write_bits_unchecked_ok d 64); lia. }
  split.
  - intros w Hre. destruct (reachable_wholds w Hre) as [pre W]. destruct (Hw w pre W) as (w' & E & _). exists w'. exact E.
  - eapply survives_intro; [exact Hw|]. unfold read_float64. eapply reads_lift; [apply (read_unchecked_reads d 64); lia|].
    unfold uint64_to_float. destruct (Z.ltb_spec d 0); [lia|]. destruct (Z.leb_spec (2 ^ 64) d); [lia|]. reflexivity.
Qed.
