(** Accuracy of the narrowing to half precision. *)
From Verif Require Import Base SpecBits SpecFloat SpecHistory ModelFloat ModelWriter ModelReader BitsProofs ReadVarProofs HistoryProofs FloatProofs.
Require Import ZifyBool ZifyNat.
Ltac Zify.zify_post_hook ::= Z.div_mod_to_equations.

(** The magnitude grows with the pattern. *)
Definition mono_check (k : Z) : bool := if k <? 0x7C00 then mag16 k <=? mag16 (k + 1) else true.
Lemma mono_check_all : check_range mono_check 15 0 = true.
Proof. vm_compute. reflexivity. Qed.
Lemma mag16_step k : 0 <= k < 0x7C00 -> mag16 k <= mag16 (k + 1).
Proof.
  intros H. pose proof (check_range_spec _ _ _ mono_check_all k ltac:(cbn; lia)) as E. unfold mono_check in E.
  destruct (Z.ltb_spec k 0x7C00); lia.
Qed.
Lemma mag16_mono a b : 0 <= a -> a <= b -> b <= 0x7C00 -> mag16 a <= mag16 b.
Proof.
  intros Ha Hab Hb. pattern b. 
  assert (H: forall n, Z.of_nat n <= 0x7C00 - a -> mag16 a <= mag16 (a + Z.of_nat n)).
  { induction n as [|n IH]; intros Hn; [rewrite Z.add_0_r; lia|].
    specialize (IH ltac:(lia)). pose proof (mag16_step (a + Z.of_nat n) ltac:(lia)).
    replace (a + Z.of_nat (S n)) with (a + Z.of_nat n + 1) by lia. lia. }
  specialize (H (Z.to_nat (b - a)) ltac:(lia)). replace (a + Z.of_nat (Z.to_nat (b - a))) with b in H by lia. exact H.
Qed.

Lemma mag16_fields e m : 0 <= e < 32 -> 0 <= m < 1024 ->
  mag16 (e * 1024 + m) = if e =? 0 then m else (1024 + m) * 2 ^ (e - 1).
Proof.
  intros He Hm. unfold mag16, fmt_mag, fmt_exp, fmt_man. change (2 ^ 10) with 1024. change (2 ^ 5) with 32.
  replace ((e * 1024 + m) / 1024) with e by lia. replace ((e * 1024 + m) mod 1024) with m by lia.
  rewrite (Z.mod_small e 32) by lia. reflexivity.
Qed.

Lemma nearest_of_bracket X T c q sh r up :
  0 <= T < 0x7C00 -> 0 < c -> 1 <= sh -> 0 <= r < 2 ^ sh ->
  X = (q * 2 ^ sh + r) * c -> mag16 T * 2 ^ 125 = q * 2 ^ sh * c -> mag16 (T + 1) * 2 ^ 125 = (q + 1) * 2 ^ sh * c ->
  (up = true <-> 2 ^ sh <= 2 * r) ->
  let h := if up : bool then T + 1 else T in
  forall k, 0 <= k <= 0x7C00 -> Z.abs (mag16 h * 2 ^ 125 - X) <= Z.abs (mag16 k * 2 ^ 125 - X).
Proof.
  intros HT Hc Hsh Hr HX H0 H1 Hup h k Hk.
  pose proof (Z.pow_pos_nonneg 2 125 ltac:(lia) ltac:(lia)) as H125. set (P := 2 ^ 125) in *. clearbody P.
  set (S := 2 ^ sh) in *. clearbody S.
  assert (Hlow: mag16 T * P <= X) by (rewrite H0, HX; nia).
  assert (Hhigh: X < mag16 (T + 1) * P) by (rewrite H1, HX; nia).
  assert (Hb: mag16 k * P <= mag16 T * P \/ mag16 (T + 1) * P <= mag16 k * P).
  { destruct (Z.le_gt_cases k T).
    - left. apply Z.mul_le_mono_nonneg_r; [lia|]. apply mag16_mono; lia.
    - right. apply Z.mul_le_mono_nonneg_r; [lia|]. apply mag16_mono; lia. }
  assert (Hd: X - mag16 T * P = r * c) by (rewrite H0, HX; ring).
  assert (Hu: mag16 (T + 1) * P - X = (S - r) * c) by (rewrite H1, HX; ring).
  unfold h. destruct up.
  - assert (S <= 2 * r) by (apply Hup; reflexivity). assert ((S - r) * c <= r * c) by nia. lia.
  - assert (2 * r < S) by (destruct (Z.lt_ge_cases (2 * r) S); [assumption|]; discriminate (proj2 Hup H)).
    assert (r * c <= (S - r) * c) by nia. lia.
Qed.

Lemma lor3 s e m : 0 <= s <= 1 -> 0 <= e < 32 -> 0 <= m < 1024 ->
  Z.lor (Z.lor (s * 2 ^ 15) (Z.shiftl e 10)) m = s * 2 ^ 15 + e * 1024 + m.
Proof.
  intros Hs He Hm. rewrite <- Z.shiftl_mul_pow2 by lia.
  rewrite (lor_shiftl_add s (Z.shiftl e 10) 15); [|lia|rewrite (Z.shiftl_mul_pow2 e 10) by lia; change (2 ^ 10) with 1024; change (2 ^ 15) with 32768; lia].
  rewrite (Z.shiftl_mul_pow2 e 10) by lia. replace (s * 2 ^ 15 + e * 2 ^ 10) with ((s * 2 ^ 5 + e) * 2 ^ 10) by lia.
  rewrite <- Z.shiftl_mul_pow2 by lia. rewrite lor_shiftl_add by lia. rewrite ?Z.shiftl_mul_pow2 by lia. lia.
Qed.

Lemma land_sign f : 0 <= f < 2 ^ 32 -> Z.land f 0x80000000 = f / 2 ^ 31 * 2 ^ 31.
Proof.
  intros Hf. apply Z.bits_inj'. intros i Hi. rewrite Z.land_spec.
  change 0x80000000 with (2 ^ 31). rewrite Z.pow2_bits_eqb by lia.
  rewrite <- Z.shiftl_mul_pow2, <- Z.shiftr_div_pow2 by lia.
  destruct (Z.lt_ge_cases i 31).
  - rewrite Z.shiftl_spec_low by lia. destruct (Z.eqb_spec 31 i); [lia|]. apply andb_false_r.
  - rewrite Z.shiftl_spec by lia. rewrite Z.shiftr_spec by lia. replace (i - 31 + 31) with i by lia.
    destruct (Z.eqb_spec 31 i); [apply andb_true_r|]. rewrite andb_false_r. symmetry.
    destruct (Z.eq_dec f 0) as [->|]; [apply Z.bits_0|]. apply Z.bits_above_log2; [lia|].
    assert (Z.log2 f < 32) by (apply Z.log2_lt_pow2; lia). lia.
Qed.

Lemma land_exp f : Z.shiftr (Z.land f 0x7F800000) 23 = (f / 2 ^ 23) mod 2 ^ 8.
Proof.
  rewrite Z.shiftr_land. change (Z.shiftr 0x7F800000 23) with (2 ^ 8 - 1). rewrite land_low by lia.
  rewrite Z.shiftr_div_pow2 by lia. reflexivity.
Qed.

Lemma round_bit F sh : 0 <= F -> 1 <= sh ->
  negb (Z.land (Z.shiftr F (sh - 1)) 1 =? 0) = true <-> 2 ^ sh <= 2 * (F mod 2 ^ sh).
Proof.
  intros HF Hsh. rewrite (land_low _ 1 ltac:(lia) : Z.land _ 1 = _). rewrite Z.shiftr_div_pow2 by lia. change (2 ^ 1) with 2.
  replace (2 ^ sh) with (2 * 2 ^ (sh - 1)) by (rewrite <- Z.pow_succ_r by lia; f_equal; lia).
  pose proof (Z.pow_pos_nonneg 2 (sh - 1) ltac:(lia) ltac:(lia)). set (P := 2 ^ (sh - 1)) in *. clearbody P.
  assert (E: F mod (2 * P) = F mod P + P * ((F / P) mod 2)).
  { rewrite (Z.mul_comm 2 P). rewrite Z.rem_mul_r by lia. lia. }
  rewrite E. pose proof (Z.mod_pos_bound F P ltac:(lia)). pose proof (Z.mod_pos_bound (F / P) 2 ltac:(lia)).
  set (b := (F / P) mod 2) in *. clearbody b. set (r := F mod P) in *. clearbody r. clear E.
  destruct (Z.eqb_spec b 0); cbn [negb]; split; intros; try discriminate; try nia; reflexivity.
Qed.

Lemma half_sum s T : 0 <= s <= 1 -> 0 <= T <= 0x7C00 -> 
  0 <= s * 2 ^ 15 + T < 2 ^ 16 /\ sign16 (s * 2 ^ 15 + T) = s /\ (s * 2 ^ 15 + T) mod 2 ^ 15 = T.
Proof. intros Hs HT. unfold sign16, fmt_sign. change (5 + 10) with 15. lia. Qed.

(** Within [2^-24, 2^16) the single precision value is rounded to a nearest half
    precision value (0x7C00, infinity, counting as 2^16). *)
Lemma single_to_half_nearest f : 0 <= f < 2 ^ 32 -> 103 <= fmt_exp 8 23 f <= 142 ->
  let h := single_to_half f in
  0 <= h < 2 ^ 16 /\ sign16 h = sign32 f /\ h mod 2 ^ 15 <= 0x7C00 /\
  forall k, 0 <= k <= 0x7C00 ->
    Z.abs (mag16 (h mod 2 ^ 15) * 2 ^ 125 - mag32 f) <= Z.abs (mag16 k * 2 ^ 125 - mag32 f).
Proof.
  intros Hf He. cbv zeta. unfold single_to_half.
  unfold FLOAT16_SIGN_MASK, FLOAT16_EXPONENT_MASK, FLOAT16_SIGNIFICAND_MASK, FLOAT16_SIGN_BIT_POSITION,
    FLOAT16_SIGNIFICAND_NUM_BITS, FLOAT16_EXPONENT_BIT_POSITION, FLOAT16_EXPONENT_INFINITY_NAN, FLOAT16_EXPONENT_BIAS,
    FLOAT32_SIGN_MASK, FLOAT32_EXPONENT_MASK, FLOAT32_SIGNIFICAND_MASK, FLOAT32_SIGN_BIT_POSITION,
    FLOAT32_SIGNIFICAND_NUM_BITS, FLOAT32_EXPONENT_BIT_POSITION, FLOAT32_EXPONENT_INFINITY_NAN, FLOAT32_EXPONENT_BIAS.
  change 0x00FF with 255. change 0x001F with 31.
  rewrite land_sign by exact Hf. rewrite land_exp. rewrite (land_low f 23 ltac:(lia) : Z.land f 0x007FFFFF = _).
  unfold mag32, fmt_mag, sign32, fmt_sign, fmt_exp, fmt_man in *. change (8 + 23) with 31.
  assert (Hs: 0 <= f / 2 ^ 31 <= 1) by lia.
  set (s := f / 2 ^ 31) in *. set (e := (f / 2 ^ 23) mod 2 ^ 8) in *. 
  assert (Hm: 0 <= f mod 2 ^ 23 < 2 ^ 23) by (apply Z.mod_pos_bound; lia).
  set (m := f mod 2 ^ 23) in *. clearbody s e m. clear Hf f.
  assert (Hsg: Z.shiftr (s * 2 ^ 31) (31 - 15) = s * 2 ^ 15).
  { rewrite Z.shiftr_div_pow2 by lia. change (31 - 15) with 16. lia. }
  rewrite Hsg. clear Hsg.
  destruct (Z.eqb_spec e 0); [lia|]. destruct (Z.eqb_spec e 255); [lia|].
  replace (e - 127 + 15) with (e - 112) by lia.
  destruct (Z.ltb_spec 31 (e - 112)); [lia|].
  set (c := 2 ^ (e - 1)). assert (Hc: 0 < c) by (apply Z.pow_pos_nonneg; lia).
  (* everything after the choice of the truncated pattern *)
  assert (Hfin: forall e16 m16 up q sh, 0 <= e16 < 31 -> 0 <= m16 < 1024 -> 1 <= sh ->
     q = (2 ^ 23 + m) / 2 ^ sh ->
     mag16 (e16 * 1024 + m16) * 2 ^ 125 = q * 2 ^ sh * c ->
     mag16 (e16 * 1024 + m16 + 1) * 2 ^ 125 = (q + 1) * 2 ^ sh * c ->
     up = negb (Z.land (Z.shiftr (2 ^ 23 + m) (sh - 1)) 1 =? 0) ->
     let v := Z.lor (Z.lor (s * 2 ^ 15) (Z.shiftl e16 10)) m16 in
     let h := if up : bool then v + 1 else v in
     0 <= h < 2 ^ 16 /\ sign16 h = s /\ h mod 2 ^ 15 <= 0x7C00 /\
     forall k, 0 <= k <= 0x7C00 ->
       Z.abs (mag16 (h mod 2 ^ 15) * 2 ^ 125 - (2 ^ 23 + m) * c) <= Z.abs (mag16 k * 2 ^ 125 - (2 ^ 23 + m) * c)).
  { intros e16 m16 up q sh He16 Hm16 Hsh Hq G0 G1 Hup. cbv zeta. rewrite lor3 by lia.
    set (T := e16 * 1024 + m16) in *. assert (HT: 0 <= T < 0x7C00) by (unfold T; lia).
    replace (s * 2 ^ 15 + e16 * 1024 + m16) with (s * 2 ^ 15 + T) by (unfold T; lia). clearbody T.
    assert (Eh: (if up then s * 2 ^ 15 + T + 1 else s * 2 ^ 15 + T) = s * 2 ^ 15 + (if up then T + 1 else T)) by (destruct up; lia).
    rewrite Eh. destruct (half_sum s (if up then T + 1 else T) Hs ltac:(destruct up; lia)) as (P1 & P2 & P3).
    split; [exact P1|]. split; [exact P2|]. rewrite P3. split; [destruct up; lia|].
    assert (Hp: 0 < 2 ^ sh) by (apply Z.pow_pos_nonneg; lia).
    apply (nearest_of_bracket _ T c q sh ((2 ^ 23 + m) mod 2 ^ sh)); try assumption.
    - apply Z.mod_pos_bound. exact Hp.
    - f_equal. rewrite Hq. rewrite (Z.mul_comm _ (2 ^ sh)). apply Z.div_mod. lia.
    - rewrite Hup. apply round_bit; lia. }
  destruct (Z.leb_spec (e - 112) 0) as [Hsub|Hnorm].
  - change (Z.opp 10) with (-10). destruct (Z.leb_spec (e - 112) (-10)); [lia|].
    assert (Hfull: Z.lor m (8388607 + 1) = 2 ^ 23 + m).
    { rewrite Z.lor_comm. change (8388607 + 1) with (Z.shiftl 1 23). rewrite lor_shiftl_add by lia. lia. }
    change 0x007FFFFF with 8388607. rewrite Hfull.
    assert (Hsh: 23 - 10 + (1 - (e - 112)) = 126 - e) by lia. rewrite Hsh.
    assert (Hpe: 2 ^ (126 - e) * c = 2 ^ 125).
    { unfold c. rewrite <- Z.pow_add_r by lia. f_equal. lia. }
    assert (Hq: 0 <= (2 ^ 23 + m) / 2 ^ (126 - e) < 1024).
    { pose proof (Z.pow_le_mono_r 2 14 (126 - e) ltac:(lia) ltac:(lia)).
      split; [apply Z.div_pos; lia|]. apply Z.div_lt_upper_bound; [lia|]. lia. }
    rewrite (Z.shiftr_div_pow2 _ (126 - e)) by lia.
    apply (Hfin 0 _ _ ((2 ^ 23 + m) / 2 ^ (126 - e)) (126 - e)); try lia.
    + rewrite mag16_fields by lia. cbn [Z.eqb]. rewrite <- Z.mul_assoc, Hpe. reflexivity.
    + rewrite <- Z.mul_assoc, Hpe. f_equal. set (q := (2 ^ 23 + m) / 2 ^ (126 - e)) in *. clearbody q.
      destruct (Z.eq_dec q 1023) as [->|]; [reflexivity|].
      replace (0 * 1024 + q + 1) with (0 * 1024 + (q + 1)) by lia. rewrite mag16_fields by lia. reflexivity.
  - assert (Hsh: Z.shiftr m (23 - 10 - 1) = Z.shiftr m 12) by reflexivity. rewrite Hsh. clear Hsh.
    rewrite (Z.shiftr_div_pow2 m (23 - 10)) by lia. change (23 - 10) with 13.
    assert (Hpe: 2 ^ 13 * c = 2 ^ (e - 112 - 1) * 2 ^ 125).
    { unfold c. rewrite <- !Z.pow_add_r by lia. f_equal. lia. }
    apply (Hfin (e - 112) _ _ (1024 + m / 2 ^ 13) 13); try lia.
    + rewrite mag16_fields by lia. destruct (Z.eqb_spec (e - 112) 0); [lia|].
      rewrite <- !Z.mul_assoc, Hpe. reflexivity.
    + rewrite <- !Z.mul_assoc, Hpe. set (q := m / 2 ^ 13) in *. assert (0 <= q < 1024) by (unfold q; lia). clearbody q.
      rewrite Z.mul_assoc. f_equal.
      destruct (Z.eq_dec q 1023) as [->|].
      * replace ((e - 112) * 1024 + 1023 + 1) with ((e - 112 + 1) * 1024 + 0) by lia. rewrite mag16_fields by lia.
        destruct (Z.eqb_spec (e - 112 + 1) 0); [lia|]. replace (e - 112 + 1 - 1) with (1 + (e - 112 - 1)) by lia.
        rewrite Z.pow_add_r by lia. lia.
      * replace ((e - 112) * 1024 + q + 1) with ((e - 112) * 1024 + (q + 1)) by lia. rewrite mag16_fields by lia.
        destruct (Z.eqb_spec (e - 112) 0); [lia|]. lia.
    + f_equal. f_equal. rewrite !(land_low _ 1 ltac:(lia) : Z.land _ 1 = _). rewrite !Z.shiftr_div_pow2 by lia.
      change (13 - 1) with 12. lia.
Qed.

(** In terms of the stream: a float that is exact in single precision and has a
    magnitude in [2^-24, 2^16) is read back as a nearest half precision value. *)
Lemma float16_nearest f : 0 <= f < 2 ^ 32 -> 2 ^ 125 <= mag32 f < 2 ^ 165 -> fin32 f = true ->
  exists d h d', same_number_32_64 f d /\ uint32_to_float f = Ok d /\ 0 <= h < 2 ^ 16 /\
    same_number_16_64 h d' /\ survives (write_float16 d) read_float16 d' /\ sign16 h = sign32 f /\ nan16 h = false /\
    forall k, 0 <= k <= 0x7C00 ->
      Z.abs (mag16 (h mod 2 ^ 15) * 2 ^ 125 - mag32 f) <= Z.abs (mag16 k * 2 ^ 125 - mag32 f).
Proof.
  intros Hf Hmag Hfin.
  assert (Hn: nan32 f = false).
  { unfold fin32, fmt_finite, nan32, fmt_nan in *. destruct (_ =? _); [discriminate|reflexivity]. }
  destruct (float32_exact f Hf) as (d & Ed & Hd & Hs & Hb). rewrite Hn in Hb.
  assert (He: 103 <= fmt_exp 8 23 f <= 142).
  { unfold mag32, fmt_mag in Hmag.
    assert (Hm: 0 <= fmt_man 23 f < 2 ^ 23) by (unfold fmt_man; apply Z.mod_pos_bound; lia).
    assert (He0: 0 <= fmt_exp 8 23 f) by (unfold fmt_exp; apply Z.mod_pos_bound; lia).
    destruct (Z.eqb_spec (fmt_exp 8 23 f) 0).
    { pose proof (Z.pow_lt_mono_r 2 23 125 ltac:(lia) ltac:(lia) ltac:(lia)). lia. }
    set (e := fmt_exp 8 23 f) in *. clearbody e. set (m := fmt_man 23 f) in *. clearbody m.
    split.
    - destruct (Z.le_gt_cases 103 e) as [?|Hlt]; [assumption|]. exfalso.
      assert ((2 ^ 23 + m) * 2 ^ (e - 1) < 2 ^ 24 * 2 ^ 101); [|change (2 ^ 24 * 2 ^ 101) with (2 ^ 125) in *; lia].
      pose proof (Z.pow_le_mono_r 2 (e - 1) 101 ltac:(lia) ltac:(lia)).
      pose proof (Z.pow_pos_nonneg 2 (e - 1) ltac:(lia) ltac:(lia)). nia.
    - destruct (Z.le_gt_cases e 142) as [?|Hlt]; [assumption|]. exfalso.
      assert (2 ^ 23 * 2 ^ 142 <= (2 ^ 23 + m) * 2 ^ (e - 1)); [|change (2 ^ 23 * 2 ^ 142) with (2 ^ 165) in *; lia].
      pose proof (Z.pow_le_mono_r 2 142 (e - 1) ltac:(lia) ltac:(lia)).
      pose proof (Z.pow_pos_nonneg 2 142 ltac:(lia) ltac:(lia)). nia. }
  destruct (single_to_half_nearest f Hf He) as (Hh & Hsg & Hle & Hnear). cbv zeta in *.
  set (h := single_to_half f) in *.
  destruct (float16_exact h Hh) as (d' & Ed' & _ & Hs' & _).
  exists d, h, d'. split; [exact Hs|]. split; [exact Ed|]. split; [exact Hh|]. split; [exact Hs'|].
  split; [|split; [exact Hsg|split; [|exact Hnear]]].
  - pose proof (float_to_uint16_eq d f Hb) as E16.
    eapply survives_intro; [apply write_float16_ok; [exact E16|exact Hh]|apply read_float16_ok; [exact Ed'|exact Hh]].
  - unfold nan16, fmt_nan, fmt_exp, fmt_man. change (2 ^ 10) with 1024. change (2 ^ 5) with 32. change (2 ^ 15) with 32768 in Hle.
    destruct (Z.eqb_spec ((h / 1024) mod 32) (32 - 1)); [|reflexivity]. cbn [andb].
    destruct (Z.eqb_spec (h mod 1024) 0); [reflexivity|]. lia.
Qed.

(** ** Counterexamples *)
Lemma float16_survives d u d' : float_to_uint16 d = Ok u -> uint16_to_float u = Ok d' -> 0 <= u < 2 ^ 16 ->
  survives (write_float16 d) read_float16 d'.
Proof. intros E1 E2 Hu. eapply survives_intro; [apply write_float16_ok|apply read_float16_ok]; eassumption. Qed.

(** 1000000.0 becomes NaN. *)
Lemma float16_overflow_nan : exists d d', 0 <= d < 2 ^ 64 /\ fin64 d = true /\ 2 ^ 16 * 2 ^ 1074 <= mag64 d /\
  survives (write_float16 d) read_float16 d' /\ nan64 d' = true.
Proof.
  exists 0x412E848000000000, 0x7FFE840000000000. split; [lia|]. split; [vm_compute; reflexivity|].
  split; [vm_compute; discriminate|]. split; [|vm_compute; reflexivity].
  apply (float16_survives _ 0x7FA1); [vm_compute; reflexivity|vm_compute; reflexivity|lia].
Qed.

(** 131071.0 becomes -0.0. *)
Lemma float16_overflow_zero : exists d d', 0 <= d < 2 ^ 64 /\ fin64 d = true /\ sign64 d = 0 /\ 2 ^ 16 * 2 ^ 1074 <= mag64 d /\
  survives (write_float16 d) read_float16 d' /\ sign64 d' = 1 /\ mag64 d' = 0 /\ fin64 d' = true.
Proof.
  exists 0x40FFFFF000000000, 0x8000000000000000. split; [lia|]. split; [vm_compute; reflexivity|]. split; [vm_compute; reflexivity|].
  split; [vm_compute; discriminate|]. split; [|vm_compute; repeat split].
  apply (float16_survives _ 0x8000); [vm_compute; reflexivity|vm_compute; reflexivity|lia].
Qed.

(** -131071.0 cannot be written at all. *)
Lemma float16_overflow_raises : exists d, 0 <= d < 2 ^ 64 /\ fin64 d = true /\
  forall w, write_float16 d w = (Raise RuntimeExc, w).
Proof.
  exists 0xC0FFFFF000000000. split; [lia|]. split; [vm_compute; reflexivity|]. intros w.
  unfold write_float16, bind, lift. replace (float_to_uint16 0xC0FFFFF000000000) with (@Ok Z 0x10000) by (vm_compute; reflexivity).
  reflexivity.
Qed.

(** 1.5 * 2^-25 is nearest to 2^-24 but becomes 0; 1 + 2^-11 - 2^-40 is nearest
    to 1 but becomes 1 + 2^-10 (it is rounded twice). *)
Lemma float16_not_nearest :
  (exists d d' k, 0 <= d < 2 ^ 64 /\ fin64 d = true /\ mag64 d < 2 ^ 16 * 2 ^ 1074 /\
    survives (write_float16 d) read_float16 d' /\ mag64 d' = 0 /\ 0 <= k < 0x7C00 /\
    Z.abs (mag16 k * 2 ^ 1050 - mag64 d) < Z.abs (mag64 d' - mag64 d)) /\
  (exists d d' k, 0 <= d < 2 ^ 64 /\ fin64 d = true /\ 2 ^ 1074 <= mag64 d < 2 * 2 ^ 1074 /\
    survives (write_float16 d) read_float16 d' /\ 0 <= k < 0x7C00 /\
    Z.abs (mag16 k * 2 ^ 1050 - mag64 d) < Z.abs (mag64 d' - mag64 d)).
Proof.
  split.
  - exists 0x3E68000000000000, 0, 1. split; [lia|]. split; [vm_compute; reflexivity|]. split; [vm_compute; reflexivity|].
    split; [apply (float16_survives _ 0); [vm_compute; reflexivity|vm_compute; reflexivity|lia]|].
    split; [vm_compute; reflexivity|]. split; [lia|]. vm_compute. reflexivity.
  - exists 0x3FF001FFFFFFF000, 0x3FF0040000000000, 0x3C00. split; [lia|]. split; [vm_compute; reflexivity|].
    split; [split; [vm_compute; discriminate|vm_compute; reflexivity]|].
    split; [apply (float16_survives _ 0x3C01); [vm_compute; reflexivity|vm_compute; reflexivity|lia]|].
    split; [lia|]. vm_compute. reflexivity.
Qed.
