From Verif Require Import Base SpecBits SpecStream SpecFloat SpecHash SpecHistory ModelFloat ModelUtf8 ModelHash ModelBuiltin ModelBitsizeof
  ModelBitBuffer ModelWriter ModelReader ModelCalls BitsProofs HistoryProofs StreamProofs.
Require Import ZifyBool ZifyNat.
Ltac Zify.zify_post_hook ::= Z.div_mod_to_equations.

(** ** numbits, bit field bounds *)
Lemma bit_length_spec v : 0 < v -> 2 ^ (bit_length v - 1) <= v < 2 ^ bit_length v /\ 0 < bit_length v.
Proof.
  intros H. unfold bit_length. destruct (Z.eqb_spec v 0); [lia|]. rewrite Z.abs_eq by lia.
  pose proof (Z.log2_spec v H). pose proof (Z.log2_nonneg v). replace (Z.log2 v + 1 - 1) with (Z.log2 v) by lia.
  rewrite Z.add_1_r. lia.
Qed.

Lemma bit_length_least v n : 0 <= v -> 0 <= n -> v < 2 ^ n -> bit_length v <= n.
Proof.
  intros Hv Hn Hlt. destruct (Z.eq_dec v 0) as [->|]; [cbn; lia|].
  destruct (bit_length_spec v ltac:(lia)) as [[H1 _] H2].
  destruct (Z.le_gt_cases (bit_length v) n); [assumption|].
  pose proof (Z.pow_le_mono_r 2 n (bit_length v - 1) ltac:(lia) ltac:(lia)). lia.
Qed.

Lemma numbits_least v : 0 < v ->
  1 <= numbits v /\ v <= 2 ^ numbits v /\ forall n, 1 <= n -> v <= 2 ^ n -> numbits v <= n.
Proof.
  intros Hv. unfold numbits. destruct (Z.eqb_spec v 0); [lia|]. destruct (Z.eqb_spec v 1) as [->|].
  - split; [lia|]. split; [lia|]. intros k Hk _. exact Hk.
  - destruct (bit_length_spec (v - 1) ltac:(lia)) as [[H1 H2] H3]. split; [lia|]. split; [lia|].
    intros k Hk Hle. apply bit_length_least; lia.
Qed.

Lemma numbits_stores v w x : 0 < v <= 2 ^ 64 -> 0 <= x < v -> reachable w ->
  exists w', write_bits x (numbits v) w = (Ok tt, w').
Proof.
  intros Hv Hx Hw. destruct (numbits_least v ltac:(lia)) as (H1 & H2 & H3).
  pose proof (H3 64 ltac:(lia) ltac:(lia)).
  destruct (proj1 (write_bits_iff w x (numbits v) Hw)) as (w' & E & _); [lia|]. exists w'. exact E.
Qed.

Lemma check_bitfield_length_spec n : check_bitfield_length n = if (1 <=? n) && (n <=? 64) then Ok tt else Raise RuntimeExc.
Proof.
  unfold check_bitfield_length. destruct (Z.leb_spec n 0), (Z.ltb_spec 64 n), (Z.leb_spec 1 n), (Z.leb_spec n 64);
    cbn [orb andb]; try reflexivity; lia.
Qed.

Lemma bitfield_bounds_accepted n w v : reachable w ->
  match bitfield_lowerbound n, bitfield_upperbound n with
  | Ok lo, Ok hi => (lo <= v <= hi -> exists w', write_bits v n w = (Ok tt, w')) /\
                    (~ (lo <= v <= hi) -> write_bits v n w = (Raise RuntimeExc, w))
  | Raise RuntimeExc, Raise RuntimeExc => write_bits v n w = (Raise RuntimeExc, w)
  | _, _ => False
  end.
Proof.
  intros Hw. destruct (write_bits_iff w v n Hw) as (A1 & A2 & _).
  unfold bitfield_lowerbound, bitfield_upperbound. rewrite check_bitfield_length_spec.
  destruct ((1 <=? n) && (n <=? 64)) eqn:E; cbn [rbind].
  - rewrite Z.shiftl_1_l. split; intros H.
    + destruct (A1 ltac:(lia)) as (w' & Ew & _). exists w'. exact Ew.
    + apply A2. lia.
  - apply A2. lia.
Qed.

Lemma signed_bitfield_bounds_accepted n w v : reachable w ->
  match signed_bitfield_lowerbound n, signed_bitfield_upperbound n with
  | Ok lo, Ok hi => (lo <= v <= hi -> exists w', write_signed_bits v n w = (Ok tt, w')) /\
                    (~ (lo <= v <= hi) -> write_signed_bits v n w = (Raise RuntimeExc, w))
  | Raise RuntimeExc, Raise RuntimeExc => write_signed_bits v n w = (Raise RuntimeExc, w)
  | _, _ => False
  end.
Proof.
  intros Hw. destruct (write_bits_iff w v n Hw) as (_ & _ & A1 & A2).
  unfold signed_bitfield_lowerbound, signed_bitfield_upperbound. rewrite check_bitfield_length_spec.
  destruct ((1 <=? n) && (n <=? 64)) eqn:E; cbn [rbind].
  - rewrite Z.shiftl_1_l. split; intros H.
    + destruct (A1 ltac:(lia)) as (w' & Ew & _). exists w'. exact Ew.
    + apply A2. lia.
  - apply A2. lia.
Qed.

(** ** Constants of the limits module *)
Lemma limits_exact t w v : reachable w ->
  (fst (limits_of t) <= v <= snd (limits_of t) -> exists w', vt_write t v w = (Ok tt, w')) /\
  (~ (fst (limits_of t) <= v <= snd (limits_of t)) -> vt_write t v w = (Raise RuntimeExc, w)).
Proof.
  intros Hw. assert (E: fst (limits_of t) <= v <= snd (limits_of t) <-> vt_range t v).
  { unfold vt_range. destruct t; cbn [limits_of fst snd vt_lo vt_hi]; apply iff_refl. }
  rewrite E. split; intros H.
  - destruct (var_roundtrip t v H) as [H1 _]. apply H1. exact Hw.
  - apply (var_rejects t v H).
Qed.

(** ** isset *)
Lemma isset_spec v m : isset v m = true <-> forall i, 0 <= i -> Z.testbit m i = true -> Z.testbit v i = true.
Proof.
  unfold isset. rewrite Z.eqb_eq. split.
  - intros E i Hi Hm. rewrite <- E in Hm. rewrite Z.land_spec in Hm. apply andb_true_iff in Hm. apply Hm.
  - intros H. apply Z.bits_inj'. intros i Hi. rewrite Z.land_spec. specialize (H i Hi).
    destruct (Z.testbit m i); [rewrite (H eq_refl); reflexivity|apply andb_false_r].
Qed.

Lemma lengthof_string_spec s n k : lengthof_string s = Ok n -> bitsizeof_varsize n = Ok k -> bitsizeof_string s = Ok (k + 8 * n).
Proof.
  unfold lengthof_string, bitsizeof_string, rbind. destruct (utf8_encode s) as [l|]; [|discriminate].
  intros E Ek. apply Ok_inj in E. subst n. rewrite Ek. f_equal. lia.
Qed.

(** ** Hash codes *)
Lemma poly_mod l a b : a mod 2 ^ 32 = b mod 2 ^ 32 -> poly a l mod 2 ^ 32 = poly b l mod 2 ^ 32.
Proof. revert a b. induction l as [|x l IH]; intros a b H; cbn [poly]; [exact H|]. apply IH. lia. Qed.

Lemma hash_int32_mod s v : calc_hashcode_int32 s (Some v) = (37 * s + v) mod 2 ^ 32.
Proof.
  unfold calc_hashcode_int32, HASH_PRIME_NUMBER. change 0xFFFFFFFF with (Z.ones 32). apply Z.land_ones. lia.
Qed.

Lemma hash_ints_poly s l : 0 <= s < 2 ^ 32 -> calc_hashcode_ints s (Some l) = poly s l mod 2 ^ 32.
Proof.
  cbn [calc_hashcode_ints]. revert s. induction l as [|x l IH]; intros s Hs; cbn [fold_left poly].
  - symmetry. apply Z.mod_small. exact Hs.
  - rewrite IH by apply hash_int32_bound. apply poly_mod. rewrite hash_int32_mod. lia.
Qed.

Lemma poly_sum l s : poly s l = 37 ^ Z.of_nat (length l) * s + poly 0 l.
Proof.
  revert s. induction l as [|x l IH]; intros s; cbn [poly length]; [lia|].
  rewrite IH. rewrite (IH (37 * 0 + x)). rewrite Nat2Z.inj_succ, Z.pow_succ_r by lia. lia.
Qed.

Lemma hash_int64_words s v : calc_hashcode_int64 s (Some v) =
  (37 * s + Z.lxor (v mod 2 ^ 32) ((v / 2 ^ 32) mod 2 ^ 32)) mod 2 ^ 32.
Proof.
  unfold calc_hashcode_int64, HASH_PRIME_NUMBER. change 0xFFFFFFFFFFFFFFFF with (Z.ones 64). change 0xFFFFFFFF with (Z.ones 32).
  rewrite !Z.land_ones by lia. rewrite Z.shiftr_div_pow2 by lia. f_equal. f_equal. f_equal.
  change (2 ^ 64) with (2 ^ 32 * 2 ^ 32). rewrite Z.rem_mul_r by lia.
  rewrite (Z.mul_comm (2 ^ 32)), Z.div_add by lia. rewrite Z.div_small; [lia|]. apply Z.mod_pos_bound. lia.
Qed.

Lemma fold_bound {A} (f : Z -> A -> Z) l s : (forall s a, 0 <= f s a < 2 ^ 32) -> 0 <= s < 2 ^ 32 ->
  0 <= fold_left f l s < 2 ^ 32.
Proof. intros Hf. revert s. induction l as [|x l IH]; intros s Hs; cbn [fold_left]; [exact Hs|]. apply IH, Hf. Qed.

Lemma fold_bound' {A} (f : Z -> A -> Z) l s : (forall s a, 0 <= s < 2 ^ 32 -> 0 <= f s a < 2 ^ 32) -> 0 <= s < 2 ^ 32 ->
  0 <= fold_left f l s < 2 ^ 32.
Proof. intros Hf. revert s. induction l as [|x l IH]; intros s Hs; cbn [fold_left]; [exact Hs|]. apply IH, Hf, Hs. Qed.

Lemma hash_range seed : 0 <= seed < 2 ^ 32 ->
  (forall v, 0 <= calc_hashcode_int32 seed v < 2 ^ 32) /\
  (forall v, 0 <= calc_hashcode_bool seed v < 2 ^ 32) /\
  (forall v, 0 <= calc_hashcode_int64 seed v < 2 ^ 32) /\
  (forall v h, calc_hashcode_float32 seed v = Ok h -> 0 <= h < 2 ^ 32) /\
  (forall v h, calc_hashcode_float64 seed v = Ok h -> 0 <= h < 2 ^ 32) /\
  (forall v, 0 <= calc_hashcode_ints seed v < 2 ^ 32) /\
  (forall v, 0 <= calc_hashcode_object seed v < 2 ^ 32) /\
  (forall v, 0 <= calc_hashcode_bool_array seed v < 2 ^ 32) /\
  (forall v h, calc_hashcode_float_array calc_hashcode_float32 seed v = Ok h -> 0 <= h < 2 ^ 32) /\
  (forall v h, calc_hashcode_float_array calc_hashcode_float64 seed v = Ok h -> 0 <= h < 2 ^ 32) /\
  (forall v, 0 <= calc_hashcode_ints_array seed v < 2 ^ 32) /\
  (forall v, 0 <= calc_hashcode_object_array seed v < 2 ^ 32).
Proof.
  intros Hs.
  assert (H64: forall s v, 0 <= calc_hashcode_int64 s v < 2 ^ 32).
  { intros s [v|]; [apply land32_bound|apply hash_int32_bound]. }
  assert (F32: forall s v h, calc_hashcode_float32 s v = Ok h -> 0 <= h < 2 ^ 32).
  { intros s [v|] h; cbn [calc_hashcode_float32]; unfold rbind.
    - destruct (float_to_uint32 v); [|discriminate]. intros E. apply Ok_inj in E. subst h. apply hash_int32_bound.
    - intros E. apply Ok_inj in E. subst h. apply hash_int32_bound. }
  assert (F64: forall s v h, calc_hashcode_float64 s v = Ok h -> 0 <= h < 2 ^ 32).
  { intros s [v|] h; cbn [calc_hashcode_float64]; unfold rbind.
    - destruct (float_to_uint64 v); [|discriminate]. intros E. apply Ok_inj in E. subst h. apply H64.
    - intros E. apply Ok_inj in E. subst h. apply hash_int32_bound. }
  assert (Ints: forall s v, 0 <= s < 2 ^ 32 -> 0 <= calc_hashcode_ints s v < 2 ^ 32).
  { intros s [l|] Hs'; [apply fold_bound; [intros; apply hash_int32_bound|exact Hs']|apply hash_int32_bound]. }
  assert (FA: forall f, (forall s v h, f s v = Ok h -> 0 <= h < 2 ^ 32) -> forall v h,
     calc_hashcode_float_array f seed v = Ok h -> 0 <= h < 2 ^ 32).
  { intros f Hf [l|] h; cbn [calc_hashcode_float_array].
    - revert Hs. generalize seed. induction l as [|x l IH]; intros s Hs'; cbn [fold_left].
      + intros E. apply Ok_inj in E. subst h. exact Hs'.
      + unfold rbind at 2. destruct (f s (Some x)) as [s'|e] eqn:E.
        * apply IH. exact (Hf _ _ _ E).
        * clear IH. induction l; cbn [fold_left]; [discriminate|exact IHl].
    - intros E. apply Ok_inj in E. subst h. apply hash_int32_bound. }
  split; [intros; apply hash_int32_bound|]. split; [intros; apply hash_int32_bound|]. split; [intros; apply H64|].
  split; [apply F32|]. split; [apply F64|]. split; [intros; apply Ints, Hs|]. split; [intros; apply hash_int32_bound|].
  split; [intros [l|]; [apply fold_bound; [intros; apply hash_int32_bound|exact Hs]|apply hash_int32_bound]|].
  split; [apply FA, F32|]. split; [apply FA, F64|].
  split; [intros [l|]; [apply fold_bound'; [intros; apply Ints; assumption|exact Hs]|apply hash_int32_bound]|].
  intros [l|]; [apply fold_bound; [intros; apply hash_int32_bound|exact Hs]|apply hash_int32_bound].
Qed.

Lemma float_hash_refuted : exists a b, float_eqb a b = true /\
  calc_hashcode_float32 23 (Some a) <> calc_hashcode_float32 23 (Some b) /\
  calc_hashcode_float64 23 (Some a) <> calc_hashcode_float64 23 (Some b).
Proof. exists 0, (2 ^ 63). vm_compute. repeat split; discriminate. Qed.

Lemma float_hash_nonzero a b : float_eqb a b = true -> a mod 2 ^ 63 <> 0 -> forall seed,
  calc_hashcode_float32 seed (Some a) = calc_hashcode_float32 seed (Some b) /\
  calc_hashcode_float64 seed (Some a) = calc_hashcode_float64 seed (Some b).
Proof.
  unfold float_eqb. intros H Hz seed. destruct (Z.eqb_spec a b) as [->|]; [split; reflexivity|].
  destruct (Z.eqb_spec (a mod 2 ^ 63) 0); [contradiction|]. rewrite !andb_true_iff in H. destruct H as [_ H]. discriminate.
Qed.
