(** Properties C15 (hash codes) and C19 (built-in operators and bounds). *)
From Verif Require Import Base SpecBits SpecStream SpecFloat SpecHash SpecHistory ModelFloat ModelHash ModelBuiltin ModelBitsizeof
  ModelWriter ModelReader ModelCalls BuiltinProofs.

(** C15: every hash function stays within 32 bits. *)
Theorem C15_hash_range : forall seed, 0 <= seed < 2 ^ 32 ->
  (forall v, 0 <= calc_hashcode_int32 seed v < 2 ^ 32) /\
  (forall v, 0 <= calc_hashcode_bool seed v < 2 ^ 32) /\
  (forall v, 0 <= calc_hashcode_int64 seed v < 2 ^ 32) /\
  (forall v h, calc_hashcode_float32 seed v = Ok h -> 0 <= h < 2 ^ 32) /\
  (forall v h, calc_hashcode_float64 seed v = Ok h -> 0 <= h < 2 ^ 32) /\
  (forall v, 0 <= calc_hashcode_ints seed v < 2 ^ 32) /\
  (forall v, 0 <= calc_hashcode_object seed v < 2 ^ 32) /\
  (forall v, 0 <= calc_hashcode_bool_array seed v < 2 ^ 32) /\
  (forall v h, calc_hashcode_float_array calc_hashcode_float32 seed v = Ok h -> 0 <= h < 2 ^ 32) /\
  (forall v h, calc_hashcode_float_array calc_hashcode_float64 seed v = Ok h -> 0 <= h < 2 ^ 32) /\
  (forall v, 0 <= calc_hashcode_ints_array seed v < 2 ^ 32) /\
  (forall v, 0 <= calc_hashcode_object_array seed v < 2 ^ 32).
Proof. exact hash_range. Qed.
Print Assumptions C15_hash_range.

(** C15: the hash of a sequence (bytes, string, integer array) is the documented
    polynomial in 37, computed modulo 2^32, as in the other zserio runtimes. *)
Theorem C15_hash_polynomial : forall s l, 0 <= s < 2 ^ 32 -> calc_hashcode_ints s (Some l) = poly s l mod 2 ^ 32.
Proof. exact hash_ints_poly. Qed.
Print Assumptions C15_hash_polynomial.

(** C15: a 64-bit value contributes the xor of its two words. *)
Theorem C15_hash_int64_words : forall s v, calc_hashcode_int64 s (Some v) =
  (37 * s + Z.lxor (v mod 2 ^ 32) ((v / 2 ^ 32) mod 2 ^ 32)) mod 2 ^ 32.
Proof. exact hash_int64_words. Qed.
Print Assumptions C15_hash_int64_words.

(** C15 fails for floats: 0.0 == -0.0 but their hash codes differ ... *)
Theorem C15_float_zero_hash_refuted : exists a b, float_eqb a b = true /\
  calc_hashcode_float32 23 (Some a) <> calc_hashcode_float32 23 (Some b) /\
  calc_hashcode_float64 23 (Some a) <> calc_hashcode_float64 23 (Some b).
Proof. exact float_hash_refuted. Qed.
Print Assumptions C15_float_zero_hash_refuted.

(** ... and this is the only exception. *)
Theorem C15_float_hash : forall a b, float_eqb a b = true -> a mod 2 ^ 63 <> 0 -> forall seed,
  calc_hashcode_float32 seed (Some a) = calc_hashcode_float32 seed (Some b) /\
  calc_hashcode_float64 seed (Some a) = calc_hashcode_float64 seed (Some b).
Proof. exact float_hash_nonzero. Qed.
Print Assumptions C15_float_hash.

(** C19: numbits is the least sufficient positive width. *)
Theorem C19_numbits_least : forall v, 0 < v ->
  1 <= numbits v /\ v <= 2 ^ numbits v /\ forall n, 1 <= n -> v <= 2 ^ n -> numbits v <= n.
Proof. exact numbits_least. Qed.
Print Assumptions C19_numbits_least.

(** C19: the writer accepts each of the [v] values with that width. *)
Theorem C19_numbits_stores : forall v w x, 0 < v <= 2 ^ 64 -> 0 <= x < v -> reachable w ->
  exists w', write_bits x (numbits v) w = (Ok tt, w').
Proof. exact numbits_stores. Qed.
Print Assumptions C19_numbits_stores.

(** C19: the bit field bounds are exactly what the writer accepts. *)
Theorem C19_bitfield_bounds : forall n w v, reachable w ->
  match bitfield_lowerbound n, bitfield_upperbound n with
  | Ok lo, Ok hi => (lo <= v <= hi -> exists w', write_bits v n w = (Ok tt, w')) /\
                    (~ (lo <= v <= hi) -> write_bits v n w = (Raise RuntimeExc, w))
  | Raise RuntimeExc, Raise RuntimeExc => write_bits v n w = (Raise RuntimeExc, w)
  | _, _ => False
  end.
Proof. exact bitfield_bounds_accepted. Qed.
Print Assumptions C19_bitfield_bounds.

Theorem C19_signed_bitfield_bounds : forall n w v, reachable w ->
  match signed_bitfield_lowerbound n, signed_bitfield_upperbound n with
  | Ok lo, Ok hi => (lo <= v <= hi -> exists w', write_signed_bits v n w = (Ok tt, w')) /\
                    (~ (lo <= v <= hi) -> write_signed_bits v n w = (Raise RuntimeExc, w))
  | Raise RuntimeExc, Raise RuntimeExc => write_signed_bits v n w = (Raise RuntimeExc, w)
  | _, _ => False
  end.
Proof. exact signed_bitfield_bounds_accepted. Qed.
Print Assumptions C19_signed_bitfield_bounds.

(** C19: the constants of the limits module are exactly what the writer accepts
    for the variable-length types. *)
Theorem C19_limits_exact : forall t w v, reachable w ->
  (fst (limits_of t) <= v <= snd (limits_of t) -> exists w', vt_write t v w = (Ok tt, w')) /\
  (~ (fst (limits_of t) <= v <= snd (limits_of t)) -> vt_write t v w = (Raise RuntimeExc, w)).
Proof. exact limits_exact. Qed.
Print Assumptions C19_limits_exact.

(** C19: isset is inclusion of bit sets. *)
Theorem C19_isset : forall v m, isset v m = true <-> forall i, 0 <= i -> Z.testbit m i = true -> Z.testbit v i = true.
Proof. exact isset_spec. Qed.
Print Assumptions C19_isset.

(** C19: the length operator agrees with the encoded size. *)
Theorem C19_lengthof_string : forall s n k, lengthof_string s = Ok n -> bitsizeof_varsize n = Ok k ->
  bitsizeof_string s = Ok (k + 8 * n).
Proof. exact lengthof_string_spec. Qed.
Print Assumptions C19_lengthof_string.

(** ** Non-vacuity *)
Example ex_numbits : map numbits [0; 1; 2; 3; 4; 5; 2 ^ 64] = [0; 1; 1; 2; 2; 3; 64].
Proof. reflexivity. Qed.
Example ex_bounds : signed_bitfield_lowerbound 64 = Ok (- 2 ^ 63) /\ bitfield_upperbound 65 = Raise RuntimeExc.
Proof. split; reflexivity. Qed.
Example ex_isset : isset 0xD 0x5 = true /\ isset 0xD 0x7 = false.
Proof. split; reflexivity. Qed.
Example ex_lengthof : lengthof_string [0x20AC; 0x41] = Ok 4.
Proof. reflexivity. Qed.
Example ex_hash : calc_hashcode_ints 23 (Some [1; -1]) = 37 * (37 * 23 + 1) - 1.
Proof. reflexivity. Qed.
