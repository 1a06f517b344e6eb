(** Properties C16-C18: floating point numbers. *)
From Verif Require Import Base SpecFloat SpecHistory ModelFloat ModelWriter ModelReader FloatProofs FloatNarrow.

(** C16: every half precision number, written as a Python float, is read back
    unchanged; NaN is read back as NaN.  [d] is the Python float that denotes the
    same number as the pattern [u]. *)
Theorem C16_float16_roundtrip : forall u, 0 <= u < 2 ^ 16 ->
  exists d, same_number_16_64 u d /\ uint16_to_float u = Ok d /\
    (nan16 u = false -> survives (write_float16 d) read_float16 d) /\
    (nan16 u = true -> exists d', nan64 d' = true /\ survives (write_float16 d) read_float16 d').
Proof. exact float16_roundtrip. Qed.
Print Assumptions C16_float16_roundtrip.

(** C16: the conversions themselves are inverse to each other on all patterns
    that are not NaN. *)
Theorem C16_float16_conversions_inverse : forall u, 0 <= u < 2 ^ 16 ->
  exists d, uint16_to_float u = Ok d /\ 0 <= d < 2 ^ 64 /\ same_number_16_64 u d /\
    (if nan16 u then exists u', float_to_uint16 d = Ok u' /\ 0 <= u' < 2 ^ 16 /\ nan16 u' = true
     else float_to_uint16 d = Ok u).
Proof. exact float16_exact. Qed.
Print Assumptions C16_float16_conversions_inverse.

(** C17, the part that holds: numbers that are exact in single precision and
    have a magnitude in [2^-24, 2^16) are rounded to a nearest half precision
    number of the same sign (0x7C00, infinity, counting as 2^16).
    Full claim: any double in the half precision range is rounded to a nearest
    half precision number, and any larger one becomes infinity of the same
    sign.  The theorems below refute the missing parts. *)
Theorem C17_float16_nearest_partial : forall f, 0 <= f < 2 ^ 32 -> 2 ^ 125 <= mag32 f < 2 ^ 165 -> fin32 f = true ->
  exists d h d', same_number_32_64 f d /\ uint32_to_float f = Ok d /\ 0 <= h < 2 ^ 16 /\
    same_number_16_64 h d' /\ survives (write_float16 d) read_float16 d' /\ sign16 h = sign32 f /\ nan16 h = false /\
    forall k, 0 <= k <= 0x7C00 ->
      Z.abs (mag16 (h mod 2 ^ 15) * 2 ^ 125 - mag32 f) <= Z.abs (mag16 k * 2 ^ 125 - mag32 f).
Proof. exact float16_nearest. Qed.
Print Assumptions C17_float16_nearest_partial.

(** C17 refuted: a finite float above the range is read back as NaN (1000000.0). *)
Theorem C17_overflow_to_nan_refuted : exists d d', 0 <= d < 2 ^ 64 /\ fin64 d = true /\ 2 ^ 16 * 2 ^ 1074 <= mag64 d /\
  survives (write_float16 d) read_float16 d' /\ nan64 d' = true.
Proof. exact float16_overflow_nan. Qed.
Print Assumptions C17_overflow_to_nan_refuted.

(** C17 refuted: a finite float above the range is read back as -0.0 (131071.0). *)
Theorem C17_overflow_to_zero_refuted : exists d d', 0 <= d < 2 ^ 64 /\ fin64 d = true /\ sign64 d = 0 /\
  2 ^ 16 * 2 ^ 1074 <= mag64 d /\
  survives (write_float16 d) read_float16 d' /\ sign64 d' = 1 /\ mag64 d' = 0 /\ fin64 d' = true.
Proof. exact float16_overflow_zero. Qed.
Print Assumptions C17_overflow_to_zero_refuted.

(** C17 refuted: -131071.0 cannot be written. *)
Theorem C17_overflow_raises_refuted : exists d, 0 <= d < 2 ^ 64 /\ fin64 d = true /\
  forall w, write_float16 d w = (Raise RuntimeExc, w).
Proof. exact float16_overflow_raises. Qed.
Print Assumptions C17_overflow_raises_refuted.

(** C17 refuted: within the range the result need not be nearest; below 2^-24
    everything becomes 0, and rounding happens twice. *)
Theorem C17_not_nearest_refuted :
  (exists d d' k, 0 <= d < 2 ^ 64 /\ fin64 d = true /\ mag64 d < 2 ^ 16 * 2 ^ 1074 /\
    survives (write_float16 d) read_float16 d' /\ mag64 d' = 0 /\ 0 <= k < 0x7C00 /\
    Z.abs (mag16 k * 2 ^ 1050 - mag64 d) < Z.abs (mag64 d' - mag64 d)) /\
  (exists d d' k, 0 <= d < 2 ^ 64 /\ fin64 d = true /\ 2 ^ 1074 <= mag64 d < 2 * 2 ^ 1074 /\
    survives (write_float16 d) read_float16 d' /\ 0 <= k < 0x7C00 /\
    Z.abs (mag16 k * 2 ^ 1050 - mag64 d) < Z.abs (mag64 d' - mag64 d)).
Proof. exact float16_not_nearest. Qed.
Print Assumptions C17_not_nearest_refuted.

(** C18: double precision, bit for bit. *)
Theorem C18_float64_roundtrip : forall d, 0 <= d < 2 ^ 64 ->
  (forall w, reachable w -> exists w', write_float64 d w = (Ok tt, w')) /\
  survives (write_float64 d) read_float64 d.
Proof. exact float64_roundtrip. Qed.
Print Assumptions C18_float64_roundtrip.

(** C18: every Python float that is representable in single precision. *)
Theorem C18_float32_roundtrip : forall u d, 0 <= u < 2 ^ 32 -> 0 <= d < 2 ^ 64 -> nan32 u = false -> same_number_32_64 u d ->
  (forall w, reachable w -> exists w', write_float32 d w = (Ok tt, w')) /\
  survives (write_float32 d) read_float32 d.
Proof. exact float32_representable. Qed.
Print Assumptions C18_float32_roundtrip.

(** ** Non-vacuity *)
(** 1.5, the smallest subnormal and minus infinity in half precision. *)
Example ex_half : uint16_to_float 0x3E00 = Ok 0x3FF8000000000000 /\ uint16_to_float 1 = Ok 0x3E70000000000000
  /\ uint16_to_float 0xFC00 = Ok 0xFFF0000000000000 /\ nan16 0x7E00 = true /\ nan16 0xFC00 = false.
Proof. vm_compute. repeat split. Qed.

(** 0.1f is in the range of C17. *)
Example ex_tenth : fin32 0x3DCCCCCD = true /\ (2 ^ 125 <=? mag32 0x3DCCCCCD) && (mag32 0x3DCCCCCD <? 2 ^ 165) = true
  /\ float_to_uint16 0x3FB99999A0000000 = Ok 0x2E66.
Proof. vm_compute. repeat split. Qed.

(** The smallest single precision subnormal is representable. *)
Example ex_single_subnormal : same_number_32_64 1 0x36A0000000000000 /\ nan32 1 = false.
Proof. split; [|vm_compute; reflexivity]. right. vm_compute. split; [reflexivity|]. right. repeat split. Qed.
