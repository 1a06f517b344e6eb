(** Model of rt/bitsizeof.py and rt/limits.py (the limits used by the code). *)
From Verif Require Import Base ModelUtf8 ModelBitBuffer.

(** rt/limits.py:16 *)
Definition INT64_MIN := Z.shiftl (-1) 63.

(** rt/bitsizeof.py:169-239 *)
Definition max_of_bits (n : Z) := Z.shiftl 1 n - 1.
Definition VARINT16_MAX_VALUES := [max_of_bits 6; max_of_bits (6+8)].
Definition VARINT32_MAX_VALUES :=
  [max_of_bits 6; max_of_bits (6+7); max_of_bits (6+7+7); max_of_bits (6+7+7+8)].
Definition VARINT64_MAX_VALUES :=
  [max_of_bits 6; max_of_bits (6+7); max_of_bits (6+7+7); max_of_bits (6+7+7+7);
   max_of_bits (6+7+7+7+7); max_of_bits (6+7+7+7+7+7); max_of_bits (6+7+7+7+7+7+7);
   max_of_bits (6+7+7+7+7+7+7+8)].
Definition VARINT_MAX_VALUES :=
  [max_of_bits 6; max_of_bits (6+7); max_of_bits (6+7+7); max_of_bits (6+7+7+7);
   max_of_bits (6+7+7+7+7); max_of_bits (6+7+7+7+7+7); max_of_bits (6+7+7+7+7+7+7);
   max_of_bits (6+7+7+7+7+7+7+7); max_of_bits (6+7+7+7+7+7+7+7+8)].
Definition VARUINT16_MAX_VALUES := [max_of_bits 7; max_of_bits (7+8)].
Definition VARUINT32_MAX_VALUES :=
  [max_of_bits 7; max_of_bits (7+7); max_of_bits (7+7+7); max_of_bits (7+7+7+8)].
Definition VARUINT64_MAX_VALUES :=
  [max_of_bits 7; max_of_bits (7+7); max_of_bits (7+7+7); max_of_bits (7+7+7+7);
   max_of_bits (7+7+7+7+7); max_of_bits (7+7+7+7+7+7); max_of_bits (7+7+7+7+7+7+7);
   max_of_bits (7+7+7+7+7+7+7+8)].
Definition VARUINT_MAX_VALUES :=
  [max_of_bits 7; max_of_bits (7+7); max_of_bits (7+7+7); max_of_bits (7+7+7+7);
   max_of_bits (7+7+7+7+7); max_of_bits (7+7+7+7+7+7); max_of_bits (7+7+7+7+7+7+7);
   max_of_bits (7+7+7+7+7+7+7+7); max_of_bits (7+7+7+7+7+7+7+7+8)].
Definition VARSIZE_MAX_VALUES :=
  [max_of_bits 7; max_of_bits (7+7); max_of_bits (7+7+7); max_of_bits (7+7+7+7);
   max_of_bits (2+7+7+7+8)].

(** rt/bitsizeof.py:159-166; [i] is the enumerate index *)
Fixpoint varnum_search (abs_value : Z) (i : Z) (max_values : list Z) : res Z :=
  match max_values with
  | [] => Raise RuntimeExc
  | max_value :: rest =>
      if abs_value <=? max_value then Ok ((i + 1) * 8) else varnum_search abs_value (i + 1) rest
  end.
Definition bitsizeof_varnum (value : Z) (max_values : list Z) : res Z :=
  if 0 <=? value then varnum_search (Z.abs value) 0 max_values else Raise RuntimeExc.

(** rt/bitsizeof.py:12-119 *)
Definition bitsizeof_varint16 (v : Z) := bitsizeof_varnum (Z.abs v) VARINT16_MAX_VALUES.
Definition bitsizeof_varint32 (v : Z) := bitsizeof_varnum (Z.abs v) VARINT32_MAX_VALUES.
Definition bitsizeof_varint64 (v : Z) := bitsizeof_varnum (Z.abs v) VARINT64_MAX_VALUES.
Definition bitsizeof_varint (v : Z) :=
  if v =? INT64_MIN then Ok 8 else bitsizeof_varnum (Z.abs v) VARINT_MAX_VALUES.
Definition bitsizeof_varuint16 (v : Z) := bitsizeof_varnum v VARUINT16_MAX_VALUES.
Definition bitsizeof_varuint32 (v : Z) := bitsizeof_varnum v VARUINT32_MAX_VALUES.
Definition bitsizeof_varuint64 (v : Z) := bitsizeof_varnum v VARUINT64_MAX_VALUES.
Definition bitsizeof_varuint (v : Z) := bitsizeof_varnum v VARUINT_MAX_VALUES.
Definition bitsizeof_varsize (v : Z) := bitsizeof_varnum v VARSIZE_MAX_VALUES.

(** rt/bitsizeof.py:122-130 *)
Definition bitsizeof_bytes (value : list Z) : res Z :=
  n <-? bitsizeof_varsize (zlen value) ;; Ok (n + zlen value * 8).

(** rt/bitsizeof.py:133-142 *)
Definition bitsizeof_string (s : list Z) : res Z :=
  string_bytes <-? utf8_encode s ;;
  n <-? bitsizeof_varsize (zlen string_bytes) ;; Ok (n + zlen string_bytes * 8).

(** rt/bitsizeof.py:145-156 *)
Definition bitsizeof_bitbuffer (b : bitbuffer) : res Z :=
  n <-? bitsizeof_varsize (bb_bitsize b) ;; Ok (n + bb_bitsize b).
