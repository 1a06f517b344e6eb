(** Model of rt/builtin.py, rt/bitfield.py and rt/limits.py. *)
From Verif Require Import Base ModelUtf8.

(** Python's int.bit_length: bits of the absolute value without leading zeros. *)
Definition bit_length (v : Z) : Z := if v =? 0 then 0 else Z.log2 (Z.abs v) + 1.

(** rt/builtin.py:8-19; on the integer values of the masks *)
Definition isset (bitmask_value required_mask : Z) : bool := Z.land bitmask_value required_mask =? required_mask.

(** rt/builtin.py:22-37 *)
Definition numbits (num_values : Z) : Z :=
  if num_values =? 0 then 0 else if num_values =? 1 then 1 else bit_length (num_values - 1).

(** rt/builtin.py:40-48 *)
Definition lengthof_string (s : list Z) : res Z := l <-? utf8_encode s ;; Ok (zlen l).

(** rt/bitfield.py:61-65 *)
Definition check_bitfield_length (length : Z) : res unit :=
  if (length <=? 0) || (64 <? length) then Raise RuntimeExc else Ok tt.

(** rt/bitfield.py:8-58 *)
Definition bitfield_lowerbound (length : Z) : res Z :=
  _ <-? check_bitfield_length length ;; Ok 0.
Definition bitfield_upperbound (length : Z) : res Z :=
  _ <-? check_bitfield_length length ;; Ok (Z.shiftl 1 length - 1).
Definition signed_bitfield_lowerbound (length : Z) : res Z :=
  _ <-? check_bitfield_length length ;; Ok (- Z.shiftl 1 (length - 1)).
Definition signed_bitfield_upperbound (length : Z) : res Z :=
  _ <-? check_bitfield_length length ;; Ok (Z.shiftl 1 (length - 1) - 1).

(** rt/limits.py:5-41 *)
Definition INT8_MAX := Z.shiftl 1 7 - 1.
Definition INT8_MIN := Z.shiftl (-1) 7.
Definition INT16_MAX := Z.shiftl 1 15 - 1.
Definition INT16_MIN := Z.shiftl (-1) 15.
Definition INT32_MAX := Z.shiftl 1 31 - 1.
Definition INT32_MIN := Z.shiftl (-1) 31.
Definition INT64_MAX := Z.shiftl 1 63 - 1.
Definition INT64_MIN := Z.shiftl (-1) 63.
Definition UINT8_MAX := Z.shiftl 1 8 - 1.
Definition UINT16_MAX := Z.shiftl 1 16 - 1.
Definition UINT32_MAX := Z.shiftl 1 32 - 1.
Definition UINT64_MAX := Z.shiftl 1 64 - 1.
Definition VARINT16_MAX := Z.shiftl 1 (6 + 8) - 1.
Definition VARINT16_MIN := - VARINT16_MAX.
Definition VARINT32_MAX := Z.shiftl 1 (6 + 7 + 7 + 8) - 1.
Definition VARINT32_MIN := - VARINT32_MAX.
Definition VARINT64_MAX := Z.shiftl 1 (6 + 7 + 7 + 7 + 7 + 7 + 7 + 8) - 1.
Definition VARINT64_MIN := - VARINT64_MAX.
Definition VARINT_MAX := INT64_MAX.
Definition VARINT_MIN := INT64_MIN.
Definition VARUINT16_MAX := Z.shiftl 1 (7 + 8) - 1.
Definition VARUINT32_MAX := Z.shiftl 1 (7 + 7 + 7 + 8) - 1.
Definition VARUINT64_MAX := Z.shiftl 1 (7 + 7 + 7 + 7 + 7 + 7 + 7 + 8) - 1.
Definition VARUINT_MAX := UINT64_MAX.
Definition VARSIZE_MAX := Z.shiftl 1 (2 + 7 + 7 + 7 + 8) - 1.
