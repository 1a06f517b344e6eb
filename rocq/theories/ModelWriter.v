(** Model of rt/bitwriter.py, class BitStreamWriter (lines 23-390).  The C++
    replacement selected by import_cpp_class (line 392) is not modelled. *)
From Verif Require Import Base ModelFloat ModelUtf8 ModelBitBuffer ModelBitsizeof.

Record writer := { w_bytes : list Z; w_pos : Z }.

(** rt/bitwriter.py:28-34 *)
Definition new_writer : writer := {| w_bytes := []; w_pos := 0 |}.

(** int.to_bytes(n, byteorder="big") for [n] bytes, value already checked *)
Fixpoint to_bytes_be (n : nat) (v : Z) : list Z :=
  match n with
  | O => []
  | S k => (v / 256 ^ Z.of_nat k) mod 256 :: to_bytes_be k v
  end.

(** int.to_bytes with its OverflowError checks *)
Definition int_to_bytes (value num_bytes : Z) (signed : bool) : res (list Z) :=
  if num_bytes <? 0 then Raise ValueErr
  else if signed then
    if (2 * value <? - 2 ^ (8 * num_bytes)) || (2 ^ (8 * num_bytes) <=? 2 * value)
    then Raise OverflowErr
    else Ok (to_bytes_be (Z.to_nat num_bytes) value)
  else
    if (value <? 0) || (2 ^ (8 * num_bytes) <=? value)
    then Raise OverflowErr
    else Ok (to_bytes_be (Z.to_nat num_bytes) value).

(** [self._byte_array[-1] |= x] *)
Fixpoint or_last (l : list Z) (x : Z) : res (list Z) :=
  match l with
  | [] => Raise IndexErr
  | [b] => Ok [Z.lor b x]
  | b :: l' => r <-? or_last l' x ;; Ok (b :: r)
  end.

(** rt/bitwriter.py:346-364 *)
Definition write_bits_priv (value numbits : Z) (signed : bool) : M writer unit := fun w =>
  let buffer_last_byte_bits := w_pos w mod 8 in
  let buffer_free_bits := if negb (buffer_last_byte_bits =? 0) then 8 - buffer_last_byte_bits else 0 in
  let value_first_byte_bits := if numbits mod 8 =? 0 then 8 else numbits mod 8 in
  let left_shift :=
    if value_first_byte_bits <=? buffer_free_bits
    then buffer_free_bits - value_first_byte_bits
    else buffer_free_bits + 8 - value_first_byte_bits in
  let value := Z.shiftl value left_shift in
  let num_bytes := (numbits + left_shift + 7) / 8 in
  match int_to_bytes value num_bytes signed with
  | Raise e => (Raise e, w)
  | Ok value_bytes =>
      let new_array :=
        if buffer_free_bits =? 0 then Ok (w_bytes w ++ value_bytes)
        else
          first <-? index value_bytes 0 ;;
          let value_first_byte := Z.land first (Z.shiftl 1 buffer_free_bits - 1) in
          l <-? or_last (w_bytes w) value_first_byte ;;
          Ok (l ++ skipn 1 value_bytes) in
      match new_array with
      | Raise e => (Raise e, w)
      | Ok l => (Ok tt, {| w_bytes := l; w_pos := w_pos w + numbits |})
      end
  end.

(** rt/bitwriter.py:65-83 *)
Definition write_bits_unchecked (value numbits : Z) : M writer unit :=
  if numbits <? 0 then throw ValueErr  (* 1 << numbits *)
  else
    let min_value := 0 in
    let max_value := Z.shiftl 1 numbits - 1 in
    if (value <? min_value) || (max_value <? value) then throw RuntimeExc
    else write_bits_priv value numbits false.

(** rt/bitwriter.py:85-104 *)
Definition write_signed_bits_unchecked (value numbits : Z) : M writer unit :=
  if numbits - 1 <? 0 then throw ValueErr  (* 1 << (numbits - 1) *)
  else
    let min_value := - Z.shiftl 1 (numbits - 1) in
    let max_value := Z.shiftl 1 (numbits - 1) - 1 in
    if (value <? min_value) || (max_value <? value) then throw RuntimeExc
    else write_bits_priv value numbits true.

(** rt/bitwriter.py:36-48 *)
Definition write_bits (value numbits : Z) : M writer unit :=
  if (numbits <? 1) || (64 <? numbits) then throw RuntimeExc
  else write_bits_unchecked value numbits.

(** rt/bitwriter.py:50-63 *)
Definition write_signed_bits (value numbits : Z) : M writer unit :=
  if (numbits <? 1) || (64 <? numbits) then throw RuntimeExc
  else write_signed_bits_unchecked value numbits.

(** rt/bitwriter.py:390 *)
Definition VAR_NUM_BIT_MASKS := [0x01; 0x03; 0x07; 0x0F; 0x1F; 0x3F; 0x7F; 0xFF].

(** rt/bitwriter.py:370-386: the byte computed in iteration [i] *)
Definition varnum_byte (value max_var_bytes num_var_bytes : Z) (is_signed : bool) (i : Z) : res Z :=
  let abs_value := Z.abs value in
  let has_max_byte_range := num_var_bytes =? max_var_bytes in
  let byte := 0 in
  let numbits := 8 in
  let has_next_byte := i <? num_var_bytes - 1 in
  let has_sign_bit := is_signed && (i =? 0) in
  let byte := if has_sign_bit && (value <? 0) then Z.lor byte 0x80 else byte in
  let numbits := if has_sign_bit then numbits - 1 else numbits in
  let '(numbits, byte) :=
    if has_next_byte then (numbits - 1, Z.lor byte (Z.shiftl 1 (numbits - 1)))
    else ((if negb has_max_byte_range then numbits - 1 else numbits), byte) in
  let shift_bits := (num_var_bytes - (i + 1)) * 7 + (if has_max_byte_range && has_next_byte then 1 else 0) in
  mask <-? index VAR_NUM_BIT_MASKS (numbits - 1) ;;
  Ok (Z.lor byte (Z.land (Z.shiftr abs_value shift_bits) mask)).

(** rt/bitwriter.py:366-387 *)
Definition write_varnum (value max_var_bytes num_var_bytes : Z) (is_signed : bool) : M writer unit :=
  for_each (fun i => byte <- lift (varnum_byte value max_var_bytes num_var_bytes is_signed (Z.of_nat i)) ;;
                     write_bits_unchecked byte 8)
           (seq 0 (Z.to_nat num_var_bytes)).

(** rt/bitwriter.py:106-114 *)
Definition write_varint16 (v : Z) : M writer unit :=
  n <- lift (bitsizeof_varint16 v) ;; write_varnum v 2 (n / 8) true.
(** rt/bitwriter.py:116-124 *)
Definition write_varint32 (v : Z) : M writer unit :=
  n <- lift (bitsizeof_varint32 v) ;; write_varnum v 4 (n / 8) true.
(** rt/bitwriter.py:126-134 *)
Definition write_varint64 (v : Z) : M writer unit :=
  n <- lift (bitsizeof_varint64 v) ;; write_varnum v 8 (n / 8) true.
(** rt/bitwriter.py:136-147 *)
Definition write_varint (v : Z) : M writer unit :=
  if v =? INT64_MIN then write_bits_priv 0x80 8 false
  else n <- lift (bitsizeof_varint v) ;; write_varnum v 9 (n / 8) true.
(** rt/bitwriter.py:149-157 *)
Definition write_varuint16 (v : Z) : M writer unit :=
  n <- lift (bitsizeof_varuint16 v) ;; write_varnum v 2 (n / 8) false.
(** rt/bitwriter.py:159-167 *)
Definition write_varuint32 (v : Z) : M writer unit :=
  n <- lift (bitsizeof_varuint32 v) ;; write_varnum v 4 (n / 8) false.
(** rt/bitwriter.py:169-177 *)
Definition write_varuint64 (v : Z) : M writer unit :=
  n <- lift (bitsizeof_varuint64 v) ;; write_varnum v 8 (n / 8) false.
(** rt/bitwriter.py:179-187 *)
Definition write_varuint (v : Z) : M writer unit :=
  n <- lift (bitsizeof_varuint v) ;; write_varnum v 9 (n / 8) false.
(** rt/bitwriter.py:189-197 *)
Definition write_varsize (v : Z) : M writer unit :=
  n <- lift (bitsizeof_varsize v) ;; write_varnum v 5 (n / 8) false.

(** rt/bitwriter.py:199-206 *)
Definition write_float16 (d : Z) : M writer unit :=
  u <- lift (float_to_uint16 d) ;; write_bits_unchecked u 16.
(** rt/bitwriter.py:208-215 *)
Definition write_float32 (d : Z) : M writer unit :=
  u <- lift (float_to_uint32 d) ;; write_bits_unchecked u 32.
(** rt/bitwriter.py:217-224 *)
Definition write_float64 (d : Z) : M writer unit :=
  u <- lift (float_to_uint64 d) ;; write_bits_unchecked u 64.

(** [self._bitposition += len(l)*8; self._byte_array += l], rt/bitwriter.py:244-245 *)
Definition append_bytes (l : list Z) : M writer unit :=
  modify (fun w => {| w_bytes := w_bytes w ++ l; w_pos := w_pos w + zlen l * 8 |}).

(** rt/bitwriter.py:237-245, shared by write_bytes and write_string (259-267) *)
Definition write_bytes_body (value : list Z) : M writer unit :=
  begin_bitposition <- gets w_pos ;;
  if negb (Z.land begin_bitposition 0x07 =? 0)
  then for_each (fun byte => write_bits_unchecked byte 8) value
  else append_bytes value.

(** rt/bitwriter.py:226-245 *)
Definition write_bytes (value : list Z) : M writer unit :=
  write_varsize (zlen value) ;;; write_bytes_body value.

(** rt/bitwriter.py:247-267 *)
Definition write_string (s : list Z) : M writer unit :=
  string_bytes <- lift (utf8_encode s) ;;
  write_varsize (zlen string_bytes) ;;; write_bytes_body string_bytes.

(** rt/bitwriter.py:269-276 *)
Definition write_bool (b : bool) : M writer unit := write_bits_priv (if b then 1 else 0) 1 false.

(** rt/bitwriter.py:278-303.  [write_buffer[0:n]] in the aligned branch is a
    slice (never raises), the unaligned branch indexes each byte. *)
Definition write_bitbuffer (b : bitbuffer) : M writer unit :=
  let bitsize := bb_bitsize b in
  write_varsize bitsize ;;;
  let write_buffer := bb_buffer b in
  let num_bytes_to_write := bitsize / 8 in
  let num_rest_bits := bitsize - num_bytes_to_write * 8 in
  begin_bitposition <- gets w_pos ;;
  (if negb (Z.land begin_bitposition 0x07 =? 0)
   then for_each (fun i => x <- lift (index write_buffer (Z.of_nat i)) ;; write_bits_unchecked x 8)
                 (seq 0 (Z.to_nat num_bytes_to_write))
   else modify (fun w => {| w_bytes := w_bytes w ++ slice 0 num_bytes_to_write write_buffer;
                            w_pos := w_pos w + num_bytes_to_write * 8 |})) ;;;
  if 0 <? num_rest_bits
  then x <- lift (index write_buffer num_bytes_to_write) ;;
       write_bits_unchecked (Z.shiftr x (8 - num_rest_bits)) num_rest_bits
  else ret tt.

(** rt/bitwriter.py:335-344 *)
Definition writer_alignto (alignment : Z) : M writer unit :=
  if alignment =? 0 then throw ZeroDivErr
  else
    pos <- gets w_pos ;;
    let offset := pos mod alignment in
    if negb (offset =? 0) then write_bits_priv 0 (alignment - offset) false else ret tt.
