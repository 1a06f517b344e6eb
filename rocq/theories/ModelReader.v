(** Model of rt/bitreader.py, class BitStreamReader (lines 14-639).  The C++
    replacement (641-649) and from_file (57-65, file access) are not modelled. *)
From Verif Require Import Base ModelFloat ModelUtf8 ModelBitBuffer ModelBitsizeof.

Record reader := { r_buffer : list Z; r_bitsize : Z; r_pos : Z }.

(** rt/bitreader.py:19-42 *)
Definition new_reader (buffer : list Z) (bitsize : option Z) : res reader :=
  match bitsize with
  | None => Ok {| r_buffer := buffer; r_bitsize := zlen buffer * 8; r_pos := 0 |}
  | Some n =>
      if zlen buffer * 8 <? n then Raise RuntimeExc
      else Ok {| r_buffer := buffer; r_bitsize := n; r_pos := 0 |}
  end.

(** rt/bitreader.py:44-54 *)
Definition reader_from_bitbuffer (b : bitbuffer) : res reader :=
  new_reader (bb_buffer b) (Some (bb_bitsize b)).

Definition set_pos (p : Z) (r : reader) : reader :=
  {| r_buffer := r_buffer r; r_bitsize := r_bitsize r; r_pos := p |}.

(** rt/bitreader.py:593-607, the bitposition setter *)
Definition set_bitposition (p : Z) : M reader unit := fun r =>
  if p <? 0 then (Raise RuntimeExc, r)
  else if r_bitsize r <? p then (Raise RuntimeExc, r)
  else (Ok tt, set_pos p r).

(** int.from_bytes(l, byteorder="big", signed=False) *)
Definition from_bytes_be (l : list Z) : Z := fold_left (fun acc b => acc * 256 + b) l 0.

(** rt/bitreader.py:95-123 *)
Definition read_bits_unchecked (numbits : Z) : M reader Z := fun r =>
  let end_bitposition := r_pos r + numbits in
  if r_bitsize r <? end_bitposition then (Raise RuntimeExc, r)
  else
    let start_byte := r_pos r / 8 in
    let end_byte := (end_bitposition - 1) / 8 in
    let value := from_bytes_be (slice start_byte (end_byte + 1) (r_buffer r)) in
    let last_bits := end_bitposition mod 8 in
    let value := if negb (last_bits =? 0) then Z.shiftr value (8 - last_bits) else value in
    if numbits <? 0 then (Raise ValueErr, r)  (* 1 << numbits *)
    else
      let value := Z.land value (Z.shiftl 1 numbits - 1) in
      (Ok value, set_pos end_bitposition r).

(** rt/bitreader.py:125-143 *)
Definition read_signed_bits_unchecked (numbits : Z) : M reader Z :=
  value <- read_bits_unchecked numbits ;;
  if negb (numbits =? 0) && negb (Z.shiftr value (numbits - 1) =? 0)
  then ret (value - Z.shiftl 1 numbits)
  else ret value.

(** rt/bitreader.py:67-79 *)
Definition read_bits (numbits : Z) : M reader Z :=
  if (numbits <? 1) || (64 <? numbits) then throw RuntimeExc
  else read_bits_unchecked numbits.

(** rt/bitreader.py:81-93 *)
Definition read_signed_bits (numbits : Z) : M reader Z :=
  if (numbits <? 1) || (64 <? numbits) then throw RuntimeExc
  else read_signed_bits_unchecked numbits.

(** rt/bitreader.py:632-639 *)
Definition VARINT_SIGN_1 := 0x80.
Definition VARINT_BYTE_1 := 0x3F.
Definition VARINT_BYTE_N := 0x7F.
Definition VARINT_HAS_NEXT_1 := 0x40.
Definition VARINT_HAS_NEXT_N := 0x80.
Definition VARUINT_BYTE := 0x7F.
Definition VARUINT_HAS_NEXT := 0x80.
Definition VARSIZE_MAX_VALUE := Z.shiftl 1 31 - 1.

(** The bytes after the first one.  The source unrolls this (e.g. lines 174-185
    of read_varint32: two middle bytes and a last one); here the [k] middle
    bytes are a recursion.  [n] is VARINT_BYTE_N / VARUINT_BYTE = 0x7F and the
    has-next mask 0x80 in both families.  The boolean result tells whether the
    last, full 8-bit byte was reached (read_varsize checks only there). *)
Fixpoint read_var_rest (k : nat) (result : Z) : M reader (Z * bool) :=
  match k with
  | O =>
      b <- read_bits_unchecked 8 ;;
      ret (Z.lor (Z.shiftl result 8) b, true)
  | S k' =>
      byte <- read_bits_unchecked 8 ;;
      let result := Z.lor (Z.shiftl result 7) (Z.land byte VARINT_BYTE_N) in
      if Z.land byte VARINT_HAS_NEXT_N =? 0 then ret (result, false)
      else read_var_rest k' result
  end.

(** rt/bitreader.py:145-231, the signed readers with [k] middle bytes *)
Definition read_varint_gen (k : nat) : M reader Z :=
  byte <- read_bits_unchecked 8 ;;
  let sign := Z.land byte VARINT_SIGN_1 in
  let result := Z.land byte VARINT_BYTE_1 in
  if Z.land byte VARINT_HAS_NEXT_1 =? 0 then ret (if negb (sign =? 0) then - result else result)
  else
    p <- read_var_rest k result ;;
    ret (if negb (sign =? 0) then - fst p else fst p).
(** rt/bitreader.py:145-159 *)
Definition read_varint16 := read_varint_gen 0.
(** rt/bitreader.py:161-185 *)
Definition read_varint32 := read_varint_gen 2.
(** rt/bitreader.py:187-231 *)
Definition read_varint64 := read_varint_gen 6.

(** rt/bitreader.py:233-282: as above with INT64_MIN for "-0" in one byte *)
Definition read_varint : M reader Z :=
  byte <- read_bits_unchecked 8 ;;
  let sign := Z.land byte VARINT_SIGN_1 in
  let result := Z.land byte VARINT_BYTE_1 in
  if Z.land byte VARINT_HAS_NEXT_1 =? 0 then
    ret (if negb (sign =? 0) then (if result =? 0 then INT64_MIN else - result) else result)
  else
    p <- read_var_rest 7 result ;;
    ret (if negb (sign =? 0) then - fst p else fst p).

(** rt/bitreader.py:284-417, the unsigned readers with [k] middle bytes *)
Definition read_varuint_gen (k : nat) : M reader (Z * bool) :=
  byte <- read_bits_unchecked 8 ;;
  let result := Z.land byte VARUINT_BYTE in
  if Z.land byte VARUINT_HAS_NEXT =? 0 then ret (result, false)
  else read_var_rest k result.
(** rt/bitreader.py:284-297 *)
Definition read_varuint16 : M reader Z := p <- read_varuint_gen 0 ;; ret (fst p).
(** rt/bitreader.py:299-322 *)
Definition read_varuint32 : M reader Z := p <- read_varuint_gen 2 ;; ret (fst p).
(** rt/bitreader.py:324-367 *)
Definition read_varuint64 : M reader Z := p <- read_varuint_gen 6 ;; ret (fst p).
(** rt/bitreader.py:369-417 *)
Definition read_varuint : M reader Z := p <- read_varuint_gen 7 ;; ret (fst p).
(** rt/bitreader.py:419-453 *)
Definition read_varsize : M reader Z :=
  p <- read_varuint_gen 3 ;;
  if snd p && (VARSIZE_MAX_VALUE <? fst p) then throw RuntimeExc else ret (fst p).

(** rt/bitreader.py:455-483 *)
Definition read_float16 : M reader Z := u <- read_bits_unchecked 16 ;; lift (uint16_to_float u).
Definition read_float32 : M reader Z := u <- read_bits_unchecked 32 ;; lift (uint32_to_float u).
Definition read_float64 : M reader Z := u <- read_bits_unchecked 64 ;; lift (uint64_to_float u).

(** rt/bitreader.py:494-510, shared by read_bytes and read_string (521-535) *)
Definition read_bytes_body (length : Z) : M reader (list Z) :=
  begin_bitposition <- gets r_pos ;;
  bitsize <- gets r_bitsize ;;
  if bitsize <? begin_bitposition + length * 8 then throw RuntimeExc
  else if negb (Z.land begin_bitposition 0x07 =? 0) then
    collect (Z.to_nat length) (read_bits_unchecked 8)
  else
    set_bitposition (begin_bitposition + length * 8) ;;;
    let begin_byte_position := begin_bitposition / 8 in
    gets (fun r => slice begin_byte_position (begin_byte_position + length) (r_buffer r)).

(** rt/bitreader.py:485-510 *)
Definition read_bytes : M reader (list Z) := n <- read_varsize ;; read_bytes_body n.

(** rt/bitreader.py:512-537 *)
Definition read_string : M reader (list Z) :=
  n <- read_varsize ;; value <- read_bytes_body n ;; lift (utf8_decode value).

(** rt/bitreader.py:539-547 *)
Definition read_bool : M reader bool := v <- read_bits_unchecked 1 ;; ret (negb (v =? 0)).

(** rt/bitreader.py:549-581 *)
Definition read_bitbuffer : M reader bitbuffer :=
  bitsize <- read_varsize ;;
  pos <- gets r_pos ;;
  total <- gets r_bitsize ;;
  if total <? pos + bitsize then throw RuntimeExc
  else
    let num_bytes_to_read := bitsize / 8 in
    let num_rest_bits := bitsize - num_bytes_to_read * 8 in
    let begin_bitposition := pos in
    whole <-
      (if negb (Z.land begin_bitposition 0x07 =? 0)
       then collect (Z.to_nat num_bytes_to_read) (read_bits_unchecked 8)
       else
         set_bitposition (begin_bitposition + num_bytes_to_read * 8) ;;;
         let begin_byte_position := begin_bitposition / 8 in
         gets (fun r => slice begin_byte_position (begin_byte_position + num_bytes_to_read) (r_buffer r))) ;;
    rest <-
      (if negb (num_rest_bits =? 0)
       then x <- read_bits num_rest_bits ;; ret [Z.shiftl x (8 - num_rest_bits)]
       else ret []) ;;
    lift (bitbuffer_new (whole ++ rest) (Some bitsize)).

(** rt/bitreader.py:609-619 *)
Definition reader_alignto (alignment : Z) : M reader unit :=
  if alignment =? 0 then throw ZeroDivErr
  else
    pos <- gets r_pos ;;
    let offset := pos mod alignment in
    if negb (offset =? 0) then set_bitposition (pos + alignment - offset) else ret tt.
