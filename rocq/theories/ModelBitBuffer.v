(** Model of rt/bitbuffer.py and rt/bitposition.py. *)
From Verif Require Import Base ModelHash.

(** rt/bitposition.py:8-20 *)
Definition alignto (alignment_value bitposition : Z) : Z :=
  if (bitposition <=? 0) || (alignment_value =? 0) then bitposition
  else ((bitposition - 1) / alignment_value + 1) * alignment_value.

(** rt/bitposition.py:23-35 *)
Definition bits_to_bytes (numbits : Z) : res Z :=
  if negb (numbits mod 8 =? 0) then Raise RuntimeExc else Ok (numbits / 8).

(** rt/bitposition.py:38-46 *)
Definition bytes_to_bits (num_bytes : Z) : Z := num_bytes * 8.

(** rt/bitposition.py:49-57 *)
Definition bitsize_to_bytesize (bitsize : Z) : Z := (bitsize + 7) / 8.

Record bitbuffer := { bb_buffer : list Z; bb_bitsize : Z }.

(** rt/bitbuffer.py:22-39 *)
Definition bitbuffer_new (buffer : list Z) (bitsize : option Z) : res bitbuffer :=
  match bitsize with
  | None => Ok {| bb_buffer := buffer; bb_bitsize := zlen buffer * 8 |}
  | Some n =>
      if zlen buffer * 8 <? n then Raise RuntimeExc
      else Ok {| bb_buffer := buffer; bb_bitsize := n |}
  end.

(** rt/bitbuffer.py:91-99.  [0xFF << (8 - last_byte_bits)] is not truncated to a
    byte, as in Python; [&] with a byte does that. *)
Definition masked_last_byte (b : bitbuffer) : res Z :=
  let rounded_bytesize := bb_bitsize b / 8 in
  let last_byte_bits := bb_bitsize b - 8 * rounded_bytesize in
  if last_byte_bits =? 0 then index (bb_buffer b) (rounded_bytesize - 1)
  else
    x <-? index (bb_buffer b) rounded_bytesize ;;
    Ok (Z.land x (Z.shiftl 0xFF (8 - last_byte_bits))).

Fixpoint list_eqb (a b : list Z) : bool :=
  match a, b with
  | [], [] => true
  | x :: a', y :: b' => (x =? y) && list_eqb a' b'
  | _, _ => false
  end.

(** rt/bitbuffer.py:41-57; [other] is a BitBuffer *)
Definition bitbuffer_eq (a b : bitbuffer) : res bool :=
  if negb (bb_bitsize a =? bb_bitsize b) then Ok false
  else
    let bytesize := bitsize_to_bytesize (bb_bitsize a) in
    if 0 <? bytesize then
      if (1 <? bytesize) &&
         negb (list_eqb (slice 0 (bytesize - 1) (bb_buffer a)) (slice 0 (bytesize - 1) (bb_buffer b)))
      then Ok false
      else
        x <-? masked_last_byte a ;;
        y <-? masked_last_byte b ;;
        Ok (x =? y)
    else Ok true.

(** rt/bitbuffer.py:59-69 *)
Definition bitbuffer_hash (b : bitbuffer) : res Z :=
  let result := HASH_SEED in
  let bytesize := bitsize_to_bytesize (bb_bitsize b) in
  if 0 <? bytesize then
    let result :=
      if 1 <? bytesize
      then fold_left (fun r e => calc_hashcode_int32 r (Some e)) (slice 0 (bytesize - 1) (bb_buffer b)) result
      else result in
    x <-? masked_last_byte b ;;
    Ok (calc_hashcode_int32 result (Some x))
  else Ok result.
