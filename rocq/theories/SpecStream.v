(** Specification vocabulary for the bit stream classes: the documented wire
    format of every write method and the documented range of every variable
    length integer type.  Independent of the model, except that the conversion
    of a float to its wire pattern and of a string to UTF-8 are the model's. *)
From Verif Require Import Base SpecBits ModelFloat ModelUtf8 ModelBitBuffer.

(** ** Variable-length integer types *)
Inductive vtype :=
| VarInt16 | VarInt32 | VarInt64 | VarInt | VarUInt16 | VarUInt32 | VarUInt64 | VarUInt | VarSize.

Definition vt_signed (t : vtype) : bool :=
  match t with VarInt16 | VarInt32 | VarInt64 | VarInt => true | _ => false end.

(** Documented maximal length in bytes. *)
Definition vt_max (t : vtype) : nat :=
  match t with
  | VarInt16 | VarUInt16 => 2 | VarInt32 | VarUInt32 => 4 | VarInt64 | VarUInt64 => 8
  | VarInt | VarUInt => 9 | VarSize => 5
  end%nat.

(** Documented range. *)
Definition vt_lo (t : vtype) : Z :=
  match t with
  | VarInt16 => - (2^14 - 1) | VarInt32 => - (2^28 - 1) | VarInt64 => - (2^56 - 1)
  | VarInt => - 2^63 | _ => 0
  end.
Definition vt_hi (t : vtype) : Z :=
  match t with
  | VarInt16 => 2^14 - 1 | VarInt32 => 2^28 - 1 | VarInt64 => 2^56 - 1 | VarInt => 2^63 - 1
  | VarUInt16 => 2^15 - 1 | VarUInt32 => 2^29 - 1 | VarUInt64 => 2^57 - 1 | VarUInt => 2^64 - 1
  | VarSize => 2^31 - 1
  end.
Definition vt_range (t : vtype) (v : Z) : Prop := vt_lo t <= v <= vt_hi t.
Definition vt_rangeb (t : vtype) (v : Z) : bool := (vt_lo t <=? v) && (v <=? vt_hi t).

(** Wire format.  The value is cut into 7-bit groups, most significant first;
    each byte is a has-next flag followed by a group.  In the last byte of an
    encoding of maximal length the flag is dropped and the group has 8 bits.
    [var_groups n full v]: the last [n] bytes of an encoding of [v]. *)
Fixpoint var_groups (n : nat) (full : bool) (v : Z) : list bool :=
  match n with
  | O => []
  | S O => if full then zbits 8 v else false :: zbits 7 v
  | S k => true :: zbits 7 (v / 2 ^ (7 * Z.of_nat k + if full then 1 else 0)) ++ var_groups k full v
  end.

(** Signed types start with a sign bit, the first group has 6 bits. *)
Definition var_bits (signed : bool) (max n : nat) (v : Z) : list bool :=
  let full := Nat.eqb n max in
  if signed then
    (v <? 0) ::
    match n with
    | O => []
    | S O => false :: zbits 6 (Z.abs v)
    | S k => true :: zbits 6 (Z.abs v / 2 ^ (7 * Z.of_nat k + if full then 1 else 0))
                  ++ var_groups k full (Z.abs v)
    end
  else var_groups n full v.

(** Number of magnitude bits an encoding of [n] bytes can hold. *)
Definition var_payload (signed : bool) (max n : nat) : Z :=
  7 * Z.of_nat n - (if signed then 1 else 0) + (if Nat.eqb n max then 1 else 0).

(** The shortest encoding that can hold the magnitude. *)
Fixpoint var_search (signed : bool) (max : nat) (v : Z) (n : nat) (fuel : nat) : nat :=
  match fuel with
  | O => n
  | S k => if Z.abs v <? 2 ^ var_payload signed max n then n else var_search signed max v (S n) k
  end.
Definition var_nbytes (signed : bool) (max : nat) (v : Z) : nat := var_search signed max v 1 (max - 1).

(** -2^63 does not fit the sign-magnitude format; it is stored as "-0". *)
Definition vt_bits (t : vtype) (v : Z) : list bool :=
  match t with
  | VarInt => if v =? - 2^63 then zbits 8 128
              else var_bits true 9 (var_nbytes true 9 v) v
  | _ => var_bits (vt_signed t) (vt_max t) (var_nbytes (vt_signed t) (vt_max t) v) v
  end.

(** ** Byte strings, bit buffers *)
Definition size_bits (n : Z) : list bool := vt_bits VarSize n.

(** The bits a BitBuffer stands for. *)
Definition buffer_bits (b : bitbuffer) : list bool :=
  firstn (Z.to_nat (bb_bitsize b)) (bytes_bits (bb_buffer b)).

Definition wf_bitbuffer (b : bitbuffer) : Prop :=
  Forall is_byte (bb_buffer b) /\ bb_bitsize b <= 8 * zlen (bb_buffer b).

(** The same bits without surplus bytes and with the unused bits of the last byte zero. *)
Definition canonical (b : bitbuffer) : bitbuffer :=
  let n := Z.to_nat (bb_bitsize b / 8) in
  let rest := bb_bitsize b mod 8 in
  {| bb_buffer := firstn n (bb_buffer b)
                  ++ (if rest =? 0 then [] else [Z.shiftl (Z.shiftr (nth n (bb_buffer b) 0) (8 - rest)) (8 - rest)]);
     bb_bitsize := bb_bitsize b |}.

(** ** Writer calls: what each call appends at bit position [pos], or [None] if
    it must be refused. *)
Inductive wcall :=
| WBits (v n : Z) | WSigned (v n : Z) | WBitsUnchecked (v n : Z) | WSignedUnchecked (v n : Z)
| WVar (t : vtype) (v : Z)
| WFloat16 (d : Z) | WFloat32 (d : Z) | WFloat64 (d : Z)
| WBytes (l : list Z) | WString (s : list Z) | WBool (b : bool) | WBitBuffer (b : bitbuffer)
| WAlign (a : Z).

Definition guard (c : bool) (bs : list bool) : option (list bool) := if c then Some bs else None.

Definition call_bits (pos : nat) (c : wcall) : option (list bool) :=
  match c with
  | WBits v n => guard ((1 <=? n) && (n <=? 64) && (0 <=? v) && (v <? 2 ^ n)) (zbits (Z.to_nat n) v)
  | WSigned v n =>
      guard ((1 <=? n) && (n <=? 64) && (- 2 ^ (n - 1) <=? v) && (v <? 2 ^ (n - 1))) (zbits (Z.to_nat n) v)
  | WBitsUnchecked v n => guard ((0 <=? n) && (0 <=? v) && (v <? 2 ^ n)) (zbits (Z.to_nat n) v)
  | WSignedUnchecked v n =>
      guard ((1 <=? n) && (- 2 ^ (n - 1) <=? v) && (v <? 2 ^ (n - 1))) (zbits (Z.to_nat n) v)
  | WVar t v => guard (vt_rangeb t v) (vt_bits t v)
  | WFloat16 d =>
      match float_to_uint16 d with
      | Ok u => guard ((0 <=? u) && (u <? 2 ^ 16)) (zbits 16 u)
      | Raise _ => None
      end
  | WFloat32 d =>
      match float_to_uint32 d with
      | Ok u => guard ((0 <=? u) && (u <? 2 ^ 32)) (zbits 32 u)
      | Raise _ => None
      end
  | WFloat64 d => Some (zbits 64 d)
  | WBytes l => guard (vt_rangeb VarSize (zlen l)) (size_bits (zlen l) ++ bytes_bits l)
  | WString s =>
      match utf8_encode s with
      | Ok l => guard (vt_rangeb VarSize (zlen l)) (size_bits (zlen l) ++ bytes_bits l)
      | Raise _ => None
      end
  | WBool b => Some [b]
  | WBitBuffer b => guard (vt_rangeb VarSize (bb_bitsize b)) (size_bits (bb_bitsize b) ++ buffer_bits b)
  | WAlign a => guard (0 <? a) (repeat false (Z.to_nat ((- Z.of_nat pos) mod a)))
  end.

(** Arguments the Python types allow: bytes are bytes, floats are 64-bit
    patterns, a BitBuffer satisfies what its constructor checks, alignments are
    not negative. *)
Definition wf_call (c : wcall) : Prop :=
  match c with
  | WFloat16 d | WFloat32 d | WFloat64 d => 0 <= d < 2 ^ 64
  | WBytes l => Forall is_byte l
  | WBitBuffer b => wf_bitbuffer b
  | WAlign a => 0 <= a
  | _ => True
  end.

(** The abstract writer: a bit string that calls only extend. *)
Definition spec_step (bs : list bool) (c : wcall) : list bool :=
  match call_bits (length bs) c with Some b => bs ++ b | None => bs end.
Definition spec_run (cs : list wcall) (bs : list bool) : list bool := fold_left spec_step cs bs.
