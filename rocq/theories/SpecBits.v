(** Specification vocabulary: bit strings.  Independent of the model. *)
From Verif Require Import Base.

(** The [n] low-order bits of the two's complement representation of [v], most
    significant first. *)
Fixpoint zbits (n : nat) (v : Z) : list bool :=
  match n with
  | O => []
  | S k => Z.testbit v (Z.of_nat k) :: zbits k v
  end.

(** The unsigned number denoted by a bit string, most significant bit first. *)
Definition bits_val (bs : list bool) : Z :=
  fold_left (fun acc (b : bool) => 2 * acc + (if b then 1 else 0)) bs 0.

(** The signed (two's complement) number denoted by a bit string. *)
Definition bits_sval (bs : list bool) : Z :=
  match bs with
  | true :: _ => bits_val bs - 2 ^ Z.of_nat (length bs)
  | _ => bits_val bs
  end.

Definition is_byte (b : Z) : Prop := 0 <= b < 256.

(** Bits of a byte string, in stream order. *)
Definition bytes_bits (l : list Z) : list bool := flat_map (zbits 8) l.

(** Number of padding bits after [n] bits up to the next byte boundary. *)
Definition pad_len (n : nat) : nat := ((8 - n mod 8) mod 8)%nat.

(** [holds bytes pos bs]: a byte array with a bit position stores exactly the
    bit string [bs]: the position is its length, and the bytes are the bits of
    [bs], zero padded to a whole number of bytes. *)
Definition holds (bytes : list Z) (pos : Z) (bs : list bool) : Prop :=
  Forall is_byte bytes /\
  pos = Z.of_nat (length bs) /\
  bytes_bits bytes = bs ++ repeat false (pad_len (length bs)).

(** [stream bytes bitsize bs]: a byte buffer restricted to its first [bitsize]
    bits is the bit string [bs]. *)
Definition stream (bytes : list Z) (bitsize : Z) (bs : list bool) : Prop :=
  Forall is_byte bytes /\
  bitsize = Z.of_nat (length bs) /\
  exists rest, bytes_bits bytes = bs ++ rest.
