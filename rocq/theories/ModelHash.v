(** Model of rt/hashcode.py, scalar and sequence functions.  A Python value
    that may be [None] is an [option]. *)
From Verif Require Import Base ModelFloat.

(** rt/hashcode.py:9-10 *)
Definition HASH_SEED := 23.
Definition HASH_PRIME_NUMBER := 37.

(** rt/hashcode.py:25-37.  [& 0xFFFFFFFF] *)
Definition calc_hashcode_int32 (seed : Z) (value : option Z) : Z :=
  match value with
  | None => Z.land (HASH_PRIME_NUMBER * seed + 0) 0xFFFFFFFF
  | Some v => Z.land (HASH_PRIME_NUMBER * seed + v) 0xFFFFFFFF
  end.

(** rt/hashcode.py:13-22 *)
Definition calc_hashcode_bool (seed : Z) (value : option bool) : Z :=
  calc_hashcode_int32 seed (Some (match value with Some true => 1 | _ => 0 end)).

(** rt/hashcode.py:40-53 *)
Definition calc_hashcode_int64 (seed : Z) (value : option Z) : Z :=
  match value with
  | None => calc_hashcode_int32 seed (Some 0)
  | Some v =>
      let int_value_for_hash :=
        Z.lxor (Z.land v 0xFFFFFFFF) (Z.shiftr (Z.land v 0xFFFFFFFFFFFFFFFF) 32) in
      Z.land (HASH_PRIME_NUMBER * seed + int_value_for_hash) 0xFFFFFFFF
  end.

(** rt/hashcode.py:56-69 *)
Definition calc_hashcode_float32 (seed : Z) (value : option Z) : res Z :=
  match value with
  | None => Ok (calc_hashcode_int32 seed (Some 0))
  | Some v => u <-? float_to_uint32 v ;; Ok (calc_hashcode_int32 seed (Some u))
  end.

(** rt/hashcode.py:72-85 *)
Definition calc_hashcode_float64 (seed : Z) (value : option Z) : res Z :=
  match value with
  | None => Ok (calc_hashcode_int32 seed (Some 0))
  | Some v => u <-? float_to_uint64 v ;; Ok (calc_hashcode_int64 seed (Some u))
  end.

(** rt/hashcode.py:88-104 (bytes), 107-123 (string: ord() of each character is
    its code point) and 160-175 (int_array) are the same loop. *)
Definition calc_hashcode_ints (seed : Z) (value : option (list Z)) : Z :=
  match value with
  | None => calc_hashcode_int32 seed (Some 0)
  | Some l => fold_left (fun r e => calc_hashcode_int32 r (Some e)) l seed
  end.
Definition calc_hashcode_bytes := calc_hashcode_ints.
Definition calc_hashcode_string := calc_hashcode_ints.
Definition calc_hashcode_int_array := calc_hashcode_ints.

(** rt/hashcode.py:126-139.  The argument is the result of [value.__hash__()],
    [None] when the value is falsy. *)
Definition calc_hashcode_object (seed : Z) (hash : option Z) : Z :=
  calc_hashcode_int32 seed (Some (match hash with Some h => h | None => 0 end)).

(** rt/hashcode.py:142-157 *)
Definition calc_hashcode_bool_array (seed : Z) (value : option (list bool)) : Z :=
  match value with
  | None => calc_hashcode_int32 seed (Some 0)
  | Some l => fold_left (fun r e => calc_hashcode_bool r (Some e)) l seed
  end.

(** rt/hashcode.py:178-211; [f] is calc_hashcode_float32 or _float64 *)
Definition calc_hashcode_float_array (f : Z -> option Z -> res Z) (seed : Z) (value : option (list Z)) : res Z :=
  match value with
  | None => Ok (calc_hashcode_int32 seed (Some 0))
  | Some l => fold_left (fun r e => r' <-? r ;; f r' (Some e)) l (Ok seed)
  end.

(** rt/hashcode.py:214-229 (bytes_array), 232-247 (string_array) *)
Definition calc_hashcode_ints_array (seed : Z) (value : option (list (list Z))) : Z :=
  match value with
  | None => calc_hashcode_int32 seed (Some 0)
  | Some l => fold_left (fun r e => calc_hashcode_ints r (Some e)) l seed
  end.

(** rt/hashcode.py:250-268 *)
Definition calc_hashcode_object_array (seed : Z) (value : option (list (option Z))) : Z :=
  match value with
  | None => calc_hashcode_int32 seed (Some 0)
  | Some l => fold_left (fun r e => calc_hashcode_object r e) l seed
  end.
