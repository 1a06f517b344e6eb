(** Model of rt/float.py.  A Python float is represented by its IEEE 754
    binary64 bit pattern, a [Z] in [0, 2^64). *)
From Verif Require Import Base.

(** rt/float.py:188-210 *)
Definition FLOAT16_SIGN_MASK := 0x8000.
Definition FLOAT16_EXPONENT_MASK := 0x7C00.
Definition FLOAT16_SIGNIFICAND_MASK := 0x03FF.
Definition FLOAT16_SIGN_BIT_POSITION := 15.
Definition FLOAT16_EXPONENT_BIT_POSITION := 10.
Definition FLOAT16_SIGNIFICAND_NUM_BITS := FLOAT16_EXPONENT_BIT_POSITION.
Definition FLOAT16_EXPONENT_INFINITY_NAN := 0x001F.
Definition FLOAT16_EXPONENT_BIAS := 15.
Definition FLOAT32_SIGN_MASK := 0x80000000.
Definition FLOAT32_EXPONENT_MASK := 0x7F800000.
Definition FLOAT32_SIGNIFICAND_MASK := 0x007FFFFF.
Definition FLOAT32_SIGN_BIT_POSITION := 31.
Definition FLOAT32_EXPONENT_BIT_POSITION := 23.
Definition FLOAT32_SIGNIFICAND_NUM_BITS := FLOAT32_EXPONENT_BIT_POSITION.
Definition FLOAT32_EXPONENT_INFINITY_NAN := 0x00FF.
Definition FLOAT32_EXPONENT_BIAS := 127.

(** struct.unpack(">f", ...) as used by rt/float.py:136-146 (uint32_to_float):
    exact widening of a binary32 pattern to the binary64 pattern.  CPython's C
    code is not modelled; this is IEEE 754 widening.  A subnormal [s] with
    [Z.log2 s = k] has the value s * 2^-149 = (s / 2^k) * 2^(k-149).  A NaN
    keeps its payload in the high significand bits, and a signalling NaN is
    quieted (the hardware conversion used by CPython). *)
Definition uint32_to_float (u : Z) : res Z :=
  if (u <? 0) || (2^32 <=? u) then Raise OverflowErr  (* int.to_bytes(4) *)
  else
    let s := u / 2^31 in
    let e := (u / 2^23) mod 2^8 in
    let m := u mod 2^23 in
    let sign := s * 2^63 in
    if e =? 255 then
      if m =? 0 then Ok (sign + 2047 * 2^52)
      else Ok (sign + 2047 * 2^52 + Z.lor (m * 2^29) (2^51))
    else if e =? 0 then
      if m =? 0 then Ok sign
      else
        let k := Z.log2 m in
        Ok (sign + (k - 149 + 1023) * 2^52 + (m * 2^(52 - k) - 2^52))
    else Ok (sign + (e - 127 + 1023) * 2^52 + m * 2^29).

(** Round-half-to-even division by 2^k. *)
Definition rne_shift (m k : Z) : Z :=
  let q := m / 2^k in
  let r := m mod 2^k in
  if 2 * r <? 2^k then q
  else if 2^k <? 2 * r then q + 1
  else if Z.even q then q else q + 1.

(** struct.pack(">f", ...) followed by int.from_bytes, rt/float.py:149-159
    (float_to_uint32): IEEE 754 narrowing with round to nearest even; a finite
    value that rounds to infinity raises OverflowError.  NaN: payload
    truncated, quiet bit set. *)
Definition float_to_uint32 (d : Z) : res Z :=
  let s := d / 2^63 in
  let e := (d / 2^52) mod 2^11 in
  let m := d mod 2^52 in
  let sign := s * 2^31 in
  if e =? 2047 then
    if m =? 0 then Ok (sign + 255 * 2^23)
    else Ok (sign + 255 * 2^23 + Z.lor (m / 2^29) (2^22))
  else if e <? 1023 - 126 then
    (* result is subnormal or zero: significand * 2^(e-1075) = x * 2^-149 *)
    if e =? 0 then Ok sign  (* |d| < 2^-1022 *)
    else Ok (sign + rne_shift (2^52 + m) (1023 - 97 - e))
  else
    let r := (e - 1023 + 127 - 1) * 2^23 + rne_shift (2^52 + m) 29 in
    if 255 * 2^23 <=? r then Raise OverflowErr else Ok (sign + r).

(** struct.unpack(">d", ...), rt/float.py:162-172 *)
Definition uint64_to_float (u : Z) : res Z :=
  if (u <? 0) || (2^64 <=? u) then Raise OverflowErr else Ok u.

(** struct.pack(">d", ...), rt/float.py:175-185 *)
Definition float_to_uint64 (d : Z) : res Z := Ok d.

(** rt/float.py:36-38, the normalisation loop.  [fuel] bounds the iterations;
    a nonzero 10-bit significand needs at most ten. *)
Fixpoint normalize_loop (fuel : nat) (exponent32 significand32 : Z) : Z * Z :=
  match fuel with
  | O => (exponent32, significand32)
  | S k =>
      if Z.land significand32 (FLOAT32_SIGNIFICAND_MASK + 1) =? 0
      then normalize_loop k (exponent32 - 1) (Z.shiftl significand32 1)
      else (exponent32, significand32)
  end.

(** rt/float.py:23-57: the binary32 pattern computed from a binary16 pattern *)
Definition half_to_single (float16_value : Z) : Z :=
  let sign16_shifted := Z.land float16_value FLOAT16_SIGN_MASK in
  let exponent16 := Z.shiftr (Z.land float16_value FLOAT16_EXPONENT_MASK) FLOAT16_EXPONENT_BIT_POSITION in
  let significand16 := Z.land float16_value FLOAT16_SIGNIFICAND_MASK in
  let significand32 := Z.shiftl significand16 (FLOAT32_SIGNIFICAND_NUM_BITS - FLOAT16_SIGNIFICAND_NUM_BITS) in
  let '(exponent32, significand32) :=
    if exponent16 =? 0 then
      if negb (significand32 =? 0) then
        let '(e, s) := normalize_loop 32 (1 + FLOAT32_EXPONENT_BIAS - FLOAT16_EXPONENT_BIAS) significand32 in
        (e, Z.land s FLOAT32_SIGNIFICAND_MASK)
      else (0, significand32)
    else if exponent16 =? FLOAT16_EXPONENT_INFINITY_NAN then
      (FLOAT32_EXPONENT_INFINITY_NAN, significand32)
    else (exponent16 - FLOAT16_EXPONENT_BIAS + FLOAT32_EXPONENT_BIAS, significand32) in
  let sign32_shifted := Z.shiftl sign16_shifted (FLOAT32_SIGN_BIT_POSITION - FLOAT16_SIGN_BIT_POSITION) in
  let exponent32_shifted := Z.shiftl exponent32 FLOAT32_EXPONENT_BIT_POSITION in
  Z.lor (Z.lor sign32_shifted exponent32_shifted) significand32.

(** rt/float.py:14-58 *)
Definition uint16_to_float (float16_value : Z) : res Z := uint32_to_float (half_to_single float16_value).

(** rt/float.py:72-133: the binary16 pattern computed from a binary32 pattern *)
Definition single_to_half (float32_value : Z) : Z :=
  let sign32_shifted := Z.land float32_value FLOAT32_SIGN_MASK in
  let exponent32 := Z.shiftr (Z.land float32_value FLOAT32_EXPONENT_MASK) FLOAT32_EXPONENT_BIT_POSITION in
  let significand32 := Z.land float32_value FLOAT32_SIGNIFICAND_MASK in
  let significand16 := Z.shiftr significand32 (FLOAT32_SIGNIFICAND_NUM_BITS - FLOAT16_SIGNIFICAND_NUM_BITS) in
  let '(exponent16, significand16, needs_rounding) :=
    if exponent32 =? 0 then
      (0, (if negb (significand32 =? 0) then 0 else significand16), false)
    else if exponent32 =? FLOAT32_EXPONENT_INFINITY_NAN then
      (FLOAT16_EXPONENT_INFINITY_NAN, significand16, false)
    else
      let signed_exponent16 := exponent32 - FLOAT32_EXPONENT_BIAS + FLOAT16_EXPONENT_BIAS in
      if FLOAT16_EXPONENT_INFINITY_NAN <? signed_exponent16 then
        (FLOAT16_EXPONENT_INFINITY_NAN, significand16, false)
      else if signed_exponent16 <=? 0 then
        if signed_exponent16 <=? - FLOAT16_SIGNIFICAND_NUM_BITS then (0, 0, false)
        else
          let full_significand32 := Z.lor significand32 (FLOAT32_SIGNIFICAND_MASK + 1) in
          let significand_shift := 1 - signed_exponent16 in
          (0,
           Z.shiftr full_significand32
             (FLOAT32_SIGNIFICAND_NUM_BITS - FLOAT16_SIGNIFICAND_NUM_BITS + significand_shift),
           negb (Z.land (Z.shiftr full_significand32
             (FLOAT32_SIGNIFICAND_NUM_BITS - FLOAT16_SIGNIFICAND_NUM_BITS + significand_shift - 1)) 1 =? 0))
      else
        (signed_exponent16, significand16,
         negb (Z.land (Z.shiftr significand32
           (FLOAT32_SIGNIFICAND_NUM_BITS - FLOAT16_SIGNIFICAND_NUM_BITS - 1)) 1 =? 0)) in
  let sign16_shifted := Z.shiftr sign32_shifted (FLOAT32_SIGN_BIT_POSITION - FLOAT16_SIGN_BIT_POSITION) in
  let exponent16_shifted := Z.shiftl exponent16 FLOAT16_EXPONENT_BIT_POSITION in
  let float16_value := Z.lor (Z.lor sign16_shifted exponent16_shifted) significand16 in
  if needs_rounding then float16_value + 1 else float16_value.

(** rt/float.py:61-133 *)
Definition float_to_uint16 (float64 : Z) : res Z :=
  float32_value <-? float_to_uint32 float64 ;; Ok (single_to_half float32_value).
