(** Specification vocabulary: what IEEE 754 bit patterns stand for.  A finite
    number is given as an integer multiple of the format's smallest subnormal:
    2^-24 for half, 2^-149 for single, 2^-1074 for double precision. *)
From Verif Require Import Base.

(** A format: width of the exponent and of the significand field. *)
Definition fmt_sign (ew mw u : Z) : Z := u / 2 ^ (ew + mw).
Definition fmt_exp (ew mw u : Z) : Z := (u / 2 ^ mw) mod 2 ^ ew.
Definition fmt_man (mw u : Z) : Z := u mod 2 ^ mw.

Definition fmt_nan (ew mw u : Z) : bool := (fmt_exp ew mw u =? 2 ^ ew - 1) && negb (fmt_man mw u =? 0).
Definition fmt_inf (ew mw u : Z) : bool := (fmt_exp ew mw u =? 2 ^ ew - 1) && (fmt_man mw u =? 0).
Definition fmt_finite (ew mw u : Z) : bool := negb (fmt_exp ew mw u =? 2 ^ ew - 1).

(** Magnitude of a finite number, in units of the smallest subnormal. *)
Definition fmt_mag (ew mw u : Z) : Z :=
  if fmt_exp ew mw u =? 0 then fmt_man mw u
  else (2 ^ mw + fmt_man mw u) * 2 ^ (fmt_exp ew mw u - 1).

Definition nan16 := fmt_nan 5 10.  Definition inf16 := fmt_inf 5 10.  Definition fin16 := fmt_finite 5 10.
Definition nan32 := fmt_nan 8 23.  Definition inf32 := fmt_inf 8 23.  Definition fin32 := fmt_finite 8 23.
Definition nan64 := fmt_nan 11 52. Definition inf64 := fmt_inf 11 52. Definition fin64 := fmt_finite 11 52.
Definition sign16 := fmt_sign 5 10. Definition sign32 := fmt_sign 8 23. Definition sign64 := fmt_sign 11 52.
Definition mag16 := fmt_mag 5 10.  Definition mag32 := fmt_mag 8 23.  Definition mag64 := fmt_mag 11 52.

(** [same_number_16_64 u d]: the half precision pattern [u] and the Python float
    [d] denote the same number, or are both NaN. *)
Definition same_number_16_64 (u d : Z) : Prop :=
  (nan16 u = true /\ nan64 d = true) \/
  (sign16 u = sign64 d /\
   ((inf16 u = true /\ inf64 d = true) \/
    (fin16 u = true /\ fin64 d = true /\ mag64 d = mag16 u * 2 ^ (1074 - 24)))).
Definition same_number_32_64 (u d : Z) : Prop :=
  (nan32 u = true /\ nan64 d = true) \/
  (sign32 u = sign64 d /\
   ((inf32 u = true /\ inf64 d = true) \/
    (fin32 u = true /\ fin64 d = true /\ mag64 d = mag32 u * 2 ^ (1074 - 149)))).

(** Python's [==] on floats. *)
Definition float_eqb (a b : Z) : bool :=
  negb (nan64 a) && negb (nan64 b) && ((a =? b) || ((a mod 2 ^ 63 =? 0) && (b mod 2 ^ 63 =? 0))).
