(** Specification vocabulary: the documented hash polynomial. *)
From Verif Require Import Base.

(** What the documentation of the hash function says: the polynomial in 37,
    reduced to 32 bits. *)
Fixpoint poly (seed : Z) (l : list Z) : Z :=
  match l with [] => seed | x :: r => poly (37 * seed + x) r end.
