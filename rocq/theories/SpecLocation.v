(** Lines and columns, both from 1. *)
From Verif Require Import Base.

(** The character after the text [before] is in line [fst at_] and column [snd at_]. *)
Definition is_at (before : list Z) (at_ : Z * Z) : Prop :=
  fst at_ = Z.of_nat (count_occ Z.eq_dec before 10) + 1 /\
  exists lines line, before = lines ++ line /\ ~ In 10 line /\ (lines = [] \/ exists r, lines = r ++ [10]) /\ snd at_ = Z.of_nat (List.length line) + 1.
