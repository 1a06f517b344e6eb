(** C66: the values and bounds the compiler derives for integer expressions are those of the values they have when objects are read and written.

    The full claim is [forall g w leaf e i v z, declarations_hold w leaf -> bounds g leaf e = Some i -> meaning w e = Ok v -> number_of v = Some z ->
    holds i z]; it is false of the code, see the refutations below. *)
From Verif Require Import Base ModelArray ModelSchema PyExpr ModelExpr SpecExpr ModelBounds SpecBounds BoundsProofs ExampleBounds.

(** C66: ... for expressions in which unary minus is for constants, only numbers that are not negative are shifted left, the number of bits shifted
    right is constant, numbits is not for zero and ~ not for a constant of a bitmask (missing: the other expressions, where it is false). *)
Theorem C66_bounds_partial : forall g w leaf e i v z, declarations_hold w leaf -> safe w (bounds g leaf) e -> bounds g leaf e = Some i ->
  meaning w e = Ok v -> number_of v = Some z -> holds i z.
Proof. exact (fun g w leaf e i v z H => bounds_hold g w leaf H e i v z). Qed.
Print Assumptions C66_bounds_partial.

(** The hypotheses hold of expressions with all kinds of operators *)
Example C66_bounds_used : forall x y z n, -128 <= x <= 127 -> 0 <= y <= 31 -> 0 <= z <= 1 ->
  (meaning (fields_world x y z) arithmetic = Ok (VInt n) -> -73 <= n <= 48) /\
  (meaning (fields_world x y z) shifts = Ok (VInt n) -> 0 <= n <= 14) /\
  (meaning (fields_world x y z) widths = Ok (VInt n) -> 1 <= n <= 45).
Proof.
  intros x y z n Hx Hy Hz. pose proof (fields_hold x y z Hx Hy Hz) as Hd.
  split; [|split]; intros Hn;
    [destruct (C66_bounds_partial _ _ _ _ _ _ n Hd (arithmetic_safe x y z) arithmetic_bounds Hn eq_refl) as (_ & H1 & H2)
    |destruct (C66_bounds_partial _ _ _ _ _ _ n Hd (shifts_safe x y z) shifts_bounds Hn eq_refl) as (_ & H1 & H2)
    |destruct (C66_bounds_partial _ _ _ _ _ _ n Hd (widths_safe x y z ltac:(lia)) widths_bounds Hn eq_refl) as (_ & H1 & H2)];
    split; (apply H1 || apply H2); reflexivity.
Qed.
Example C66_bounds_values : meaning (fields_world 127 31 0) arithmetic = Ok (VInt (-52)) /\ meaning (fields_world 0 31 1) shifts = Ok (VInt 14) /\
  meaning (fields_world 0 31 1) widths = Ok (VInt 45).
Proof. repeat split; reflexivity. Qed.

(** C66: a dynamic bit field is never longer than the compiler takes it to be, and its values are within the bounds the compiler gives to it. *)
Theorem C66_dynamic_bit_fields_partial : forall g w leaf e i m n (signed : bool) z, declarations_hold w leaf -> safe w (bounds g leaf) e ->
  bounds g leaf e = Some i -> max_bit_size i = Some m -> meaning w e = Ok (VInt n) -> 1 <= n <= 64 ->
  (if signed then - 2 ^ (n - 1) <= z < 2 ^ (n - 1) else 0 <= z < 2 ^ n) -> n <= m <= 64 /\ holds (dynamic_bounds signed m) z.
Proof. exact dynamic_field_holds. Qed.
Print Assumptions C66_dynamic_bit_fields_partial.
Example C66_dynamic_bit_fields_used : max_bit_size (between 0 14) = Some 14 /\ meaning (fields_world 0 20 1) shifts = Ok (VInt 10) /\
  holds (dynamic_bounds true 14) (-512).
Proof.
  split; [reflexivity|]. split; [reflexivity|].
  exact (proj2 (C66_dynamic_bit_fields_partial fields_scope _ _ shifts _ 14 10 true (-512) (fields_hold 0 20 1 ltac:(lia) ltac:(lia) ltac:(lia)) (shifts_safe 0 20 1)
    shifts_bounds eq_refl eq_refl ltac:(lia) ltac:(cbn; lia))).
Qed.

(** C66: the upper bound of numbits is right, also for zero. *)
Theorem C66_numbits_upper_bound : forall g w leaf e i u n, declarations_hold w leaf -> safe w (bounds g leaf) e ->
  bounds g leaf (ENumbits e) = Some i -> iv_upper i = Some u -> meaning w (ENumbits e) = Ok (VInt n) -> n <= u.
Proof. exact numbits_upper_bound. Qed.
Print Assumptions C66_numbits_upper_bound.
Example C66_numbits_upper_bound_used : bounds fields_scope fields_leaf (ENumbits (EName 1)) = Some (between 1 5) /\
  meaning (fields_world 0 0 0) (ENumbits (EName 1)) = Ok (VInt 0) /\ meaning (fields_world 0 31 0) (ENumbits (EName 1)) = Ok (VInt 5).
Proof. repeat split; reflexivity. Qed.

(** C66 fails for the bounds of [-y]: they are not exchanged. *)
Theorem C66_negation_refuted : exists y n, broken (EUn UMinus (EName 1)) 0 y 0 n.
Proof. exact (ex_intro _ _ (ex_intro _ _ negate_broken)). Qed.
Print Assumptions C66_negation_refuted.

(** C66 fails for [x << y] with a negative x: the lower bound is that of the smallest shift. *)
Theorem C66_shift_left_refuted : exists x y n, broken (EBin BShl (EName 0) (EName 1)) x y 0 n.
Proof. exact (ex_intro _ _ (ex_intro _ _ (ex_intro _ _ shift_left_broken))). Qed.
Print Assumptions C66_shift_left_refuted.

(** C66 fails for [(y + 1) >> z]: the upper bound is that of the largest shift. *)
Theorem C66_shift_right_refuted : exists y z n, broken (EBin BShr (EParen (EBin BAdd (EName 1) (ELit (VInt 1)))) (EName 2)) 0 y z n.
Proof. exact (ex_intro _ _ (ex_intro _ _ (ex_intro _ _ shift_right_broken))). Qed.
Print Assumptions C66_shift_right_refuted.

(** C66 fails for [numbits(0)]: 1 for the compiler, 0 for the code. *)
Theorem C66_numbits_refuted : exists n, broken (ENumbits (ELit (VInt 0))) 0 0 0 n.
Proof. exact (ex_intro _ _ numbits_broken). Qed.
Print Assumptions C66_numbits_refuted.

(** C66 fails for [valueof(~M.A)] with an item of a bitmask: the compiler takes it for a negative number. *)
Theorem C66_inverted_mask_refuted : exists n, broken (EValueof (EUn UTilde (EName 3))) 0 0 0 n.
Proof. exact (ex_intro _ _ invert_broken). Qed.
Print Assumptions C66_inverted_mask_refuted.

(** C66: the compiler fails for a conditional with a division by the constant zero that is not chosen. *)
Theorem C66_constant_division_refuted : exists g w leaf e z, meaning w e = Ok (VInt z) /\ bounds g leaf e = None.
Proof. exact (ex_intro _ _ (ex_intro _ _ (ex_intro _ fields_leaf (ex_intro _ _ (ex_intro _ _ (conj (proj2 division_fails) (proj1 division_fails))))))). Qed.
Print Assumptions C66_constant_division_refuted.

(** C66 fails for lengths of dynamic bit fields from 2^31: they are taken modulo 2^32. *)
Theorem C66_wide_length_refuted : exists g leaf n m, bounds g leaf (ELit (VInt n)) = Some (exactly n) /\ max_bit_size (exactly n) = Some m /\ n > 64 /\ m <= 64.
Proof. exact wide_length. Qed.
Print Assumptions C66_wide_length_refuted.
