(** Examples of values and bounds of expressions. *)
From Verif Require Import Base ModelArray ModelSchema PyExpr ModelExpr SpecExpr ModelBounds SpecBounds.

(** Field 0 is an int:8, field 1 a bit:5 and field 2 a bit:1; name 3 is an item of a bitmask of 8 bits. *)
Definition fields_scope : scope := {| s_name := fun n => Some (if Nat.eqb n 3 then TyMask 0 else TyInt); s_func := fun _ => None; s_attr := fun _ _ => None; s_method := fun _ _ => None |}.
Definition fields_leaf (e : expr) : ival :=
  match e with
  | EName 0 => between (-128) 127
  | EName 1 => between 0 31
  | EName 2 => between 0 1
  | EName 3 => exactly 1
  | _ => unknown
  end.
Definition fields_world (x y z : Z) : world := {|
  k_name := fun n => match n with 0%nat => Ok (VInt x) | 1%nat => Ok (VInt y) | 2%nat => Ok (VInt z) | 3%nat => Ok (VMask 1) | _ => Raise AttributeErr end;
  k_func := fun _ => Raise AttributeErr; k_attr := fun _ _ => Raise AttributeErr; k_method := fun _ _ => Raise AttributeErr; k_eq := fun _ _ => Raise TypeErr;
  k_invert := fun m => Ok (VMask (Z.lxor m 255)) |}.
Lemma fields_hold x y z : -128 <= x <= 127 -> 0 <= y <= 31 -> 0 <= z <= 1 -> declarations_hold (fields_world x y z) fields_leaf.
Proof.
  intros Hx Hy Hz e v n Hl Hv Hn. destruct e as [|k| | | | | | | | | | | |]; try contradiction Hl;
    try (cbn [fields_leaf]; repeat split; intros ? E; discriminate E).
  cbn in Hv. destruct k as [|[|[|[|k]]]]; try discriminate Hv; injection Hv as <-; cbn in Hn; injection Hn as <-; repeat split; cbn; intros ? E; try discriminate E; injection E as <-; lia.
Qed.

(** (x + y * 3) / (z - 4) + y % 7 *)
Definition arithmetic : expr :=
  EBin BAdd (EParen (EBin BDiv (EParen (EBin BAdd (EName 0) (EBin BMul (EName 1) (ELit (VInt 3))))) (EParen (EBin BSub (EName 2) (ELit (VInt 4))))))
    (EBin BMod (EName 1) (ELit (VInt 7))).
(** y >> 2 << z, numbits(y + 1) and c ? y : 40 *)
Definition shifts : expr := EBin BShl (EBin BShr (EName 1) (ELit (VInt 2))) (EName 2).
Definition widths : expr := EBin BAdd (ENumbits (EBin BAdd (EName 1) (ELit (VInt 1)))) (ETern (EParen (EBin BLt (EName 0) (ELit (VInt 0)))) (EName 1) (ELit (VInt 40))).
Example arithmetic_bounds : bounds fields_scope fields_leaf arithmetic = Some (between (-73) 48).
Proof. reflexivity. Qed.
Example shifts_bounds : bounds fields_scope fields_leaf shifts = Some (between 0 14).
Proof. reflexivity. Qed.
Example widths_bounds : bounds fields_scope fields_leaf widths = Some (between 1 45).
Proof. reflexivity. Qed.
Lemma arithmetic_safe x y z : safe (fields_world x y z) (bounds fields_scope fields_leaf) arithmetic.
Proof. cbn. tauto. Qed.
Lemma shift_fits_between l u : int32 l -> int32 u -> shift_fits (between l u).
Proof. intros Hl Hu n [H|[H|H]]; cbn in H; [discriminate| |]; injection H as <-; assumption. Qed.
Lemma shifts_safe x y z : safe (fields_world x y z) (bounds fields_scope fields_leaf) shifts.
Proof.
  cbn [safe shifts]. split; [split; [exact I|split; [exact I|]]|split; [exact I|]]; intros i j Hi Hj; injection Hj as <-; split.
  - intros n [E|[E|E]]; cbn in E; injection E as <-; unfold int32; lia.
  - now right.
  - apply shift_fits_between; unfold int32; lia.
  - vm_compute in Hi. injection Hi as <-. right. cbn. intros l [= <-]. lia.
Qed.
Lemma widths_safe x y z : 0 <= y -> safe (fields_world x y z) (bounds fields_scope fields_leaf) widths.
Proof. intros Hy. cbn. repeat split; try exact I. intros [= H]. lia. Qed.

(** Where the promise is broken *)
Definition broken (e : expr) (x y z n : Z) : Prop :=
  declarations_hold (fields_world x y z) fields_leaf /\ meaning (fields_world x y z) e = Ok (VInt n) /\
  exists i, bounds fields_scope fields_leaf e = Some i /\ ~ holds i n.
Ltac breaks := split; [apply fields_hold; lia|split; [reflexivity|]]; eexists; (split; [reflexivity|]).
(** -y is said to be between 0 and -31 *)
Lemma negate_broken : broken (EUn UMinus (EName 1)) 0 5 0 (-5).
Proof. breaks. intros (_ & H & _). specialize (H 0 eq_refl). lia. Qed.
(** x << y is said to be at least -128. *)
Lemma shift_left_broken : broken (EBin BShl (EName 0) (EName 1)) (-1) 10 0 (-1024).
Proof. breaks. intros (_ & H & _). specialize (H (-128) eq_refl). lia. Qed.
(** (y + 1) >> z is said to be at most 16. *)
Lemma shift_right_broken : broken (EBin BShr (EParen (EBin BAdd (EName 1) (ELit (VInt 1)))) (EName 2)) 0 31 0 32.
Proof. breaks. intros (_ & _ & H). specialize (H 16 eq_refl). lia. Qed.
(** numbits(0) is said to be 1 *)
Lemma numbits_broken : broken (ENumbits (ELit (VInt 0))) 0 0 0 0.
Proof. breaks. intros (H & _). specialize (H 1 eq_refl). lia. Qed.
(** valueof(~M.A) is said to be -2. *)
Lemma invert_broken : broken (EValueof (EUn UTilde (EName 3))) 0 0 0 254.
Proof. breaks. intros (H & _). specialize (H (-2) eq_refl). lia. Qed.
(** z ? 1 / 0 : 2 makes the compiler fail. *)
Lemma division_fails : bounds fields_scope fields_leaf (ETern (EParen (EBin BEq (EName 2) (ELit (VInt 1)))) (EBin BDiv (ELit (VInt 1)) (ELit (VInt 0))) (ELit (VInt 2))) = None /\
  meaning (fields_world 0 0 0) (ETern (EParen (EBin BEq (EName 2) (ELit (VInt 1)))) (EBin BDiv (ELit (VInt 1)) (ELit (VInt 0))) (ELit (VInt 2))) = Ok (VInt 2).
Proof. split; reflexivity. Qed.
(** bit<4294967301> is taken for bit<5>. *)
Lemma wide_accepted : bounds fields_scope fields_leaf (ELit (VInt 4294967301)) = Some (exactly 4294967301) /\ max_bit_size (exactly 4294967301) = Some 5.
Proof. split; reflexivity. Qed.
Lemma wide_length : exists g leaf n m, bounds g leaf (ELit (VInt n)) = Some (exactly n) /\ max_bit_size (exactly n) = Some m /\ n > 64 /\ m <= 64.
Proof. exists fields_scope, fields_leaf, 4294967301, 5. destruct wide_accepted. repeat split; try assumption; lia. Qed.
