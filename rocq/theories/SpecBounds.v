(** What the values and bounds of an expression promise, and the expressions for which the compiler keeps the promise. *)
From Verif Require Import Base ModelArray ModelSchema PyExpr ModelExpr SpecExpr ModelBounds.

(** A known value is the value, known bounds are bounds. *)
Definition holds (i : ival) (z : Z) : Prop :=
  (forall c, iv_value i = Some c -> z = c) /\ (forall l, iv_lower i = Some l -> l <= z) /\ (forall u, iv_upper i = Some u -> z <= u).
(** The number behind a value *)
Definition number_of (v : value) : option Z := match v with VInt z | VEnum z | VMask z => Some z | _ => None end.

(** Declarations say the truth of names, fields, elements, lengths and functions. *)
Definition is_leaf (e : expr) : Prop :=
  match e with EName _ | EFunc _ | EDot _ _ | EMethod _ _ | EIndex _ _ | ELengthof _ => True | _ => False end.
Definition declarations_hold (w : world) (leaf : expr -> ival) : Prop :=
  forall e v z, is_leaf e -> meaning w e = Ok v -> number_of v = Some z -> holds (leaf e) z.

Definition int32 (z : Z) : Prop := - 2 ^ 31 <= z < 2 ^ 31.
Definition shift_fits (j : ival) : Prop := forall y, iv_value j = Some y \/ iv_lower j = Some y \/ iv_upper j = Some y -> int32 y.
Definition known (i : ival) : Prop := iv_value i <> None.

Section Safe.
Context (w : world) (bounds : expr -> option ival).
(** Expressions in which unary minus is for constants, only numbers that are not negative are shifted left, the number of bits shifted right
    is constant (in both cases 32 bits suffice for it), numbits is not for zero and ~ not for a constant of a bitmask *)
Fixpoint safe (e : expr) : Prop :=
  match e with
  | ELit _ | EName _ | EFunc _ => True
  | EDot _ _ | EMethod _ _ | EIndex _ _ | ELengthof _ => True
  | EIsset _ _ => True
  | EParen a | EValueof a | EUn UPlus a | EUn UBang a => safe a
  | ENumbits a => safe a /\ meaning w a <> Ok (VInt 0)
  | EUn UMinus a => safe a /\ forall i, bounds a = Some i -> known i \/ iv_lower i = None \/ iv_upper i = None
  | EUn UTilde a => safe a /\ forall i x, bounds a = Some i -> known i -> meaning w a <> Ok (VMask x)
  | EBin o a b =>
      safe a /\ safe b /\ forall i j, bounds a = Some i -> bounds b = Some j ->
      match o with
      | BShl => shift_fits j /\ ((known i /\ known j) \/ forall l, iv_lower i = Some l -> 0 <= l)
      | BShr => shift_fits j /\ ((known i /\ known j) \/ iv_lower j = iv_upper j)
      | _ => True
      end
  | ETern _ a b => safe a /\ safe b
  end.
End Safe.
