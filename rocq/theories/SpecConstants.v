(** When values of constants and initializers are safe from the differences between compiler and Python. *)
From Verif Require Import Base SpecHistory SpecArray ModelWriter ModelArray ModelSchema PyExpr ModelExpr SpecExpr ModelCompile SpecCompile ModelConstants.

(** Literals, names of constants and operators; no conditional.  Numbers of bits shifted are from 0 to 2^31-1, numbits is for positive
    numbers, divisions are exact or of operands of the same sign. *)
Section Steady.
Context (w : world).
Definition value_in (e : expr) (P : Z -> Prop) : Prop := forall z, meaning w e = Ok (VInt z) -> P z.
Fixpoint steady (e : expr) : Prop :=
  match e with
  | ELit _ | EName _ => True
  | EParen a | EUn _ a => steady a
  | ENumbits a => steady a /\ value_in a (fun z => 0 < z)
  | EBin o a b =>
      steady a /\ steady b /\
      match o with
      | BShl | BShr => value_in b (fun y => 0 <= y < 2 ^ 31)
      | BDiv | BMod => forall x y, meaning w a = Ok (VInt x) -> meaning w b = Ok (VInt y) -> 0 <= x * y \/ (y | x)
      | _ => True
      end
  | _ => False
  end.
End Steady.
(** ... and the comparisons are such that Python reads them as the schema language does *)
Definition simple (ts : list btype) (vs : list value) (e : expr) : Prop :=
  shaped e /\ plain (constants_scope ts) e /\ steady (constants_world vs) e.
(** All constants of a list are like this, with the values the language gives to those before them *)
Fixpoint all_simple (ts : list btype) (vs : list value) (cs : list constant) : Prop :=
  match cs with
  | [] => True
  | c :: cs => simple ts vs (snd c) /\ forall v, meaning (constants_world vs) (snd c) = Ok v -> all_simple (ts ++ [fst c]) (vs ++ [v]) cs
  end.

(** A value of the type of a constant: one that a field of the type can hold *)
Definition value_of_type (ty : btype) (v : value) : Prop :=
  match documented_kind ty with
  | Some (EInt k) => exists z, v = VInt z /\ in_range k z
  | Some EBool => exists b, v = VBool b
  | _ => False
  end.
(** Writing the value as this type succeeds, wherever the writer is. *)
Definition can_be_written (k : ikind) (z : Z) : Prop := forall w, reachable w -> exists w', tr_write (int_traits k) z w = (Ok tt, w').
Definition cannot_be_written (k : ikind) (z : Z) : Prop := forall w, tr_write (int_traits k) z w = (Raise RuntimeExc, w).
