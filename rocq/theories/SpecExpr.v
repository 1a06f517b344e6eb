(** The meaning of expressions as the Zserio Language Overview gives it (doc/ZserioLanguageOverview.md:896-1110: "The semantics of expression
    and the precedence rules for operators is the same as in Java, except where stated otherwise"), on integers without
    bounds. *)
From Verif Require Import Base ModelArray ModelSchema PyExpr ModelExpr.

(** ** Trees the parser makes: an operator of lower precedence is an operand only in parentheses. *)
Definition bop_level (o : bop) : nat :=
  (match o with
   | BLor => 1 | BLand => 2 | BOr => 3 | BXor => 4 | BAnd => 5 | BEq | BNe => 6 | BLt | BLe | BGt | BGe => 7
   | BShl | BShr => 8 | BAdd | BSub => 9 | BMul | BDiv | BMod => 10
   end)%nat.
Definition level (e : expr) : nat :=
  match e with ETern _ _ _ => 0 | EBin o _ _ => bop_level o | EUn _ _ => 11 | _ => 12 end%nat.
Fixpoint shaped (e : expr) : Prop :=
  match e with
  | ELit _ | EName _ | EFunc _ => True
  | EParen a | ELengthof a | EValueof a | ENumbits a => shaped a
  | EDot a _ | EMethod a _ => level a = 12%nat /\ shaped a
  | EIndex a i => level a = 12%nat /\ shaped a /\ shaped i
  | EIsset a b => shaped a /\ shaped b
  | EUn _ a => (11 <= level a)%nat /\ shaped a
  | EBin o a b => (bop_level o <= level a)%nat /\ (bop_level o < level b)%nat /\ shaped a /\ shaped b
  | ETern c a b => (1 <= level c)%nat /\ shaped c /\ shaped a /\ shaped b
  end.

(** ** Values *)
Section Meaning.
Context (w : world).

Definition char_bytes (c : Z) : Z := if c <? 0x80 then 1 else if c <? 0x800 then 2 else if c <? 0x10000 then 3 else 4.
Fixpoint string_bytes (s : list Z) : Z := match s with [] => 0 | c :: s => char_bytes c + string_bytes s end.

Definition z_eq (v u : value) : res bool :=
  match v, u with
  | VInt x, VInt y | VEnum x, VEnum y | VMask x, VMask y => Ok (x =? y)
  | VBool x, VBool y => Ok (Bool.eqb x y)
  | _, _ => k_eq w v u
  end.
(** Division rounds towards zero, the remainder has the sign of the dividend. *)
Definition z_int (o : bop) (x y : Z) : res value :=
  match o with
  | BMul => Ok (VInt (x * y))
  | BDiv => if y =? 0 then Raise ZeroDivErr else Ok (VInt (Z.quot x y))
  | BMod => if y =? 0 then Raise ZeroDivErr else Ok (VInt (Z.rem x y))
  | BAdd => Ok (VInt (x + y))
  | BSub => Ok (VInt (x - y))
  | BShl => if y <? 0 then Raise ValueErr else Ok (VInt (x * 2 ^ y))
  | BShr => if y <? 0 then Raise ValueErr else Ok (VInt (x / 2 ^ y))
  | BLt => Ok (VBool (x <? y))
  | BLe => Ok (VBool (x <=? y))
  | BGt => Ok (VBool (x >? y))
  | BGe => Ok (VBool (x >=? y))
  | BAnd => Ok (VInt (Z.land x y))
  | BXor => Ok (VInt (Z.lxor x y))
  | BOr => Ok (VInt (Z.lor x y))
  | _ => Raise TypeErr
  end.
Definition z_bin (o : bop) (v u : value) : res value :=
  match o, v, u with
  | BEq, _, _ => b <-? z_eq v u ;; Ok (VBool b)
  | BNe, _, _ => b <-? z_eq v u ;; Ok (VBool (negb b))
  | _, VInt x, VInt y => z_int o x y
  | BAnd, VMask x, VMask y => Ok (VMask (Z.land x y))
  | BXor, VMask x, VMask y => Ok (VMask (Z.lxor x y))
  | BOr, VMask x, VMask y => Ok (VMask (Z.lor x y))
  | _, _, _ => Raise TypeErr
  end.
Definition z_un (o : uop) (v : value) : res value :=
  match o, v with
  | UPlus, VInt x => Ok v
  | UMinus, VInt x => Ok (VInt (- x))
  | UBang, VBool b => Ok (VBool (negb b))
  | UTilde, VInt x => Ok (VInt (- x - 1))
  | UTilde, VMask x => k_invert w x
  | _, _ => Raise TypeErr
  end.

Fixpoint meaning (e : expr) : res value :=
  match e with
  | ELit v => Ok v
  | EName n => k_name w n
  | EFunc n => k_func w n
  | EParen a => meaning a
  | EDot a n => v <-? meaning a ;; k_attr w v n
  | EMethod a n => v <-? meaning a ;; k_method w v n
  | EIndex a i =>
      v <-? meaning a ;; u <-? meaning i ;;
      match v, u with
      | VArray l, VInt z => if z <? 0 then Raise IndexErr else match nth_error l (Z.to_nat z) with Some x => Ok x | None => Raise IndexErr end
      | _, _ => Raise TypeErr
      end
  | EIsset a b =>
      v <-? meaning a ;; u <-? meaning b ;;
      match v, u with VMask x, VMask y => Ok (VBool (Z.land x y =? y)) | _, _ => Raise TypeErr end
  | ELengthof a =>
      v <-? meaning a ;;
      match v with
      | VArray l => Ok (VInt (zlen l))
      | VBytes l => Ok (VInt (zlen l))
      | VStr s => if forallb (fun c => (0 <=? c) && (c <? 0x110000) && negb ((0xD800 <=? c) && (c <=? 0xDFFF))) s then Ok (VInt (string_bytes s)) else Raise UnicodeErr
      | _ => Raise TypeErr
      end
  | EValueof a => v <-? meaning a ;; match v with VEnum z | VMask z => Ok (VInt z) | _ => Raise TypeErr end
  | ENumbits a =>
      v <-? meaning a ;;
      match v with
      | VInt z => if z <? 0 then Raise ValueErr else Ok (VInt (if z =? 0 then 0 else Z.max 1 (Z.log2_up z)))
      | _ => Raise TypeErr
      end
  | EUn o a => v <-? meaning a ;; z_un o v
  | EBin BLand a b => v <-? meaning a ;; match v with VBool true => meaning b | VBool false => Ok v | _ => Raise TypeErr end
  | EBin BLor a b => v <-? meaning a ;; match v with VBool true => Ok v | VBool false => meaning b | _ => Raise TypeErr end
  | EBin o a b => v <-? meaning a ;; u <-? meaning b ;; z_bin o v u
  | ETern c a b => v <-? meaning c ;; match v with VBool true => meaning a | VBool false => meaning b | _ => Raise TypeErr end
  end.

(** In every division and remainder the operands have the same sign or the division is exact. *)
Fixpoint divisions_agree (e : expr) : Prop :=
  match e with
  | ELit _ | EName _ | EFunc _ => True
  | EParen a | ELengthof a | EValueof a | ENumbits a | EDot a _ | EMethod a _ | EUn _ a => divisions_agree a
  | EIndex a b | EIsset a b => divisions_agree a /\ divisions_agree b
  | EBin o a b =>
      divisions_agree a /\ divisions_agree b /\
      (o = BDiv \/ o = BMod -> forall x y, meaning a = Ok (VInt x) -> meaning b = Ok (VInt y) -> 0 <= x * y \/ (y | x))
  | ETern c a b => divisions_agree c /\ divisions_agree a /\ divisions_agree b
  end.
End Meaning.

(** ** Values of a type, and worlds that keep to a scope; [obj] says which objects are of a compound type *)
Section Types.
Context (obj : nat -> value -> Prop).
Definition is_object (v : value) : Prop := match v with VStruct _ _ _ _ | VChoice _ _ _ | VUnion _ _ _ _ | VBits _ => True | _ => False end.
Fixpoint has_type (v : value) (t : zty) {struct t} : Prop :=
  match t with
  | TyInt => exists z, v = VInt z
  | TyBool => exists b, v = VBool b
  | TyEnum _ => exists z, v = VEnum z
  | TyMask _ => exists z, v = VMask z
  | TyStr => exists s, v = VStr s
  | TyBytes => exists l, v = VBytes l
  | TyArr t => exists l, v = VArray l /\ Forall (fun x => has_type x t) l
  | TyObj id => is_object v /\ obj id v
  end.
Definition world_ok (g : scope) (w : world) : Prop :=
  (forall n t v, s_name g n = Some t -> k_name w n = Ok v -> has_type v t) /\
  (forall n t v, s_func g n = Some t -> k_func w n = Ok v -> has_type v t) /\
  (forall id n t x v, s_attr g id n = Some t -> has_type x (TyObj id) -> k_attr w x n = Ok v -> has_type v t) /\
  (forall id n t x v, s_method g id n = Some t -> has_type x (TyObj id) -> k_method w x n = Ok v -> has_type v t) /\
  (forall x v, k_invert w x = Ok v -> exists z, v = VMask z).
End Types.

(** ** Expressions that survive the change of precedence *)
Definition is_comparison (e : expr) : bool :=
  match e with EBin o _ _ => match o with BLt | BLe | BGt | BGe | BEq | BNe => true | _ => false end | _ => false end.
Definition is_negation (e : expr) : bool := match e with EUn UBang _ => true | _ => false end.
Definition is_conditional (e : expr) : bool := match e with ETern _ _ _ => true | _ => false end.

Fixpoint plain (g : scope) (e : expr) : Prop :=
  match e with
  | ELit _ | EName _ | EFunc _ => True
  | EParen a | ELengthof a | ENumbits a | EDot a _ | EMethod a _ | EUn _ a => plain g a
  | EValueof a => plain g a /\ (is_conditional a = true -> exists id, type_of g a = Some (TyMask id))
  | EIndex a b | EIsset a b => plain g a /\ plain g b
  | EBin o a b =>
      plain g a /\ plain g b /\
      match o with
      | BEq | BNe =>
          is_comparison a = false /\ is_comparison b = false /\ is_negation b = false /\ type_of g a = type_of g b
      | BLt | BLe | BGt | BGe => type_of g a = Some TyInt
      | _ => True
      end
  | ETern c a b => plain g c /\ plain g a /\ plain g b
  end.
