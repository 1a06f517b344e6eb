(** Model of the expressions of the schema language as the compiler sees them, and of the Python code the generator emits for them:
    antlr/ZserioParser.g4:349-373 (tree), core/src/zserio/ast/Expression.java (types),
    core/src/zserio/extension/common/ExpressionFormatter.java and
    compiler/extensions/python/src/zserio/extension/python/PythonExpressionFormattingPolicy.java (code).

    Not modelled: float and string operators, templates, code of offset setters (the compile time evaluation of integer ranges is in
    [ModelBounds], the texts of literals are in [ModelLiterals]), and access paths (single names here, paths are in [ModelPaths]); literals are given by their value. *)
From Verif Require Import Base ModelArray ModelSchema PyExpr.

Inductive bop := BMul | BDiv | BMod | BAdd | BSub | BShl | BShr | BLt | BLe | BGt | BGe | BEq | BNe | BAnd | BXor | BOr | BLand | BLor.
Inductive uop := UPlus | UMinus | UBang | UTilde.
Inductive expr :=
| ELit (v : value)
| EName (n : nat)
| EFunc (n : nat)                (* f() *)
| EParen (a : expr)
| EDot (a : expr) (n : nat)
| EMethod (a : expr) (n : nat)   (* a.f() *)
| EIndex (a i : expr)
| EIsset (a b : expr)
| ELengthof (a : expr)
| EValueof (a : expr)
| ENumbits (a : expr)
| EUn (o : uop) (a : expr)
| EBin (o : bop) (a b : expr)
| ETern (c a b : expr).

(** Expression.ExpressionType together with the type of the schema *)
Inductive zty := TyInt | TyBool | TyEnum (id : nat) | TyMask (id : nat) | TyStr | TyBytes | TyArr (t : zty) | TyObj (id : nat).
Definition kind (t : zty) : nat :=
  (match t with TyInt => 0 | TyBool => 1 | TyEnum _ => 2 | TyMask _ => 3 | TyStr => 4 | TyBytes => 5 | TyArr _ => 6 | TyObj _ => 7 end)%nat.

(** Types of names, functions, fields and methods *)
Record scope := {
  s_name : nat -> option zty;
  s_func : nat -> option zty;
  s_attr : nat -> nat -> option zty;
  s_method : nat -> nat -> option zty
}.

Section Types.
Context (g : scope).

Definition lit_type (v : value) : option zty := match v with VInt _ => Some TyInt | VBool _ => Some TyBool | _ => None end.
(** Expression.java:1578-1596; arrays have the type UNKNOWN. *)
Definition same_type (t u : zty) : bool :=
  Nat.eqb (kind t) (kind u) && negb (Nat.eqb (kind t) 6) &&
  match t, u with
  | TyEnum a, TyEnum b | TyMask a, TyMask b | TyObj a, TyObj b => Nat.eqb a b
  | _, _ => true
  end.

(** Expression.java:1225-1616 *)
Definition un_type (o : uop) (t : zty) : option zty :=
  match o, t with
  | UPlus, TyInt | UMinus, TyInt => Some TyInt
  | UBang, TyBool => Some TyBool
  | UTilde, TyInt | UTilde, TyMask _ => Some t
  | _, _ => None
  end.
Definition bin_type (o : bop) (t u : zty) : option zty :=
  match o with
  | BMul | BDiv | BMod | BAdd | BSub | BShl | BShr => match t, u with TyInt, TyInt => Some TyInt | _, _ => None end
  | BAnd | BXor | BOr => match t, u with TyInt, TyInt => Some TyInt | TyMask _, TyMask _ => Some t | _, _ => None end
  | BLt | BLe | BGt | BGe | BEq | BNe =>
      if Nat.eqb (kind t) (kind u) && negb (Nat.eqb (kind t) 4) && negb (Nat.eqb (kind t) 6) then Some TyBool else None
  | BLand | BLor => match t, u with TyBool, TyBool => Some TyBool | _, _ => None end
  end.
Fixpoint type_of (e : expr) : option zty :=
  match e with
  | ELit v => lit_type v
  | EName n => s_name g n
  | EFunc n => s_func g n
  | EParen a => type_of a
  | EDot a n => match type_of a with Some (TyObj id) => s_attr g id n | _ => None end
  | EMethod a n => match type_of a with Some (TyObj id) => s_method g id n | _ => None end
  | EIndex a i => match type_of a, type_of i with Some (TyArr t), Some TyInt => Some t | _, _ => None end
  | EIsset a b => match type_of a, type_of b with Some (TyMask x), Some (TyMask y) => if Nat.eqb x y then Some TyBool else None | _, _ => None end
  | ELengthof a => match type_of a with Some (TyArr _) | Some TyStr | Some TyBytes => Some TyInt | _ => None end
  | EValueof a => match type_of a with Some (TyEnum _) | Some (TyMask _) => Some TyInt | _ => None end
  | ENumbits a => match type_of a with Some TyInt => Some TyInt | _ => None end
  | EUn o a => match type_of a with Some t => un_type o t | None => None end
  | EBin o a b => match type_of a, type_of b with Some t, Some u => bin_type o t u | _, _ => None end
  | ETern c a b =>
      match type_of c, type_of a, type_of b with
      | Some TyBool, Some t, Some u => if same_type t u then Some t else None
      | _, _, _ => None
      end
  end.

(** PythonExpressionFormattingPolicy.java:203-339 *)
Definition un_tok (o : uop) : tok := match o with UPlus => KOp OAdd | UMinus => KOp OSub | UBang => KNot | UTilde => KTilde end.
Definition bin_tok (o : bop) : tok :=
  match o with
  | BMul => KOp OMul | BDiv => KOp ODiv | BMod => KOp OMod | BAdd => KOp OAdd | BSub => KOp OSub
  | BShl => KOp OShl | BShr => KOp OShr | BLt => KCmp CLt | BLe => KCmp CLe | BGt => KCmp CGt | BGe => KCmp CGe
  | BEq => KCmp CEq | BNe => KCmp CNe | BAnd => KOp OAnd | BXor => KOp OXor | BOr => KOp OOr | BLand => KAnd | BLor => KOr
  end.

(** ExpressionFormatter.java:72-370 with PythonExpressionFormattingPolicy.java:48-351; [//] for / as all operands are integers *)
Fixpoint format (e : expr) : list tok :=
  match e with
  | ELit v => [KLit v]
  | EName n => [KName n]
  | EFunc n => [KName n; KLp; KRp]
  | EParen a => KLp :: format a ++ [KRp]
  | EDot a n => format a ++ [KDot (AField n)]
  | EMethod a n => format a ++ [KDot (AField n); KLp; KRp]
  | EIndex a i => format a ++ KLb :: format i ++ [KRb]
  | EIsset a b => KFun FIsset :: KLp :: format a ++ KComma :: format b ++ [KRp]
  | ELengthof a => KFun (match type_of a with Some TyStr => FLengthofString | _ => FLen end) :: KLp :: format a ++ [KRp]
  | EValueof a =>
      match type_of a with
      | Some (TyEnum _) => format a ++ [KDot AValue]
      | _ => KLp :: format a ++ [KRp; KDot AValue]
      end
  | ENumbits a => KFun FNumbits :: KLp :: format a ++ [KRp]
  | EUn o a => un_tok o :: format a
  | EBin o a b => format a ++ bin_tok o :: format b
  | ETern c a b => KLp :: format a ++ KRp :: KIf :: KLp :: format c ++ KRp :: KElse :: KLp :: format b ++ [KRp]
  end.
End Types.
