(** Model of the checks of values of constants and initializers of fields, and of the Python
    modules generated for constants:
    core/src/zserio/ast/FixedBitFieldType.java:23-37, IntegerType.java:52-73, Constant.java:79-97, Field.java:290-302,
    ExpressionUtil.java:20-134, Expression.java:1663-1830,
    compiler/extensions/python/freemarker/Constant.py.ftl.

    Simplified: constants are numbered in an order in which each one uses only earlier ones (the compiler evaluates them on demand,
    Expression.java:1739-1741), a name stands for the constant whatever package it is from; constants and initializers of float, string, enum and
    bitmask types are left out. *)
From Verif Require Import Base SpecStream ModelArray ModelSchema PyExpr ModelExpr ModelBounds ModelCompile.

(** ** Types *)
(** StdIntegerType.java:24-69, FixedBitFieldType.java:24-37; [false] is an exception of the parser *)
Definition type_exists (ty : btype) : bool := match ty with JFixed _ n => negb ((n <? 1) || (n >? 64)) | _ => true end.

(** ** Checks of the compiler *)
(** ExpressionUtil.java:48-67; only known values are checked *)
Definition range_checked (lower upper : Z) (i : ival) : bool :=
  match iv_value i with Some z => negb ((z <? lower) || (z >? upper)) | None => true end.
(** Constant.java:92-96 and Field.java:294-301, for an integer type with the given bounds; [None] is an exception *)
Definition check_integer (g : scope) (leaf : expr -> ival) (lower upper : Z) (e : expr) : option ival :=
  match type_of g e with
  | Some TyInt => match bounds g leaf e with Some i => if range_checked lower upper i then Some i else None | None => None end
  | _ => None
  end.
(** ExpressionUtil.java:125-128 *)
Definition check_boolean (g : scope) (leaf : expr -> ival) (e : expr) : option ival :=
  match type_of g e with Some TyBool => bounds g leaf e | _ => None end.

(** [const uint8 NAME = e;] and the like *)
Definition constant : Type := btype * expr.
(** Expression.java:1702-1746: the type of the name of a constant, and its value and bounds, which are those of its expression *)
Definition constants_scope (ts : list btype) : scope := {|
  s_name := fun n => match nth_error ts n with Some (JStd _) | Some (JFixed _ _) | Some (JVar _) => Some TyInt | Some JBool => Some TyBool | _ => None end;
  s_func := fun _ => None; s_attr := fun _ _ => None; s_method := fun _ _ => None |}.
Definition constants_leaf (vs : list ival) (e : expr) : ival := match e with EName n => nth n vs unknown | _ => unknown end.
Definition check_constant (ts : list btype) (vs : list ival) (c : constant) : option ival :=
  let g := constants_scope ts in
  let leaf := constants_leaf vs in
  if type_exists (fst c)
  then match fst c with
       | JBool => check_boolean g leaf (snd c)
       | ty => match java_bounds ty with Some (lo, hi) => check_integer g leaf lo hi (snd c) | None => None end
       end
  else None.
Fixpoint check_constants (ts : list btype) (vs : list ival) (cs : list constant) : option (list btype * list ival) :=
  match cs with
  | [] => Some (ts, vs)
  | c :: cs => match check_constant ts vs c with Some i => check_constants (ts ++ [fst c]) (vs ++ [i]) cs | None => None end
  end.

(** Field.java:290-302; for [bit<e>] and [int<e>] IntegerType.java:52-73 with DynamicBitFieldInstantiation.java:107-162.  The length may use
    fields: their scope and bounds are [g] and [leaf]; the initializer must not (Field.java:297-298), its scope is that of the constants. *)
Definition check_initializer (ts : list btype) (vs : list ival) (g : scope) (leaf : expr -> ival) (ty : btype) (e : expr) : option ival :=
  match ty with
  | JDyn signed length =>
      match type_of g length, bounds g leaf length with
      | Some TyInt, Some l =>
          match max_bit_size l with
          | Some m =>
              match iv_lower (dynamic_bounds signed m), iv_upper (dynamic_bounds signed m) with
              | Some lo, Some hi => check_integer (constants_scope ts) (constants_leaf vs) lo hi e
              | _, _ => None
              end
          | None => None
          end
      | _, _ => None
      end
  | _ => check_constant ts vs (ty, e)
  end.
(** ** The generated code *)
(** Constant.py.ftl:6: modules of constants run when they are imported, those they use before them; names are the values of the constants *)
Definition constants_world (vs : list value) : world := {|
  k_name := fun n => match nth_error vs n with Some v => Ok v | None => Raise AttributeErr end;
  k_func := fun _ => Raise AttributeErr; k_attr := fun _ _ => Raise AttributeErr; k_method := fun _ _ => Raise AttributeErr;
  k_eq := fun _ _ => Ok false; k_invert := fun _ => Raise ValueErr |}.
(** [evaluates ts vs e v]: the code of [e] is a Python expression and has the value [v] *)
Definition evaluates (ts : list btype) (vs : list value) (e : expr) (v : value) : Prop :=
  exists p, is_expression (format (constants_scope ts) e) p /\ py_eval (constants_world vs) p = Ok v.
Inductive imported : list btype -> list value -> list constant -> list value -> Prop :=
| imported_nil : forall ts vs, imported ts vs [] vs
| imported_cons : forall ts vs c cs v vs', evaluates ts vs (snd c) v -> imported (ts ++ [fst c]) (vs ++ [v]) cs vs' -> imported ts vs (c :: cs) vs'.
