(** Model of the values and bounds the compiler calculates for integer expressions:
    core/src/zserio/ast/ExpressionIntegerValue.java and the evaluation of core/src/zserio/ast/Expression.java:655-715, 983-1616, and of
    what it does with them for dynamic bit fields (core/src/zserio/ast/DynamicBitFieldInstantiation.java:107-162).

    Not modelled: the flag needsBigInteger (it concerns Java code only), templates, floats and strings.  What the compiler knows of names,
    fields, elements, lengths and calls of functions comes from their declarations and is given by [leaf]. *)
From Verif Require Import Base ModelArray ModelSchema PyExpr ModelExpr.

(** ExpressionIntegerValue.java:20-86, null is [None] *)
Record ival := { iv_value : option Z; iv_lower : option Z; iv_upper : option Z }.
Definition unknown : ival := {| iv_value := None; iv_lower := None; iv_upper := None |}.
Definition exactly (z : Z) : ival := {| iv_value := Some z; iv_lower := Some z; iv_upper := Some z |}.
Definition between (lo hi : Z) : ival := {| iv_value := None; iv_lower := Some lo; iv_upper := Some hi |}.

(** The common form of the operators: values if both are known, bounds if all four are known *)
Definition combine (a b : ival) (values : Z -> Z -> ival) (bounds : Z -> Z -> Z -> Z -> ival) : ival :=
  match iv_value a, iv_value b with
  | Some x, Some y => values x y
  | _, _ =>
      match iv_lower a, iv_upper a, iv_lower b, iv_upper b with
      | Some la, Some ua, Some lb, Some ub => bounds la ua lb ub
      | _, _, _, _ => unknown
      end
  end.
(** BigInteger.intValue *)
Definition int_value (z : Z) : Z := (z + 2 ^ 31) mod 2 ^ 32 - 2 ^ 31.
(** ExpressionIntegerValue.java:503-530, the minimum and maximum of what was added *)
Definition min_max (x : Z) (l : list Z) : ival := between (fold_left Z.min l x) (fold_left Z.max l x).

(** ExpressionIntegerValue.java:135-144 *)
Definition iv_negate (a : ival) : ival :=
  match iv_value a with
  | Some x => exactly (- x)
  | None => match iv_lower a, iv_upper a with Some l, Some u => between (- l) (- u) | _, _ => unknown end
  end.
(** ExpressionIntegerValue.java:153-167 *)
Definition iv_add (a b : ival) : ival := combine a b (fun x y => exactly (x + y)) (fun la ua lb ub => between (la + lb) (ua + ub)).
(** ExpressionIntegerValue.java:176-190 *)
Definition iv_subtract (a b : ival) : ival := combine a b (fun x y => exactly (x - y)) (fun la ua lb ub => between (la - ub) (ua - lb)).
(** ExpressionIntegerValue.java:199-218 *)
Definition iv_multiply (a b : ival) : ival :=
  combine a b (fun x y => exactly (x * y)) (fun la ua lb ub => min_max (la * lb) [la * ub; ua * lb; ua * ub]).
(** ExpressionIntegerValue.java:227-269; BigInteger.divide rounds towards zero; a constant division by zero raises ArithmeticException *)
Definition iv_divide (a b : ival) : option ival :=
  match iv_value a, iv_value b with
  | Some x, Some y => if y =? 0 then None else Some (exactly (Z.quot x y))
  | _, _ =>
      Some (match iv_lower a, iv_upper a, iv_lower b, iv_upper b with
            | Some la, Some ua, Some lb, Some ub =>
                if negb (lb =? 0) || negb (ub =? 0)
                then let lb' := if lb =? 0 then 1 else lb in
                     let ub' := if ub =? 0 then -1 else ub in
                     min_max (Z.quot la lb')
                       ([Z.quot la ub'; Z.quot ua lb'; Z.quot ua ub'] ++ if (lb' <=? 0) && (0 <=? ub') then [la; ua; - la; - ua] else [])
                else unknown
            | _, _, _, _ => unknown
            end)
  end.
(** ExpressionIntegerValue.java:278-297 *)
Definition iv_remainder (a b : ival) : option ival :=
  match iv_value a, iv_value b with
  | Some x, Some y => if y =? 0 then None else Some (exactly (Z.rem x y))
  | _, _ =>
      Some (match iv_lower a, iv_lower b with
            | Some la, Some lb =>
                if (0 <=? la) && (0 <? lb)
                then {| iv_value := None; iv_lower := Some 0; iv_upper := match iv_upper b with Some ub => Some (ub - 1) | None => None end |}
                else unknown
            | _, _ => unknown
            end)
  end.
(** ExpressionIntegerValue.java:306-319; BigInteger.shiftLeft of a negative number of bits shifts right, as [Z.shiftl] does *)
Definition iv_shift_left (a b : ival) : ival :=
  combine a b (fun x y => exactly (Z.shiftl x (int_value y))) (fun la ua lb ub => between (Z.shiftl la (int_value lb)) (Z.shiftl ua (int_value ub))).
(** ExpressionIntegerValue.java:328-341 *)
Definition iv_shift_right (a b : ival) : ival :=
  combine a b (fun x y => exactly (Z.shiftr x (int_value y))) (fun la ua lb ub => between (Z.shiftr la (int_value lb)) (Z.shiftr ua (int_value ub))).
(** ExpressionIntegerValue.java:350-367 *)
Definition iv_and (a b : ival) : ival :=
  match iv_value a, iv_value b with
  | Some x, Some y => exactly (Z.land x y)
  | _, _ =>
      match iv_lower b with
      | Some lb => if 0 <=? lb then {| iv_value := None; iv_lower := Some 0; iv_upper := iv_upper b |} else unknown
      | None => unknown
      end
  end.
(** ExpressionIntegerValue.java:376-399 *)
Definition iv_or (a b : ival) : ival := match iv_value a, iv_value b with Some x, Some y => exactly (Z.lor x y) | _, _ => unknown end.
Definition iv_xor (a b : ival) : ival := match iv_value a, iv_value b with Some x, Some y => exactly (Z.lxor x y) | _, _ => unknown end.
(** ExpressionIntegerValue.java:406-412 *)
Definition iv_not (a : ival) : ival := match iv_value a with Some x => exactly (Z.lnot x) | None => unknown end.
(** ExpressionIntegerValue.java:494-501; BigInteger.bitLength of a number that is not negative *)
Definition get_num_bits (z : Z) : Z := if z <? 2 then 1 else Z.log2 (z - 1) + 1.
(** ExpressionIntegerValue.java:419-428 *)
Definition iv_numbits (a : ival) : ival :=
  match iv_value a with
  | Some x => exactly (get_num_bits x)
  | None => match iv_lower a, iv_upper a with Some l, Some u => between (get_num_bits l) (get_num_bits u) | _, _ => unknown end
  end.
(** ExpressionIntegerValue.java:437-449 *)
Definition iv_conditional (a b : ival) : ival :=
  combine a b (fun x y => between (Z.min x y) (Z.max x y)) (fun la ua lb ub => between (Z.min la lb) (Z.max ua ub)).

Section Bounds.
Context (g : scope) (leaf : expr -> ival).

(** Expression.java:1386-1500 *)
Definition bin_bounds (o : bop) (a b : ival) : option ival :=
  match o with
  | BAdd => Some (iv_add a b)
  | BSub => Some (iv_subtract a b)
  | BMul => Some (iv_multiply a b)
  | BDiv => iv_divide a b
  | BMod => iv_remainder a b
  | BShl => Some (iv_shift_left a b)
  | BShr => Some (iv_shift_right a b)
  | BAnd => Some (iv_and a b)
  | BOr => Some (iv_or a b)
  | BXor => Some (iv_xor a b)
  | BLt | BLe | BGt | BGe | BEq | BNe | BLand | BLor => Some unknown
  end.
(** Expression.java:655-715 with the functions it calls; [None] is an exception.  Operands are evaluated first (ZserioAstEvaluator.java). *)
Fixpoint bounds (e : expr) : option ival :=
  match e with
  | ELit (VInt z) => Some (exactly z)
  | ELit _ => Some unknown
  | EName _ | EFunc _ => Some (leaf e)
  | EDot a _ | EMethod a _ => match bounds a with Some _ => Some (leaf e) | None => None end
  | EIndex a i => match bounds a, bounds i with Some _, Some _ => Some (leaf e) | _, _ => None end
  | ELengthof a => match bounds a with Some _ => Some (leaf e) | None => None end
  | EIsset a b => match bounds a, bounds b with Some _, Some _ => Some unknown | _, _ => None end
  | EParen a | EValueof a | EUn UPlus a => bounds a
  | ENumbits a => option_map iv_numbits (bounds a)
  | EUn UMinus a => option_map iv_negate (bounds a)
  | EUn UTilde a => option_map iv_not (bounds a)
  | EUn UBang a => option_map (fun _ => unknown) (bounds a)
  | EBin o a b => match bounds a, bounds b with Some x, Some y => bin_bounds o x y | _, _ => None end
  | ETern c a b =>
      match bounds c, bounds a, bounds b with
      | Some _, Some x, Some y => Some (match type_of g a with Some TyInt => iv_conditional x y | _ => unknown end)
      | _, _, _ => None
      end
  end.

(** DynamicBitFieldInstantiation.java:124-143; MAX_BIT_SIZE is 64 *)
Definition max_bit_size (length : ival) : option Z :=
  match iv_value length with
  | Some z => let n := int_value z in if (n <? 1) || (n >? 64) then None else Some n
  | None => match iv_upper length with Some u => if u >? 64 then Some 64 else Some (int_value u) | None => Some 64 end
  end.
(** DynamicBitFieldInstantiation.java:145-159, what the compiler knows of the values of a dynamic bit field *)
Definition dynamic_bounds (signed : bool) (bits : Z) : ival :=
  if signed then between (- Z.shiftl 1 (bits - 1)) (Z.shiftl 1 (bits - 1) - 1) else between 0 (Z.shiftl 1 bits - 1).
End Bounds.
