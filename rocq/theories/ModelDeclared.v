(** Model of what the compiler knows of the values of names, fields, elements, lengths and calls of functions from their declarations:
    core/src/zserio/ast/Expression.java:983-1065, 1180-1211, 1251-1296, 1612-1830, DynamicBitFieldInstantiation.java:107-162,
    DynamicBitFieldType.java:24-37.  This is the [leaf] of [ModelBounds].

    Simplified:
    - Evaluation is on demand and recursive; [fuel] bounds its depth.  Where an expression is not evaluated (an exception, or no fuel left),
      nothing is known of it.
    - Declarations are those of [ModelCompile], where parameters have no integer types and constants no expressions: [extra] has them.  A parameter
      of the type [JDyn s _] is one of the type bit or int without a length.
    - Values of strings are known for literals, constants and calls of functions; operators on strings are left out. *)
From Verif Require Import Base SpecStream ModelArray ModelSchema PyExpr ModelExpr ModelBounds ModelCompile.

Record extra := {
  d_param : nat -> nat -> option btype;   (* types of parameters *)
  d_const : nat -> option expr;           (* expressions of constants *)
  d_package : nat                         (* the scope of expressions of constants *)
}.

(** Expression.java:1808-1814: the limits of the type *)
Definition type_bounds (ty : btype) : ival := match java_bounds ty with Some (lo, hi) => between lo hi | None => unknown end.
(** Expression.java:1667-1671, 1757-1760: parameters have a type, not an instantiation of it *)
Definition reference_bounds (ty : btype) : ival := match ty with JDyn s _ => dynamic_bounds s 64 | _ => type_bounds ty end.
(** VarIntegerType.java:155-156 *)
Definition varsize_bounds : ival := between (var_lower VarSize) (var_upper VarSize).
(** String.getBytes(UTF_8): a surrogate on its own becomes a question mark *)
Definition java_utf8_length (s : list Z) : Z :=
  fold_right (fun c n => (if c <? 0x80 then 1 else if c <? 0x800 then 2 else if (0xD800 <=? c) && (c <=? 0xDFFF) then 1 else if c <? 0x10000 then 3 else 4) + n) 0 s.

Section Declared.
Context (S : source) (X : extra).

(** Scope.findSymbol in a compound type: a parameter or a field *)
Inductive symbol := SyParam | SyField (f : sfield).
Definition member_symbol (id n : nat) : option symbol :=
  match src_types S id with
  | None => None
  | Some c =>
      match position (fun p => Nat.eqb (fst p) n) (c_params c) with
      | Some _ => Some SyParam
      | None => match position (fun f => Nat.eqb (a_name f) n) (body_fields (c_body c)) with Some (_, f) => Some (SyField f) | None => None end
      end
  end.

(** Expression.symbolInstantiation where it is an array: the field and the compound type it is in *)
Fixpoint array_of (id : nat) (e : expr) : option (nat * sfield) :=
  match e with
  | EName n =>
      if Nat.eqb n (src_index S) then None
      else match member_symbol id n with Some (SyField f) => if a_arr f then Some (id, f) else None | _ => None end
  | EParen a => array_of id a
  | EDot a n =>
      match type_of (scope_of S id) a with
      | Some (TyObj j) => match member_symbol j n with Some (SyField f) => if a_arr f then Some (j, f) else None | _ => None end
      | _ => None
      end
  | _ => None
  end.
(** Expression.expressionStringValue *)
Fixpoint string_value (fuel : nat) (id : nat) (e : expr) {struct fuel} : option (list Z) :=
  match fuel with
  | O => None
  | Datatypes.S fuel =>
      match e with
      | ELit (VStr s) => Some s
      | EParen a => string_value fuel id a
      | EName n =>
          match name_ref S id n, d_const X n with Some (RConst _), Some c => string_value fuel (d_package X) c | _, _ => None end
      | EFunc n => match func_of S id n with Some (_, b) => string_value fuel id b | None => None end
      | EMethod a n =>
          match type_of (scope_of S id) a with
          | Some (TyObj j) => match func_of S j n with Some (_, b) => string_value fuel j b | None => None end
          | _ => None
          end
      | _ => None
      end
  end.

Section Step.
Context (bounds_of : nat -> expr -> option ival).
Definition bounds_or_unknown (id : nat) (e : expr) : ival := match bounds_of id e with Some i => i | None => unknown end.
(** Expression.java:1795-1814, DynamicBitFieldInstantiation.java:124-159 *)
Definition instantiation_bounds (id : nat) (ty : btype) : ival :=
  match ty with
  | JDyn s length =>
      match bounds_of id length with
      | Some i => match max_bit_size i with Some m => dynamic_bounds s m | None => unknown end
      | None => unknown
      end
  | _ => type_bounds ty
  end.
(** Expression.java:1201-1210, 1662-1671 *)
Definition member_bounds (id n : nat) : ival :=
  match member_symbol id n with
  | Some SyParam => match d_param X id n with Some ty => reference_bounds ty | None => unknown end
  | Some (SyField f) => if a_arr f then unknown else instantiation_bounds id (a_ty f)
  | None => unknown
  end.
(** Expression.java:1032-1036 *)
Definition call_bounds (id n : nat) : ival := match func_of S id n with Some (_, b) => bounds_or_unknown id b | None => unknown end.
(** Expression.java:1251-1296 *)
Definition length_bounds (known_string : nat -> expr -> option (list Z)) (id : nat) (a : expr) : ival :=
  match array_of id a with
  | Some (j, f) =>
      match a_arr f with
      | Some (LExpr e, _) => match iv_value (bounds_or_unknown j e) with Some z => exactly z | None => varsize_bounds end
      | _ => varsize_bounds
      end
  | None =>
      match type_of (scope_of S id) a with
      | Some TyStr => match known_string id a with Some s => exactly (java_utf8_length s) | None => varsize_bounds end
      | Some TyBytes => varsize_bounds
      | _ => unknown
      end
  end.
End Step.

(** Expression.java:1010-1064, 1180-1211, 1612-1692, 1735-1747.  The index of an array has no bounds; items of enums and values of bitmasks have their value. *)
Fixpoint leaf_bounds (fuel : nat) (id : nat) (e : expr) {struct fuel} : ival :=
  match fuel with
  | O => unknown
  | Datatypes.S fuel =>
      let bounds_of := fun id e => bounds (scope_of S id) (leaf_bounds fuel id) e in
      match e with
      | EName n =>
          match name_ref S id n with
          | Some RIndex | None => unknown
          | Some (RConst v) =>
              match d_const X n with
              | Some c => bounds_or_unknown bounds_of (d_package X) c
              | None => match v with VEnum z | VMask z => exactly z | _ => unknown end
              end
          | Some _ => member_bounds bounds_of id n
          end
      | EFunc n => call_bounds bounds_of id n
      | EDot a n => match type_of (scope_of S id) a with Some (TyObj j) => member_bounds bounds_of j n | _ => unknown end
      | EMethod a n => match type_of (scope_of S id) a with Some (TyObj j) => call_bounds bounds_of j n | _ => unknown end
      | EIndex a _ => match array_of id a with Some (j, f) => instantiation_bounds bounds_of j (a_ty f) | None => unknown end
      | ELengthof a => length_bounds bounds_of (string_value fuel) id a
      | _ => unknown
      end
  end.
(** What the compiler knows of an expression in a compound type *)
Definition declared_bounds (fuel : nat) (id : nat) (e : expr) : option ival := bounds (scope_of S id) (leaf_bounds fuel id) e.
End Declared.
