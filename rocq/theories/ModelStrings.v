(** Model of string expressions: Expression.java:687-690, 983-993, 1016-1039, 1266-1281, 1381-1390, 1563-1600, 1735-1746 (the value the compiler calculates), ExpressionFormatter.java:71-127
    with PythonExpressionFormattingPolicy.java:41-45, 98-103, 361-364 (evaluateStrings is false: the Python text is made of the parts of the expression) and Constant.py.ftl.

    Simplifications.
    - Names have been resolved (C90): a constant, a function without further effect, a field or parameter.  Conditions are boolean expressions, given by number.
    - The Python text is a tree; that the text is one expression with this tree is C64 and C90.
    - Operands of other types than string are refused by all that is modelled here, and are left out; so are templates (C74).
    - "Cyclic dependency detected" (Expression.java, IN_EVALUATION) is that no fuel is enough. *)
From Coq Require Import String Ascii.
From Verif Require Import Base PyLiteral ModelUtf8 ModelBuiltin ModelLiterals.

Inductive sexpr :=
| SLit (t : list Z)                      (* the text of the token *)
| SParen (e : sexpr)
| SPlus (a b : sexpr)
| SCond (c : nat) (a b : sexpr)          (* c ? a : b *)
| SConst (n : nat)
| SCall (f : nat)
| SField (x : nat).
(** getStringValue() of an evaluated expression: null or the string; or a ParserException *)
Inductive outcome := Refused | NotConstant | Constant (t : list Z) | OutOfFuel.

Section Compiler.
(** The expressions of constants and functions *)
Context (consts funcs : nat -> option sexpr).

Fixpoint compile (fuel : nat) (e : sexpr) : outcome :=
  match fuel with
  | O => OutOfFuel
  | S fuel =>
      match e with
      | SLit t => Constant (string_value t)
      | SParen e => compile fuel e
      | SPlus a b =>
          match compile fuel a, compile fuel b with
          | OutOfFuel, _ | _, OutOfFuel => OutOfFuel
          | Constant x, Constant y => Constant (x ++ y)
          | _, _ => Refused                                 (* "Constant string expressions expected!" *)
          end
      | SCond _ a b =>
          match compile fuel a, compile fuel b with
          | OutOfFuel, _ | _, OutOfFuel => OutOfFuel
          | Refused, _ | _, Refused => Refused
          | _, _ => NotConstant
          end
      | SConst n => match consts n with Some d => compile fuel d | None => Refused end
      | SCall f => match funcs f with Some d => compile fuel d | None => Refused end
      | SField _ => NotConstant
      end
  end.
(** String.getBytes(UTF_8).length *)
Definition java_utf8_length (t : list Z) : Z :=
  fold_right (fun c n => (if c <? 0x80 then 1 else if c <? 0x800 then 2 else if c <? 0x10000 then 3 else 4) + n) 0 t.
(** The value of lengthof the compiler calculates with (Expression.java:1269-1281), for the values of enumerations and bitmasks and numbers of bits *)
Definition lengthof_value (fuel : nat) (e : sexpr) : option Z := match compile fuel e with Constant t => Some (java_utf8_length t) | _ => None end.
End Compiler.

(** Python expressions *)
Inductive pexpr :=
| PStr (t : list Z)
| PParen (p : pexpr)
| PAdd (a b : pexpr)
| PIf (a : pexpr) (c : nat) (b : pexpr)  (* (a) if (c) else (b) *)
| PGlobal (n : nat)
| PMethod (f : nat)
| PAttribute (x : nat).
Fixpoint emit (e : sexpr) : pexpr :=
  match e with
  | SLit t => PStr (python_literal StringLiteral t)
  | SParen e => PParen (emit e)
  | SPlus a b => PAdd (emit a) (emit b)
  | SCond c a b => PIf (emit a) c (emit b)
  | SConst n => PGlobal n
  | SCall f => PMethod f
  | SField x => PAttribute x
  end.
