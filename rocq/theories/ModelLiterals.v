(** Model of literals on their way through the compiler: core/src/zserio/ast/Expression.java:655-695, 1885-1958 (text and value) and
    compiler/extensions/python/src/zserio/extension/python/PythonExpressionFormattingPolicy.java:48-104, 515-517 (Python text), PythonLiteralFormatter.java:18-26 (values the compiler calculated).
    Texts are lists of code points. *)
From Coq Require Import String Ascii.
From Verif Require Import Base PyLiteral.

(** core/antlr/ZserioLexer.g4:119-151: kinds of tokens *)
Inductive token := BinaryLiteral | OctalLiteral | HexadecimalLiteral | FloatLiteral | DoubleLiteral | DecimalLiteral | StringLiteral.

(** String.indexOf, String.lastIndexOf *)
Fixpoint index_of (c : Z) (t : list Z) : option nat :=
  match t with
  | [] => None
  | x :: r => if x =? c then Some 0%nat else match index_of c r with Some n => Some (S n) | None => None end
  end.
Fixpoint last_index_of (c : Z) (t : list Z) : option nat :=
  match t with
  | [] => None
  | x :: r => match last_index_of c r with Some n => Some (S n) | None => if x =? c then Some 0%nat else None end
  end.

(** Expression.java:1951-1958 *)
Definition find_chars (t : list Z) (first second : Z) : option nat :=
  match index_of first t with Some n => Some n | None => index_of second t end.
(** Expression.java:1912-1917 *)
Definition strip_binary (t : list Z) : list Z := match find_chars t (code "b") (code "B") with Some n => firstn n t | None => t end.
(** Expression.java:1919-1924 *)
Definition strip_octal (t : list Z) : list Z := match index_of (code "0") t with Some n => skipn (n + 1) t | None => t end.
(** Expression.java:1926-1931 *)
Definition strip_hexadecimal (t : list Z) : list Z := match find_chars t (code "x") (code "X") with Some n => skipn (n + 1) t | None => t end.
(** Expression.java:1933-1938 *)
Definition strip_float (t : list Z) : list Z := match find_chars t (code "f") (code "F") with Some n => firstn n t | None => t end.
(** Expression.java:1940-1949 *)
Definition strip_string (t : list Z) : list Z :=
  let s := match index_of quote t with Some n => skipn (n + 1) t | None => t end in
  match last_index_of quote s with Some n => firstn n s | None => s end.
(** Expression.java:1885-1910, getText of an expression *)
Definition get_text (k : token) (t : list Z) : list Z :=
  match k with
  | BinaryLiteral => strip_binary t
  | OctalLiteral => strip_octal t
  | HexadecimalLiteral => strip_hexadecimal t
  | FloatLiteral => strip_float t
  | _ => t
  end.

(** java.math.BigInteger(String, int) for texts without sign; NumberFormatException is [None] *)
Fixpoint java_digits (radix acc : Z) (t : list Z) : option Z :=
  match t with
  | [] => Some acc
  | c :: r => match digit radix c with Some d => java_digits radix (acc * radix + d) r | None => None end
  end.
Definition big_integer (radix : Z) (t : list Z) : option Z := match t with [] => None | _ => java_digits radix 0 t end.

(** Expression.java:661-681, the value the compiler calculates with *)
Definition integer_value (k : token) (t : list Z) : option Z :=
  match k with
  | BinaryLiteral => big_integer 2 (strip_binary (get_text k t))
  | OctalLiteral => big_integer 8 (get_text k t)
  | DecimalLiteral => big_integer 10 (get_text k t)
  | HexadecimalLiteral => big_integer 16 (strip_hexadecimal (get_text k t))
  | _ => None
  end.
(** Expression.java:687-690, the string the compiler calculates with *)
Definition string_value (t : list Z) : list Z := strip_string (get_text StringLiteral t).

(** PythonExpressionFormattingPolicy.java:48-104, 515-517 *)
Definition python_literal (k : token) (t : list Z) : list Z :=
  match k with
  | BinaryLiteral => text "0b" ++ get_text k t
  | HexadecimalLiteral => text "0x" ++ get_text k t
  | OctalLiteral => text "0o" ++ get_text k t
  | _ => get_text k t
  end.

(** java.math.BigInteger.toString, from PythonLiteralFormatter.java:18-26 for the values of enumerations and bitmasks, numbers of bits and bounds *)
Fixpoint decimal_digits (k : nat) (z : Z) : list Z :=
  match k with
  | O => []
  | S k => if z <? 10 then [z] else decimal_digits k (z / 10) ++ [z mod 10]
  end.
Definition format_decimal (z : Z) : list Z :=
  (if z <? 0 then text "-" else []) ++ map (fun d => code "0" + d) (decimal_digits (S (Z.to_nat (Z.log2 (Z.abs z) + 1))) (Z.abs z)).
