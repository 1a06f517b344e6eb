(** What string expressions mean (doc/ZserioLanguageOverview.md: string types, expressions, lengthof), and what Python makes of the text. *)
From Verif Require Import Base PyLiteral ModelLiterals SpecLiterals ModelStrings.

Section Meaning.
Context (consts funcs : nat -> option sexpr) (holds : nat -> bool) (fields : nat -> list Z).

(** The characters an expression stands for; literals with \0coo are left out (C65) *)
Inductive denotes : sexpr -> list Z -> Prop :=
| d_literal s : string_literal_ok s -> no_long_octal s -> denotes (SLit (string_text s)) (string_meaning s)
| d_paren e v : denotes e v -> denotes (SParen e) v
| d_plus a b v w : denotes a v -> denotes b w -> denotes (SPlus a b) (v ++ w)
| d_cond c a b v : denotes (if holds c then a else b) v -> denotes (SCond c a b) v
| d_const n e v : consts n = Some e -> denotes e v -> denotes (SConst n) v
| d_call f e v : funcs f = Some e -> denotes e v -> denotes (SCall f) v
| d_field x : denotes (SField x) (fields x).

(** Constant strings: literals, constants and functions that are such, and what is joined of them *)
Inductive constant_string : sexpr -> Prop :=
| c_literal t : constant_string (SLit t)
| c_paren e : constant_string e -> constant_string (SParen e)
| c_plus a b : constant_string a -> constant_string b -> constant_string (SPlus a b)
| c_const n e : consts n = Some e -> constant_string e -> constant_string (SConst n)
| c_call f e : funcs f = Some e -> constant_string e -> constant_string (SCall f).

(** How a constant string is spelled: the text between the quotes of its literals, one after the other *)
Inductive spelled : sexpr -> list Z -> Prop :=
| s_literal s : string_literal_ok s -> spelled (SLit (string_text s)) (flat_map char_text s)
| s_paren e t : spelled e t -> spelled (SParen e) t
| s_plus a b t u : spelled a t -> spelled b u -> spelled (SPlus a b) (t ++ u)
| s_const n e t : consts n = Some e -> spelled e t -> spelled (SConst n) t
| s_call f e t : funcs f = Some e -> spelled e t -> spelled (SCall f) t.

(** Python: constants are variables of modules with the value of their expression, functions are methods that return it *)
Inductive py_value : pexpr -> list Z -> Prop :=
| p_str t v : py_string t = Some v -> py_value (PStr t) v
| p_paren p v : py_value p v -> py_value (PParen p) v
| p_add p q v w : py_value p v -> py_value q w -> py_value (PAdd p q) (v ++ w)
| p_if c p q v : py_value (if holds c then p else q) v -> py_value (PIf p c q) v
| p_global n e v : consts n = Some e -> py_value (emit e) v -> py_value (PGlobal n) v
| p_method f e v : funcs f = Some e -> py_value (emit e) v -> py_value (PMethod f) v
| p_attribute x : py_value (PAttribute x) (fields x).
End Meaning.
