(** Property C65: literals mean in generated code what they mean in the schema. *)
From Coq Require Import String Ascii.
From Verif Require Import Base ModelUtf8 PyLiteral ModelLiterals SpecLiterals LiteralsProofs.

(** C65: integer literals of all notations have the documented value, in the compiler and in the code. *)
Theorem C65_integers : forall l, int_literal_ok l ->
  integer_value (int_token l) (int_text l) = Some (int_meaning l) /\ py_integer (python_literal (int_token l) (int_text l)) = Some (int_meaning l).
Proof. exact integer_literals. Qed.
Print Assumptions C65_integers.

Example C65_hexadecimal : let l := Hexadecimal true [(15, true); (11, false)] in
  int_literal_ok l /\ int_text l = text "0XFb" /\ int_meaning l = 251 /\ python_literal (int_token l) (int_text l) = text "0xFb".
Proof. split; [split; [discriminate|]; repeat constructor; cbn; lia|]. split; [reflexivity|]. split; reflexivity. Qed.
Example C65_octal : let l := Octal [0; 7; 7] in int_literal_ok l /\ int_text l = text "0077" /\ int_meaning l = 63 /\ python_literal (int_token l) (int_text l) = text "0o077".
Proof. split; [split; [discriminate|]; repeat constructor; cbn; lia|]. split; [reflexivity|]. split; reflexivity. Qed.

(** C65: floating point literals are the same decimal number; Python rounds it to a double, whatever the suffix. *)
Theorem C65_floats : forall l, float_literal_ok l -> py_float (python_literal (float_token l) (float_text l)) = Some (float_meaning l).
Proof. exact float_literals. Qed.
Print Assumptions C65_floats.

Example C65_float : let l := {| fl_int := [3; 1]; fl_frac := Some [4]; fl_exp := Some (false, MinusSign, [1]); fl_suffix := Some false |} in
  float_literal_ok l /\ float_text l = text "31.4e-1f" /\ float_meaning l = (314, -2).
Proof. split; [|split; reflexivity]. cbn. repeat split; try (repeat constructor; lia); try discriminate. now left. Qed.

(** C65: string literals without \0coo are the documented characters; the compiler keeps the text between the quotes. *)
Theorem C65_strings_partial : forall s, string_literal_ok s -> no_long_octal s -> py_string (python_literal StringLiteral (string_text s)) = Some (string_meaning s).
Proof. exact string_literals. Qed.
Print Assumptions C65_strings_partial.
Theorem C65_string_texts : forall s, string_value (string_text s) = flat_map char_text s.
Proof. exact string_values. Qed.
Print Assumptions C65_string_texts.

Example C65_string : let s := [Plain 65; Escape 110; Hex [(4, false); (2, false)]; Unicode [(2, false); (0, false); (10, true); (12, true)]; Oct [6; 5]; Plain 51] in
  string_literal_ok s /\ no_long_octal s /\ string_text s = quote :: text "A\n\x42\u20AC\0653" ++ [quote] /\ string_meaning s = [65; 10; 66; 0x20AC; 53; 51].
Proof.
  split; [split|split; [|split; reflexivity]].
  - repeat (apply Forall_cons; [cbn; repeat split; try (repeat constructor; cbn; lia); try discriminate; lia|]). constructor.
  - cbn. split; [|split; exact I || tauto]. intros [H|[_ H]]; [discriminate H|lia].
  - repeat (apply Forall_cons; [cbn; trivial; try discriminate|]). constructor.
Qed.

(** Python takes three octal digits at most: the literal \0101 is documented as A and is read as \010 and 1. *)
Theorem C65_octal_refuted : exists s, string_literal_ok s /\ string_text s = quote :: text "\0101" ++ [quote] /\ string_meaning s = text "A" /\
  py_string (python_literal StringLiteral (string_text s)) = Some [8; code "1"].
Proof.
  exists [Oct [1; 0; 1]]. split; [split; [|exact I]|split; [reflexivity|split; reflexivity]].
  constructor; [|constructor]. cbn. repeat split; try lia. repeat constructor; cbn; lia.
Qed.
Print Assumptions C65_octal_refuted.

(** A character outside of 16 bits written as two surrogates, as in Java, gives a string that cannot be encoded. *)
Theorem C65_surrogates_refuted : exists s v, string_literal_ok s /\ string_text s = quote :: text "\ud83d\ude00" ++ [quote] /\
  py_string (python_literal StringLiteral (string_text s)) = Some v /\ utf8_encode v = Raise UnicodeErr.
Proof.
  exists [Unicode [(13, false); (8, false); (3, false); (13, false)]; Unicode [(13, false); (14, false); (0, false); (0, false)]], [0xD83D; 0xDE00].
  split; [split; [|exact I]|split; [reflexivity|split; reflexivity]].
  repeat (apply Forall_cons; [cbn; split; [reflexivity|repeat constructor; cbn; lia]|]). constructor.
Qed.
Print Assumptions C65_surrogates_refuted.

(** C65: values the compiler calculated (items, numbers of bits, bounds) are written so that Python reads the same number. *)
Theorem C65_calculated_values : forall z, exists t, format_decimal z = (if z <? 0 then text "-" else []) ++ t /\ py_integer t = Some (Z.abs z).
Proof. exact decimal_values. Qed.
Print Assumptions C65_calculated_values.
Example C65_calculated : format_decimal (-1024) = text "-1024".
Proof. reflexivity. Qed.
