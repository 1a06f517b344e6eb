(** C92: string expressions. *)
From Coq Require Import String.
From Verif Require Import Base PyLiteral ModelBuiltin ModelLiterals SpecLiterals ModelStrings SpecStrings StringsProofs.

(** The generated Python text has the characters the expression stands for, and no others; missing: literals with \0coo, for which this is false (C65). *)
Theorem C92_value_partial : forall consts funcs holds fields e v, denotes consts funcs holds fields e v ->
  py_value consts funcs holds fields (emit e) v /\ forall v', py_value consts funcs holds fields (emit e) v' -> v' = v.
Proof. exact python_value. Qed.
Print Assumptions C92_value_partial.

(** The compiler has a value exactly for the constant strings. *)
Theorem C92_accepted : forall consts funcs e, (exists fuel t, compile consts funcs fuel e = Constant t) <-> constant_string consts funcs e.
Proof. exact constant_accepted. Qed.
Print Assumptions C92_accepted.

(** Its value is the text between the quotes of the literals, one after the other. *)
Theorem C92_text : forall consts funcs e t, spelled consts funcs e t ->
  (exists fuel, compile consts funcs fuel e = Constant t) /\ forall fuel t', compile consts funcs fuel e = Constant t' -> t' = t.
Proof. exact compiled_text. Qed.
Print Assumptions C92_text.

(** Joining strings is refused exactly if not both are constant. *)
Theorem C92_joined : forall consts funcs fuel a b, compile consts funcs fuel (SPlus a b) <> OutOfFuel ->
  (compile consts funcs fuel (SPlus a b) = Refused <-> ~ (constant_string consts funcs a /\ constant_string consts funcs b)).
Proof. exact joined. Qed.
Print Assumptions C92_joined.

(** lengthof at run time is never more than what the compiler calculates with, and the same exactly if no escape is used; missing: that they are always the same, which is false. *)
Theorem C92_length_partial : forall consts funcs holds fields fuel e k v m,
  lengthof_value consts funcs fuel e = Some k -> denotes consts funcs holds fields e v -> lengthof_string v = Ok m ->
  m <= k /\ forall t, compile consts funcs fuel e = Constant t -> (m = k <-> ~ In backslash t).
Proof. exact lengthof_both. Qed.
Print Assumptions C92_length_partial.

(** lengthof("Tile\n") is 6 for the compiler and 5 at run time. *)
Theorem C92_length_refuted : exists consts funcs holds fields fuel e v k m,
  denotes consts funcs holds fields e v /\ lengthof_value consts funcs fuel e = Some k /\ lengthof_string v = Ok m /\ k <> m.
Proof. exact length_refuted. Qed.
Print Assumptions C92_length_refuted.

(** The hypotheses are met. *)
Theorem C92_example : forall holds fields,
  denotes tile_consts tile_funcs holds fields (SCall 0%nat) (text "Tile" ++ [10]) /\
  constant_string tile_consts tile_funcs (SCall 0%nat) /\
  lengthof_value tile_consts tile_funcs 4 (SCall 0%nat) = Some 6 /\ lengthof_string (text "Tile" ++ [10]) = Ok 5.
Proof. exact tile_strings. Qed.
Print Assumptions C92_example.
