(** What generated names should be. *)
From Coq Require Import List Bool Ascii String.
From Verif Require Import ModelNames.
Import ListNotations.

(** Identifiers of the schema language: letters, digits and underscores, no digit first (core/antlr/ZserioLexer.g4:154) *)
Definition letter (c : ascii) : Prop := is_upper c = true \/ is_lower c = true.
Definition identifier (n : name) : Prop :=
  (exists c r, n = c :: r /\ (letter c \/ c = "_"%char)) /\ Forall (fun c => letter c \/ is_digit c = true \/ c = "_"%char) n.
Definition scope_identifiers (c : scope) : Prop := Forall identifier (scope_names c).

(** Names that are the same for a reader who ignores case and underscores *)
Definition is_underscore (c : ascii) : bool := if ascii_dec c "_" then true else false.
Definition letters (n : name) : name := filter (fun c => negb (is_underscore c)) (lower n).

(** No name is the resetter of an optional field. *)
Definition no_resetter_clash (c : scope) : Prop := forall f n, In f (sc_fields c) -> sf_optional f = true -> In n (scope_names c) ->
  lower_snake n <> lit "reset_" ++ lower_snake (sf_name f).
(** No attribute is the offset checker or setter of a field. *)
Definition no_offset_clash (c : scope) : Prop := forall f n, In f (sc_fields c) -> sf_indexed f = true -> In n (scope_names c) ->
  lower_snake n ++ lit "_" <> lit "offset_checker_" ++ lower_snake (sf_name f) /\ lower_snake n ++ lit "_" <> lit "offset_setter_" ++ lower_snake (sf_name f).

(** Names Python's Enum keeps for itself: _x_ (refused) and __x__ (no item); Lib/enum.py, _is_sunder and _is_dunder *)
Definition enum_reserved (n : name) : Prop := exists m, m <> [] /\ (n = lit "_" ++ m ++ lit "_" \/ n = lit "__" ++ m ++ lit "__").
