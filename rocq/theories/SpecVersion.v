(** Versions: their texts and their order. *)
From Coq Require Import String Ascii.
From Verif Require Import Base PyLiteral SpecLiterals ModelVersion.

(** A number of up to 2^31 - 1, with any zeros in front *)
Definition numeral (ds : list Z) (n : Z) : Prop := ds <> [] /\ Forall (is_digit 10) ds /\ n = number 10 ds /\ n < 2 ^ 31.
Inductive pre_text : list Z -> Z -> Prop :=
| pre_plain ds n : numeral ds n -> pre_text (map digit_char ds) n
| pre_plus ds n : numeral ds n -> pre_text (text "+" ++ map digit_char ds) n
| pre_minus ds n : ds <> [] -> Forall (is_digit 10) ds -> n = - number 10 ds -> - 2 ^ 31 <= n -> pre_text (text "-" ++ map digit_char ds) n.
Definition version_text (t : list Z) (v : version) : Prop :=
  exists a b c p, numeral a (major v) /\ numeral b (minor v) /\ numeral c (revision v) /\
    t = map digit_char a ++ text "." ++ map digit_char b ++ text "." ++ map digit_char c ++ p /\
    match pre v with None => p = [] | Some n => exists q, pre_text q n /\ p = text "-pre" ++ q end.
Definition version_ok (v : version) : Prop := 0 <= major v < 2 ^ 31 /\ 0 <= minor v < 2 ^ 31 /\ 0 <= revision v < 2 ^ 31.

(** The order of releases; those before a release come before it *)
Definition earlier (v w : version) : Prop :=
  major v < major w \/ major v = major w /\ (minor v < minor w \/ minor v = minor w /\ (revision v < revision w \/ revision v = revision w /\
    match pre v, pre w with Some m, Some n => m < n | Some _, None => True | None, _ => False end)).
Definition release (a b c : Z) : version := {| major := a; minor := b; revision := c; pre := None |}.
