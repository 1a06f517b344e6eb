(** Identifiers of rules and names of columns and tables (doc/ZserioLanguageOverview.md:1459-1466, SQLite: names differ in more than the case of ASCII letters). *)
From Coq Require Import String List Ascii.
Import ListNotations.

(** The same letters but for case *)
Definition same_char (c d : ascii) : Prop :=
  c = d \/ exists k, k < 26 /\ (nat_of_ascii c = 65 + k /\ nat_of_ascii d = 97 + k \/ nat_of_ascii c = 97 + k /\ nat_of_ascii d = 65 + k).
Definition same_letters (a b : list ascii) : Prop := Forall2 same_char a b.
(** No two at different places have the same letters *)
Definition all_different (l : list (list ascii)) : Prop := ForallOrdPairs (fun a b => ~ same_letters a b) l.

Definition letter (c : ascii) : Prop := exists k, k < 26 /\ (nat_of_ascii c = 65 + k \/ nat_of_ascii c = 97 + k).
Definition digit (c : ascii) : Prop := exists k, k < 10 /\ nat_of_ascii c = 48 + k.
Definition rule_identifier (n : list ascii) : Prop :=
  exists c m, n = c :: m /\ letter c /\ Forall (fun x => letter x \/ digit x \/ In x ["_"; "-"; ":"; "."]%char) m.
