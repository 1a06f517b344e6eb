(** Types of the columns of SQL tables. *)
From Coq Require Import String.
From Verif Require Import Base ModelArray ModelSchema ModelSqlTypes SpecSqlTypes SqlTypesProofs.

(** A column declared with the type chosen for a field keeps every value handed over for that field as it is, whatever
    the engine's conversions are.  Missing from the full claim: NaN, the sign of zero and integers of 64 bits and more
    (C49_values_refuted). *)
Theorem C49_types_partial : forall needs t name c v x, declared needs t = Some name -> cell_of t v -> storable v ->
  (stored c (affinity_of name) v x <-> x = v).
Proof. exact kept. Qed.
Print Assumptions C49_types_partial.

(** Every field type but bytes and extern has a column type. *)
Theorem C49_typed : forall t, (exists name, declared true t = Some name) <-> (t <> TBytes /\ t <> TBitBuffer).
Proof. exact typed. Qed.
Print Assumptions C49_typed.

(** NaN in a float column is kept as NULL, minus zero as zero, and a uint64 field can hold an integer that no column takes. *)
Theorem C49_values_refuted : forall c,
  (declared true TFloat64 = Some "REAL"%string /\ exists d, stored c (affinity_of "REAL") (VFloat d) VNone /\ d <> 2 ^ 63) /\
  (forall x, stored c (affinity_of "REAL") (VFloat (2 ^ 63)) x -> x = VFloat 0) /\
  (cell_of (TInt (IBits 64)) (VInt (2 ^ 63)) /\ forall a x, ~ stored c a (VInt (2 ^ 63)) x).
Proof. exact (fun c => conj (conj eq_refl (nan_lost c)) (conj (zero_lost c) (conj (cell_int _ _) (big_refused c)))). Qed.
Print Assumptions C49_values_refuted.

(** A text of digits stays a text in the column of a string field, and would not in one of an integer. *)
Example C49_types_example :
  let c := {| text_number := fun _ => Some (VInt 12); whole := fun _ => None; number_text := fun _ => nil; to_double := fun z => z |} in
  declared true TString = Some "TEXT"%string /\ cell_of TString (VStr (49 :: 50 :: nil)) /\ storable (VStr (49 :: 50 :: nil)) /\
  stored c (affinity_of "TEXT") (VStr (49 :: 50 :: nil)) (VStr (49 :: 50 :: nil)) /\
  stored c (affinity_of "INTEGER") (VStr (49 :: 50 :: nil)) (VInt 12).
Proof.
  cbn zeta. split; [reflexivity |]. split; [constructor |]. split; [exact Logic.I |]. split.
  - constructor. left. reflexivity.
  - exact (stored_text_number {| text_number := fun _ => Some (VInt 12); whole := fun _ => None; number_text := fun _ => nil; to_double := fun z => z |}
      AffInteger (49 :: 50 :: nil) (or_introl eq_refl)).
Qed.
