From Coq Require Import String.
From Verif Require Import Base ModelArray ModelSchema ModelSqlTypes SpecSqlTypes.

Lemma affinity_integer : affinity_of "INTEGER" = AffInteger. Proof. reflexivity. Qed.
Lemma affinity_real : affinity_of "REAL" = AffReal. Proof. reflexivity. Qed.
Lemma affinity_text : affinity_of "TEXT" = AffText. Proof. reflexivity. Qed.
Lemma affinity_blob : affinity_of "BLOB" = AffBlob. Proof. reflexivity. Qed.
Lemma affinity_empty : affinity_of EmptyString = AffBlob. Proof. reflexivity. Qed.

Lemma kept : forall needs t name c v x, declared needs t = Some name -> cell_of t v -> storable v ->
  (stored c (affinity_of name) v x <-> x = v).
Proof.
  intros needs t name c v x D C ST.
  assert (A : affinity_of name = AffBlob \/ exists n, get_sql_type t = Some n /\ affinity_of name = affinity_of (native_name n)).
  { unfold declared in D. destruct (get_sql_type t) as [n |]; [| discriminate]. injection D as <-.
    destruct needs; [right; exists n; split; reflexivity | left; reflexivity]. }
  destruct A as [-> | (n & G & ->)].
  - split.
    + intros H. inversion C; subst; inversion H; subst; cbn in *; try reflexivity; try tauto;
        repeat match goal with H : _ \/ _ |- _ => destruct H end; discriminate.
    + intros ->. inversion C; subst; cbn in ST; constructor; tauto.
  - inversion C; subst; cbn in G; try (injection G as <-);
      cbn [native_name]; rewrite ?affinity_integer, ?affinity_real, ?affinity_text, ?affinity_blob.
    1: { split; [intros H; inversion H; subst; reflexivity | intros ->; constructor]. }
    all: split; [intros H; inversion H; subst; cbn in *; try reflexivity; try tauto;
        repeat match goal with H : _ \/ _ |- _ => destruct H end; try discriminate | intros ->].
    all: cbn in ST; try (constructor; tauto).
    all: destruct ST as (N & Z0); unfold double_is_minus_zero in Z0.
    all: change 9223372036854775808 with (2 ^ 63); try (destruct (Z.eq_dec d (2 ^ 63)); [contradiction | reflexivity]).
    all: replace (VFloat d) with (VFloat (if Z.eq_dec d (2 ^ 63) then 0 else d)) at 2
      by (destruct (Z.eq_dec d (2 ^ 63)); [contradiction | reflexivity]); constructor; assumption.
Qed.

Lemma typed : forall t, (exists name, declared true t = Some name) <-> (t <> TBytes /\ t <> TBitBuffer).
Proof.
  intros t. unfold declared. split.
  - intros (name & H). split; intros ->; discriminate H.
  - intros (A & B). destruct t; cbn; try (eexists; reflexivity); contradiction.
Qed.

Lemma nan_lost : forall c, exists d, stored c (affinity_of "REAL") (VFloat d) VNone /\ d <> 2 ^ 63.
Proof.
  intros c. exists (4095 * 2 ^ 51). split; [| discriminate]. apply stored_nan. unfold double_is_nan. reflexivity.
Qed.
Lemma zero_lost : forall c x, stored c (affinity_of "REAL") (VFloat (2 ^ 63)) x -> x = VFloat 0.
Proof.
  intros c x H. rewrite affinity_real in H. inversion H; subst; try reflexivity.
  - unfold double_is_nan in *. match goal with H : _ > _ |- _ => vm_compute in H; discriminate end.
  - repeat match goal with H : _ \/ _ |- _ => destruct H end; discriminate.
Qed.
Lemma big_refused : forall c a x, ~ stored c a (VInt (2 ^ 63)) x.
Proof. intros c a x H. inversion H; subst; unfold fits_int64 in *; lia. Qed.
