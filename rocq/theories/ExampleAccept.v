(** The examples of ExampleWire.v satisfy the checks of write. *)
From Verif Require Import Base SpecBits SpecStream SpecHistory SpecArray ModelBitBuffer ModelWriter ModelArray ModelSchema ModelSerialization
  HistoryProofs WriterProofs SpecSchema SpecChecks ExampleSchema ExampleOffsets SpecWire WireProofs WireAccept ExampleWire.

Lemma guide_int_types : int_types_ok guide_schema.
Proof.
  intros id d H. do 18 (destruct id as [|id]; [injection H as <-; cbn; repeat split; repeat constructor; cbn; lia|]).
  discriminate H.
Qed.
Lemma guide_new_writer : holds (w_bytes new_writer) (w_pos new_writer) [].
Proof. exact wholds_new. Qed.

Lemma guide_checked : Forall (fun x => values_ok (fst x) /\ checked_object Written guide_schema 4 (fst x) /\ encoding guide_schema 4 (fst x) 0 <> None) guide_examples.
Proof.
  apply Forall_forall. intros x Hx. split; [exact (proj1 (Forall_forall _ _) guide_values x Hx)|].
  apply (write_accepts_iff guide_schema 4 (fst x) new_writer []); [exact guide_alignments|exact guide_packable|exact guide_int_types|exact (proj1 (Forall_forall _ _) guide_values x Hx)|exact guide_new_writer|].
  pose proof (proj1 (Forall_forall _ _) guide_writes x Hx) as H. cbn beta in H. destruct (obj_write guide_schema 4 (fst x) new_writer) as [[[]|] w]; [eauto|destruct H].
Qed.

Lemma guide_refused :
  (let v := record ArrayExample [ints [1]; VInt 2; ints [3; 4]] in
   encoding guide_schema 4 v 0 <> None /\ ~ checked_object Written guide_schema 4 v /\ fst (obj_write guide_schema 4 v new_writer) = Raise RuntimeExc) /\
  (let v := record OffsetExample [VInt 5; VInt 1; VInt 2] in
   encoding guide_schema 4 v 0 = None /\ checked_object Written guide_schema 4 v /\ fst (obj_write guide_schema 4 v new_writer) = Raise RuntimeExc).
Proof.
  split; cbv zeta; (split; [|split]).
  - vm_compute. discriminate.
  - cbn. intros [H _]. specialize (H eq_refl eq_refl). destruct (ck_length _ _ _ _ _ H _ _ eq_refl) as (l & n & El & En & Hn). injection El as <-. injection En as <-. discriminate Hn.
  - vm_compute. reflexivity.
  - vm_compute. reflexivity.
  - cbn. repeat split; try (cbn; intros; discriminate); try exact I; cbn; intros; eexists; (split; [reflexivity|cbn; lia]).
  - vm_compute. reflexivity.
Qed.
