(** The schemas and objects of ExampleSchema.v and ExampleEnd.v meet the hypotheses of the decoding theorems. *)
From Verif Require Import Base SpecBits SpecStream SpecHistory SpecArray ModelBitBuffer ModelWriter ModelReader ModelArray ModelSchema ModelSerialization
  WriterProofs SpecSchema SpecChecks ChecksProofs SpecWire WireProofs WireAccept ExampleSchema ExampleEnd ExampleWire DecodeProofs.

Lemma example_packable : packable_ok example_schema.
Proof. intros id d E. do 5 (destruct id as [|id]; [injection E as <-; cbn; repeat split; repeat constructor; cbn; auto; discriminate|]). discriminate E. Qed.
Lemma example_int_types : int_types_ok example_schema.
Proof. intros id d E. do 5 (destruct id as [|id]; [injection E as <-; cbn; repeat split; repeat constructor; cbn; auto; try lia; discriminate|]). discriminate E. Qed.
Lemma log_packable : packable_ok log_schema.
Proof. intros id d E. do 3 (destruct id as [|id]; [injection E as <-; cbn; repeat split; repeat constructor; cbn; auto; discriminate|]). discriminate E. Qed.
Lemma log_int_types : int_types_ok log_schema.
Proof. intros id d E. do 3 (destruct id as [|id]; [injection E as <-; cbn; repeat split; repeat constructor; cbn; auto; try lia; discriminate|]). discriminate E. Qed.

Definition shape_item : value := item 1001 true (VUnion 3 [] 1 (VStr [104; 105])).
Definition shape_bits : list bool := match encoding example_schema 3 shape_item 5 with Some bs => bs | None => [] end.
Lemma shape_encoding : encoding example_schema 3 shape_item 5 = Some shape_bits /\ length shape_bits = 49%nat.
Proof. split; vm_compute; reflexivity. Qed.
Lemma shape_checked : checked_object Written example_schema 3 shape_item.
Proof. eapply obj_write_done; [exact example_int_types|]. instantiate (2 := new_writer). vm_compute. reflexivity. Qed.

Definition log_bits : list bool := match encoding log_schema 5 (log_object [1; -2; 300]) 0 with Some bs => bs | None => [] end.
Lemma log_encoding : encoding log_schema 5 (log_object [1; -2; 300]) 0 = Some log_bits /\ length log_bits = 103%nat.
Proof. split; vm_compute; reflexivity. Qed.
Lemma log_checked : checked_object Written log_schema 5 (log_object [1; -2; 300]).
Proof. eapply obj_write_done; [exact log_int_types|]. instantiate (2 := new_writer). vm_compute. reflexivity. Qed.
