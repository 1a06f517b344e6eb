(** Property C61: reading an object depends on the bits it consumes and on nothing else; a stream that ends too early is noticed. *)
From Verif Require Import Base SpecBits SpecStream SpecHistory SpecArray ModelBitBuffer ModelWriter ModelReader ModelArray ModelSchema ModelSerialization
  SpecSchema SpecLocal LocalProofs ExampleSchema ExampleDecode ExampleLocal.

(** C61: what was read from a stream is read as well from every longer one. *)
Theorem C61_continuation : forall s depth id ps r1 r2 bs rest p v r2', wf_schema s -> plain_type s id ->
  reader_on r2 bs p -> reader_on r1 (bs ++ rest) p -> obj_from_reader s depth id ps r2 = (Ok v, r2') ->
  obj_from_reader s depth id ps r1 = (Ok v, set_pos (r_pos r2') r1).
Proof. intros s depth id ps r1 r2 bs rest p v r2' HS Hpl. exact (continuation s HS depth id ps Hpl r1 r2 bs rest p v r2'). Qed.
Print Assumptions C61_continuation.

(** C61: a stream that ends before the end of the object that a longer one holds: PythonRuntimeException, never another object. *)
Theorem C61_truncated : forall s depth id ps r1 r2 bs rest p v r1', wf_schema s -> plain_type s id ->
  reader_on r2 bs p -> reader_on r1 (bs ++ rest) p -> obj_from_reader s depth id ps r1 = (Ok v, r1') -> Z.of_nat (length bs) < r_pos r1' ->
  fst (obj_from_reader s depth id ps r2) = Raise RuntimeExc.
Proof. intros s depth id ps r1 r2 bs rest p v r1' HS Hpl. exact (truncated s HS depth id ps Hpl r1 r2 bs rest p v r1'). Qed.
Print Assumptions C61_truncated.

(** C61: two streams that agree up to where reading from the first stopped. *)
Theorem C61_local : forall s depth id ps r1 r2 bs rest1 rest2 p v r1', wf_schema s -> plain_type s id -> array_widths_ok s ->
  reader_on r1 (bs ++ rest1) p -> reader_on r2 (bs ++ rest2) p -> obj_from_reader s depth id ps r1 = (Ok v, r1') -> r_pos r1' <= Z.of_nat (length bs) ->
  obj_from_reader s depth id ps r2 = (Ok v, set_pos (r_pos r1') r2).
Proof. intros s depth id ps r1 r2 bs rest1 rest2 p v r1' HS Hpl. exact (local s HS depth id ps Hpl r1 r2 bs rest1 rest2 p v r1'). Qed.
Print Assumptions C61_local.

(** C61: what serialize made, with fewer bits, is refused. *)
Theorem C61_truncated_buffer : forall s depth v v' b id ps n, wf_schema s -> plain_type s id ->
  serialize s depth v = Ok (v', b) -> obj_id v' = Some id -> obj_params v' = Ok ps -> sound s depth v' -> 0 <= n < bb_bitsize b ->
  deserialize s depth id {| bb_buffer := bb_buffer b; bb_bitsize := n |} (map back ps) = Raise RuntimeExc.
Proof. exact truncated_buffer. Qed.
Print Assumptions C61_truncated_buffer.

(** C61: what serialize_to_bytes or serialize_to_file made, without its last bytes, is refused. *)
Theorem C61_truncated_bytes : forall s depth v v' l id ps k, wf_schema s -> plain_type s id ->
  serialize_to_bytes s depth v = Ok (v', l) -> obj_id v' = Some id -> obj_params v' = Ok ps -> sound s depth v' -> (k < length l)%nat ->
  deserialize_from_bytes s depth id (firstn k l) (map back ps) = Raise RuntimeExc /\ deserialize_from_file s depth id (firstn k l) (map back ps) = Raise RuntimeExc.
Proof. exact truncated_bytes. Qed.
Print Assumptions C61_truncated_bytes.

(** The condition on widths is needed: read_impl multiplies length and width before it looks at either. *)
Theorem C61_local_refuted : exists s depth id r1 r2 bs rest1 rest2 v r1', wf_schema s /\ plain_type s id /\
  reader_on r1 (bs ++ rest1) 0 /\ reader_on r2 (bs ++ rest2) 0 /\ obj_from_reader s depth id [] r1 = (Ok v, r1') /\ r_pos r1' = Z.of_nat (length bs) /\
  fst (obj_from_reader s depth id [] r2) = Raise RuntimeExc.
Proof.
  exists odd_schema, 1%nat, 0%nat, {| r_buffer := [255; 248; 0]; r_bitsize := 24; r_pos := 0 |}, {| r_buffer := [255; 248]; r_bitsize := 16; r_pos := 0 |},
    (bytes_bits [255; 248]), (bytes_bits [0]), [], (VStruct 0 [] [VInt (-1); VInt (-8); VArray []] 0), {| r_buffer := [255; 248; 0]; r_bitsize := 24; r_pos := 16 |}.
  split; [exact odd_wf|]. split; [exact odd_plain|].
  split. { split; [|cbn; lia]. split; [repeat constructor; cbn; lia|]. split; [reflexivity|]. exists []. reflexivity. }
  split. { split; [|cbn; lia]. split; [repeat constructor; cbn; lia|]. split; [reflexivity|]. exists []. reflexivity. }
  split; [vm_compute; reflexivity|]. split; vm_compute; reflexivity.
Qed.
Print Assumptions C61_local_refuted.

(** The hypotheses hold for an item of the example schema, at bit position 5. *)
Example C61_example : wf_schema example_schema /\ plain_type example_schema 2 /\ array_widths_ok example_schema /\
  obj_from_reader example_schema 3 2 [] (item_reader 60) = (Ok shape_item, set_pos 54 (item_reader 60)) /\
  obj_from_reader example_schema 3 2 [] (item_reader 54) = (Ok shape_item, set_pos 54 (item_reader 54)) /\
  fst (obj_from_reader example_schema 3 2 [] (item_reader 53)) = Raise RuntimeExc.
Proof.
  split; [exact example_wf|]. split; [apply example_plain; lia|].
  split. { intros id d E. do 5 (destruct id as [|id]; [injection E as <-; cbn; repeat split; repeat constructor|]). discriminate E. }
  split; [|split]; vm_compute; reflexivity.
Qed.
Example C61_bytes_example : exists l, serialize_to_bytes example_schema 3 shape_item = Ok (shape_item, l) /\ length l = 7%nat /\ sound example_schema 3 shape_item /\
  forall k, (k < 7)%nat -> deserialize_from_bytes example_schema 3 2 (firstn k l) [] = Raise RuntimeExc.
Proof.
  eexists. split; [vm_compute; reflexivity|]. split; [reflexivity|]. split; [vm_compute; intuition congruence|].
  intros k Hk. do 7 (destruct k as [|k]; [vm_compute; reflexivity|]). lia.
Qed.
