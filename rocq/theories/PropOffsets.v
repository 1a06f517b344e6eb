(** Properties C28 (initialize_offsets) and C52: offsets of generated objects. *)
From Verif Require Import Base SpecStream SpecHistory SpecArray ModelBitBuffer ModelWriter ModelReader ModelArray ModelSchema ModelSerialization
  SpecSchema ObjectProofs SerialProofs ExampleSchema SpecOffsets OffsetSizes OffsetInit OffsetSound CapProofs CapOffsets ExampleOffsets.

(** C28: for an object that write accepts at a position, initialize_offsets at this position gives the same object
    and the position after it. *)
Theorem C28_initialize_offsets : forall slots s depth v w w', offsets_schema slots s -> sound s depth (capped s v) -> reachable w ->
  obj_write s depth v w = (Ok tt, w') -> obj_initialize_offsets s depth v (w_pos w) = Ok (v, w_pos w').
Proof. exact capped_init_same. Qed.
Print Assumptions C28_initialize_offsets.

(** C28: for schemas without offsets, the same for every object, also for one that write rejects. *)
Theorem C28_initialize_offsets_without_offsets : forall s depth v p v' q, no_offsets s ->
  obj_initialize_offsets s depth v p = Ok (v', q) -> v' = v /\ obj_bitsizeof s depth v p = Ok (q - p).
Proof. exact init_steady. Qed.
Print Assumptions C28_initialize_offsets_without_offsets.

(** C28: the size does not depend on the offsets. *)
Theorem C28_bitsizeof_ignores_offsets : forall slots s depth v v' p, offsets_schema slots s -> same_but_offsets slots v v' ->
  obj_bitsizeof s depth v p = obj_bitsizeof s depth v' p.
Proof. exact bitsizeof_same. Qed.
Print Assumptions C28_bitsizeof_ignores_offsets.

Example C28_initialize_example : offsets_schema doc_slots doc_schema /\ sound doc_schema 4 (doc 18 [21; 23; 25] (33, 36)) /\
  (exists w', obj_write doc_schema 4 (doc 18 [21; 23; 25] (33, 36)) new_writer = (Ok tt, w') /\ w_pos w' = 291) /\
  obj_initialize_offsets doc_schema 4 (doc 18 [21; 23; 25] (33, 36)) 0 = Ok (doc 18 [21; 23; 25] (33, 36), 291) /\
  same_but_offsets doc_slots (doc 18 [21; 23; 25] (33, 36)) (doc 0 [1; 2; 3] (4, 5)).
Proof.
  split; [exact doc_offsets|]. split; [vm_compute; intuition congruence|]. split; [eexists; split; vm_compute; reflexivity|]. split; vm_compute; reflexivity.
Qed.

(** C52: if there are offsets with which write accepts the object at a position, initialize_offsets at this position
    finds such offsets, whatever values the offsets have before: write then accepts the object, and nothing but offsets has been changed. *)
Theorem C52_initialize_then_write : forall slots s depth v v0 w w', offsets_schema slots s -> sound s depth (capped s v) -> fits slots v ->
  same_but_offsets slots v v0 -> sound s depth (capped s v0) -> reachable w -> obj_write s depth v0 w = (Ok tt, w') ->
  exists v' w2, obj_initialize_offsets s depth v (w_pos w) = Ok (v', w_pos w') /\ same_but_offsets slots v' v /\ mix v v0 v' /\ sound s depth (capped s v') /\
    obj_write s depth v' w = (Ok tt, w2) /\ w_pos w2 = w_pos w'.
Proof. exact capped_init_and_write. Qed.
Print Assumptions C52_initialize_then_write.

(** C52: serialize needs no offsets from the caller. *)
Theorem C52_serialize_sets_offsets : forall slots s depth v v0 w' id ps, wf_schema s -> root_type s id -> offsets_schema slots s ->
  obj_id v = Some id -> obj_params v = Ok ps -> sound s depth (capped s v) -> fits slots v -> ext_visible s depth (capped s v) 0 ->
  same_but_offsets slots v v0 -> sound s depth (capped s v0) -> obj_write s depth v0 new_writer = (Ok tt, w') ->
  exists v' b, serialize s depth v = Ok (v', b) /\ same_but_offsets slots v' v /\ deserialize s depth id b (map back ps) = Ok (back (capped s v')) /\
    obj_bitsizeof s depth v 0 = Ok (bb_bitsize b).
Proof. exact capped_serialize_sets. Qed.
Print Assumptions C52_serialize_sets_offsets.

(** The offsets of the caller are all wrong here; the first theorem's case is at position 16 of a stream. *)
Example C52_example : wf_schema doc_schema /\ root_type doc_schema 0 /\ offsets_schema doc_slots doc_schema /\
  sound doc_schema 4 (doc 0 [1; 2; 3] (4, 5)) /\ fits doc_slots (doc 0 [1; 2; 3] (4, 5)) /\ ext_visible doc_schema 4 (doc 0 [1; 2; 3] (4, 5)) 0 /\
  same_but_offsets doc_slots (doc 0 [1; 2; 3] (4, 5)) (doc 18 [21; 23; 25] (33, 36)) /\ sound doc_schema 4 (doc 18 [21; 23; 25] (33, 36)) /\
  (exists w', obj_write doc_schema 4 (doc 18 [21; 23; 25] (33, 36)) new_writer = (Ok tt, w')) /\
  (exists b, serialize doc_schema 4 (doc 0 [1; 2; 3] (4, 5)) = Ok (doc 18 [21; 23; 25] (33, 36), b) /\
     deserialize doc_schema 4 0 b [] = Ok (doc 18 [21; 23; 25] (33, 36))) /\
  obj_initialize_offsets doc_schema 4 (doc 0 [1; 2; 3] (4, 5)) 16 = Ok (doc 20 [23; 25; 27] (35, 38), 307).
Proof.
  split; [exact doc_wf|]. split; [exact doc_root|]. split; [exact doc_offsets|]. split; [vm_compute; intuition congruence|]. split; [cbn -[Z.pow]; repeat match goal with |- _ /\ _ => split | |- Forall _ _ => constructor | |- True => exact I | |- _ => progress cbn -[Z.pow] end; lia|].
  split; [intros HX; discriminate HX|]. split; [vm_compute; reflexivity|]. split; [vm_compute; intuition congruence|].
  split; [eexists; vm_compute; reflexivity|]. split; [eexists; split; [vm_compute; reflexivity|vm_compute; reflexivity]|]. vm_compute. reflexivity.
Qed.
