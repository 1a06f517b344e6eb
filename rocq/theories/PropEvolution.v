(** Schema evolution, as promised by the Zserio Schema Evolution Guide.  The model of the
    generated classes is ModelSchema.v; what may change between two versions is SpecEvolution.v. *)
From Verif Require Import Base SpecStream SpecHistory ModelBitBuffer ModelWriter ModelReader ModelArray ModelSchema ModelSerialization
  SpecSchema SpecChecks ExampleSchema SpecEvolution ExampleEvolution EvolutionProofs.
Open Scope Z_scope.

(** C80: whatever an application of the old version reads from any stream, one of an evolved
    version reads too: the same object, ending at the same position.  Enumerations may have
    got items or marks, choices without default cases, unions fields, anywhere in the schema
    and inside packed arrays. *)
Theorem C80_backward : forall s s' depth id ps r v r', evolved s s' ->
  obj_from_reader s depth id ps r = (Ok v, r') -> obj_from_reader s' depth id ps r = (Ok v, r').
Proof. exact evolved_reads. Qed.
Print Assumptions C80_backward.

Theorem C80_backward_deserialize : forall s s' depth id ps v, evolved s s' ->
  (forall b, deserialize s depth id b ps = Ok v -> deserialize s' depth id b ps = Ok v) /\
  (forall l, deserialize_from_bytes s depth id l ps = Ok v -> deserialize_from_bytes s' depth id l ps = Ok v) /\
  (forall l, deserialize_from_file s depth id l ps = Ok v -> deserialize_from_file s' depth id l ps = Ok v).
Proof.
  exact (fun s s' depth id ps v H => conj (fun b => evolved_deserialize s s' depth id b ps v H)
    (conj (fun l => evolved_bytes s s' depth id l ps v H) (fun l => evolved_file s s' depth id l ps v H))).
Qed.
Print Assumptions C80_backward_deserialize.

(** C80: fields appended with extend to the structure at the top, next to changes of the
    types below it: at the end of the stream they come as absent, at their defaults. *)
Theorem C80_appended : forall s s' depth root fs kept extra ps r v r', s root = Some (DStruct fs) -> s' root = Some (DStruct (kept ++ extra)) ->
  evolved_root s s' root fs kept -> Forall (fun f => f_ext f = true) extra ->
  obj_from_reader s depth root ps r = (Ok v, r') -> at_end r' ->
  exists vs n, v = VStruct root ps vs n /\ obj_from_reader s' depth root ps r = (Ok (VStruct root ps (vs ++ map f_default extra) n), r').
Proof. exact root_backward. Qed.
Print Assumptions C80_appended.

(** C80: what an application of the old version has serialized, one of the new version
    deserializes. *)
Theorem C80_serialized : forall s s' depth root v v' b ps vs ne fs kept extra, wf_schema s -> s root = Some (DStruct fs) -> s' root = Some (DStruct (kept ++ extra)) ->
  root_fields s fs -> evolved_root s s' root fs kept -> Forall (fun f => f_ext f = true) extra ->
  serialize s depth v = Ok (v', b) -> v' = VStruct root ps vs ne -> sound s depth (capped s v') -> ext_visible s depth (capped s v') 0 ->
  deserialize s' depth root b (map back ps) = Ok (VStruct root (map back ps) (map back vs ++ map f_default extra) (Z.min ne (num_extended fs))).
Proof. exact serialized_old. Qed.
Print Assumptions C80_serialized.

(** C80: an application of the old version reads what it knows of an object of the new
    version, when fields have been appended at the top, with or without extend, and items
    have been marked as removed. *)
Theorem C80_forward : forall s s' depth root fs kept extra ps r v' r', s root = Some (DStruct kept) -> s' root = Some (DStruct (fs ++ extra)) ->
  evolved_root s' s root fs kept -> extended_last (fs ++ extra) ->
  obj_from_reader s' depth root ps r = (Ok v', r') ->
  exists vs vs2 n r1, v' = VStruct root ps (vs ++ vs2) n /\ length vs = length fs /\
    obj_from_reader s depth root ps r = (Ok (VStruct root ps vs (Z.min n (num_extended fs))), r1).
Proof. exact root_forward. Qed.
Print Assumptions C80_forward.

(** The two versions of ExampleEvolution.v; the new one reads an item it would not write. *)
Example C80_example : evolved version1 (version2 []) /\ evolved_root version1 (version2 main_more) 0 main_old main_kept /\
  deserialize_from_bytes version1 5 0 main_bits [] = Ok (main_value []) /\
  deserialize_from_bytes (version2 []) 5 0 main_bits [] = Ok (main_value []) /\
  deserialize_from_bytes (version2 main_more) 5 0 main_bits [] = Ok (main_value [VInt 9]) /\
  fst (obj_write (version2 []) 5 (main_value []) new_writer) = Raise RuntimeExc.
Proof.
  split; [exact versions_evolved|]. split; [exact versions_root|].
  repeat split; vm_compute; reflexivity.
Qed.

Example C80_example_serialized : wf_schema version1 /\ root_fields version1 main_old /\
  (exists b, serialize version1 5 (main_value []) = Ok (main_value [], b)) /\
  sound version1 5 (capped version1 (main_value [])) /\ ext_visible version1 5 (capped version1 (main_value [])) 0.
Proof.
  split; [exact version1_wf|]. split; [exact version1_root|]. split; [eexists; vm_compute; reflexivity|].
  split; [vm_compute; intuition congruence|]. intros H. vm_compute in H. discriminate H.
Qed.

Example C80_example_forward : evolved_root version1_more version1 0 main_marked main_old /\
  deserialize_from_bytes version1_more 5 0 more_bytes [] = Ok more_value /\
  deserialize_from_bytes version1 5 0 more_bytes [] = Ok (VStruct 0 [] [VInt 1; VEnum 1; VArray []; VArray [VUnion 2 [] 0 (VInt 5)]] 0) /\
  (evolved version1 version1_marked /\ evolved version1_marked version1).
Proof.
  split; [exact more_root|]. split; [vm_compute; reflexivity|]. split; [vm_compute; reflexivity|].
  split; apply marked_types; [left|right]; split; reflexivity.
Qed.

(** C80: the guide allows a new case beside an empty default.  An application of the old
    version writes nothing for the selector of the new case; one of the new version then
    raises, or takes the bytes of the next field for the new case. *)
Theorem C80_empty_default_refuted : exists cases added, let old := holder (DChoice (param_int 0) cases (Some None)) in
  let new := holder (DChoice (param_int 0) (cases ++ added) (Some None)) in
  (exists v l, deserialize_from_bytes old 3 0 l [] = Ok v /\ deserialize_from_bytes new 3 0 l [] = Raise RuntimeExc) /\
  (exists v v' l, deserialize_from_bytes old 3 0 l [] = Ok v /\ deserialize_from_bytes new 3 0 l [] = Ok v' /\ v <> v').
Proof.
  exists [([VInt 1], small)], [([VInt 3], small)]. cbn zeta. split.
  - exists (VStruct 0 [] [VInt 3; VChoice 1 [VInt 3] VUnset; VInt 8] 0), [3; 8]. split; vm_compute; reflexivity.
  - exists (VStruct 0 [] [VInt 3; VChoice 1 [VInt 3] VUnset; VInt 8] 0), (VStruct 0 [] [VInt 3; VChoice 1 [VInt 3] (VInt 8); VInt 4] 0), [3; 8; 4].
    split; [vm_compute; reflexivity|]. split; [vm_compute; reflexivity|discriminate].
Qed.
Print Assumptions C80_empty_default_refuted.

(** C80: the same for a choice without default in which no case has a field: its class does
    not look at the selector. *)
Theorem C80_no_field_refuted : exists cases added v v' l, deserialize_from_bytes (holder (DChoice (param_int 0) cases None)) 3 0 l [] = Ok v /\
  deserialize_from_bytes (holder (DChoice (param_int 0) (cases ++ added) None)) 3 0 l [] = Ok v' /\ v <> v'.
Proof.
  exists [([VInt 1], None)], [([VInt 3], small)], (VStruct 0 [] [VInt 3; VChoice 1 [VInt 3] VNone; VInt 8] 0),
    (VStruct 0 [] [VInt 3; VChoice 1 [VInt 3] (VInt 8); VInt 4] 0), [3; 8; 4].
  split; [vm_compute; reflexivity|]. split; [vm_compute; reflexivity|discriminate].
Qed.
Print Assumptions C80_no_field_refuted.
