(** Property C56: random access through offsets. *)
From Verif Require Import Base SpecStream SpecHistory SpecArray ModelBitBuffer ModelWriter ModelReader ModelCalls ModelArray ModelSchema ModelSerialization SpecSchema SpecWire SpecAccess
  ExampleSchema ExampleOffsets ExampleAccess AccessProofs.

(** C56: a field with an offset, anywhere in the object outside of packed arrays, can be read on its own: a reader that
    is set to the position the offset names gives the value of the field. *)
Theorem C56_field_at_offset : forall s, wf_schema s -> forall depth v n u f i e x a w1 w2 cs rs w3 r, sound s depth (capped s v) -> values_ok v ->
  inside s depth v (S n) u -> field_of s u f i e x -> free_field s f -> offset_of f e a ->
  reachable w1 -> obj_write s depth v w1 = (Ok tt, w2) -> Forall wf_call cs -> run_wcalls cs w2 = (rs, w3) -> opened_on w3 r ->
  exists r', (set_bitposition (8 * a) ;;; read_field s n f i (back_env e)) r = (Ok (back x), r').
Proof. exact field_access. Qed.
Print Assumptions C56_field_at_offset.

(** C56: the same for the elements of an array with an offset for each. *)
Theorem C56_element_at_offset : forall s, wf_schema s -> forall depth v n u f i e l k y a w1 w2 cs rs w3 r, sound s depth (capped s v) -> values_ok v ->
  inside s depth v (S n) u -> field_of s u f i e (VArray l) -> unpacked_array f -> refers_plain s (f_ty f) -> nth_error l k = Some y -> offset_of_element f e k a ->
  reachable w1 -> obj_write s depth v w1 = (Ok tt, w2) -> Forall wf_call cs -> run_wcalls cs w2 = (rs, w3) -> opened_on w3 r ->
  exists r', (set_bitposition (8 * a) ;;; read_element s n (f_ty f) (with_index (back_env e) (Z.of_nat k))) r = (Ok (back y), r').
Proof. exact element_access. Qed.
Print Assumptions C56_element_at_offset.

(** C56: an object with an offset can be read with from_reader of its class and its parameters. *)
Theorem C56_object_at_offset : forall s, wf_schema s -> forall depth v n u f i e y x a id args w1 w2 cs rs w3 r, sound s depth (capped s v) -> values_ok v ->
  inside s depth v (S n) u -> field_of s u f i e y -> f_ty f = TObj id args -> plain_type s id ->
  (f_arr f = None /\ y = x /\ offset_of f e a \/ exists l k, y = VArray l /\ unpacked_array f /\ nth_error l k = Some x /\ offset_of_element f e k a) ->
  reachable w1 -> obj_write s depth v w1 = (Ok tt, w2) -> Forall wf_call cs -> run_wcalls cs w2 = (rs, w3) -> opened_on w3 r ->
  exists ps r', obj_params x = Ok ps /\ (set_bitposition (8 * a) ;;; obj_from_reader s n id (map back ps)) r = (Ok (back x), r').
Proof. exact object_access. Qed.
Print Assumptions C56_object_at_offset.

(** C56: the same for the bytes serialize_to_bytes returns and the offsets it has set. *)
Theorem C56_serialized_object_at_offset : forall s depth v v' bytes n u f i e y x a id args r, wf_schema s -> serialize_to_bytes s depth v = Ok (v', bytes) ->
  sound s depth (capped s v') -> values_ok v' ->
  inside s depth v' (S n) u -> field_of s u f i e y -> f_ty f = TObj id args -> plain_type s id ->
  (f_arr f = None /\ y = x /\ offset_of f e a \/ exists l k, y = VArray l /\ unpacked_array f /\ nth_error l k = Some x /\ offset_of_element f e k a) ->
  new_reader bytes None = Ok r ->
  exists ps r', obj_params x = Ok ps /\ (set_bitposition (8 * a) ;;; obj_from_reader s n id (map back ps)) r = (Ok (back x), r').
Proof. exact serialized_access. Qed.
Print Assumptions C56_serialized_object_at_offset.

(** A tile in the array and the one after it; the name in a tile of the array. *)
Definition the_map : value := map_object [16; 21; 27] 31 34.
Definition map_fields : list value := [VArray [VInt 16; VInt 21; VInt 27]; VInt 31; VArray tiles; tile 4 34 [122]].
Example C56_example : wf_schema map_schema /\ plain_type map_schema 1 /\ sound map_schema 3 (capped map_schema the_map) /\ values_ok the_map /\
  (exists w2, obj_write map_schema 3 the_map new_writer = (Ok tt, w2) /\ serialize_to_bytes map_schema 3 (map_object [0; 0; 0] 0 0) = Ok (the_map, w_bytes w2)) /\
  (exists f, field_of map_schema the_map f 2 (fenv [] (firstn 2 map_fields)) (VArray tiles) /\ unpacked_array f /\ f_ty f = TObj 1 [] /\
     nth_error tiles 1 = Some (tile 2 24 [98; 99]) /\ offset_of_element f (fenv [] (firstn 2 map_fields)) 1 21) /\
  (exists f, field_of map_schema the_map f 3 (fenv [] (firstn 3 map_fields)) (tile 4 34 [122]) /\ f_arr f = None /\ f_ty f = TObj 1 [] /\ offset_of f (fenv [] (firstn 3 map_fields)) 31) /\
  inside map_schema 3 the_map 2 (tile 2 24 [98; 99]) /\
  (exists f, field_of map_schema (tile 2 24 [98; 99]) f 2 (fenv [] [VInt 2; VInt 24]) (VStr [98; 99]) /\ free_field map_schema f /\ offset_of f (fenv [] [VInt 2; VInt 24]) 24).
Proof.
  assert (F : exists f, field_of map_schema the_map f 2 (fenv [] (firstn 2 map_fields)) (VArray tiles) /\ unpacked_array f /\ f_ty f = TObj 1 [] /\
     nth_error tiles 1 = Some (tile 2 24 [98; 99]) /\ offset_of_element f (fenv [] (firstn 2 map_fields)) 1 21).
  { eexists. split; [exact (of_struct map_schema 0 [] map_fields 0 _ 2 _ _ eq_refl eq_refl eq_refl eq_refl eq_refl)|]. split; [reflexivity|]. split; [reflexivity|]. split; [reflexivity|].
    eexists. split; [reflexivity|]. split; reflexivity. }
  split; [exact map_wf|]. split; [exact tile_plain|]. split; [vm_compute; intuition congruence|]. split; [vm_compute; intuition congruence|].
  split; [eexists; split; [vm_compute; reflexivity|vm_compute; reflexivity]|]. split; [exact F|].
  split.
  { eexists. split; [exact (of_struct map_schema 0 [] map_fields 0 _ 3 _ _ eq_refl eq_refl eq_refl eq_refl eq_refl)|]. split; [reflexivity|]. split; [reflexivity|].
    eexists. split; [reflexivity|]. split; reflexivity. }
  split.
  - destruct F as (f & F1 & F2 & F3 & F4 & _). exact (inside_element _ _ _ _ _ _ _ _ _ _ _ _ _ (inside_self _ _ _) F1 F2 F3 F4).
  - eexists. split; [exact (of_struct map_schema 1 [] [VInt 2; VInt 24; VStr [98; 99]] 0 _ 2 _ _ eq_refl eq_refl eq_refl eq_refl eq_refl)|]. split; [split; exact I|].
    eexists. split; [reflexivity|]. split; reflexivity.
Qed.
