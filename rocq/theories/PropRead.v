(** Property C77: whatever bits an object was read from, it is laid out as its type says, can be walked over and written as JSON.

    [obj_from_reader s depth id ps r]: the object of type [id] with the parameters [ps] read from [r], a reader that stands
    anywhere in any bytes. *)
From Verif Require Import Base SpecBits SpecStream ModelBitBuffer ModelReader ModelCalls ModelArray ModelSchema ModelSerialization ModelTypeInfo ModelJson ModelWalker SpecWalker
  SpecJson ModelJsonWriter SpecJsonWriter ModelCreator SpecCreator SpecRebuild SpecJsonReader ModelJsonReader
  SpecHistory SpecSchema WalkerProofs FilterProofs RegexProofs JsonTokenProofs JsonParseProofs JsonWriterProofs SpecRead ReadProofs SpecReadTree ReadTreeProofs
  ExampleSchema ExampleRewrite ExampleWalker ExampleJson ExampleJsonWriter ExampleCreator ExampleJsonReader ExampleRead.

(** The object has the type and the parameters asked for; each of its fields holds what [read_object] says. *)
Theorem C77_shape : forall s, readable_schema s -> forall depth id ps r v r', any_reader r ->
  obj_from_reader s depth id ps r = (Ok v, r') -> obj_id v = Some id /\ ModelSchema.obj_params v = Ok ps /\ SpecRead.read_object s depth v.
Proof. intros s H depth id ps r v r'. intros A B. exact (read_shape s depth id ps r v r' H A B). Qed.
Print Assumptions C77_shape.

(** The object can be walked over: an observer is told of one tree, and no error comes from elsewhere. *)
Theorem C77_walk : forall s N, readable_schema s -> walkable_schema s -> forall depth id ps r v r', any_reader r ->
  obj_from_reader s depth id ps r = (Ok v, r') ->
  exists ms, object_tree s N v ms /\
    forall (Ob F : Type) (observe : wevent -> M Ob unit) ob (f : F),
      told observe (root_events v ms) ob f (walk_with s N observe default_filter depth v (ob, f)).
Proof.
  intros s N H1 H2 depth id ps r v r' Hr E. destruct (read_tree s N depth id ps r v r' H1 H2 Hr E) as (ms & T & D).
  exists ms. split; [exact T|]. intros Ob F observe ob f. exact (walk_default s N observe depth v ms ob f T D).
Qed.
Print Assumptions C77_walk.

(** The object can be written as JSON, and the text stands for its tree. *)
Theorem C77_json : forall P c s N, float_repr_law P -> json_config c -> readable_schema s -> walkable_schema s -> named_schema s N ->
  forall depth id ps r v r', any_reader r -> obj_from_reader s depth id ps r = (Ok v, r') ->
  exists ms j t, object_tree s N v ms /\ root_doc (c_strings c) ms j /\ to_json P c s N depth v = Ok t /\ json_text P t j.
Proof. intros P c s N A B C D E depth id ps r v r' F G. exact (read_json P c s N depth id ps r v r' A B C D E F G). Qed.
Print Assumptions C77_json.

(** What is written is read back to the same object, from any stream.  Partial: not for bitmasks out of range (which packed arrays
    give) and payloads of NaN, and not for schemas with extended fields or cases of choices without a field: false of the code
    (below, C46). *)
Theorem C77_round_trip_partial : forall P c s N, float_repr_law P -> json_config c -> readable_schema s -> walkable_schema s -> named_schema s N ->
  exact_schema s -> distinct_names s N ->
  forall depth id ps r v r', any_reader r -> obj_from_reader s depth id ps r = (Ok v, r') ->
  (forall ms, object_tree s N v ms -> fitting_members ms) ->
  exists t, to_json P c s N depth v = Ok t /\
    exists fuel, forall chunks more, concat chunks = t -> Forall nonempty chunks -> (fuel <= more)%nat -> from_json P s N more chunks id ps = Ok v.
Proof.
  intros P c s N A B C D E F G depth id ps r v r' I J K.
  exact (read_json_read P c s N depth id ps r v r' A B C D E F G I J K).
Qed.
Print Assumptions C77_round_trip_partial.

(** A bitmask out of range is read from a packed array, written as JSON and rejected. *)
Theorem C77_mask_refuted : exists s N bytes v t, readable_schema s /\ walkable_schema s /\ named_schema s N /\ distinct_names s N /\ exact_schema s /\
  deserialize_from_bytes s 2 0 bytes [] = Ok v /\ to_json ex_py indent_config s N 2 v = Ok t /\ from_json ex_py s N 100 [t] 0 [] = Raise RuntimeExc.
Proof.
  exists only_masks, odd_names, odd_bytes, odd_masks, masks_text.
  destruct odd_good as (A & B & C & D).
  split; [intros [|id] d E; [exact (A 0%nat d E)|discriminate E]|].
  split; [split; [intros [|id] d E; [exact (proj1 B 0%nat d E)|discriminate E]|intros [|id] d i f E; [exact (proj2 B 0%nat d i f E)|discriminate E]]|].
  split; [intros [|id] d i f E; [exact (C 0%nat d i f E)|discriminate E]|].
  split; [intros [|id] d E; [exact (D 0%nat d E)|discriminate E]|].
  split; [split; [intros [|id] d [|[|i]] f E Hf; try discriminate E; injection E as <-; try discriminate Hf; injection Hf as <-; reflexivity|
    intros [|id] ? ? ? E; discriminate E]|].
  split; [vm_compute; reflexivity|]. split; vm_compute; reflexivity.
Qed.
Print Assumptions C77_mask_refuted.

(** A choice whose case has no field is read, written as JSON and read back to an object that differs: its choice is None, not unset. *)
Theorem C77_empty_case_refuted : exists s N bytes v v' t, readable_schema s /\ walkable_schema s /\ named_schema s N /\ distinct_names s N /\
  deserialize_from_bytes s 2 1 bytes [VInt 2] = Ok v /\ to_json ex_py indent_config s N 2 v = Ok t /\
  from_json ex_py s N 100 [t] 1 [VInt 2] = Ok v' /\ v' <> v.
Proof.
  exists odd_schema, odd_names, [], (VChoice 1 [VInt 2] VUnset), (VChoice 1 [VInt 2] VNone), maybe_text. destruct odd_good as (A & B & C & D).
  split; [exact A|]. split; [exact B|]. split; [exact C|]. split; [exact D|].
  split; [vm_compute; reflexivity|]. split; [vm_compute; reflexivity|]. split; [vm_compute; reflexivity|discriminate].
Qed.
Print Assumptions C77_empty_case_refuted.

(** ** The hypotheses can be met *)
Example C77_example : readable_schema flat_schema /\ walkable_schema flat_schema /\ named_schema flat_schema flat_names /\
  any_reader (stood_at reread_bytes) /\ exists r', obj_from_reader flat_schema 5 0 [] (stood_at reread_bytes) = (Ok reread_object, r').
Proof. exact (conj flat_readable (conj flat_walkable (conj flat_named (conj flat_stood flat_read)))). Qed.
Example C77_round_trip_example : float_repr_law ex_py /\ json_config indent_config /\ readable_schema walk_schema /\ walkable_schema walk_schema /\
  named_schema walk_schema walk_names /\ exact_schema walk_schema /\ distinct_names walk_schema walk_names /\
  any_reader (stood_at walk_bytes) /\ (exists r', obj_from_reader walk_schema 5 0 [] (stood_at walk_bytes) = (Ok walk_object, r')) /\
  forall ms, object_tree walk_schema walk_names walk_object ms -> fitting_members ms.
Proof.
  split; [exact ex_py_law|]. split; [apply default_config; repeat constructor; unfold white; tauto|].
  split; [exact walk_readable_schema|]. split; [exact walk_walkable|]. split; [exact walk_named|]. split; [exact walk_exact|].
  split; [exact walk_distinct|]. split; [exact walk_stood|]. split; [exact walk_read|].
  intros ms T. rewrite (object_tree_unique _ _ _ _ _ T walk_object_tree). exact walk_fitting.
Qed.
