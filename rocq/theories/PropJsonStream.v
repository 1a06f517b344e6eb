(** Property C78: several objects in one text stream.

    [to_json_all P c s N depth os]: the text of one JsonWriter that walks over the objects of [os] one after the other; each is followed by
    a text of the user.  [read_all]: calls of JsonReader.read one after the other, each with a type and its arguments. *)
From Verif Require Import Base SpecStream ModelBitBuffer ModelCalls ModelArray ModelSchema ModelTypeInfo ModelJson ModelWalker
  SpecWalker SpecJson JsonTokenProofs JsonParseProofs ModelJsonWriter SpecJsonWriter JsonWriterProofs ModelCreator SpecCreator SpecRebuild
  ModelJsonReader SpecJsonReader ModelJsonStream SpecJsonStream JsonStreamProofs
  ExampleSchema ExampleWalker ExampleJson ExampleJsonWriter ExampleCreator ExampleJsonReader.

(** The objects are read back in their order, with anything white between them, in whatever blocks the stream delivers; the next read finds
    nothing. *)
Theorem C78_stream : forall P c s N, float_repr_law P -> json_config c -> distinct_names s N ->
  forall depth os, Forall (fun x => storable c s N depth (fst x) /\ Forall white (snd x)) os ->
  exists t, to_json_all P c s N depth os = Ok t /\
    exists fuel, forall chunks more, concat chunks = t -> Forall nonempty chunks -> (fuel <= more)%nat ->
      exists st, read_all P s N more (map (fun x => type_asked (fst x)) os) (new_reader chunks) = (Ok (map fst os), st) /\
        forall id ps, fst (json_read P s N more id ps st) = Raise RuntimeExc.
Proof. exact stream_round_trip. Qed.
Print Assumptions C78_stream.

(** The text of one object is what to_json_string gives. *)
Theorem C78_one : forall P c s N depth o, to_json_all P c s N depth [(o, [])] = to_json P c s N depth o.
Proof. exact one_text. Qed.
Print Assumptions C78_one.

(** What follows an object matters: read looks at the first token behind it, and raises if it is not one. *)
Theorem C78_lookahead_refuted : exists t more, from_json ex_py walk_schema walk_names 100 [t] 0 [] = Ok walk_object /\
  from_json ex_py walk_schema walk_names 100 [t ++ more] 0 [] = Raise RuntimeExc.
Proof. exists walk_text, [32; 120]. split; vm_compute; reflexivity. Qed.
Print Assumptions C78_lookahead_refuted.

(** ** The hypotheses can be met *)
Definition two_objects : list (value * list Z) := [(walk_object, [10]); (walk_object, [])].
Example C78_example : float_repr_law ex_py /\ json_config indent_config /\ distinct_names walk_schema walk_names /\
  Forall (fun x => storable indent_config walk_schema walk_names 2 (fst x) /\ Forall white (snd x)) two_objects /\
  match to_json_all ex_py indent_config walk_schema walk_names 2 two_objects with
  | Ok t => fst (read_all ex_py walk_schema walk_names 100 [(0%nat, []); (0%nat, [])] (new_reader [firstn 30 t; skipn 30 t])) = Ok [walk_object; walk_object]
  | Raise _ => False
  end.
Proof.
  assert (H : storable indent_config walk_schema walk_names 2 walk_object).
  { exists 0%nat, walk_tree, walk_doc. split; [reflexivity|]. split; [exact walk_object_tree|]. split; [exact walk_whole|]. split; [vm_compute; repeat constructor|].
    split; [exact walk_root_doc|exact walk_readable]. }
  split; [exact ex_py_law|]. split; [apply default_config; repeat constructor; unfold white; tauto|]. split; [exact walk_distinct|].
  split; [|vm_compute; reflexivity].
  constructor; [split; [exact H|repeat constructor; unfold white; tauto]|]. constructor; [split; [exact H|constructor]|constructor].
Qed.
