(** Properties C37, C46 and C48: JsonReader.

    [to_json P c s N depth o]: the text JsonWriter with the configuration [c] writes for [o] (or the exception raised).
    [from_json P s N fuel chunks id args]: what JsonReader.read returns, for the type [id] with the parameters [args], on a
    text stream that delivers [chunks].  [P]: functions of Python's library, about which [float_repr_law] is assumed where
    stated. *)
From Verif Require Import Base SpecStream ModelBitBuffer ModelCalls ModelArray ModelSchema ModelTypeInfo ModelMask ModelJson ModelWalker
  SpecWalker SpecJson JsonTokenProofs JsonParseProofs ModelJsonWriter SpecJsonWriter JsonWriterProofs ModelCreator SpecCreator SpecRebuild
  ModelJsonReader SpecJsonReader JsonStringProofs JsonReaderProofs JsonReaderSafe
  ExampleSchema ExampleWalker ExampleJson ExampleJsonWriter ExampleCreator ExampleJsonReader.

(** C37: the string written for an enumeration value is read back to this value. *)
Theorem C37_enum : forall P items z, item_names items -> In z (map snd items) ->
  convert_value P (VStr (enum_string items z)) (YEnum items) = Ok (VEnum z).
Proof. intros P items z Hn Hz. exact (enum_back items z _ Hn Hz (enum_string_text items z)). Qed.
Print Assumptions C37_enum.

(** C37: the string written for a bitmask value is read back to this value, whichever items it contains. *)
Theorem C37_mask : forall P k items z, item_names items -> in_range k z -> 0 <= z ->
  convert_value P (VStr (mask_string items z)) (YMask k items) = Ok (VMask z).
Proof. exact mask_string_back. Qed.
Print Assumptions C37_mask.

Example C37_example : item_names colors /\ item_names access /\ In 5 (map snd colors) /\ in_range (IBits 8) 7 /\
  convert_value ex_py (VStr (enum_string colors 5)) (YEnum colors) = Ok (VEnum 5) /\
  mask_string access 3 = [82; 32; 124; 32; 87] /\
  convert_value ex_py (VStr (mask_string access 3)) (YMask (IBits 8) access) = Ok (VMask 3) /\
  convert_value ex_py (VStr (mask_string access 7)) (YMask (IBits 8) access) = Ok (VMask 7) /\
  convert_value ex_py (VStr (mask_string access 0)) (YMask (IBits 8) access) = Ok (VMask 0).
Proof.
  split; [exact colors_names|]. split; [exact access_names|]. split; [cbn; tauto|]. split; [exists 0, 255; split; [reflexivity|lia]|].
  repeat (split; [vm_compute; reflexivity|]). vm_compute. reflexivity.
Qed.

(** C46: the text of an object, however it is delivered, is read back to the same object.
    [object_tree s N o ms]: [ms] is what a walk over [o] shows; [whole_object]: nothing of [o] is hidden from the walk and the
    parameters of nested objects are what the schema says; [readable_members]: numbers and bytes are in their ranges, names
    are identifiers, the only NaN is Python's. *)
Theorem C46_round_trip_partial : forall P c s N depth o ms j t chunks fuel id,
  float_repr_law P -> json_config c -> distinct_names s N ->
  object_tree s N o ms -> whole_object s o ms -> obj_id o = Some id -> (root_depth ms <= depth)%nat ->
  root_doc (c_strings c) ms j -> readable_members (c_strings c) ms ->
  to_json P c s N depth o = Ok t -> concat chunks = t -> Forall nonempty chunks -> (jcost j <= fuel)%nat ->
  from_json P s N fuel chunks id (obj_params o) = Ok o.
Proof. exact json_round_trip. Qed.
Print Assumptions C46_round_trip_partial.

Example C46_example : float_repr_law ex_py /\ json_config indent_config /\
  distinct_names data_schema data_names /\ object_tree data_schema data_names data_object data_tree /\
  whole_object data_schema data_object data_tree /\ (root_depth data_tree <= 2)%nat /\ root_doc true data_tree data_doc /\
  readable_members true data_tree /\
  (exists t, to_json ex_py indent_config data_schema data_names 2 data_object = Ok t /\
     from_json ex_py data_schema data_names 100 [firstn 20 t; skipn 20 t] 0 [] = Ok data_object) /\
  distinct_names walk_schema walk_names /\ object_tree walk_schema walk_names walk_object walk_tree /\
  whole_object walk_schema walk_object walk_tree /\ root_doc true walk_tree walk_doc /\ readable_members true walk_tree /\
  from_json ex_py walk_schema walk_names 100 [walk_text] 0 [] = Ok walk_object.
Proof.
  split; [exact ex_py_law|]. split; [apply default_config; repeat constructor; unfold white; tauto|].
  split; [exact data_distinct|]. split; [exact data_object_tree|]. split; [exact data_whole|]. split; [vm_compute; repeat constructor|].
  split; [exact data_root_doc|]. split; [exact data_readable|].
  split; [eexists; split; [vm_compute; reflexivity|vm_compute; reflexivity]|].
  split; [exact walk_distinct|]. split; [exact walk_object_tree|]. split; [exact walk_whole|]. split; [exact walk_root_doc|].
  split; [exact walk_readable|]. vm_compute. reflexivity.
Qed.

(** C46 fails for an object without its extended fields: they are present in the object read back. *)
Theorem C46_extended_refuted : exists P c s N o ms t o', float_repr_law P /\ json_config c /\ object_tree s N o ms /\
  to_json P c s N 2 o = Ok t /\ from_json P s N 100 [t] 0 [] = Ok o' /\
  o = VStruct 0 [] [VInt 1; VInt 0] 0 /\ o' = VStruct 0 [] [VInt 1; VInt 0] 2.
Proof.
  exists ex_py, plain_config, extended_schema, walk_names, extended_object, extended_tree. eexists. exists (VStruct 0 [] [VInt 1; VInt 0] 2).
  split; [exact ex_py_law|]. split; [apply default_config; exact I|]. split; [exact extended_object_tree|].
  split; [vm_compute; reflexivity|]. split; [vm_compute; reflexivity|]. split; reflexivity.
Qed.
Print Assumptions C46_extended_refuted.

(** C48: whatever the text and however it is delivered, an object returned is one ZserioTreeCreator builds for the type and
    the parameters given: it has the type, and members, elements and nested objects of the types the schema gives them. *)
Theorem C48_object : forall P s N fuel chunks id args o, (length (concat chunks) + 1 < fuel)%nat ->
  from_json P s N fuel chunks id args = Ok o -> exists calls, trees s N id args calls [o].
Proof. exact read_object. Qed.
Print Assumptions C48_object.

(** C48: whatever the text, reading ends, and otherwise raises PythonRuntimeException, ValueError, TypeError or IndexError,
    or what creating a nested object raises.  (Enough fuel for the length of the text is never used up.) *)
Theorem C48_raises : forall P s N fuel chunks id args e, (length (concat chunks) + 1 < fuel)%nat ->
  from_json P s N fuel chunks id args = Raise e ->
  In e [RuntimeExc; ValueErr; TypeErr; IndexErr] \/ exists k, creation_raises s N id args k e.
Proof. exact read_raises. Qed.
Print Assumptions C48_raises.

Example C48_example :
  from_json ex_py walk_schema walk_names 1000 [walk_text] 0 [] = Ok walk_object /\
  from_json ex_py data_schema data_names 100 [bad_member] 0 [] = Raise RuntimeExc /\
  from_json ex_py data_schema data_names 100 [bad_text] 0 [] = Raise RuntimeExc.
Proof. split; [vm_compute; reflexivity|]. split; vm_compute; reflexivity. Qed.

(** C48: contrary to the documentation of from_json_string, which promises PythonRuntimeException, other exceptions are
    raised: for a number in a string given for a bitmask, for a number that is no item of an enumeration. *)
Theorem C48_documented_refuted : exists P s N t1 t2, 
  from_json P s N 100 [t1] 0 [] = Raise IndexErr /\ from_json P s N 100 [t2] 0 [] = Raise ValueErr.
Proof. exists ex_py, data_schema, data_names, bad_number, bad_enum. split; vm_compute; reflexivity. Qed.
Print Assumptions C48_documented_refuted.
