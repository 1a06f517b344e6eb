(** Property C41: ZserioTreeCreator.

    [make s N calls c]: the calls made one after the other on the creator [c] of a schema with names [N], until one
    raises; the objects returned by end_root.  [new_creator id args]: a creator just constructed.
    [trees s N id args calls l]: the calls form the trees [l] (SpecCreator). *)
From Verif Require Import Base SpecStream ModelBitBuffer ModelCalls ModelArray ModelSchema ModelTypeInfo ModelJson ModelWalker SpecWalker
  ModelCreator SpecCreator CreatorProofs SpecRebuild RebuildProofs ExampleSchema ExampleWalker ExampleCreator.

(** C41: calls that form trees are accepted, give these trees, and the creator can be used again. *)
Theorem C41_accepted : forall s N id args calls l, trees s N id args calls l ->
  make s N calls (new_creator id args) = (Ok l, new_creator id args).
Proof. exact trees_accepted. Qed.
Print Assumptions C41_accepted.

(** C41: calls accepted up to the end of a tree form trees. *)
Theorem C41_only_trees : forall s N id args calls l c,
  make s N calls (new_creator id args) = (Ok l, c) -> r_state c = BEFORE_ROOT ->
  trees s N id args calls l /\ c = new_creator id args.
Proof. exact make_trees. Qed.
Print Assumptions C41_only_trees.

(** C41: all calls accepted begin trees: whatever cannot be continued to trees is refused. *)
Theorem C41_prefix : forall s N id args calls l c,
  make s N calls (new_creator id args) = (Ok l, c) -> exists more l', trees s N id args (calls ++ more) (l ++ l').
Proof. exact make_prefix. Qed.
Print Assumptions C41_prefix.

(** C41: a refused call changes nothing and raises PythonRuntimeException, unless it was to create an object and
    computing its arguments or constructing it raised. *)
Theorem C41_refused : forall s N id args calls l c k e c',
  make s N calls (new_creator id args) = (Ok l, c) -> call s N k c = (Raise e, c') ->
  c' = c /\ (e = RuntimeExc \/ creation_raises s N id args k e).
Proof. exact refused_because. Qed.
Print Assumptions C41_refused.

Example C41_example :
  make walk_schema walk_names some_calls (new_creator 0 []) =
    (Ok [], snd (make walk_schema walk_names some_calls (new_creator 0 []))) /\
  make walk_schema walk_names (some_calls ++ [CEndRoot; CBeginRoot; CEndRoot]) (new_creator 0 []) =
    (Ok [VStruct 0 [] [VInt 2; VArray [VStruct 1 [] [VInt 5; VArray []] 0]; VNone; VNone; VNone] 0;
         VStruct 0 [] [VInt 0; VArray []; VNone; VNone; VNone] 0], new_creator 0 []) /\
  Forall (fun k => fst (call walk_schema walk_names k (snd (make walk_schema walk_names some_calls (new_creator 0 [])))) = Raise RuntimeExc)
    [CBeginRoot; CEndArray; CEndCompound; CEndElement; CAddElement (VInt 1); CSetValue [114] (VInt 1); CSetValue [114; 97] (VStr []);
     CBeginArray [114; 97]; CBeginCompound [114; 98]].
Proof. split; [vm_compute; reflexivity|]. split; [vm_compute; reflexivity|]. repeat (constructor; [vm_compute; reflexivity|]). constructor. Qed.

(** C41: the calls for the events of a walk over an object rebuild the object.
    [whole_object]: the parameters of nested objects are what the schema says, all extended fields are present, a
    choice or union without a selected member holds no value, values have the types of their members. *)
Theorem C41_rebuild_partial : forall s N, distinct_names s N ->
  forall {F} o ms id depth (f : F), object_tree s N o ms -> whole_object s o ms -> obj_id o = Some id ->
  (root_depth ms <= depth)%nat ->
  exists evs, walk_with s N record_walk default_filter depth o ([], f) = (Ok tt, (evs, f)) /\
    make s N (map walk_call evs) (new_creator id (obj_params o)) = (Ok [o], new_creator id (obj_params o)).
Proof. intros s N Hn F. exact (walk_make s N Hn). Qed.
Print Assumptions C41_rebuild_partial.

Example C41_rebuild_example : distinct_names walk_schema walk_names /\
  object_tree walk_schema walk_names walk_object walk_tree /\ whole_object walk_schema walk_object walk_tree /\
  (root_depth walk_tree <= 2)%nat.
Proof. split; [exact walk_distinct|]. split; [exact walk_object_tree|]. split; [exact walk_whole|]. vm_compute. lia. Qed.

(** C41 fails for an object without its extended fields, as read from data of an older schema: they are present in
    the object rebuilt. *)
Theorem C41_extended_refuted : exists s N o ms evs o', object_tree s N o ms /\
  walk_with s N record_walk default_filter 2 o ([], tt) = (Ok tt, (evs, tt)) /\
  make s N (map walk_call evs) (new_creator 0 []) = (Ok [o'], new_creator 0 []) /\
  o = VStruct 0 [] [VInt 1; VInt 0] 0 /\ o' = VStruct 0 [] [VInt 1; VInt 0] 2.
Proof.
  exists extended_schema, walk_names, extended_object, extended_tree, (root_events extended_object extended_tree), (VStruct 0 [] [VInt 1; VInt 0] 2).
  split; [exact extended_object_tree|]. split; [vm_compute; reflexivity|]. split; [vm_compute; reflexivity|]. split; reflexivity.
Qed.
Print Assumptions C41_extended_refuted.
