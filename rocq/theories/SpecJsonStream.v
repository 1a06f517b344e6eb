(** Objects that JSON keeps, and the type and parameters to ask for. *)
From Verif Require Import Base SpecStream ModelBitBuffer ModelArray ModelSchema ModelTypeInfo ModelJson ModelWalker SpecWalker SpecJson ModelJsonWriter SpecJsonWriter
  SpecCreator SpecRebuild SpecJsonReader.

(** As in C46: the object has a tree, is built as the schema says, and its values have a text that gives them back. *)
Definition storable (c : wconfig) (s : schema) (N : names) (depth : nat) (o : value) : Prop :=
  exists id ms j, obj_id o = Some id /\ object_tree s N o ms /\ whole_object s o ms /\ (root_depth ms <= depth)%nat /\
    root_doc (c_strings c) ms j /\ readable_members (c_strings c) ms.
Definition type_asked (o : value) : nat * list value := (match obj_id o with Some id => id | None => O end, obj_params o).
