(** Recursion of compound types: a type may contain itself in a field that is "optional" or an "array which can be empty", and there is to be no "indirect recursion"
    (the messages in CompoundType.java:455-457, 477-479); the type info of a generated class can be had by its method type_info. *)
From Coq Require Import Relations.
From Verif Require Import Base ModelRecursion.

Section Recursion.
Context (schema : list compound).

(** The type [i] has a field of, or an array of, another compound type [c]. *)
Definition has_field_of (i c : nat) : Prop := c <> i /\ exists t x, nth_error schema i = Some t /\ In x (t_fields t) /\ f_type x = Some c.
(** Types that contain each other *)
Definition indirect_recursion (i : nat) : Prop := clos_trans nat has_field_of i i.

(** A field that an object need not have, or need not have elements of *)
Definition may_be_left_out (x : field) : Prop := f_optional x = true \/ f_array x = AutoArray \/ f_array x = FixedArray None \/ exists l, f_array x = FixedArray (Some l) /\ (l <= 0)%Z.
(** A type that contains itself in a field that every object has *)
Definition direct_recursion (i : nat) : Prop := exists t x, nth_error schema i = Some t /\ In x (t_fields t) /\ f_type x = Some i /\ ~ may_be_left_out x.

(** Fields and others are of types of the schema. *)
Definition closed : Prop := forall i t, nth_error schema i = Some t ->
  (forall x c, In x (t_fields t) -> f_type x = Some c -> (c < length schema)%nat) /\ (forall c, In c (t_others t) -> (c < length schema)%nat).

(** There is an object of the type: a finite tree of objects with all fields that cannot be left out.  (Choices and unions need fewer.) *)
Inductive has_object : nat -> Prop :=
  | object_of i t : nth_error schema i = Some t ->
      (forall x, In x (t_fields t) -> may_be_left_out x \/ f_type x = None \/ exists c, f_type x = Some c /\ has_object c) -> has_object i.

(** What type_info of [i] asks for: the type info of all compound types that it mentions, but for optional fields and arrays of [i] itself *)
Definition asks_for (i c : nat) : Prop :=
  exists t, nth_error schema i = Some t /\
            ((exists x, In x (t_fields t) /\ f_type x = Some c /\ ~ (c = i /\ (f_array x <> NoArray \/ f_optional x = true))) \/ In c (t_others t)).
End Recursion.
