(** Which types take part in packed arrays, stated without the collector of the compiler. *)
From Verif Require Import Base ModelArray ModelSchema PyExpr ModelExpr ModelCompile ModelCollector.

(** The class generated for a type, and the keyword packed of a field *)
Definition class_in_schema (ty : btype) : option gtype :=
  match ty with JCompound id _ => Some (GClass id) | JEnum id => Some (GEnum id) | JMask id => Some (GMask id) | _ => None end.
Definition declared_packed (f : sfield) : Prop := exists l, a_arr f = Some (l, true).

Section Spec.
Context (S : source).

(** Types are numbered from 0. *)
Definition numbered : Prop := forall id c, src_types S id = Some c -> (id < src_count S)%nat.

(** A field (or its elements) is of a compound type *)
Definition contains (a b : nat) : Prop := exists f, In f (fields_of S a) /\ is_compound (a_ty f) = Some b.
(** ... directly or through other types, without steps from a type to itself *)
Inductive reaches : nat -> nat -> Prop :=
| reach_here a : reaches a a
| reach_next a b c : contains a b -> a <> b -> reaches b c -> reaches a c.
(** No type contains itself through another type. *)
Definition no_cycles : Prop := forall a b, a <> b -> contains a b -> ~ reaches b a.

(** Packable are integers, enums, bitmasks, objects with a packable field that is not of their own type, and unions with fields; offsets and
    implicit arrays are not packed. *)
Inductive packable_class : nat -> Prop :=
| packable_union id c f fs : src_types S id = Some c -> c_body c = BUnion (f :: fs) -> packable_class id
| packable_member id f : In f (fields_of S id) -> (forall c fs, src_types S id = Some c -> c_body c <> BUnion fs) -> own id f = false -> packable f -> packable_class id
with packable : sfield -> Prop :=
| packable_simple f : a_as_offset f = false -> (forall p, a_arr f <> Some (LImplicit, p)) ->
    match a_ty f with JStd _ | JVar _ | JFixed _ _ | JDyn _ _ | JEnum _ | JMask _ => True | _ => False end -> packable f
| packable_object f j args : a_as_offset f = false -> (forall p, a_arr f <> Some (LImplicit, p)) -> a_ty f = JCompound j args -> packable_class j -> packable f.

(** Types whose methods for packed arrays are called when objects are read, written or measured: those of the elements of an array with the keyword
    packed; and when such a method runs, those of all packable fields and elements of the object *)
Inductive packed_call : gtype -> Prop :=
| call_of_array id f t : In f (fields_of S id) -> declared_packed f -> packable f -> class_in_schema (a_ty f) = Some t -> packed_call t
| call_of_member id f t : packed_call (GClass id) -> In f (fields_of S id) -> packable f -> class_in_schema (a_ty f) = Some t -> packed_call t.
(** Types within packed arrays *)
Inductive within_packed : gtype -> Prop :=
| within_array id f t : In f (fields_of S id) -> declared_packed f -> class_in_schema (a_ty f) = Some t -> within_packed t
| within_member id f t : within_packed (GClass id) -> In f (fields_of S id) -> class_in_schema (a_ty f) = Some t -> within_packed t.

(** A type with a packed array of objects of its own has no other fields with generated classes or is within a packed array of another type. *)
Definition self_packed (id : nat) : Prop := exists f, In f (fields_of S id) /\ declared_packed f /\ own id f = true.
Definition self_packed_covered : Prop := forall id, self_packed id ->
  (forall f, In f (fields_of S id) -> own id f = true \/ class_in_schema (a_ty f) = None) \/
  exists other f j, In f (fields_of S other) /\ declared_packed f /\ is_compound (a_ty f) = Some j /\ j <> other /\ reaches j id.
End Spec.
Scheme packable_class_mut := Induction for packable_class Sort Prop with packable_mut := Induction for packable Sort Prop.
