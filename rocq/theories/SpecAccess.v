(** Parts of an object that an offset leads to. *)
From Verif Require Import Base SpecStream SpecHistory SpecArray ModelBitBuffer ModelWriter ModelReader ModelArray ModelSchema SpecSchema.

(** [f] is field number [i] of the object [u], it has the value [x] and is written; expressions in it see [e]. *)
Inductive field_of (s : schema) : value -> field -> nat -> env -> value -> Prop :=
| of_struct id ps vs ne fs i f x : s id = Some (DStruct fs) -> nth_error fs i = Some f -> nth_error vs i = Some x ->
    is_present f ne (num_extended (firstn i fs)) = true -> is_used f (fenv ps (firstn i vs)) x = Ok true ->
    field_of s (VStruct id ps vs ne) f i (fenv ps (firstn i vs)) x
| of_choice id ps c selector cases default i f : s id = Some (DChoice selector cases default) ->
    choice_member selector cases default ps = Ok (Some (i, f)) -> is_used f (fenv ps []) c = Ok true ->
    field_of s (VChoice id ps c) f i (fenv ps []) c
| of_union id ps tag c fs f : s id = Some (DUnion fs) -> nth_field fs tag = Ok f -> is_used f (fenv ps []) c = Ok true ->
    field_of s (VUnion id ps tag c) f (Z.to_nat tag) (fenv ps []) c.

(** The array field is not packed. *)
Definition unpacked_array (f : field) : Prop :=
  match f_arr f with Some (_, packed) => array_is_packed f false packed = false | None => False end.

(** [u] is [v] or an object in it that is not packed; [n] and [depth] are the depths at which they are written. *)
Inductive inside (s : schema) (depth : nat) (v : value) : nat -> value -> Prop :=
| inside_self : inside s depth v depth v
| inside_field n u f i e x id args : inside s depth v (S n) u -> field_of s u f i e x -> f_arr f = None -> f_ty f = TObj id args ->
    inside s depth v n x
| inside_element n u f i e l k x id args : inside s depth v (S n) u -> field_of s u f i e (VArray l) -> unpacked_array f -> f_ty f = TObj id args ->
    nth_error l k = Some x -> inside s depth v n x.

(** What the generated code reads for a field, for an element of an array *)
Definition read_field (s : schema) (n : nat) (f : field) (i : nat) (e : env) : M reader value :=
  x <- fval_read (class_of s n) f i e None ctx_new ;; ret (fst x).
Definition read_element (s : schema) (n : nat) (ty : ftype) (e : env) : M reader value :=
  x <- ty_read (class_of s n) e ty None ctx_new ;; ret (fst x).
(** A field, not an array, with the offset [a] *)
Definition offset_of (f : field) (e : env) (a : Z) : Prop :=
  exists o, f_offset f = Some o /\ off_indexed o = false /\ off_get o e = Ok a.
(** Element number [k] of an array has the offset [a]. *)
Definition offset_of_element (f : field) (e : env) (k : nat) (a : Z) : Prop :=
  exists o, f_offset f = Some o /\ off_indexed o = true /\ off_get o (with_index e (Z.of_nat k)) = Ok a.
